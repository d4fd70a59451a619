(** Plain text and nested dictionaries of TEI passages.  Models
    /repo/MyCapytain/resources/texts/base/tei.py lines 29-50 and 66-136. *)

From Coq Require Import List NArith ZArith Arith Bool.
From Verif Require Import PyStr RefModel XmlModel XPathModel PassageModel UtilModel.
Import ListNotations.

(** ** exclude (lines 87-97)

    The XPath predicate that is put after text(). *)
Definition exclude_test (excluded : str) : str := #"not(./ancestor-or-self::" ++ excluded ++ #")".
Definition format_exclude (exclude : list str) : str :=
  match exclude with
  | [] => []
  | _ => #"[" ++ join #" and " (map exclude_test exclude) ++ #"]"
  end.

(** ** The evaluation of ".//descendant-or-self::text(){exclude}" by lxml

    Library model.  The text nodes of an element, in document order, each with
    the tags of the elements above it.  An empty text or tail is no node.  The
    tail of the context element is not below it.  Comments and processing
    instructions, which would cut a text node in two, are not modelled.  [above]
    are the tags above the element: none, since the resource is a root. *)
Definition text_node (above : list str) (s : str) : list (list str * str) :=
  match s with [] => [] | _ => [(above, s)] end.
Fixpoint text_nodes (above : list str) (n : node) : list (list str * str) :=
  match n with
  | Elem t _ x _ kids =>
      text_node (t :: above) x ++
      flat_map (fun k => text_nodes (t :: above) k ++ text_node (t :: above) (n_tail k)) kids
  end.

(** Reading a predicate back, as the XPath library does:

      predicate ::= "" | "[" test (" and " test)* "]"
      test      ::= "not(./ancestor-or-self::" qname ")"

    Any other text, or an unknown prefix, is reported as XPathEvalError, whatever
    lxml makes of it. *)
Definition read_exclude_test (s : str) : option (str * str) :=
  match starts_with #"not(./ancestor-or-self::" s with
  | None => None
  | Some r =>
      match resolve (take_while qname_char r), starts_with #")" (drop_while qname_char r) with
      | Some t, Some r' => Some (t, r')
      | _, _ => None
      end
  end.
Fixpoint read_exclude_tests (fuel : nat) (s : str) : option (list str) :=
  match fuel with
  | 0 => None
  | S fuel' =>
      match read_exclude_test s with
      | None => None
      | Some (t, r) =>
          match starts_with #"]" r with
          | Some [] => Some [t]
          | Some _ => None
          | None =>
              match starts_with #" and " r with
              | None => None
              | Some r' => match read_exclude_tests fuel' r' with
                           | Some ts => Some (t :: ts)
                           | None => None
                           end
              end
          end
      end
  end.
Definition read_exclude (s : str) : option (list str) :=
  match s with
  | [] => Some []
  | _ => match starts_with #"[" s with
         | Some r => read_exclude_tests (length s) r
         | None => None
         end
  end.

Definition select_texts (root : node) (predicate : str) : result (list str) :=
  match read_exclude predicate with
  | None => Err XPathEvalError
  | Some tags =>
      Ok (map snd (filter (fun piece => forallb (fun t => negb (existsb (str_eqb t) (fst piece))) tags)
                          (text_nodes [] root)))
  end.

(** PLAINTEXT_STRING_JOIN (line 34), which each object copies when it is made
    (line 40), and default_exclude (resources/prototypes/text.py line 40). *)
Definition PLAINTEXT_STRING_JOIN : str := #" ".
Definition default_exclude : list str := [].

(** The branch PLAINTEXT (lines 121-136), for a formatted exclude; [sep] is the
    plaintext_string_join of the object, which users may set (lines 42-50). *)
Definition plain_text (sep : str) (root : node) (predicate : str) : result str :=
  pieces <- select_texts root predicate ;;
  Ok (normalize (join sep pieces)).

Definition chosen_exclude (exclude : option (list str)) : list str :=
  match exclude with Some l => l | None => default_exclude end.

(** export(Mimetypes.PLAINTEXT, exclude), lines 87-97 and 121-136. *)
Definition export_plain (sep : str) (root : node) (exclude : option (list str)) : result str :=
  plain_text sep root (format_exclude (chosen_exclude exclude)).

(** ** The nested dictionary (lines 107-119) *)
Section Scheme.
Variable scheme : list str.
Variable same : node -> node -> bool.

(** len(self.citation): the citations from that of the object on down.  The
    citation of a passage is that of the level of its start
    (resources/texts/local/capitains/cts.py lines 77, 95). *)
Definition citation_len (self : tobj) : Z :=
  match self with
  | OText _ _ => Z.of_nat (length scheme)
  | OPass r _ _ _ => Z.of_nat (length scheme) - (Z.of_nat (length (id_list (r_start r))) - 1)
  end.

(** The body of the loop (lines 111-117) for all references.  The passages are
    new objects, with their own separator.  len() of the start of no reference is
    an AttributeError. *)
Fixpoint fill_nested (self : tobj) (predicate : str) (reffs : list (option ref)) (text : nested str)
  : result (nested str) :=
  match reffs with
  | [] => Ok text
  | reff :: reffs' =>
      let keys := split c_dot (item_str reff) in
      r <- cts_reference (VStr (join [c_dot] keys)) ;;
      match r with
      | None => Err AttributeError
      | Some r =>
          passage <- get_node scheme same self r ;;
          t <- plain_text PLAINTEXT_STRING_JOIN (o_xml passage) predicate ;;
          text' <- nested_set text keys (Leaf t) ;;
          fill_nested self predicate reffs' text'
      end
  end.

Definition export_nested (self : tobj) (exclude : option (list str)) : result (nested str) :=
  let predicate := format_exclude (chosen_exclude exclude) in
  reffs <- get_reffs scheme same self (Some (citation_len self)) None ;;
  fill_nested self predicate reffs nested_ordered_dictionary.
End Scheme.
