(** Local texts and their passages.
    Models /repo/MyCapytain/resources/texts/local/capitains/cts.py lines 33-703.

    A text has a document, a citation scheme and possibly a URN.  The scheme is
    the list of the refsDecl of its citations, outermost first (every citation is
    taken to have one); what the code finds through citation.root[i], len and
    iteration is the subject of SchemeModel.  The document is given by its root
    element. *)

From Coq Require Import List NArith ZArith Arith Bool.
From Verif Require Import PyStr RefModel UrnModel CiteModel SchemeModel XmlModel XPathModel.
Import ListNotations.

(** CapitainsCtsText, and CapitainsCtsPassage with its reference, its tree, the
    object it keeps in _text and its urn. *)
Inductive tobj :=
| OText (xml : node) (u : option urn)
| OPass (r : ref) (xml : node) (txt : tobj) (u : option urn).

Definition o_xml (o : tobj) : node := match o with OText x _ => x | OPass _ x _ _ => x end.
Definition o_urn (o : tobj) : option urn := match o with OText _ u => u | OPass _ _ _ u => u end.

(** textObject (lines 147-157, 697-703). *)
Definition text_object (o : tobj) : tobj := match o with OText _ _ => o | OPass _ _ t _ => t end.

(** _SimplePassage (lines 312-332): its element is the one at a position of a
    document. *)
Record simple := MkSimple {
  sp_ref : option ref; sp_doc : node; sp_path : path; sp_text : tobj; sp_urn : option urn
}.

(** s.replace(old, new) for a non-empty old; the fuel is the length of s. *)
Fixpoint replace_fuel (fuel : nat) (s old new : str) : str :=
  match fuel with
  | 0 => s
  | S fuel' =>
      if startswith s old then new ++ replace_fuel fuel' (skipn (length old) s) old new
      else match s with [] => [] | c :: s' => c :: replace_fuel fuel' s' old new end
  end.
Definition str_replace (s old new : str) : str := replace_fuel (S (length s)) s old new.

(** The argument of node.get (line 243). *)
Definition attribute_key (a : str) : str :=
  str_replace a #"xml:" #"{http://www.w3.org/XML/1998/namespace}".

Section Scheme.
Variable scheme : list str.
Variable same : node -> node -> bool.

(** self.citation.root[k]. *)
Definition citation_at (k : Z) : result str :=
  if (Z.of_nat (length scheme) - 1 <? k)%Z then Err KeyError else list_index scheme k.

(** _make_passage_kwargs (lines 33-46). *)
Definition make_urn (u : option urn) (r : option ref) : result (option urn) :=
  match u, r with
  | None, _ => Ok None
  | Some u, None => Ok (Some u)
  | Some u, Some r => v <- urn_upto VERSION u ;; u' <- urn_parse (v ++ #":" ++ r_str r) ;; Ok (Some u')
  end.

(** CapitainsCtsPassage.__init__ (lines 549-568). *)
Definition passage_init (r : ref) (u : option urn) (xml : node) (txt : tobj) : result tobj :=
  u' <- make_urn u (Some r) ;;
  Ok (OPass (match u with
             | Some v => match u_ref v with Some r' => r' | None => r end
             | None => r
             end) xml txt u').

(** The steps handed to passageLoop (lines 83-87).  An unreadable step is an error
    at once; the code only finds it when it gets there. *)
Definition passage_steps (text : str) : result (list step) :=
  mapM step_of_text (normalize_xpath (skipn 2 (split c_slash text))).

(** _SharedMethods.getTextualNode (lines 53-109) for a reference, simple not
    True. *)
Definition shared_node (self : tobj) (r : ref) : result tobj :=
  if Nat.ltb (length scheme) (id_depth (r_start r)) then Err CitationDepthError else
  let start := id_list (r_start r) in
  let last := match r_end r with None => start | Some e => id_list e end in
  cs <- citation_at (Z.of_nat (length start) - 1) ;;
  ce <- citation_at (Z.of_nat (length last) - 1) ;;
  s <- fill (Some cs) (FList (map Some start)) ;;
  e <- fill (Some ce) (FList (map Some last)) ;;
  xs1 <- passage_steps s ;;
  xs2 <- passage_steps e ;;
  root <- extract same (o_xml (text_object self)) xs1 xs2 ;;
  u <- match o_urn self with
       | Some u => if Nat.eqb (urn_len u) 0 then Ok None
                   else t <- to_str u ;; u' <- urn_parse (t ++ #":" ++ r_str r) ;; Ok (Some u')
       | None => Ok None
       end ;;
  passage_init r u root self.

(** getTextualNode of texts, and of passages (lines 690-695). *)
Definition get_node (self : tobj) (r : ref) : result tobj :=
  match self with
  | OText _ _ => shared_node self r
  | OPass _ _ t _ =>
      X <- shared_node self r ;;
      Ok (match X with OPass r' x _ u => OPass r' x t u | OText _ _ => X end)
  end.

(** The longest common prefix computed by lines 204-214; [depth] is end.depth. *)
Fixpoint common_parts (i depth : nat) (start last : list str) : result (list str) :=
  match start with
  | [] => Ok []
  | part :: start' =>
      if Nat.leb i depth then
        match nth_error last i with
        | None => Err IndexError
        | Some part' =>
            if str_eqb part part'
            then c <- common_parts (S i) depth start' last ;; Ok (part :: c)
            else Ok []
        end
      else Ok []
  end.

(** One turn of the loop of lines 241-262: all expressions are evaluated, then the
    attribute of every node found is read. *)
Definition citing_value (cit : str) (n : option node) : result (option str) :=
  a <- attribute (Some cit) ;;
  match n with
  | Some n => Ok (get_attr (attribute_key a) (n_attrs n))
  | None => Err IndexError
  end.

Definition extend_one (xml : node) (refs : list (option str)) : result (list path * list (option str) * str) :=
  let filling := refs ++ [None] in
  cit <- list_index scheme (Z.of_nat (length filling) - 1) ;;
  text <- fill (Some cit) (FList filling) ;;
  ps <- eval_abs xml text ;;
  Ok (ps, refs, cit).

Definition extend_all (xml : node) (passages : list (list (option str))) : result (list (list (option str))) :=
  found <- mapM (extend_one xml) passages ;;
  new <- mapM (fun f => let '(ps, refs, cit) := f in
                mapM (fun p => v <- citing_value cit (lookup (document xml) p) ;; Ok (refs ++ [v])) ps) found ;;
  match concat new with
  | [] => Err KeyError
  | l => Ok l
  end.

Fixpoint extend_times (n : nat) (xml : node) (passages : list (list (option str))) : result (list (list (option str))) :=
  match n with
  | 0 => Ok passages
  | S n' => l <- extend_all xml passages ;; extend_times n' xml l
  end.

(** Lines 264 and 284: ".".join for all of them, then CtsReference for all. *)
Definition listed_references (passages : list (list (option str))) : result (list (option ref)) :=
  texts <- mapM (join_opt c_dot) passages ;; mapM (fun s => cts_reference (VStr s)) texts.

(** Lines 189-227: the document searched, the parts the references start with, and
    the level. *)
Definition reff_start (self : tobj) (level : option Z) (reference : option ref)
  : result (node * list str * option Z) :=
  match reference with
  | None => Ok (o_xml (text_object self), [], level)
  | Some r =>
      match r_end r with
      | None => Ok (o_xml (text_object self), id_list (r_start r),
                    match level with Some 0%Z => None | _ => level end)
      | Some e =>
          X <- get_node self r ;;
          common <- common_parts 0 (id_depth e) (id_list (r_start r)) (id_list e) ;;
          let sd := Z.of_nat (id_depth (r_start r)) in
          Ok (o_xml X, common,
              match level with
              | None => Some (sd + Z.of_nat (length common))%Z
              | Some 1%Z => Some (sd + 1)%Z
              | Some 0%Z => Some sd
              | Some l => Some l
              end)
      end
  end.

(** getValidReff (lines 174-288), _debug not True: the references and the level of
    the set. *)
Definition valid_reff (self : tobj) (level : option Z) (reference : option ref) : result (list (option ref) * Z) :=
  '(xml, parts, level) <- reff_start self level reference ;;
  let level := match level with None => 1%Z | Some l => l end in
  let len := Z.of_nat (length parts) in
  let level := if (level <=? len)%Z && match reference with Some _ => true | None => false end
               then (len + 1)%Z else level in
  if (Z.of_nat (length scheme) <? level)%Z then Err CitationDepthError else
  passages <- extend_times (Z.to_nat (level - len)) xml [map Some parts] ;;
  refs <- listed_references passages ;;
  _ <- citation_at (level - 1) ;;
  Ok (refs, level).

(** getReffs (lines 159-172). *)
Definition get_reffs (self : tobj) (level : option Z) (sub : option ref) : result (list (option ref)) :=
  let sub' := match sub with
              | Some r => Some r
              | None => match self with OPass r _ _ _ => Some r | OText _ _ => None end
              end in
  '(refs, _) <- valid_reff self level sub' ;; Ok refs.

(** ** Siblings *)

Definition oref_eqb (a b : option ref) : bool := opt_eqb ref_eqb a b.
Fixpoint oindex (r : option ref) (l : list (option ref)) : option nat :=
  match l with
  | [] => None
  | x :: l' => if oref_eqb x r then Some 0 else option_map S (oindex r l')
  end.

(** CtsReferenceSet.index for a passage identifier (_capitains_cts.py lines
    293-297). *)
Definition set_index (l : list (option ref)) (id : str) : result nat :=
  r <- cts_reference (VId id) ;;
  match oindex r l with Some i => Ok i | None => Err ValueError end.

(** An element of the tuple, by an index that the code has checked. *)
Definition item (l : list (option ref)) (i : nat) : result (option ref) :=
  match nth_error l i with Some r => Ok r | None => Err IndexError end.

(** str() of a member of a reference set. *)
Definition item_str (r : option ref) : str := match r with Some r => r_str r | None => #"None" end.

(** CtsReference(x) for a member of a reference set and for a formatted range. *)
Definition again (r : option ref) : result (option ref) :=
  match r with None => Ok None | Some r => x <- cts_reference_again r ;; Ok (Some x) end.
Definition between (a b : option ref) : result (option ref) :=
  cts_reference (VStr (item_str a ++ #"-" ++ item_str b)).

(** The two halves of CapitainsCtsPassage.siblingsId (lines 646-671); [start] and
    [last] are the positions of the ends, [len] is range_length. *)
Definition sibling_before (l : list (option ref)) (start last len : nat) : result (option ref) :=
  if Nat.eqb start 0 then Ok None
  else if Nat.ltb start len then
    if Nat.eqb start last then a <- item l 0 ;; again a
    else a <- item l 0 ;; b <- item l (start - 1) ;; between a b
  else
    if Nat.eqb start last then a <- item l (start - 1) ;; again a
    else a <- item l (start - len) ;; b <- item l (start - 1) ;; between a b.

Definition sibling_after (l : list (option ref)) (start last len : nat) : result (option ref) :=
  if Nat.eqb (start + 1) (length l) || Nat.eqb (last + 1) (length l) then Ok None
  else if Nat.leb (length l) (last + len) then
    if Nat.eqb start last then a <- item l (length l - 1) ;; again a
    else a <- item l (last + 1) ;; b <- item l (length l - 1) ;; between a b
  else
    if Nat.eqb start last then a <- item l (last + 1) ;; again a
    else a <- item l (last + 1) ;; b <- item l (last + len) ;; between a b.

(** CapitainsCtsPassage.siblingsId (lines 610-674), the cache left out: the
    computation depends on nothing that changes (WalkModel.v has it).  Line 673
    converts both results at the end, so an index error of the second comes before a
    conversion error of the first; both cannot occur on the lists the code builds.
    A text has the siblings it was made with (common/reference/_base.py lines
    402-405 and 443-461), and none is ever given. *)
Definition siblings (self : tobj) : result (option ref * option ref) :=
  match self with
  | OText _ _ => Ok (None, None)
  | OPass r _ txt _ =>
      let depth := id_depth (r_start r) in
      if negb (Nat.eqb depth (match r_end r with Some e => id_depth e | None => depth end))
      then Err InvalidSiblingRequest
      else
        l <- get_reffs txt (Some (Z.of_nat depth)) None ;;
        '(e, len) <- match r_end r with
                     | Some e => n <- get_reffs self (Some 0%Z) None ;; Ok (e, length n)
                     | None => Ok (r_start r, 1)
                     end ;;
        i <- set_index l (r_start r) ;;
        j <- set_index l e ;;
        before <- sibling_before l i j len ;;
        after <- sibling_after l i j len ;;
        Ok (before, after)
  end.

(** next and prev (lines 676-688): the passage, if any.  The new passage keeps
    [self], not the text, in its _text. *)
Definition go (self : tobj) (r : option ref) : result (option tobj) :=
  match r with None => Ok None | Some r => X <- shared_node self r ;; Ok (Some X) end.
Definition next_passage (self : tobj) : result (option tobj) :=
  '(_, n) <- siblings self ;; go self n.
Definition prev_passage (self : tobj) : result (option tobj) :=
  '(p, _) <- siblings self ;; go self p.

(** childIds (lines 576-590) of a passage; a text inherits prototypes/text.py lines
    325-333. *)
Definition child_ids (self : tobj) : result (list (option ref)) :=
  match self with
  | OText _ _ => get_reffs self (Some 1%Z) None
  | OPass r _ _ _ =>
      let depth := id_depth (r_start r) in
      if negb (Nat.eqb depth (match r_end r with Some e => id_depth e | None => depth end))
      then Err InvalidSiblingRequest
      else if Nat.leb (length scheme) depth then Ok []
      else get_reffs self (Some 1%Z) None
  end.

(** firstId and lastId (prototypes/text.py lines 335-355); a child list is never
    None here. *)
Definition first_id (self : tobj) : result (option ref) :=
  l <- child_ids self ;; Ok (match l with [] => None | r :: _ => r end).
Definition last_child_id (self : tobj) : result (option ref) :=
  l <- child_ids self ;; Ok (last l None).

(** ** Simple passages *)

(** getTextualNode(None) and getTextualNode(r, simple=True): lines 64-78 and
    _getSimplePassage, lines 111-145. *)
Definition whole_node (self : tobj) : simple :=
  MkSimple None (o_xml self) [0] self (o_urn self).

(** parent (prototypes/text.py lines 303-309): the parent identifier of a local
    passage is never set, so it is None (common/reference/_base.py lines 437-443). *)
Definition parent_passage (self : tobj) : simple :=
  let X := whole_node self in MkSimple (sp_ref X) (sp_doc X) (sp_path X) (text_object self) (sp_urn X).

Definition simple_node (self : tobj) (r : ref) : result simple :=
  if Nat.ltb (length scheme) (id_depth (r_start r)) then Err CitationDepthError else
  cit <- citation_at (Z.of_nat (ref_depth r) - 1) ;;
  text <- fill (Some cit) (FRef r) ;;
  found <- eval_abs (o_xml self) text ;;
  match found with
  | [p] => u <- make_urn (o_urn self) (Some r) ;; Ok (MkSimple (Some r) (o_xml self) p (text_object self) u)
  | _ => Err InvalidURN
  end.

Definition sp_depth (s : simple) : nat := match sp_ref s with Some r => ref_depth r | None => 0 end.

(** getReffs (lines 368-379). *)
Definition simple_reffs (s : simple) (level : Z) (sub : option ref) : result (list (option ref)) :=
  let sub' := match sub with Some r => Some r | None => sp_ref s end in
  '(refs, _) <- valid_reff (sp_text s) (Some (level + Z.of_nat (sp_depth s))%Z) sub' ;; Ok refs.

(** childIds (lines 353-366). *)
Definition simple_child_ids (s : simple) : result (list (option ref)) :=
  if Nat.leb (length scheme) (sp_depth s) then Ok [] else simple_reffs s 1%Z None.

(** siblingsId (lines 409-446). *)
Definition simple_siblings (s : simple) : result (option ref * option ref) :=
  l <- get_reffs (sp_text s) (Some (Z.of_nat (sp_depth s))) None ;;
  match sp_ref s with
  | None => Err AttributeError
  | Some r =>
      len <- (if is_range r then n <- simple_reffs s 1%Z None ;; Ok (length n) else Ok 1) ;;
      start <- set_index l (r_start r) ;;
      before <- (if Nat.eqb start 0 then Ok None
                 else if Nat.ltb start len then item l 0
                 else item l (start - 1)) ;;
      after <- (if Nat.eqb (start + 1) (length l) then Ok None
                else if Nat.ltb (length l) (start + len) then item l (length l - 1)
                else item l (start + 1)) ;;
      Ok (before, after)
  end.

End Scheme.
