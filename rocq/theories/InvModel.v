(** Reading a CTS inventory: from the XML of an inventory, a textgroup or a work
    to collections.

    Models /repo/MyCapytain/resources/collections/cts.py.  The objects made are
    those of CollModel.v, with in addition the citation of each text: the list of
    its levels.  The XML arrives as a tree (XmlModel.v): [xmlparser] is not part
    of the model, and the argument of [parse] is taken to be the root of its
    document.  The language tags of labels are supposed well formed (rdflib
    refuses others). *)

From Coq Require Import List NArith ZArith Arith Bool.
From Verif Require Import PyStr CiteModel XmlModel UrnModel MetaModel CollModel UtilModel.
Import ListNotations.

(** A level of a citation: its name and its refsDecl. *)
Definition level : Type := (option str * option str)%type.

(** The objects and graphs, and two attributes of the texts: [citation], where no
    levels stand for None, and [path], which only the local resolver sets. *)
Record store := MkStore {
  s_state : state;
  s_cites : list (nat * list level);
  s_paths : list (nat * str) }.

(** Actions: they end with a value or an exception, and what was done before an
    exception stays done. *)
Definition act (A : Type) : Type := store -> store * result A.

Definition ret {A} (a : A) : act A := fun s => (s, Ok a).
Definition raise {A} (e : exn) : act A := fun s => (s, Err e).
Definition andthen {A B} (m : act A) (k : A -> act B) : act B :=
  fun s => let '(s1, r) := m s in
           match r with Ok a => k a s1 | Err e => (s1, Err e) end.
Notation "x <-- m ;; k" := (andthen m (fun x => k)) (at level 61, m at next level, right associativity).

(** A for loop. *)
Fixpoint for_each {A} (l : list A) (f : A -> act unit) : act unit :=
  match l with
  | [] => ret tt
  | a :: l' => _ <-- f a ;; for_each l' f
  end.

(** A list built by calls made one after the other. *)
Fixpoint collect {A B} (l : list A) (f : A -> act B) : act (list B) :=
  match l with
  | [] => ret []
  | a :: l' => b <-- f a ;; r <-- collect l' f ;; ret (b :: r)
  end.

(** A change of the graph of an object: [f] receives the node of the object. *)
Definition on_graph (i : nat) (f : term -> graph -> graph) : act unit :=
  fun s => let st := s_state s in
    (MkStore (with_graph st (c_graph (obj st i)) (f (CollModel.node (obj st i)))) (s_cites s) (s_paths s), Ok tt).

(** ** XPath: XPATH_NAMESPACES (common/constants.py lines 17-24) *)
Definition ti (name : str) : str := #"{http://chs.harvard.edu/xmlns/cts}" ++ name.
Definition cpt (name : str) : str := #"{http://purl.org/capitains/ns/1.0#}" ++ name.
Definition xml_lang : str := #"{http://www.w3.org/XML/1998/namespace}lang".
Definition rdf_datatype : str := #"{http://www.w3.org/1999/02/22-rdf-syntax-ns#}datatype".

(** The path [name], from an element. *)
Definition kids_named (name : str) (e : XmlModel.node) : list XmlModel.node :=
  filter (fun k => str_eqb (n_tag k) name) (n_kids e).

(** The path [//name], in the document whose root is [e]. *)
Fixpoint everywhere (e : XmlModel.node) : list XmlModel.node :=
  match e with
  | Elem t a x y kids => Elem t a x y kids :: flat_map everywhere kids
  end.
Definition all_named (name : str) (e : XmlModel.node) : list XmlModel.node :=
  filter (fun k => str_eqb (n_tag k) name) (everywhere e).

(** ** Citations (lines 42-76)

    Each level takes the first citation found in the one above.  The objects
    themselves (SchemeModel.v) are not made here: what counts is the chain. *)
Fixpoint chain_of (e : XmlModel.node) : list level :=
  match e with
  | Elem _ a _ _ kids =>
      (get_attr #"label" a, init_refsdecl (get_attr #"scope" a) (get_attr #"xpath" a) None) ::
      (fix first (l : list XmlModel.node) : list level :=
         match l with
         | [] => []
         | k :: l' => if str_eqb (n_tag k) (ti #"citation") then chain_of k else first l'
         end) kids
  end.

Definition ingest (e : XmlModel.node) : list level :=
  match flat_map (fun o => flat_map (kids_named (ti #"citation")) (kids_named (ti #"citationMapping") o))
          (kids_named (ti #"online") e) with
  | c :: _ => chain_of c
  | [] => []
  end.

Definition set_citation (i : nat) (c : list level) : act unit :=
  fun s => (MkStore (s_state s) ((i, c) :: s_cites s) (s_paths s), Ok tt).

(** ** Structured metadata (lines 103-137)

    Objectify makes an integer or a float of the text of some elements; [leaf]
    is its guess, with the text of a float as Python writes it.  [nsmap] gives
    the prefixes in scope at an element. *)
Inductive guess : Type :=
| GText (s : str)
| GInt (z : Z)
| GFloat (s : str).
Definition guess_text (g : guess) : str :=
  match g with GText s => s | GInt z => str_of_Z z | GFloat s => s end.

Definition xsd_float : str := #"http://www.w3.org/2001/XMLSchema#float".
Definition is_address (s : str) : bool :=
  startswith s #"urn:" || startswith s #"http:" || startswith s #"https:" || startswith s #"hdl:".

Section Parse.
Variable order : list term -> list term.
Variable leaf : XmlModel.node -> guess.
Variable nsmap : XmlModel.node -> list (str * str).

(** The predicate and the value of one element; None for an element in no
    namespace, which is passed over. *)
Definition structured_value (e : XmlModel.node) : result (option (term * pvalue * option str)) :=
  if mem 123%N (n_tag e) then
    match split 125%N (n_tag e) with
    | [ns; name] =>
        let tag := URI (tl ns ++ name) in
        let s_m := guess_text (leaf e) in
        if is_address s_m then Ok (Some (tag, PTerm (URI s_m), None))
        else match get_attr xml_lang (n_attrs e) with
             | Some l => Ok (Some (tag, PStr s_m, Some l))
             | None =>
                 match get_attr rdf_datatype (n_attrs e) with
                 | Some d =>
                     let d' := if negb (startswith d #"http") && mem c_colon d
                               then expand_namespace (nsmap e) d else d in
                     Ok (Some (tag, PTerm (Literal s_m None (Some d')), None))
                 | None =>
                     match leaf e with
                     | GInt z => Ok (Some (tag, PTerm (Literal (str_of_Z z) None (Some xsd_integer)), None))
                     | GFloat s => Ok (Some (tag, PTerm (Literal s None (Some xsd_float)), None))
                     | GText _ => Ok (Some (tag, PStr s_m, None))
                     end
                 end
             end
    | _ => Err ValueError
    end
  else Ok None.

Definition structured (e : XmlModel.node) : list XmlModel.node :=
  flat_map n_kids (kids_named (cpt #"structured-metadata") e).

Definition parse_structured (i : nat) (e : XmlModel.node) : act unit :=
  for_each (structured e) (fun m =>
    match structured_value m with
    | Err x => raise x
    | Ok None => ret tt
    | Ok (Some (tag, v, l)) => on_graph i (fun n g => md_add g n tag v l)
    end).

(** ** Labels: the loops of lines 165-173, 270-273, 312-315

    [child.text] is None for an element without text, and the literal made of
    None reads None.  [title_key] is the DC_TITLE_KEY of the class. *)
Definition cts_term (name : str) : term := URI (cts_ns ++ name).
Definition title_key (k : kind) : option term :=
  match k with
  | KCollection => None
  | KText _ => Some (cts_term #"label")
  | KWork => Some (cts_term #"title")
  | KTextgroup => Some (cts_term #"groupname")
  | KInventory | KInventoryCollection => Some (cts_term #"name")
  end.
Definition text_or_none (e : XmlModel.node) : str :=
  match n_text e with [] => #"None" | s => s end.

Definition parse_labels (i : nat) (k : kind) (name : str) (e : XmlModel.node) : act unit :=
  for_each (kids_named (ti name) e) (fun c =>
    match get_attr xml_lang (n_attrs c) with
    | Some lg => on_graph i (fun n g =>
        set_cts_property g n (title_key k) (cts_term name) (PStr (text_or_none c)) (Some lg))
    | None => ret tt
    end).

(** [cls(urn=xml.get('urn'), parent=parent)].  Without the attribute the object
    is called None and the URN of None cannot be read. *)
Definition make (k : kind) (e : XmlModel.node) (parent : option nat) : act nat :=
  fun s =>
    let '(st, r) := match get_attr #"urn" (n_attrs e) with
                    | Some u => new_cts order (s_state s) k u parent None
                    | None => (fst (new_object (s_state s) k #"None" []), Err AttributeError)
                    end in
    (MkStore st (s_cites s) (s_paths s), r).

Definition assign_lang (i : nat) (e : XmlModel.node) : act unit :=
  fun s => match get_attr xml_lang (n_attrs e) with
           | Some l => (MkStore (set_lang (s_state s) i l) (s_cites s) (s_paths s), Ok tt)
           | None => (s, Ok tt)
           end.

(** Links to the texts commented on (lines 177-179); URIRef(None) fails. *)
Definition parse_about (i : nat) (e : XmlModel.node) : act unit :=
  for_each (kids_named (ti #"about") e) (fun c =>
    match get_attr #"urn" (n_attrs c) with
    | Some u => on_graph i (fun n g => md_add g n (cts_term #"about") (PTerm (URI u)) None)
    | None => raise TypeError
    end).

(** Texts (lines 156-181, 211-215, 222-230, 237-245): an edition does not look
    at its own language. *)
Definition parse_text (k : subtype) (e : XmlModel.node) (parent : option nat) : act nat :=
  i <-- make (KText k) e parent ;;
  _ <-- match k with Edition => ret tt | _ => assign_lang i e end ;;
  _ <-- parse_labels i (KText k) #"description" e ;;
  _ <-- parse_labels i (KText k) #"label" e ;;
  _ <-- set_citation i (ingest e) ;;
  _ <-- parse_about i e ;;
  _ <-- parse_structured i e ;;
  ret i.

(** Works (lines 256-294); the texts are returned too. *)
Definition parse_work (e : XmlModel.node) (parent : option nat) : act (nat * list nat) :=
  i <-- make KWork e parent ;;
  _ <-- assign_lang i e ;;
  _ <-- parse_labels i KWork #"title" e ;;
  l1 <-- collect (kids_named (ti #"edition") e) (fun c => parse_text Edition c (Some i)) ;;
  l2 <-- collect (kids_named (ti #"translation") e) (fun c => parse_text Translation c (Some i)) ;;
  l3 <-- collect (kids_named (ti #"commentary") e) (fun c => parse_text Commentary c (Some i)) ;;
  _ <-- parse_structured i e ;;
  ret (i, l1 ++ l2 ++ l3).

(** Textgroups (lines 303-321). *)
Definition parse_textgroup (e : XmlModel.node) (parent : option nat) : act nat :=
  i <-- make KTextgroup e parent ;;
  _ <-- parse_labels i KTextgroup #"groupname" e ;;
  _ <-- collect (kids_named (ti #"work") e) (fun c => parse_work c (Some i)) ;;
  _ <-- parse_structured i e ;;
  ret i.

(** Inventories (lines 330-339): the root has no URN, and the name is the empty
    one when the attribute is missing. *)
Definition parse_inventory (e : XmlModel.node) : act nat :=
  match all_named (ti #"TextInventory") e with
  | [] => raise IndexError
  | t :: _ =>
      let name := match get_attr #"tiid" (n_attrs t) with Some s => s | None => [] end in
      i <-- (fun s => let '(st, i) := new_object (s_state s) KInventory name [] in
                      (MkStore st (s_cites s) (s_paths s), Ok i)) ;;
      _ <-- collect (all_named (ti #"textgroup") e) (fun c => parse_textgroup c (Some i)) ;;
      ret i
  end.
End Parse.
