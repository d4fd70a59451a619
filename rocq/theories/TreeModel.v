(** Citation trees: BaseCitationSet, BaseCitation, DtsCitation and
    DtsCitationSet.
    Models /repo/MyCapytain/common/reference/_base.py lines 9-312 and
    /repo/MyCapytain/common/reference/_dts_1.py lines 59-145. *)

From Coq Require Import List NArith ZArith Arith Bool.
From Verif Require Import PyStr Json.
Import ListNotations.

(** A citation with its children.  [root] is _root: None, or the citation set it
    was attached to, known by a number. *)
Inductive citation := Cite (name : option str) (root : option nat) (children : list citation).

Definition c_name (c : citation) := match c with Cite n _ _ => n end.
Definition c_root (c : citation) := match c with Cite _ r _ => r end.
Definition c_children (c : citation) := match c with Cite _ _ l => l end.

(** A citation set: its children and, for DtsCitationSet, the declared _depth. *)
Record citation_set := MkSet { s_children : list citation; s_depth : option Z }.

(** __iter__ (_base.py lines 66-79, 259-274). *)
Fixpoint citation_iter (c : citation) : list citation :=
  match c with Cite _ _ l => c :: flat_map citation_iter l end.
Definition set_iter (s : citation_set) : list citation := flat_map citation_iter (s_children s).

(** depth (_base.py lines 91-107, 299-312; _dts_1.py lines 112-116). *)
Fixpoint citation_depth (c : citation) : nat :=
  match c with
  | Cite _ _ [] => 1
  | Cite _ _ l => 1 + fold_right Nat.max 0 (map citation_depth l)
  end.
Definition set_depth (s : citation_set) : Z :=
  match s_depth s with
  | Some d => if Z.eqb d 0 then Z.of_nat (fold_right Nat.max 0 (map citation_depth (s_children s))) else d
  | None => Z.of_nat (fold_right Nat.max 0 (map citation_depth (s_children s)))
  end.

(** __len__ (_base.py lines 128-134): inherited by BaseCitation, so a citation
    does not count itself. *)
Fixpoint citation_len (c : citation) : nat :=
  match c with Cite _ _ l => length l + list_sum (map citation_len l) end.
Definition set_len (s : citation_set) : nat :=
  length (s_children s) + list_sum (map citation_len (s_children s)).

(** __getitem__ (_base.py lines 109-126) with a non negative index; the method is
    inherited by BaseCitation. *)
Fixpoint level (k : nat) (l : list citation) : list citation :=
  match k with
  | 0 => l
  | S k' => flat_map (fun c => level k' (c_children c)) l
  end.

(** With any integer; the error is raised when the generator is first read. *)
Definition getitem (depth : Z) (l : list citation) (item : Z) : result (list citation) :=
  let item' := if (item <? 0)%Z then (depth + item)%Z else item in
  if (item' <? 0)%Z then Err CitationDepthError else Ok (level (Z.to_nat item') l).
Definition set_getitem (s : citation_set) (item : Z) : result (list citation) :=
  getitem (set_depth s) (s_children s) item.
Definition citation_getitem (c : citation) (item : Z) : result (list citation) :=
  getitem (Z.of_nat (citation_depth c)) (c_children c) item.

(** is_empty, is_set, is_root (_base.py lines 147-160, 211-223). *)
Definition is_empty (l : list citation) : bool := match l with [] => true | _ => false end.
Definition citation_is_root (c : citation) : bool := match c_root c with None => true | _ => false end.

(** ** DTS JSON *)

Definition cite_type_iri : str := #"https://w3id.org/dts/api#citeType".
Definition cite_structure_iri : str := #"https://w3id.org/dts/api#citeStructure".
Definition at_value : str := #"@value".

(** export to Mimetypes.JSON.DTS.Std (_base.py lines 162-180, 276-297) with
    context=False; the two terms are the compact names given by the namespace
    manager. *)
Section Export.
Variables (type_term structure_term : str).
Fixpoint citation_export (c : citation) : json :=
  match c with
  | Cite name _ l =>
      JObj ((type_term, match name with Some n => JStr n | None => JNull end) ::
            (if is_empty l then [] else [(structure_term, JList (map citation_export l))]))
  end.
Definition set_export (s : citation_set) : json := JList (map citation_export (s_children s)).

(** context=True (lines 172-179): [prefix] is the part of the structure term
    before ':'. *)
Definition set_export_context (prefix ns : str) (s : citation_set) : json :=
  JObj [(#"@context", JObj [(prefix, JStr ns)]); (structure_term, set_export s)].
End Export.

(** What iterating over a JSON value yields. *)
Definition iter_json (v : json) : result (list json) :=
  match v with
  | JList l => Ok l
  | JStr s => Ok (map (fun c => JStr [c]) s)
  | JObj fs => Ok (map (fun kv => JStr (fst kv)) fs)
  | _ => Err TypeError
  end.

Definition name_of (v : json) : result (option str) :=
  match v with
  | JNull => Ok None
  | JStr s => Ok (Some s)
  | _ => Err TypeError     (* the model only keeps names that are strings *)
  end.

(** DtsCitation.ingest (_dts_1.py lines 78-96).  A resource without get raises
    AttributeError. *)
Fixpoint citation_ingest (root : option nat) (j : json) : result citation :=
  match j with
  | JObj fs =>
      name <- match field cite_type_iri fs with
              | None => Ok None
              | Some v => x <- get_first v ;; y <- get_key x at_value ;; name_of y
              end ;;
      kids <- (fix find (l : list (str * json)) : result (list citation) :=
                 match l with
                 | [] => Ok []
                 | (k, v) :: l' =>
                     if str_eqb k cite_structure_iri then
                       match v with
                       | JList vs =>
                           (fix go (vs : list json) : result (list citation) :=
                              match vs with
                              | [] => Ok []
                              | x :: vs' => c <- citation_ingest root x ;; cs <- go vs' ;; Ok (c :: cs)
                              end) vs
                       | JStr [] | JObj [] => Ok []
                       | JStr _ | JObj _ => Err AttributeError
                       | _ => Err TypeError
                       end
                     else find l'
                 end) fs ;;
      Ok (Cite name root kids)
  | _ => Err AttributeError
  end.

(** DtsCitationSet.ingest (lines 130-145); [self] is the new set. *)
Definition set_ingest (self : nat) (resource : json) : result citation_set :=
  l <- iter_json resource ;;
  cs <- mapM (citation_ingest (Some self)) l ;;
  Ok (MkSet cs None).

(** ** Equality of DTS citations (_dts_1.py lines 63-76)

    Here objects are needed: _root may be a set or another citation, sets have no
    __eq__ and so compare by identity, and the comparison of two lists of
    children takes identical objects as equal without calling __eq__.  The fuel
    is Python's recursion limit. *)
Inductive dobj :=
| OSet (children : list nat)
| OCit (name : option str) (root : option nat) (children : list nat).

Definition name_eqb (a b : option str) : bool :=
  match a, b with
  | None, None => true
  | Some x, Some y => str_eqb x y
  | _, _ => false
  end.

(** list.__eq__ with [eq] for the elements. *)
Fixpoint list_eq (eq : nat -> nat -> result bool) (a b : list nat) : result bool :=
  match a, b with
  | [], [] => Ok true
  | x :: a', y :: b' =>
      e <- (if x =? y then Ok true else eq x y) ;;
      if e then list_eq eq a' b' else Ok false
  | _, _ => Ok false
  end.

Fixpoint citation_eq (fuel : nat) (h : list dobj) (a b : nat) : result bool :=
  match fuel with
  | 0 => Err RecursionError
  | S fuel' =>
      match nth_error h a, nth_error h b with
      | Some (OCit n r l), Some (OCit n' r' l') =>
          if name_eqb n n' then
            same <- (if length l =? length l' then list_eq (citation_eq fuel' h) l l' else Ok false) ;;
            if same then
              match r, r' with
              | Some x, Some y => citation_eq fuel' h x y
              | None, None => Ok true
              | _, _ => Ok false
              end
            else Ok false
          else Ok false
      | Some (OCit _ _ _), Some (OSet _) => Ok false
      | _, _ => Ok (a =? b)
      end
  end.
