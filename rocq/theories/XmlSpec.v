(** Independent vocabulary for passages: positions of a document, document order,
    XPath selection, and which part of a document a passage must hold. *)

From Coq Require Import List NArith Arith Bool.
From Verif Require Import PyStr XmlModel.
Import ListNotations.

(** All positions of a tree with their elements, in document order. *)
Fixpoint positions (n : node) : list (path * node) :=
  match n with
  | Elem t a x y kids =>
      ([], Elem t a x y kids) ::
      (fix go (i : nat) (l : list node) : list (path * node) :=
         match l with
         | [] => []
         | k :: l' => map (fun pn => (i :: fst pn, snd pn)) (positions k) ++ go (S i) l'
         end) 0 kids
  end.

(** [p] is an ancestor of [q], or [q] itself. *)
Fixpoint is_prefix (p q : path) : bool :=
  match p, q with
  | [], _ => true
  | i :: p', j :: q' => Nat.eqb i j && is_prefix p' q'
  | _ :: _, [] => false
  end.
(** [p] is a proper ancestor of [q]. *)
Definition is_above (p q : path) : bool := is_prefix p q && negb (is_prefix q p).

(** The start tag of [p] comes before the start tag of [q]. *)
Fixpoint precedes (p q : path) : bool :=
  match p, q with
  | [], _ :: _ => true
  | i :: p', j :: q' => Nat.ltb i j || (Nat.eqb i j && precedes p' q')
  | _, [] => false
  end.

(** ** XPath: [selects xs n p] holds when the steps lead from [n] to the
    descendant at [p]. *)
Definition test_holds (n : node) (t : pred) : Prop :=
  match t with
  | PHas a => exists v, get_attr a (n_attrs n) = Some v
  | PEq a v => get_attr a (n_attrs n) = Some v
  end.
Definition step_holds (s : step) (n : node) : Prop :=
  (forall t, s_name s = Some t -> n_tag n = t) /\
  (forall g t, In g (s_preds s) -> In t g -> test_holds n t).

(** The element at position [p] below [n]. *)
Inductive at_position : node -> path -> node -> Prop :=
| at_here : forall n, at_position n [] n
| at_below : forall n i p k m, nth_error (n_kids n) i = Some k -> at_position k p m -> at_position n (i :: p) m.

Inductive selects : list step -> node -> path -> Prop :=
| sel_end : forall n, selects [] n []
| sel_step : forall s xs n a i p m,
    at_position n (a ++ [i]) m -> step_holds s m ->
    (s_desc s = false -> a = []) ->          (* child axis: one level down *)
    selects xs m p -> selects (s :: xs) n (a ++ i :: p).

(** The steps select the element at [p] and nothing else. *)
Definition selects_only (xs : list step) (n : node) (p : path) : Prop :=
  selects xs n p /\ forall q, selects xs n q -> q = p.

(** ** What a passage from the element at [P1] to the one at [P2] must hold. *)
Inductive part := Whole | Tag | Absent.

(** Whole: from the start to the last descendant of the end.  The ancestors of
    both ends are kept as bare tags. *)
Definition part_of (P1 P2 p : path) : part :=
  if (is_prefix P1 p || precedes P1 p) && (precedes p P2 || is_prefix P2 p) && negb (is_above p P2) then Whole
  else if is_above p P1 || is_above p P2 then Tag else Absent.

(** An element written on one line: depth, name, attributes, text, tail. *)
Definition line := (nat * str * list (str * str) * str * str)%type.

(** A tree as the list of its lines: the nesting is in the depths. *)
Fixpoint lines (d : nat) (n : node) : list line :=
  match n with
  | Elem t a x y kids => (d, t, a, x, y) :: flat_map (lines (S d)) kids
  end.

(** The line that the element [n] at position [p] contributes to the passage.  Its
    tail is part of its parent, and is there if the parent is. *)
Definition passage_line (parts : path -> part) (pn : path * node) : list line :=
  let '(p, n) := pn in
  match parts p with
  | Whole => [(length p, n_tag n, n_attrs n, n_text n,
               match p, parts (removelast p) with _ :: _, Whole => n_tail n | _, _ => [] end)]
  | Tag => [(length p, n_tag n, n_attrs n, [], [])]
  | Absent => []
  end.

Definition passage_lines (parts : path -> part) (n : node) : list line :=
  flat_map (passage_line parts) (positions n).

(** The text of an element: that of the element and its descendants, with the
    tails of the latter, in reading order. *)
Fixpoint text_of (n : node) : str :=
  match n with
  | Elem _ _ x _ kids => x ++ flat_map (fun k => text_of k ++ n_tail k) kids
  end.
