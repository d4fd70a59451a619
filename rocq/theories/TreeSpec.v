(** Vocabulary for citation trees.

    A position in a forest is the list of child numbers leading to it; positions
    are ordered as in a table of contents. *)

From Coq Require Import List NArith Arith Sorted.
From Verif Require Import PyStr Json TreeModel.
Import ListNotations.

Fixpoint at_path (f : list citation) (p : list nat) : option citation :=
  match p with
  | [] => None
  | i :: p' =>
      match nth_error f i with
      | None => None
      | Some c => match p' with [] => Some c | _ => at_path (c_children c) p' end
      end
  end.

Fixpoint before (p q : list nat) : Prop :=
  match p, q with
  | [], _ :: _ => True
  | i :: p', j :: q' => i < j \/ (i = j /\ before p' q')
  | _, [] => False
  end.

(** [ps] are all the positions of the forest, in order. *)
Definition all_positions (f : list citation) (ps : list (list nat)) : Prop :=
  StronglySorted before ps /\ forall p, In p ps <-> at_path f p <> None.

(** The name structure of a forest, forgetting the root pointers. *)
Inductive shape := Shape (name : option str) (children : list shape).
Fixpoint shape_of (c : citation) : shape :=
  match c with Cite n _ l => Shape n (map shape_of l) end.

(** How a JSON-LD processor presents an exported citation structure: compact
    names become IRIs, values become lists of value objects, null properties are
    left out. *)
Section Expand.
Variables (type_term structure_term : str).
Fixpoint expand (j : json) : json :=
  match j with
  | JObj fs =>
      JObj (flat_map (fun kv =>
              match kv with
              | (k, JStr s) => if str_eqb k type_term
                               then [(cite_type_iri, JList [JObj [(at_value, JStr s)]])] else []
              | (k, JList l) => if str_eqb k structure_term
                                then [(cite_structure_iri, JList (map expand l))] else []
              | _ => []
              end) fs)
  | JList l => JList (map expand l)
  | j => j
  end.
End Expand.

(** Object [i] was ingested into the set [set] with the given shape. *)
Inductive ingested (h : list dobj) (set : nat) : nat -> shape -> Prop :=
| ingested_node : forall i name ids kids,
    nth_error h i = Some (OCit name (Some set) ids) ->
    Forall2 (ingested h set) ids kids ->
    ingested h set i (Shape name kids).
Fixpoint shape_depth (s : shape) : nat :=
  match s with Shape _ l => S (fold_right Nat.max 0 (map shape_depth l)) end.
