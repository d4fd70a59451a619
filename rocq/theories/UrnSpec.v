(** Independent vocabulary for URNs: components and their concrete syntax. *)

From Coq Require Import List NArith.
From Verif Require Import PyStr RefModel UrnModel.
Import ListNotations.

(** The components of a URN: the two namespaces, then up to three hierarchical
    identifiers, then a reference text. *)
Inductive work_part :=
| NoWork
| Group (tg : str)
| Work (tg wk : str)
| Version (tg wk vs : str).

Definition write_part (p : work_part) : str :=
  match p with
  | NoWork => []
  | Group tg => [c_colon] ++ tg
  | Work tg wk => [c_colon] ++ tg ++ [c_dot] ++ wk
  | Version tg wk vs => [c_colon] ++ tg ++ [c_dot] ++ wk ++ [c_dot] ++ vs
  end.

Definition write_urn (ns cts : str) (p : work_part) (r : option str) : str :=
  #"urn" ++ [c_colon] ++ ns ++ [c_colon] ++ cts ++ write_part p ++
  match r with Some r => [c_colon] ++ r | None => [] end.

(** Separator-free, non-empty components. *)
Definition plain_ns (s : str) : Prop := s <> [] /\ ~ In c_colon s /\ ~ In c_hash s.
Definition plain_comp (s : str) : Prop :=
  s <> [] /\ ~ In c_colon s /\ ~ In c_hash s /\ ~ In c_dot s.

Definition plain_part (p : work_part) : Prop :=
  match p with
  | NoWork => True
  | Group tg => plain_comp tg
  | Work tg wk => plain_comp tg /\ plain_comp wk
  | Version tg wk vs => plain_comp tg /\ plain_comp wk /\ plain_comp vs
  end.

Definition part_tg (p : work_part) : option str :=
  match p with NoWork => None | Group t => Some t | Work t _ => Some t | Version t _ _ => Some t end.
Definition part_wk (p : work_part) : option str :=
  match p with Work _ w => Some w | Version _ w _ => Some w | _ => None end.
Definition part_vs (p : work_part) : option str :=
  match p with Version _ _ v => Some v | _ => None end.

Definition part_size (p : work_part) : nat :=
  match p with NoWork => 0 | Group _ => 1 | Work _ _ => 2 | Version _ _ _ => 3 end.

(** A reference text that can be written in a URN: no ':' or '#', non-empty. *)
Definition plain_ref (r : str) : Prop := r <> [] /\ ~ In c_colon r /\ ~ In c_hash r.

(** The hierarchical part cut after [n] components. *)
Definition cut_part (n : nat) (p : work_part) : work_part :=
  match n, p with
  | 0, _ => NoWork
  | 1, Group tg => Group tg
  | 1, Work tg _ => Group tg
  | 1, Version tg _ _ => Group tg
  | 2, Version tg wk _ => Work tg wk
  | _, p => p
  end.

(** A reference needs a hierarchical part to be written after. *)
Definition written_ref (p : work_part) (r : option str) : Prop :=
  match r with None => True | Some r => p <> NoWork /\ plain_ref r end.

(** How many hierarchical components a truncation key keeps. *)
Definition cut_of (k : upto_key) : option nat :=
  match k with
  | NAMESPACE => Some 0 | TEXTGROUP => Some 1 | WORK => Some 2 | VERSION => Some 3
  | NO_PASSAGE => Some 3 | _ => None
  end.

(** ** Histories of assignments *)

(** Last value assigned to a component, or the initial one. *)
Fixpoint last_ns (h : list urn_op) (d : option str) : option str :=
  match h with [] => d | OpNs v :: h' => last_ns h' v | _ :: h' => last_ns h' d end.
Fixpoint last_cts (h : list urn_op) (d : option str) : option str :=
  match h with [] => d | OpCts v :: h' => last_cts h' v | _ :: h' => last_cts h' d end.
Fixpoint last_tg (h : list urn_op) (d : option str) : option str :=
  match h with [] => d | OpTg v :: h' => last_tg h' v | _ :: h' => last_tg h' d end.
Fixpoint last_wk (h : list urn_op) (d : option str) : option str :=
  match h with [] => d | OpWk v :: h' => last_wk h' v | _ :: h' => last_wk h' d end.
Fixpoint last_vs (h : list urn_op) (d : option str) : option str :=
  match h with [] => d | OpVs v :: h' => last_vs h' v | _ :: h' => last_vs h' d end.

(** An assignment of the reference that raises leaves the old one. *)
Definition ref_effect (v : ref_arg) (d : option ref) : option ref :=
  match v with
  | RefObj r => Some r
  | RefVal v => match cts_reference v with Ok r => r | Err _ => d end
  end.
Fixpoint last_ref (h : list urn_op) (d : option ref) : option ref :=
  match h with [] => d | OpRef v :: h' => last_ref h' (ref_effect v d) | _ :: h' => last_ref h' d end.

Definition is_set_op (o : urn_op) : bool := match o with OpStr => false | _ => true end.

(** The operations of a history that write back the values the URN has. *)
Definition reassign_op (u : urn) (o : urn_op) : Prop :=
  match o with
  | OpNs v => v = u_ns u
  | OpCts v => v = u_cts u
  | OpTg v => v = u_tg u
  | OpWk v => v = u_wk u
  | OpVs v => v = u_vs u
  | OpRef (RefObj r) => u_ref u = Some r
  | OpRef (RefVal v) => cts_reference v = Ok (u_ref u)
  | OpStr => True
  end.

(** The canonical text of a set of components: keep the components up to the
    first absent or empty one; the reference needs at least a work. *)
Fixpoint present_prefix (l : list (option str)) : list str :=
  match l with
  | Some (c :: s) :: l' => (c :: s) :: present_prefix l'
  | _ => []
  end.

Definition canonical (ns : str) (cts tg wk vs : option str) (r : option ref) : str :=
  let kept := present_prefix [cts; tg; wk; vs] in
  join [c_colon]
    (#"urn" :: ns :: firstn 1 kept ++
     match skipn 1 kept with
     | [] => []
     | hier => join [c_dot] hier ::
               (if Nat.leb 2 (length hier) then match r with Some r => [r_str r] | None => [] end else [])
     end).
