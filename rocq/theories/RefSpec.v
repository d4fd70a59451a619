(** Independent vocabulary for stating properties of CTS references: a passage
    is a list of level names plus an optional word. *)

From Coq Require Import List NArith.
From Verif Require Import PyStr.
Import ListNotations.

(** A level name contains none of the separators of the CTS syntax. *)
Definition plain_level (p : str) : Prop :=
  p <> [] /\ ~ In c_dot p /\ ~ In c_at p /\ ~ In c_dash p.

Definition plain_levels (l : list str) : Prop :=
  l <> [] /\ Forall plain_level l.

(** A word subreference: anything without the separators. *)
Definition plain_word (w : option str) : Prop :=
  match w with
  | None => True
  | Some w => ~ In c_dot w /\ ~ In c_at w /\ ~ In c_dash w
  end.

(** How a passage is written: levels separated by dots, then '@' and the word. *)
Fixpoint write_levels (l : list str) : str :=
  match l with
  | [] => []
  | [p] => p
  | p :: l' => p ++ [c_dot] ++ write_levels l'
  end.

Definition write_passage (l : list str) (w : option str) : str :=
  write_levels l ++ match w with Some w => [c_at] ++ w | None => [] end.
