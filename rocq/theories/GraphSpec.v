(** Independent vocabulary for the extraction of subgraphs. *)

From Coq Require Import List NArith ZArith Bool.
From Verif Require Import PyStr MetaModel.
Import ListNotations.

(** Nodes reached by following statements from subject to object. *)
Inductive reaches (g : graph) (t : term) : term -> Prop :=
| reach_here : reaches g t t
| reach_step : forall s p o, reaches g t s -> In (s, p, o) g -> reaches g t o.

(** ... in [k] steps. *)
Inductive steps (g : graph) (t : term) : nat -> term -> Prop :=
| steps_here : steps g t 0 t
| steps_more : forall k s p o, steps g t k s -> In (s, p, o) g -> steps g t (S k) o.

Definition blank (t : term) : Prop := exists n, t = BNode n.

(** Statements found by going from object to subject; blank subjects are left
    out, save those of the target itself when [free]. *)
Inductive climbs (g : graph) (free : Prop) (t : term) : term -> Prop :=
| climb_here : climbs g free t t
| climb_step : forall s p o, climbs g free t o -> In (s, p, o) g -> (blank s -> free /\ o = t) ->
    climbs g free t s.

(** The names of nodes tell them apart, as far as the extraction looks at
    them: a subject (or the target) and an object (or the target) with the same
    name are the same term. *)
Definition names_differ (name : term -> str) (g : graph) (t : term) : Prop :=
  forall a b,
    (a = t \/ exists p o, In (a, p, o) g) ->
    (b = t \/ exists s p, In (s, p, b) g) ->
    name a = name b -> a = b.

(** What the extraction gives for the statements below and above the target:
    [d] levels down and [a] levels up, a negative number for no limit. *)
Definition below (g : graph) (t : term) (d : Z) (s o : term) : Prop :=
  ((d < 0)%Z /\ reaches g t s)
  \/ (d = 1%Z /\ s = t /\ ~ blank o)
  \/ (d = 2%Z /\ (s = t \/ (exists p, In (t, p, s) g) /\ ~ blank o)).

Definition above (g : graph) (t : term) (a d : Z) (s o : term) : Prop :=
  ((a < 0)%Z /\ climbs g (d <> 0 /\ d <> 1)%Z t o /\ (blank s -> (d <> 0 /\ d <> 1)%Z /\ o = t))
  \/ (a = 1%Z /\ o = t /\ (blank s -> (d <> 0 /\ d <> 1)%Z)).
