(** What the TEI form of a citation scheme is to say. *)

From Coq Require Import List NArith Arith Bool.
From Verif Require Import PyStr XmlModel UtilSpec InvSpec ServeSpec.
Import ListNotations.

(** A pattern and a name that can stand in an attribute as they are. *)
Definition writable_pattern (rd : str) : Prop := rd <> [] /\ plain_value rd.
Definition writable_name (n : str) : Prop := plain_value n /\ ~ In 62%N n.

(** A declaration around what is written of the levels, innermost first: [start] is
    the start tag of a refsDecl in which tei stands for the TEI namespace. *)
Definition dq1 : str := [34]%N.
Definition wrapped_in_tei (inner : str) : str :=
  #"<tei:refsDecl xmlns:tei=" ++ dq1 ++ #"http://www.tei-c.org/ns/1.0" ++ dq1 ++ #" n=" ++ dq1 ++ #"CTS" ++ dq1 ++ #">" ++ inner ++ #"</tei:refsDecl>".

(** A regular expression of [k] groups of word characters with dots between. *)
Inductive groups_of : nat -> str -> Prop :=
| groups_one : groups_of 1 #"(\w+)"
| groups_more : forall k s, groups_of k s -> groups_of (S k) (#"(\w+)\." ++ s).

(** The slots of a pattern. *)
Inductive has_slots : str -> nat -> Prop :=
| slots_none : has_slots [] 0
| slots_here : forall s k, has_slots s k -> has_slots (36%N :: s) (S k)
| slots_other : forall c s k, c <> 36%N -> has_slots s k -> has_slots (c :: s) k.

(** The element of a level. *)
Definition element_of (name rd : str) (e : XmlModel.node) : Prop :=
  in_tei #"cRefPattern" e /\ attr #"n" e = Some name /\ attr #"replacementPattern" e = Some (#"#xpath(" ++ rd ++ #")") /\
  exists m, attr #"matchPattern" e = Some m /\ forall k, has_slots rd (S k) -> groups_of (S k) m.
