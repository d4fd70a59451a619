(** Independent vocabulary for readable text. *)

From Coq Require Import List NArith Arith Bool Sorted.
From Verif Require Import PyStr XmlModel XmlSpec TemplateSpec PassageSpec UtilModel UtilSpec.
Import ListNotations.

(** The texts and tails below an element in reading order, each with the
    position of the element it stands in. *)
Fixpoint texts (n : node) : list (path * str) :=
  match n with
  | Elem _ _ x _ kids =>
      ([], x) ::
      (fix go (i : nat) (l : list node) : list (path * str) :=
         match l with
         | [] => []
         | k :: l' => map (fun ps => (i :: fst ps, snd ps)) (texts k) ++ ([], n_tail k) :: go (S i) l'
         end) 0 kids
  end.

(** The position [p], or one above it, holds an element with one of the tags. *)
Definition inside (tags : list str) (n : node) (p : path) : Prop :=
  exists q m, is_prefix q p = true /\ at_position n q m /\ In (n_tag m) tags.

(** The second list is made of the members of the first that satisfy [P], in
    their order. *)
Inductive picked {A} (P : A -> Prop) : list A -> list A -> Prop :=
| pk_end : picked P [] []
| pk_take : forall a l l', P a -> picked P l l' -> picked P (a :: l) (a :: l')
| pk_drop : forall a l l', ~ P a -> picked P l l' -> picked P (a :: l) l'.

(** The texts of the element at [P] of [x] that are not empty and stand in no
    element with one of the tags, be it inside or above [P]. *)
Definition readable (tags : list str) (x : node) (P : path) (l : list str) : Prop :=
  exists e kept, at_position x P e /\ l = map snd kept /\
    picked (fun ps => snd ps <> [] /\ ~ inside tags x (P ++ fst ps)) (texts e) kept.

(** Element names as they are written in an XPath, and the tags they stand for. *)
Definition known_prefixes : list (str * str) :=
  [(#"tei", #"http://www.tei-c.org/ns/1.0"); (#"ti", #"http://chs.harvard.edu/xmlns/cts");
   (#"cpt", #"http://purl.org/capitains/ns/1.0#"); (#"xsd", #"http://www.w3.org/2001/XMLSchema#");
   (#"xml", #"http://www.w3.org/XML/1998/namespace"); (#"rdf", #"http://www.w3.org/1999/02/22-rdf-syntax-ns#")].
(** Letters, digits, hyphen, full stop and low line. *)
Definition local_name (l : str) : Prop :=
  l <> [] /\ forall c, In c l -> is_alpha c = true \/ is_digit c = true \/ c = 45%N \/ c = 46%N \/ c = 95%N.
Inductive names : str -> str -> Prop :=
| nm_local : forall l, local_name l -> names l l
| nm_prefix : forall p ns l, In (p, ns) known_prefixes -> local_name l ->
    names (p ++ #":" ++ l) (#"{" ++ ns ++ #"}" ++ l).
Definition unknown_prefix (e : str) : Prop :=
  exists p l, e = p ++ #":" ++ l /\ local_name p /\ local_name l /\ ~ In p (map fst known_prefixes).

(** The dictionary [d] is a table of contents: its keys are the references of
    level [k] below [parts], each once and in document order, and its values their
    readable texts. *)
Definition table_of (levels : list level) (x : node) (tags parts : list str) (k : nat) (d : nested str) : Prop :=
  (forall c, In c (map fst (leaves d)) <-> length c = k /\ begins parts c /\ exists p, cites levels x c p) /\
  NoDup (map fst (leaves d)) /\
  StronglySorted (fun a b => forall P Q, cites levels x a P -> cites levels x b Q -> precedes P Q = true) (map fst (leaves d)) /\
  forall c t, In (c, t) (leaves d) ->
    exists P l, cites levels x c (0 :: P) /\ readable tags x P l /\ squeezed (join #" " l) t.
