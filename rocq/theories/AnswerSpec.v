(** What a resolver answers about its collections, and what asking changes. *)

From Coq Require Import List NArith ZArith Arith Bool.
From Verif Require Import PyStr UrnModel UrnSpec MetaModel CollModel CollSpec InvModel InvSpec LocalModel LocalSpec LoadModel LoadSpec.
Import ListNotations.

(** A text has a citation. *)
Definition has_levels (s : store) (x : nat) : Prop := exists c, citation_of s x = Some c /\ c <> [].

(** The text [t] of an answer stands for the text [x] of the resolver: the same
    URN, the same class, the same citation.  It has no file. *)
Definition stands_for (s : store) (x : nat) (s' : store) (t : nat) : Prop :=
  c_id (obj (s_state s') t) = c_id (obj (s_state s) x) /\
  c_kind (obj (s_state s') t) = c_kind (obj (s_state s) x) /\
  citation_of s' t = citation_of s x /\ path_of s' t = None.

(** What is in an answer: the answer itself or something below it. *)
Definition inside (s : store) (c t : nat) : Prop := t = c \/ below (s_state s) c t.

(** Every object there was is as it was: its class, its names, what it is in, what
    is in it, its citation, its path. *)
Definition same_objects (s s' : store) : Prop :=
  length (objs (s_state s)) <= length (objs (s_state s')) /\
  forall x, x < length (objs (s_state s)) ->
    obj (s_state s') x = obj (s_state s) x /\ citation_of s' x = citation_of s x /\ path_of s' x = path_of s x.

(** Statements: the class, the model, what it is in, the language; and others. *)
Definition about_structure (p : term) : Prop :=
  p = URI #"http://www.w3.org/1999/02/22-rdf-syntax-ns#type" \/
  p = URI #"https://w3id.org/dts/api#model" \/
  p = URI #"http://purl.org/capitains/ns/1.0#parent".
Definition language : term := URI #"http://purl.org/dc/elements/1.1/language".
Definition says (s : store) (g : nat) (t : triple) : Prop := In t (nth g (graphs (s_state s)) []).

(** Something has one language: as the statements of one of the graphs say, and as
    those of the graph all collections of the process share say. *)
Definition speaks_in (s : store) (g : nat) (id l : str) : Prop := forall o, says s g (URI id, language, o) <-> o = Literal l None None.
Definition speaks (s : store) (id l : str) : Prop := speaks_in s 0 id l.

(** The languages of a resolver are in order: each text has one, and an edition has
    the one of its work.  The statements about a text merged into a textgroup are in
    a copy of the graph (C68), which has to agree. *)
Definition languages_fit (s : store) (root : nat) : Prop :=
  forall x w g, LocalSpec.placed (s_state s) root x w g ->
    exists l, speaks s (c_urn (obj (s_state s) x)) l /\ speaks_in s (c_graph (obj (s_state s) x)) (c_urn (obj (s_state s) x)) l /\
      (c_kind (obj (s_state s) x) = KText Edition -> speaks s (c_urn (obj (s_state s) w)) l).

(** Questions and loadings, one after the other. *)
Inductive deed : Type :=
| Ask (id : option str)
| Read (files : list located_group).
