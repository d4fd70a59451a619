(** What an inventory document lists. *)

From Coq Require Import List NArith ZArith Arith Bool.
From Verif Require Import PyStr XmlModel CollModel InvModel InvSpec.
Import ListNotations.

(** Of the elements with the same URN, the first one counts. *)
Definition first_with (es : list XmlModel.node) (e : XmlModel.node) : Prop :=
  exists pre post, es = pre ++ e :: post /\ Forall (fun d => urn_of d <> urn_of e) pre.

(** The textgroups of a document, their works and their texts, with their classes. *)
Inductive lists (x : XmlModel.node) : kind -> XmlModel.node -> Prop :=
| lists_group : forall g, first_with (anywhere #"textgroup" x) g -> lists x KTextgroup g
| lists_work : forall g w, lists x KTextgroup g -> first_with (named #"work" g) w -> lists x KWork w
| lists_text : forall w k e pre post, lists x KWork w -> texts_in w = pre ++ (k, e) :: post ->
    Forall (fun d => urn_of (snd d) <> urn_of e) pre -> lists x (KText k) e.
