(** Independent vocabulary for remote texts: what a reply says. *)

From Coq Require Import List NArith ZArith Arith Bool.
From Verif Require Import PyStr XmlModel XmlSpec TeiSpec RemoteModel.
Import ListNotations.

Definition cts_tag (name : str) : str := #"{http://chs.harvard.edu/xmlns/cts}" ++ name.

(** The tags met from an element down to a position below it. *)
Inductive trail : node -> path -> list str -> Prop :=
| tr_here : forall n, trail n [] [n_tag n]
| tr_down : forall n i k p ts, nth_error (n_kids n) i = Some k -> trail k p ts -> trail n (i :: p) (n_tag n :: ts).

(** What follows the last colon. *)
Definition after_colon (s c : str) : Prop :=
  ~ In c_colon c /\ (s = c \/ exists a, s = a ++ #":" ++ c).

(** The identifiers in a document: what follows the last colon in each text that
    is not empty and stands at the end of a trail of the given kind, in document
    order. *)
Definition identifiers (kind : list str -> Prop) (x : node) (out : list str) : Prop :=
  exists kept, picked (fun ps => snd ps <> [] /\ exists ts, trail x (fst ps) ts /\ kind ts) (texts x) kept /\
    Forall2 after_colon (map snd kept) out.
(** The first of those. *)
Definition identifier (kind : list str -> Prop) (x : node) (out : option str) : Prop :=
  exists l, identifiers kind x l /\ out = hd_error l.

Definition has_tag (x : node) (t : str) : Prop := exists P e, at_position x P e /\ n_tag e = t.
(** The first element with a tag, in document order. *)
Definition first_tagged (x : node) (t : str) (e : node) : Prop :=
  exists before P after, positions x = before ++ (P, e) :: after /\ n_tag e = t /\
    Forall (fun qm => n_tag (snd qm) <> t) before.

(** What the siblings of a reply are. *)
Definition siblings_of (x : node) (prev next : option str) : Prop :=
  exists e, first_tagged x (cts_tag #"prevnext") e /\
    identifier (fun ts => exists a, ts = [a; cts_tag #"prev"; cts_tag #"urn"]) e prev /\
    identifier (fun ts => exists a, ts = [a; cts_tag #"next"; cts_tag #"urn"]) e next.

(** What an access gives when the siblings are known, and when they are not. *)
Definition answer (prev next : option str) (a : access) : list sibling :=
  match a with GetPrev => [Known prev] | GetNext => [Known next] | GetSiblings => [Known prev; Known next] end.
Definition no_answer (a : access) : list sibling :=
  match a with GetPrev => [Unknown] | GetNext => [Unknown] | GetSiblings => [Unknown; Unknown] end.
