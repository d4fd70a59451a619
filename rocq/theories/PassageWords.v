(** Independent vocabulary for lists of references and for moving between
    passages through the API. *)

From Coq Require Import List NArith ZArith Arith Bool.
From Verif Require Import PyStr RefModel UrnModel XmlModel XmlSpec XPathModel TemplateSpec.
From Verif Require Import PassageModel PassageSpec.
Import ListNotations.

(** The [i]-th member, or None. *)
Definition entry (l : list (option ref)) (i : nat) : option ref := match nth_error l i with Some o => o | None => None end.

(** The root passes the first step of the patterns. *)
Definition proper_root (levels : list level) (x : node) : Prop :=
  forall s rest comps, comps <> [] -> mean levels (map Some comps) = s :: rest -> step_holds s x.

(** [o] is the reference from the [p]-th to the [q]-th member of [l]. *)
Definition spans (l : list (option ref)) (p q : nat) (o : option ref) : Prop :=
  exists a b r, nth_error l p = Some (Some a) /\ nth_error l q = Some (Some b) /\ o = Some r /\
    r_start r = r_str a /\ r_end r = Some (r_str b) /\ r_str r = r_str a ++ [c_dash] ++ r_str b.

(** Reading a passage, asking for the next reference, reading it from the text, and
    so on. *)
Fixpoint walk (scheme : list str) (same : node -> node -> bool) (steps : nat) (text : tobj) (r : ref) : result (list ref) :=
  match steps with
  | 0 => Err OutOfFuel
  | S n =>
      p <- get_node scheme same text r ;;
      '(_, next) <- siblings scheme same p ;;
      match next with
      | None => Ok [r]
      | Some r' => l <- walk scheme same n text r' ;; Ok (r :: l)
      end
  end.

(** The passages that can be reached from a text. *)
Inductive reached (scheme : list str) (same : node -> node -> bool) (text : tobj) : tobj -> Prop :=
| reached_text : reached scheme same text text
| reached_get : forall p r q, reached scheme same text p -> writable r -> get_node scheme same p r = Ok q -> reached scheme same text q
| reached_next : forall p b r q, reached scheme same text p -> siblings scheme same p = Ok (b, Some r) -> writable r ->
    next_passage scheme same p = Ok (Some q) -> reached scheme same text q
| reached_prev : forall p r a q, reached scheme same text p -> siblings scheme same p = Ok (Some r, a) -> writable r ->
    prev_passage scheme same p = Ok (Some q) -> reached scheme same text q.
