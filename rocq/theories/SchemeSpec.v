(** Histories that assemble citation schemes.

    [built h schemes]: the heap [h] was reached by creating citations and
    hanging schemes below citations that have no child yet, every citation being
    given at most one parent; [schemes] lists, for every scheme assembled so
    far, its citations from the outermost to the innermost. *)

From Coq Require Import List Permutation.
From Verif Require Import PyStr SchemeModel.
Import ListNotations.

Inductive built : cheap -> list (list nat) -> Prop :=
| built_empty : built [] []
| built_new : forall h cs name rd,
    built h cs ->
    built (fst (cit_new h name rd None)) ([snd (cit_new h name rd None)] :: cs)
| built_wrap : forall h v l cs name rd,
    built h ((v :: l) :: cs) ->
    built (fst (cit_new h name rd (Some v))) ((snd (cit_new h name rd (Some v)) :: v :: l) :: cs)
| built_attach : forall h l1 c v l2 cs,
    built h ((l1 ++ [c]) :: (v :: l2) :: cs) ->
    built (cit_set_child h c (Some v)) ((l1 ++ c :: v :: l2) :: cs)
| built_order : forall h cs cs', built h cs -> Permutation cs cs' -> built h cs'.
