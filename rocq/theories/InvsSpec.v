(** Collections of inventories that XML can carry, and inventories that hold the
    same. *)

From Coq Require Import List NArith Arith Bool.
From Verif Require Import PyStr MetaModel MetaSpec CollModel UtilSpec InvModel InvSpec InvExportSpec.
Import ListNotations.

(** The textgroups of all the inventories, in order; everything below. *)
Definition groups_of (s : store) (i : nat) : list (str * nat) :=
  flat_map (fun e => children s (snd e)) (children s i).
Definition collection_ids (s : store) (i : nat) : list str :=
  flat_map (fun e => inventory_ids s (snd e)) (children s i).

(** Everything has one identifier, even across the inventories. *)
Definition portable_collection (s : store) (i : nat) : Prop :=
  let x := obj (s_state s) i in
  c_kind x = KInventoryCollection /\ c_graph x = 0 /\ plain_value (c_id x) /\
  (forall n v u g, In (n, v) (children s i) -> In (u, g) (children s v) -> portable_group s v u g) /\
  NoDup (collection_ids s i).

(** One inventory, with the identifier of the collection, that has copies of all
    the textgroups. *)
Definition copy_collection (s : store) (i : nat) (s' : store) (i' : nat) : Prop :=
  let x := obj (s_state s) i in let y := obj (s_state s') i' in
  c_kind y = KInventory /\ c_id y = c_id x /\ c_parent y = None /\
  Forall2 (fun a b => fst b = fst a /\ copy_group s (snd a) s' i' (snd b)) (groups_of s i) (children s' i').

(** A store to read into: what it says of these objects in the CTS vocabulary
    already agrees. *)
Definition receives_collection (s : store) (i : nat) (s0 : store) : Prop :=
  graphs (s_state s0) <> [] /\
  forall u name o, In u (collection_ids s i) ->
    In name [#"label"; #"description"; #"title"; #"groupname"; #"about"] ->
    In (URI u, cts name, o) (main_graph s0) -> In (URI u, cts name, o) (main_graph s).
