(** Copies of parts of an inventory. *)

From Coq Require Import List NArith ZArith Arith Bool.
From Verif Require Import PyStr CiteSpec XmlModel UrnModel MetaModel MetaSpec CollModel UtilSpec InvModel InvSpec InvExportSpec.
Import ListNotations.

(** The same textgroup, work or text, without a parent; below it, everything as
    in a copy of the inventory.  An edition does not keep its language. *)
Definition alone_text (s : store) (t : nat) (s' : store) (t' : nat) : Prop :=
  same_item s t s' t' /\ c_parent (obj (s_state s') t') = None /\ children s' t' = [] /\
  (c_kind (obj (s_state s) t) <> KText Edition -> same_language s t s' t') /\
  cited s' t' = cited s t.
Definition alone_work (s : store) (w : nat) (s' : store) (w' : nat) : Prop :=
  same_item s w s' w' /\ c_parent (obj (s_state s') w') = None /\ same_language s w s' w' /\
  Forall2 (fun a b => fst b = fst a /\ copy_text s (snd a) s' w' (snd b)) (sorted_texts s w) (children s' w').
Definition alone_group (s : store) (g : nat) (s' : store) (g' : nat) : Prop :=
  same_item s g s' g' /\ c_parent (obj (s_state s') g') = None /\
  Forall2 (fun a b => fst b = fst a /\ copy_work s (snd a) s' g' (snd b)) (children s g) (children s' g').
Definition alone (k : kind) (s : store) (j : nat) (s' : store) (j' : nat) : Prop :=
  match k with
  | KTextgroup => alone_group s j s' j'
  | KWork => alone_work s j s' j'
  | KText _ => alone_text s j s' j'
  | _ => False
  end.

(** The identifiers of a part. *)
Definition part_ids (s : store) (k : kind) (j : nat) : list str :=
  c_id (obj (s_state s) j) ::
  match k with
  | KTextgroup => work_ids s j
  | KWork => text_ids s j
  | _ => []
  end.

(** What reading a part [root] says of [u]: as for an inventory, but nothing new
    about what the part is in. *)
Inductive read_alone (read : str -> guess) (s : store) (i : nat) (root : nat) (u : str) (p : term) : term -> Prop :=
| ra_statement : forall o o', In (URI u, p, o) (main_graph s) -> comes_back read o o' -> read_alone read s i root u p o'
| ra_title : forall k j q name o, placed_in s i k u j q -> title_element k name -> In p [rdfs_label; skos_prefLabel] ->
    In (URI u, cts name, o) (main_graph s) -> read_alone read s i root u p o
| ra_parent : forall k j q, placed_in s i k u j q -> u <> c_id (obj (s_state s) root) ->
    p = URI #"http://purl.org/capitains/ns/1.0#parent" ->
    read_alone read s i root u p (URI (c_id (obj (s_state s) q))).
