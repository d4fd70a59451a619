(** What collections promise, said on the links between them.

    [member], [below], [at_path], [chain] only read the parent pointers and
    dictionaries of the store. *)

From Coq Require Import List NArith Arith Bool.
From Verif Require Import PyStr MetaModel CollModel.
Import ListNotations.

Definition text (st : state) (c : nat) : Prop :=
  exists sub, c_kind (obj st c) = KText sub.

(** [m] is listed among the members of [c]. *)
Definition member (st : state) (c m : nat) : Prop :=
  ~ text st c /\ exists k, In (k, m) (c_children (obj st c)).

(** [d] is strictly below [c]. *)
Inductive below (st : state) : nat -> nat -> Prop :=
| below_one : forall c m, member st c m -> below st c m
| below_more : forall c m d, member st c m -> below st m d -> below st c d.

(** A place in the tree under [c]: the positions to follow, from the top. *)
Inductive at_path (st : state) : nat -> list nat -> nat -> Prop :=
| at_here : forall c, at_path st c [] c
| at_child : forall c i k m p d,
    ~ text st c -> nth_error (c_children (obj st c)) i = Some (k, m) ->
    at_path st m p d -> at_path st c (i :: p) d.

(** The order in which places are listed: the members first, then what is
    under each of them in turn. *)
Inductive listed_before : list nat -> list nat -> Prop :=
| lb_members : forall i j, i < j -> listed_before [i] [j]
| lb_shallow : forall i j q, q <> [] -> listed_before [i] (j :: q)
| lb_first : forall i j p q, p <> [] -> q <> [] -> i < j ->
    listed_before (i :: p) (j :: q)
| lb_inside : forall i p q, listed_before p q -> listed_before (i :: p) (i :: q).

(** The chain of ancestors. *)
Inductive chain (st : state) : nat -> list nat -> Prop :=
| chain_end : forall c, c_parent (obj st c) = None -> chain st c []
| chain_up : forall c p l, c_parent (obj st c) = Some p -> chain st p l ->
    chain st c (p :: l).

(** Histories: creations and parent assignments. *)
Inductive event : Type :=
| New (k : kind) (id urn : str)
| Parent (c p : nat)
| NoParent (c : nat).

Definition happen (st : state) (e : event) : state :=
  match e with
  | New k id urn => fst (new_object st k id urn)
  | Parent c p => set_parent st c p
  | NoParent c => fst (set_parent_none st c)
  end.

Definition start : state := MkState [] [[]].

Definition history (h : list event) : state := fold_left happen h start.

(** The objects created, in order: the n-th creation is object n. *)
Definition creations (h : list event) : list (kind * str * str) :=
  flat_map (fun e => match e with New k id urn => [(k, id, urn)] | _ => [] end) h.

Definition created_id (h : list event) (c : nat) : option str :=
  option_map (fun x => snd (fst x)) (nth_error (creations h) c).

(** Only existing objects are mentioned. *)
Inductive valid : list event -> Prop :=
| valid_nil : valid []
| valid_new : forall h k id urn, valid h -> valid (h ++ [New k id urn])
| valid_parent : forall h c p, valid h ->
    c < length (creations h) -> p < length (creations h) ->
    valid (h ++ [Parent c p])
| valid_none : forall h c, valid h -> c < length (creations h) ->
    valid (h ++ [NoParent c]).

(** The objects that were given [p] as a parent, in order. *)
Definition given (h : list event) (p : nat) : list nat :=
  flat_map (fun e => match e with
                     | Parent c q => if Nat.eqb q p then [c] else []
                     | _ => []
                     end) h.

(** Of a list of objects, the first with each identifier. *)
Fixpoint firsts (id : nat -> str) (seen : list str) (l : list nat) : list nat :=
  match l with
  | [] => []
  | c :: l' =>
      if existsb (str_eqb (id c)) seen then firsts id seen l'
      else c :: firsts id (id c :: seen) l'
  end.

(** The last parent assigned. *)
Definition last_parent (h : list event) (c : nat) : option nat :=
  fold_left (fun r e => match e with
                        | Parent d p => if Nat.eqb d c then Some p else r
                        | NoParent d => if Nat.eqb d c then None else r
                        | New _ _ _ => r
                        end) h None.

(** The type given to an identifier by the last creation that used it. *)
Definition last_type (h : list event) (id : str) : option term :=
  fold_left (fun r e => match e with
                        | New k id' _ => if str_eqb id' id then Some (type_uri k) else r
                        | _ => r
                        end) h None.

(** A well-kept tree under [c]: children are registered under their own
    identifier, every object below knows the object it is registered in, and
    no identifier occurs twice (dictionaries have distinct keys). *)
Record tree (st : state) (c : nat) : Prop := {
  tree_dict : forall x, (x = c \/ below st c x) -> NoDup (keys (c_children (obj st x)));
  tree_key : forall x k m, (x = c \/ below st c x) -> ~ text st x ->
    In (k, m) (c_children (obj st x)) -> k = c_id (obj st m);
  tree_parent : forall x m, (x = c \/ below st c x) -> member st x m ->
    c_parent (obj st m) = Some x;
  tree_ids : forall x y, (x = c \/ below st c x) -> (y = c \/ below st c y) ->
    c_id (obj st x) = c_id (obj st y) -> x = y }.

(** An inventory in layers: textgroups hold works, works hold texts. *)
Definition all_children (st : state) (P : nat -> Prop) (c : nat) : Prop :=
  forall k m, In (k, m) (c_children (obj st c)) -> P m.

Definition work_layer (st : state) (c : nat) : Prop :=
  c_kind (obj st c) = KWork /\ all_children st (text st) c.
Definition textgroup_layer (st : state) (c : nat) : Prop :=
  c_kind (obj st c) = KTextgroup /\ all_children st (work_layer st) c.
Definition inventory_layer (st : state) (c : nat) : Prop :=
  c_kind (obj st c) = KInventory /\ all_children st (textgroup_layer st) c.
Definition collection_layer (st : state) (c : nat) : Prop :=
  c_kind (obj st c) = KInventoryCollection /\ all_children st (inventory_layer st) c.

(** Dictionaries as finite maps: what [b] adds to [a], in order. *)
Definition new_keys {A B} (a : list (str * A)) (b : list (str * B)) : list str :=
  filter (fun k => negb (existsb (str_eqb k) (map fst a))) (map fst b).

(** A textgroup whose works and texts are registered under their own
    identifiers and know where they are. *)
Record textgroup_tree (st : state) (c : nat) : Prop := {
  tg_in : c < length (objs st);
  tg_kind : c_kind (obj st c) = KTextgroup;
  tg_dict : NoDup (keys (c_children (obj st c)));
  tg_work : forall k w, In (k, w) (c_children (obj st c)) ->
    w < length (objs st) /\ c_kind (obj st w) = KWork
    /\ c_id (obj st w) = k /\ c_parent (obj st w) = Some c
    /\ NoDup (keys (c_children (obj st w)));
  tg_text : forall k w k2 t, In (k, w) (c_children (obj st c)) ->
    In (k2, t) (c_children (obj st w)) ->
    t < length (objs st) /\ text st t
    /\ c_id (obj st t) = k2 /\ c_parent (obj st t) = Some w }.

(** The same class, identifier and URN. *)
Definition alike (st : state) (x : nat) (st' : state) (x' : nat) : Prop :=
  c_kind (obj st x) = c_kind (obj st' x')
  /\ c_id (obj st x) = c_id (obj st' x')
  /\ c_urn (obj st x) = c_urn (obj st' x').

(** What becomes of the texts of [wo] in the work [w']: each is there, under
    the same key, as a new object that looks the same and whose parent is
    [w']. *)
Definition received (st : state) (wo : nat) (st' : state) (w' : nat) : Prop :=
  forall k t, In (k, t) (c_children (obj st wo)) ->
  exists t', dget k (c_children (obj st' w')) = Some t'
    /\ length (objs st) <= t' < length (objs st')
    /\ alike st t st' t' /\ c_parent (obj st' t') = Some w'
    /\ keys (c_children (obj st' t')) = keys (c_children (obj st t)).

(** The textgroup [s] after it received the textgroup [o]. *)
Record merged (st : state) (s o : nat) (st' : state) : Prop := {
  m_keys : keys (c_children (obj st' s))
    = keys (c_children (obj st s)) ++ new_keys (c_children (obj st s)) (c_children (obj st o));
  m_self : alike st s st' s /\ c_parent (obj st' s) = c_parent (obj st s);
  (* a work only [s] had *)
  m_kept : forall k w, In (k, w) (c_children (obj st s)) ->
    ~ In k (keys (c_children (obj st o))) ->
    dget k (c_children (obj st' s)) = Some w /\ obj st' w = obj st w;
  (* a work both had *)
  m_shared : forall k w wo, In (k, w) (c_children (obj st s)) ->
    In (k, wo) (c_children (obj st o)) ->
    dget k (c_children (obj st' s)) = Some w
    /\ alike st w st' w /\ c_parent (obj st' w) = Some s
    /\ keys (c_children (obj st' w))
       = keys (c_children (obj st w)) ++ new_keys (c_children (obj st w)) (c_children (obj st wo))
    /\ (forall k2, ~ In k2 (keys (c_children (obj st wo))) ->
          dget k2 (c_children (obj st' w)) = dget k2 (c_children (obj st w)))
    /\ received st wo st' w;
  (* a work only [o] had *)
  m_new : forall k wo, In (k, wo) (c_children (obj st o)) ->
    ~ In k (keys (c_children (obj st s))) ->
    exists w', dget k (c_children (obj st' s)) = Some w'
      /\ length (objs st) <= w' < length (objs st')
      /\ alike st wo st' w' /\ c_parent (obj st' w') = Some s
      /\ keys (c_children (obj st' w')) = keys (c_children (obj st wo))
      /\ received st wo st' w';
  (* nothing else changes: in particular nothing of [o] *)
  m_frame : forall x, x < length (objs st) -> x <> s ->
    (forall k, In (k, x) (c_children (obj st s)) -> ~ In k (keys (c_children (obj st o)))) ->
    obj st' x = obj st x }.

(** What a textgroup shows: its works and, for each, its texts. *)
Definition outline (st : state) (c : nat) : list (str * list str) :=
  map (fun e => (fst e, keys (c_children (obj st (snd e))))) (c_children (obj st c)).
