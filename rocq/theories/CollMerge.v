(** Proofs about merging works and textgroups. *)

From Coq Require Import List NArith Arith Bool Lia.
From Verif Require Import PyStr PyStrFacts MetaModel MetaSpec MetaProofs
  CollModel CollSpec CollProofs CollHist.
Import ListNotations.

Lemma dget_In_iff : forall {A} k (v : A) d, NoDup (keys d) ->
  (dget k d = Some v <-> In (k, v) d).
Proof.
  intros A k v d Hn. split; [ apply dget_In | ]. intros H.
  induction d as [|[x y] d IH]; [ destruct H | ]. cbn in *.
  inversion Hn as [|? ? Hx Hd]; subst. destruct H as [H|H].
  - injection H as -> ->. rewrite str_eqb_refl. reflexivity.
  - destruct (str_eqb x k) eqn:E; [ | auto ]. apply str_eqb_eq in E. subst x.
    exfalso. apply Hx. change k with (fst (k, v)). apply in_map. exact H.
Qed.

Lemma dget_app : forall {A} k (a b : list (str * A)),
  dget k (a ++ b) = match dget k a with Some v => Some v | None => dget k b end.
Proof.
  intros A k a b. induction a as [|[x y] a IH]; cbn; [ reflexivity | ].
  destruct (str_eqb x k); [ reflexivity | exact IH ].
Qed.

(** ** Works *)

(** One text received. *)
Lemma obj_take : forall st s k t x,
  s < length (objs st) -> t < length (objs st) -> c_id (obj st t) = k ->
  obj (take_text s st (k, t)) x
  = let y := obj st x in
    MkColl (c_kind y) (c_id y) (c_urn y)
      (if Nat.eqb t x then Some s else c_parent y)
      (if Nat.eqb s x then dset k t (c_children y) else c_children y)
      (c_graph y).
Proof.
  intros st s k t x Hs Ht Hk. unfold take_text. cbn [fst snd].
  assert (O : forall y, obj (set_child st s k t) y
    = if Nat.eqb s y then put_children (dset k t (c_children (obj st y))) (obj st y) else obj st y).
  { intros y. unfold set_child. rewrite obj_with. apply Nat.ltb_lt in Hs.
    rewrite Hs, andb_true_r. reflexivity. }
  assert (L : length (objs (set_child st s k t)) = length (objs st)) by apply length_upd.
  rewrite obj_set_parent by (rewrite L; assumption).
  assert (Ci : c_id (obj (set_child st s k t) t) = k).
  { rewrite O. destruct (Nat.eqb s t); exact Hk. }
  rewrite Ci, O. cbn zeta. destruct (Nat.eqb s x) eqn:E; cbn [andb].
  - cbn [put_children c_kind c_id c_urn c_parent c_children c_graph].
    assert (X : existsb (str_eqb k) (keys (dset k t (c_children (obj st x)))) = true).
    { apply existsb_str. apply In_keys_dset. auto. }
    rewrite X. reflexivity.
  - reflexivity.
Qed.

Lemma length_take : forall s st e, length (objs (take_text s st e)) = length (objs st).
Proof.
  intros. unfold take_text. rewrite length_set_parent. apply length_upd.
Qed.

Definition union (a b : list (str * nat)) : list (str * nat) :=
  fold_left (fun d e => dset (fst e) (snd e) d) b a.

(** All texts received. *)
Lemma obj_takes : forall l st s,
  s < length (objs st) ->
  (forall k t, In (k, t) l -> t < length (objs st) /\ c_id (obj st t) = k) ->
  forall x, obj (fold_left (take_text s) l st) x
  = let y := obj st x in
    MkColl (c_kind y) (c_id y) (c_urn y)
      (if existsb (Nat.eqb x) (map snd l) then Some s else c_parent y)
      (if Nat.eqb s x then union (c_children y) l else c_children y)
      (c_graph y).
Proof.
  induction l as [|[k t] l IH]; intros st s Hs Hl x; cbn [fold_left].
  - cbn. destruct (Nat.eqb s x); destruct (obj st x); reflexivity.
  - destruct (Hl k t (or_introl eq_refl)) as [Ht Hk].
    rewrite IH.
    + rewrite obj_take by assumption. cbn zeta.
      cbn [c_kind c_id c_urn c_parent c_children c_graph map snd existsb union fold_left fst].
      f_equal.
      * rewrite (Nat.eqb_sym x t). destruct (existsb (Nat.eqb x) (map snd l)); [ rewrite orb_true_r; reflexivity | ].
        rewrite orb_false_r. reflexivity.
      * destruct (Nat.eqb s x); reflexivity.
    + rewrite length_take. exact Hs.
    + intros k' t' H. rewrite length_take. rewrite obj_take by assumption. apply Hl. right. exact H.
Qed.

Lemma length_takes : forall l st s, length (objs (fold_left (take_text s) l st)) = length (objs st).
Proof.
  induction l as [|e l IH]; intros st s; cbn; [ reflexivity | ].
  rewrite IH. apply length_take.
Qed.

Lemma dget_union : forall b a k, NoDup (keys b) ->
  dget k (union a b) = match dget k b with Some v => Some v | None => dget k a end.
Proof.
  induction b as [|[k' v] b IH]; intros a k Hn; [ reflexivity | ].
  inversion Hn as [|? ? Hx Hd]; subst. unfold union. cbn [fold_left fst snd].
  change (fold_left _ b (dset k' v a)) with (union (dset k' v a) b).
  rewrite IH by exact Hd. rewrite dget_dset. cbn [dget].
  destruct (str_eqb k' k) eqn:E; [ | reflexivity ].
  apply str_eqb_eq in E. subst k'. cbn in Hx.
  apply dget_none in Hx. rewrite Hx. reflexivity.
Qed.

Lemma keys_union : forall b a, NoDup (keys b) ->
  keys (union a b) = keys a ++ new_keys a b.
Proof.
  induction b as [|[k v] b IH]; intros a Hn.
  - cbn. rewrite app_nil_r. reflexivity.
  - inversion Hn as [|? ? Hx Hd]; subst. unfold union. cbn [fold_left fst snd].
    change (fold_left _ b (dset k v a)) with (union (dset k v a) b).
    rewrite IH by exact Hd. rewrite keys_dset. unfold new_keys. cbn [map fst filter].
    assert (Q : existsb (fun k' => str_eqb k' k) (keys a) = existsb (str_eqb k) (map fst a)).
    { apply eq_true_iff_eq. rewrite existsb_str, existsb_exists. split.
      - intros [y [H E]]. apply str_eqb_eq in E. subst. exact H.
      - intros H. exists k. split; [ exact H | apply str_eqb_refl ]. }
    assert (R : forall d : list (str * nat), (forall y, In y (map fst b) -> In y (map fst d) <-> In y (map fst a)) ->
      filter (fun y => negb (existsb (str_eqb y) (map fst d))) (map fst b)
      = filter (fun y => negb (existsb (str_eqb y) (map fst a))) (map fst b)).
    { intros d H. apply filter_ext_in. intros y Hy. f_equal. apply eq_true_iff_eq.
      rewrite !existsb_str. apply H. exact Hy. }
    rewrite Q. destruct (existsb (str_eqb k) (map fst a)) eqn:E; cbn [negb].
    + rewrite R; [ reflexivity | ]. intros y Hy.
      change (map fst (dset k v a)) with (keys (dset k v a)). rewrite In_keys_dset.
      apply existsb_str in E. split; [ intros [->|H]; auto | auto ].
    + rewrite <- app_assoc. cbn. rewrite R; [ reflexivity | ]. intros y Hy.
      change (map fst (dset k v a)) with (keys (dset k v a)). rewrite In_keys_dset.
      split; [ intros [->|H]; [ contradiction | exact H ] | auto ].
Qed.

Lemma NoDup_union : forall b a, NoDup (keys a) -> NoDup (keys (union a b)).
Proof.
  induction b as [|[k v] b IH]; intros a H; [ exact H | ].
  unfold union. cbn. apply IH. apply NoDup_keys_dset. exact H.
Qed.

(** The statements: one more per text received. *)
Lemma graphs_takes : forall l st s,
  s < length (objs st) ->
  (forall k t, In (k, t) l -> t < length (objs st) /\ c_id (obj st t) = k
      /\ c_graph (obj st t) < length (graphs st)) ->
  forall g x, In x (nth g (graphs (fold_left (take_text s) l st)) [])
  <-> In x (nth g (graphs st) [])
      \/ exists k t, In (k, t) l /\ c_graph (obj st t) = g
           /\ x = (node (obj st t), cap_parent, node (obj st s)).
Proof.
  induction l as [|[k t] l IH]; intros st s Hs Hl g x; cbn [fold_left].
  - split; [ auto | ]. intros [H|(k & t & [] & _)]. exact H.
  - destruct (Hl k t (or_introl eq_refl)) as (Ht & Hk & Hg).
    assert (GT : graphs (take_text s st (k, t))
      = upd (graphs st) (c_graph (obj st t)) (g_add (node (obj st t), cap_parent, node (obj st s)))).
    { unfold take_text. cbn [fst snd]. unfold set_parent.
      set (a := set_child st s k t). set (b := with_obj a t (put_parent (Some s))).
      assert (Ob : forall y, c_graph (obj b y) = c_graph (obj st y) /\ c_id (obj b y) = c_id (obj st y)).
      { intros y. unfold b, a, set_child. rewrite !obj_with.
        destruct (Nat.eqb t y && _), (Nat.eqb s y && _); split; reflexivity. }
      unfold add_member. unfold node. rewrite !(proj1 (Ob _)), !(proj2 (Ob _)).
      destruct (dget _ _); reflexivity. }
    assert (Ob : forall y, c_graph (obj (take_text s st (k, t)) y) = c_graph (obj st y)
                           /\ node (obj (take_text s st (k, t)) y) = node (obj st y)).
    { intros y. unfold node. rewrite obj_take by assumption. split; reflexivity. }
    rewrite IH.
    + rewrite GT, nth_upd. apply Nat.ltb_lt in Hg. rewrite Hg, andb_true_r.
      rewrite (proj2 (Ob s)).
      assert (Tail : (exists k0 t0, In (k0, t0) l /\ c_graph (obj (take_text s st (k, t)) t0) = g
          /\ x = (node (obj (take_text s st (k, t)) t0), cap_parent, node (obj st s)))
        <-> (exists k0 t0, In (k0, t0) l /\ c_graph (obj st t0) = g
          /\ x = (node (obj st t0), cap_parent, node (obj st s)))).
      { split; intros (k0 & t0 & A & B & C); exists k0, t0;
          rewrite ?(proj1 (Ob t0)), ?(proj2 (Ob t0)) in *; auto. }
      rewrite Tail. clear Tail. destruct (Nat.eqb (c_graph (obj st t)) g) eqn:E.
      * apply Nat.eqb_eq in E. rewrite In_add. split.
        -- intros [[->|H]|(k0 & t0 & A & B & C)]; [ right; exists k, t; cbn; auto | auto | ].
           right. exists k0, t0. cbn. auto.
        -- intros [H|(k0 & t0 & [A|A] & B & C)]; [ auto | | right; exists k0, t0; auto ].
           injection A as <- <-. auto.
      * apply Nat.eqb_neq in E. split.
        -- intros [H|(k0 & t0 & A & B & C)]; [ auto | ]. right. exists k0, t0. cbn. auto.
        -- intros [H|(k0 & t0 & [A|A] & B & C)]; [ auto | | right; exists k0, t0; auto ].
           injection A as <- <-. contradiction.
    + rewrite length_take. exact Hs.
    + intros k' t' H. rewrite length_take. rewrite (proj1 (Ob t')).
      assert (LG : length (graphs (take_text s st (k, t))) = length (graphs st)).
      { rewrite GT. apply length_upd. }
      rewrite LG. rewrite obj_take by assumption. apply (Hl k' t'). right. exact H.
Qed.

Definition same_but_place (y y' : coll) : Prop :=
  c_kind y' = c_kind y /\ c_id y' = c_id y /\ c_urn y' = c_urn y /\ c_graph y' = c_graph y.

Theorem work_update_ok : forall st s o,
  s < length (objs st) ->
  c_kind (obj st o) = KWork -> c_urn (obj st s) = c_urn (obj st o) ->
  NoDup (keys (c_children (obj st o))) ->
  (forall k t, In (k, t) (c_children (obj st o)) ->
     t < length (objs st) /\ c_id (obj st t) = k
     /\ c_graph (obj st t) < length (graphs st)) ->
  exists st', work_update st s o = (st', Ok tt)
    /\ keys (c_children (obj st' s))
       = keys (c_children (obj st s))
         ++ new_keys (c_children (obj st s)) (c_children (obj st o))
    /\ (forall k, dget k (c_children (obj st' s))
          = match dget k (c_children (obj st o)) with
            | Some t => Some t
            | None => dget k (c_children (obj st s))
            end)
    /\ (forall x, x <> s -> c_children (obj st' x) = c_children (obj st x))
    /\ (forall x, (exists k, In (k, x) (c_children (obj st o))) ->
          c_parent (obj st' x) = Some s)
    /\ (forall x, (forall k, ~ In (k, x) (c_children (obj st o))) ->
          c_parent (obj st' x) = c_parent (obj st x))
    /\ (forall x, same_but_place (obj st x) (obj st' x))
    /\ (forall g x, In x (nth g (graphs st') [])
          <-> In x (nth g (graphs st) [])
              \/ exists k t, In (k, t) (c_children (obj st o)) /\ c_graph (obj st t) = g
                   /\ x = (node (obj st t), cap_parent, node (obj st s))).
Proof.
  intros st s o Hs Hk Hu Hn Hl. unfold work_update. rewrite Hk, Hu, str_eqb_refl.
  set (l := c_children (obj st o)) in *. eexists. split; [ reflexivity | ].
  assert (Hl' : forall k t, In (k, t) l -> t < length (objs st) /\ c_id (obj st t) = k)
    by (intros k t H; destruct (Hl k t H) as (A & B & _); auto).
  pose proof (obj_takes l st s Hs Hl') as O.
  repeat split.
  - rewrite O. cbn zeta. cbn [c_children]. rewrite Nat.eqb_refl. apply keys_union. exact Hn.
  - intros k. rewrite O. cbn zeta. cbn [c_children]. rewrite Nat.eqb_refl. apply dget_union. exact Hn.
  - intros x Hx. rewrite O. cbn zeta. cbn [c_children].
    assert (E : Nat.eqb s x = false) by (apply Nat.eqb_neq; auto). rewrite E. reflexivity.
  - intros x [k H]. rewrite O. cbn zeta. cbn [c_parent].
    assert (E : existsb (Nat.eqb x) (map snd l) = true).
    { apply existsb_exists. exists x. rewrite Nat.eqb_refl. split; [ | reflexivity ].
      change x with (snd (k, x)). apply in_map. exact H. }
    rewrite E. reflexivity.
  - intros x H. rewrite O. cbn zeta. cbn [c_parent].
    assert (E : existsb (Nat.eqb x) (map snd l) = false).
    { apply not_true_iff_false. rewrite existsb_exists. intros [y [Hy E]].
      apply Nat.eqb_eq in E. subst y. apply in_map_iff in Hy as [[k y] [E Hy]].
      cbn in E. subst y. exact (H k Hy). }
    rewrite E. reflexivity.
  - rewrite O. reflexivity.
  - rewrite O. reflexivity.
  - rewrite O. reflexivity.
  - rewrite O. reflexivity.
  - intros H. apply graphs_takes in H; [ exact H | exact Hs | exact Hl ].
  - intros H. apply graphs_takes; [ exact Hs | exact Hl | exact H ].
Qed.

Theorem work_update_errors : forall st s o,
  (c_kind (obj st o) <> KWork -> work_update st s o = (st, Err TypeError))
  /\ (c_kind (obj st o) = KWork -> c_urn (obj st s) <> c_urn (obj st o) ->
      work_update st s o = (st, Err InvalidURN)).
Proof.
  intros st s o. unfold work_update. split.
  - intros H. destruct (c_kind (obj st o)); congruence.
  - intros -> H. destruct (str_eqb (c_urn (obj st s)) (c_urn (obj st o))) eqn:E; [ | reflexivity ].
    apply str_eqb_eq in E. contradiction.
Qed.

(** ** Textgroups *)

Lemma obj_copy_old : forall st c x, x < length (objs st) ->
  obj (fst (deepcopy st c)) x = obj st x.
Proof. intros. unfold obj. cbn. rewrite app_nth1 by assumption. reflexivity. Qed.

Lemma obj_copy_new : forall st c x, x < length (objs st) ->
  obj (fst (deepcopy st c)) (length (objs st) + x)
  = shift (length (objs st)) (length (graphs st)) (obj st x).
Proof.
  intros st c x H. unfold obj. cbn. rewrite app_nth2 by lia.
  replace (length (objs st) + x - length (objs st)) with x by lia.
  rewrite (nth_indep _ _ (shift (length (objs st)) (length (graphs st)) nowhere))
    by (rewrite map_length; exact H).
  apply map_nth.
Qed.

Lemma length_copy : forall st c, length (objs (fst (deepcopy st c))) = length (objs st) + length (objs st).
Proof. intros. cbn. rewrite app_length, map_length. reflexivity. Qed.

Definition moved (n : nat) (d : list (str * nat)) : list (str * nat) :=
  map (fun e => (fst e, n + snd e)) d.

Lemma keys_moved : forall n d, keys (moved n d) = keys d.
Proof. intros. unfold keys, moved. rewrite map_map. reflexivity. Qed.

Lemma In_moved : forall n d k t, In (k, t) (moved n d) <-> exists u, In (k, u) d /\ t = n + u.
Proof.
  intros n d k t. unfold moved. rewrite in_map_iff. split.
  - intros [[k' u] [E H]]. cbn in E. injection E as -> <-. eauto.
  - intros [u [H ->]]. exists (k, u). auto.
Qed.

Lemma dget_moved : forall n d k, dget k (moved n d) = option_map (Nat.add n) (dget k d).
Proof.
  intros n d k. induction d as [|[x y] d IH]; cbn; [ reflexivity | ].
  destruct (str_eqb x k); [ reflexivity | exact IH ].
Qed.

(** A work received under a key the textgroup has. *)
Lemma step_shared : forall st s k w mine,
  s < length (objs st) -> w < length (objs st) -> mine < length (objs st) ->
  dget k (c_children (obj st s)) = Some mine ->
  c_kind (obj st mine) = KWork -> c_id (obj st mine) = k -> mine <> s ->
  c_kind (obj st w) = KWork -> c_urn (obj st mine) = c_urn (obj st w) ->
  (forall k2 t, In (k2, t) (c_children (obj st w)) ->
     t < length (objs st) /\ c_id (obj st t) = k2) ->
  let n := length (objs st) in
  exists st', take_work s (st, Ok tt) (k, w) = (st', Ok tt)
    /\ length (objs st') = n + n
    /\ (forall x, x < n -> obj st' x
          = MkColl (c_kind (obj st x)) (c_id (obj st x)) (c_urn (obj st x))
              (if Nat.eqb mine x then Some s else c_parent (obj st x))
              (if Nat.eqb mine x then union (c_children (obj st x)) (moved n (c_children (obj st w)))
               else c_children (obj st x))
              (c_graph (obj st x)))
    /\ (forall k2 t, In (k2, t) (c_children (obj st w)) ->
          c_kind (obj st' (n + t)) = c_kind (obj st t)
          /\ c_id (obj st' (n + t)) = c_id (obj st t)
          /\ c_urn (obj st' (n + t)) = c_urn (obj st t)
          /\ c_parent (obj st' (n + t)) = Some mine
          /\ keys (c_children (obj st' (n + t))) = keys (c_children (obj st t))).
Proof.
  intros st s k w mine Hs Hw Hm Hd Hmk Hmi Hms Hwk Hu Ht n.
  unfold take_work. destruct (deepcopy st w) as [st1 copy] eqn:C.
  assert (E1 : st1 = fst (deepcopy st w)) by (rewrite C; reflexivity).
  assert (E2 : copy = n + w) by (unfold deepcopy in C; injection C as _ <-; reflexivity).
  rewrite Hd, Hmk.
  assert (Old : forall x, x < n -> obj st1 x = obj st x) by (intros; subst st1; apply obj_copy_old; assumption).
  assert (New : forall x, x < n -> obj st1 (n + x) = shift n (length (graphs st)) (obj st x))
    by (intros; subst st1; apply obj_copy_new; assumption).
  assert (L1 : length (objs st1) = n + n) by (subst st1; apply length_copy).
  unfold work_update. subst copy. rewrite New by exact Hw. rewrite Old by exact Hm.
  cbn [shift c_kind c_urn c_children]. rewrite Hwk, Hu, str_eqb_refl.
  fold (moved n (c_children (obj st w))).
  set (l := moved n (c_children (obj st w))).
  set (st2 := fold_left (take_text mine) l st1).
  assert (L2 : length (objs st2) = n + n) by (unfold st2; rewrite length_takes; exact L1).
  assert (O2 : forall x, obj st2 x
    = let y := obj st1 x in
      MkColl (c_kind y) (c_id y) (c_urn y)
      (if existsb (Nat.eqb x) (map snd l) then Some mine else c_parent y)
      (if Nat.eqb mine x then union (c_children y) l else c_children y)
      (c_graph y)).
  { apply obj_takes; [ lia | ]. intros k2 t H. apply In_moved in H as [u [H ->]].
    destruct (Ht k2 u H) as [A B]. rewrite New by exact A. cbn. split; [ lia | exact B ]. }
  assert (Far : forall x, x < n -> existsb (Nat.eqb x) (map snd l) = false).
  { intros x Hx. apply not_true_iff_false. rewrite existsb_exists. intros [y [Hy E]].
    apply Nat.eqb_eq in E. subst y. apply in_map_iff in Hy as [[k2 y] [E Hy]]. cbn in E. subst y.
    apply In_moved in Hy as [u [_ E]]. lia. }
  assert (O3 : forall x, obj (set_parent st2 mine s) x
    = let y := obj st2 x in
      MkColl (c_kind y) (c_id y) (c_urn y)
        (if Nat.eqb mine x then Some s else c_parent y) (c_children y) (c_graph y)).
  { intros x. rewrite obj_set_parent by lia. cbn zeta. f_equal.
    assert (I : c_id (obj st2 mine) = k) by (rewrite O2, Old by exact Hm; exact Hmi).
    rewrite I. destruct (Nat.eqb s x) eqn:E; [ | reflexivity ]. apply Nat.eqb_eq in E. subst x.
    assert (X : existsb (str_eqb k) (keys (c_children (obj st2 s))) = true).
    { apply existsb_str. apply dget_keys. rewrite O2, Old by exact Hs. cbn [c_children].
      assert (Y : Nat.eqb mine s = false) by (apply Nat.eqb_neq; exact Hms).
      cbn zeta. rewrite Y. congruence. }
    rewrite X. reflexivity. }
  eexists. split; [ reflexivity | ]. split; [ rewrite length_set_parent; exact L2 | ]. split.
  - intros x Hx. rewrite O3, O2, Old by exact Hx. cbn zeta.
    cbn [c_kind c_id c_urn c_parent c_children c_graph]. rewrite Far by exact Hx. reflexivity.
  - intros k2 t H. destruct (Ht k2 t H) as [A B].
    rewrite O3, O2, New by exact A. cbn zeta. cbn [c_kind c_id c_urn c_parent c_children c_graph shift].
    assert (E : Nat.eqb mine (n + t) = false) by (apply Nat.eqb_neq; unfold n in *; lia).
    repeat split; [ | rewrite E; apply keys_moved ].
    rewrite E. assert (X : existsb (Nat.eqb (n + t)) (map snd l) = true).
    { apply existsb_exists. exists (n + t). rewrite Nat.eqb_refl. split; [ | reflexivity ].
      change (n + t) with (snd (k2, n + t)). apply in_map. apply In_moved. eauto. }
    rewrite X. reflexivity.
Qed.

(** A work received under a new key. *)
Lemma step_new : forall st s k w,
  s < length (objs st) -> w < length (objs st) ->
  dget k (c_children (obj st s)) = None -> c_id (obj st w) = k ->
  let n := length (objs st) in
  exists st', take_work s (st, Ok tt) (k, w) = (st', Ok tt)
    /\ length (objs st') = n + n
    /\ (forall x, x < n -> obj st' x
          = MkColl (c_kind (obj st x)) (c_id (obj st x)) (c_urn (obj st x))
              (c_parent (obj st x))
              (if Nat.eqb s x then c_children (obj st x) ++ [(k, n + w)]
               else c_children (obj st x))
              (c_graph (obj st x)))
    /\ c_kind (obj st' (n + w)) = c_kind (obj st w)
    /\ c_id (obj st' (n + w)) = k
    /\ c_urn (obj st' (n + w)) = c_urn (obj st w)
    /\ c_parent (obj st' (n + w)) = Some s
    /\ c_children (obj st' (n + w)) = moved n (c_children (obj st w))
    /\ (forall t, t < n -> t <> w ->
          c_kind (obj st' (n + t)) = c_kind (obj st t)
          /\ c_id (obj st' (n + t)) = c_id (obj st t)
          /\ c_urn (obj st' (n + t)) = c_urn (obj st t)
          /\ c_parent (obj st' (n + t)) = option_map (Nat.add n) (c_parent (obj st t))
          /\ keys (c_children (obj st' (n + t))) = keys (c_children (obj st t))).
Proof.
  intros st s k w Hs Hw Hd Hk n.
  unfold take_work. destruct (deepcopy st w) as [st1 copy] eqn:C.
  assert (E1 : st1 = fst (deepcopy st w)) by (rewrite C; reflexivity).
  assert (E2 : copy = n + w) by (unfold deepcopy in C; injection C as _ <-; reflexivity).
  rewrite Hd.
  assert (Old : forall x, x < n -> obj st1 x = obj st x) by (intros; subst st1; apply obj_copy_old; assumption).
  assert (New : forall x, x < n -> obj st1 (n + x) = shift n (length (graphs st)) (obj st x))
    by (intros; subst st1; apply obj_copy_new; assumption).
  assert (L1 : length (objs st1) = n + n) by (subst st1; apply length_copy).
  subst copy.
  change (set_parent (set_child st1 s k (n + w)) (n + w) s) with (take_text s st1 (k, n + w)).
  assert (O : forall x, obj (take_text s st1 (k, n + w)) x
    = let y := obj st1 x in
    MkColl (c_kind y) (c_id y) (c_urn y)
      (if Nat.eqb (n + w) x then Some s else c_parent y)
      (if Nat.eqb s x then dset k (n + w) (c_children y) else c_children y)
      (c_graph y)).
  { intros x. apply obj_take; [ lia | unfold n in *; lia | ]. rewrite New by exact Hw. exact Hk. }
  assert (Ss : forall x, x < n -> Nat.eqb (n + w) x = false) by (intros; apply Nat.eqb_neq; lia).
  assert (Sn : forall x, Nat.eqb s (n + x) = false) by (intros; apply Nat.eqb_neq; unfold n; lia).
  eexists. split; [ reflexivity | ]. split; [ rewrite length_take; exact L1 | ]. split; [ | split; [ | split; [ | split; [ | split; [ | split ] ] ] ] ].
  - intros x Hx. rewrite O, Old by exact Hx. cbn zeta. rewrite Ss by exact Hx. f_equal.
    destruct (Nat.eqb s x) eqn:E; [ | reflexivity ]. apply Nat.eqb_eq in E. subst x.
    apply dset_new. exact Hd.
  - rewrite O, New by exact Hw. reflexivity.
  - rewrite O, New by exact Hw. exact Hk.
  - rewrite O, New by exact Hw. reflexivity.
  - rewrite O, New by exact Hw. cbn zeta. cbn [c_parent]. rewrite Nat.eqb_refl. reflexivity.
  - rewrite O, New by exact Hw. cbn zeta. cbn [c_children shift]. rewrite Sn. reflexivity.
  - intros t Ht Hne. rewrite O, New by exact Ht. cbn zeta. cbn [c_kind c_id c_urn c_parent c_children shift].
    assert (E : Nat.eqb (n + w) (n + t) = false) by (apply Nat.eqb_neq; lia). rewrite E, Sn.
    repeat (split; [ reflexivity | ]). apply keys_moved.
Qed.

Section Fold.

Variables (st0 : state) (s o : nat).
Hypothesis Ts : textgroup_tree st0 s.
Hypothesis To : textgroup_tree st0 o.
Hypothesis Hso : s <> o.
Hypothesis Hshared : forall k w wo, In (k, w) (c_children (obj st0 s)) ->
  In (k, wo) (c_children (obj st0 o)) -> c_urn (obj st0 w) = c_urn (obj st0 wo).

Let n0 := length (objs st0).
Let S0 := c_children (obj st0 s).

Definition touched (d : list (str * nat)) (x : nat) : Prop :=
  exists k, In (k, x) S0 /\ In k (keys d).

Record inv (d : list (str * nat)) (st : state) : Prop := {
  i_len : n0 <= length (objs st);
  i_frame : forall x, x < n0 -> x <> s -> ~ touched d x -> obj st x = obj st0 x;
  i_self : alike st0 s st s /\ c_parent (obj st s) = c_parent (obj st0 s);
  i_keys : keys (c_children (obj st s)) = keys S0 ++ new_keys S0 d;
  i_old : forall k w, In (k, w) S0 ->
    dget k (c_children (obj st s)) = Some w /\ alike st0 w st w;
  i_shared : forall k w wo, In (k, w) S0 -> In (k, wo) d ->
    c_parent (obj st w) = Some s
    /\ keys (c_children (obj st w))
       = keys (c_children (obj st0 w)) ++ new_keys (c_children (obj st0 w)) (c_children (obj st0 wo))
    /\ (forall k2, ~ In k2 (keys (c_children (obj st0 wo))) ->
          dget k2 (c_children (obj st w)) = dget k2 (c_children (obj st0 w)))
    /\ received st0 wo st w;
  i_new : forall k wo, In (k, wo) d -> ~ In k (keys S0) ->
    exists w', dget k (c_children (obj st s)) = Some w'
      /\ n0 <= w' < length (objs st)
      /\ alike st0 wo st w' /\ c_parent (obj st w') = Some s
      /\ keys (c_children (obj st w')) = keys (c_children (obj st0 wo))
      /\ received st0 wo st w' }.

Lemma received_frame : forall wo st st' w', 
  (forall x, n0 <= x < length (objs st) -> obj st' x = obj st x) ->
  length (objs st) <= length (objs st') ->
  c_children (obj st' w') = c_children (obj st w') ->
  received st0 wo st w' -> received st0 wo st' w'.
Proof.
  intros wo st st' w' F L C R k t H. destruct (R k t H) as (t' & A & B & D & E & K).
  exists t'. rewrite C, (F t' B). unfold alike. rewrite (F t' B).
  repeat split; try assumption; try apply D; fold n0; fold n0 in B; lia.
Qed.

Lemma In_S0 : forall k, In k (keys S0) <-> exists w, In (k, w) S0.
Proof.
  intros k. unfold keys. rewrite in_map_iff. split.
  - intros [[k' w] [E H]]. cbn in E. subst k'. eauto.
  - intros [w H]. exists (k, w). auto.
Qed.

Lemma new_keys_snoc : forall (d : list (str * nat)) k w,
  new_keys S0 (d ++ [(k, w)])
  = new_keys S0 d ++ (if existsb (str_eqb k) (keys S0) then [] else [k]).
Proof.
  intros d k w. unfold new_keys. rewrite map_app, filter_app. cbn. f_equal. unfold keys.
  destruct (existsb (str_eqb k) (map fst S0)); reflexivity.
Qed.

Lemma S0_work : forall k w, In (k, w) S0 -> w < n0 /\ c_kind (obj st0 w) = KWork
  /\ c_id (obj st0 w) = k /\ w <> s /\ w <> o.
Proof.
  intros k w H. destruct (tg_work _ _ Ts k w H) as (A & B & C & _).
  repeat split; auto; intros ->; [ rewrite (tg_kind _ _ Ts) in B | rewrite (tg_kind _ _ To) in B ]; discriminate.
Qed.

Lemma S0_key : forall k k' w, In (k, w) S0 -> In (k', w) S0 -> k = k'.
Proof.
  intros k k' w H H'. destruct (S0_work _ _ H) as (_ & _ & <- & _).
  destruct (S0_work _ _ H') as (_ & _ & <- & _). reflexivity.
Qed.

Lemma S0_val : forall k w w', In (k, w) S0 -> In (k, w') S0 -> w = w'.
Proof.
  intros k w w' H H'. apply dget_In_iff in H, H'; try apply (tg_dict _ _ Ts). congruence.
Qed.

(** The works and texts of the other textgroup are out of reach. *)
Lemma O_work : forall k w, In (k, w) (c_children (obj st0 o)) ->
  w < n0 /\ w <> s /\ forall k', ~ In (k', w) S0.
Proof.
  intros k w H. destruct (tg_work _ _ To k w H) as (A & B & C & D & _). repeat split; auto.
  - intros ->. rewrite (tg_kind _ _ Ts) in B. discriminate.
  - intros k' H'. destruct (tg_work _ _ Ts k' w H') as (_ & _ & _ & D' & _). congruence.
Qed.

Lemma O_text : forall k w k2 t, In (k, w) (c_children (obj st0 o)) ->
  In (k2, t) (c_children (obj st0 w)) -> t < n0 /\ t <> s /\ t <> w /\ forall k', ~ In (k', t) S0.
Proof.
  intros k w k2 t H H2. destruct (tg_text _ _ To k w k2 t H H2) as (A & [sub B] & C & D).
  destruct (tg_work _ _ To k w H) as (_ & B' & _).
  repeat split; auto.
  - intros ->. rewrite (tg_kind _ _ Ts) in B. discriminate.
  - intros ->. congruence.
  - intros k' H'. destruct (S0_work _ _ H') as (_ & B2 & _). congruence.
Qed.

Lemma alike_step : forall st st' a x, obj st' x = obj st x ->
  alike st0 a st x -> alike st0 a st' x.
Proof. intros st st' a x E H. unfold alike. rewrite E. exact H. Qed.

Lemma inv_step : forall d k w st, inv d st ->
  In (k, w) (c_children (obj st0 o)) -> ~ In k (keys d) ->
  (forall k' w', In (k', w') d -> In (k', w') (c_children (obj st0 o))) ->
  exists st', take_work s (st, Ok tt) (k, w) = (st', Ok tt) /\ inv (d ++ [(k, w)]) st'.
Proof.
  intros d k w st I Hkw Hnew Hd.
  pose proof (i_len _ _ I) as L. pose proof (tg_in _ _ Ts) as Ls. fold n0 in Ls.
  destruct (O_work _ _ Hkw) as (Lw & Nws & Nw).
  destruct (tg_work _ _ To k w Hkw) as (_ & Kw & Iw & Pw & NDw).
  assert (Out : forall x, x < n0 -> x <> s -> (forall k', ~ In (k', x) S0) -> obj st x = obj st0 x).
  { intros x A B C. apply (i_frame _ _ I); auto. intros (k' & H & _). exact (C k' H). }
  assert (Ow : obj st w = obj st0 w) by (apply Out; assumption).
  assert (Ot : forall k2 t, In (k2, t) (c_children (obj st0 w)) -> obj st t = obj st0 t).
  { intros k2 t H. destruct (O_text _ _ _ _ Hkw H) as (A & B & _ & C). apply Out; assumption. }
  assert (Tsnoc : forall x, touched (d ++ [(k, w)]) x <-> touched d x \/ In (k, x) S0).
  { intros x. unfold touched, keys. rewrite map_app. cbn. split.
    - intros (k' & H & H'). apply in_app_iff in H' as [H'|[<-|[]]]; eauto.
    - intros [(k' & H & H')|H]; [ exists k' | exists k ]; (split; [ assumption | ]); apply in_app_iff; cbn; auto. }
  assert (Insnoc : forall k' w', In (k', w') (d ++ [(k, w)]) <-> In (k', w') d \/ (k' = k /\ w' = w)).
  { intros k' w'. rewrite in_app_iff. cbn. split; [ intros [H|[H|[]]]; [ auto | injection H; auto ] | ].
    intros [H|[-> ->]]; auto. }
  assert (Dk : forall k' w', In (k', w') d -> k' <> k).
  { intros k' w' H ->. apply Hnew. unfold keys. change k with (fst (k, w')). apply in_map. exact H. }
  destruct (dget k S0) as [mine|] eqn:G.
  - (* a key of both *)
    assert (Hm : In (k, mine) S0) by (apply dget_In; exact G).
    destruct (S0_work _ _ Hm) as (Lm & Km & Im & Nms & Nmo).
    destruct (i_old _ _ I k mine Hm) as (Gm & Am).
    assert (Om : obj st mine = obj st0 mine).
    { apply (i_frame _ _ I); [ exact Lm | exact Nms | ]. intros (k' & H & H').
      rewrite (S0_key _ _ _ H Hm) in H'. contradiction. }
    destruct (step_shared st s k w mine) as (st' & E & L' & F & T); try lia; try assumption.
    { rewrite Om. exact Km. } { rewrite Om. exact Im. } { rewrite Ow. exact Kw. }
    { rewrite Om, Ow. eapply Hshared; eassumption. }
    { rewrite Ow. intros k2 t H. rewrite (Ot k2 t H). destruct (tg_text _ _ To k w k2 t Hkw H) as (A & _ & B & _).
      fold n0 in A. split; [ lia | exact B ]. }
    set (n := length (objs st)) in *.
    assert (Same : forall x, x < n -> x <> mine -> obj st' x = obj st x).
    { intros x Hx Hne. rewrite F by exact Hx.
      assert (Z : Nat.eqb mine x = false) by (apply Nat.eqb_neq; auto). rewrite Z.
      destruct (obj st x); reflexivity. }
    assert (Far : forall x, n0 <= x < n -> obj st' x = obj st x) by (intros x Hx; apply Same; lia).
    assert (Es : obj st' s = obj st s) by (apply Same; [ lia | auto ]).
    assert (Em : obj st' mine = MkColl (c_kind (obj st0 mine)) (c_id (obj st0 mine)) (c_urn (obj st0 mine))
       (Some s) (union (c_children (obj st0 mine)) (moved n (c_children (obj st0 w)))) (c_graph (obj st0 mine))).
    { rewrite F by lia. rewrite Nat.eqb_refl, Om, Ow. reflexivity. }
    exists st'. split; [ exact E | ]. constructor.
    + unfold n in L'. lia.
    + intros x A B C. rewrite Same; [ | lia | ].
      * apply (i_frame _ _ I); auto. intros H. apply C. apply Tsnoc. auto.
      * intros ->. apply C. apply Tsnoc. auto.
    + rewrite Es. destruct (i_self _ _ I) as [A B]. split; [ | exact B ]. eapply alike_step; eassumption.
    + rewrite Es, new_keys_snoc, (i_keys _ _ I).
      assert (Z : existsb (str_eqb k) (keys S0) = true) by (apply existsb_str, In_S0; eauto).
      rewrite Z, app_nil_r. reflexivity.
    + intros k' w' H. rewrite Es. destruct (i_old _ _ I k' w' H) as [A B]. split; [ exact A | ].
      destruct (Nat.eq_dec w' mine) as [->|Hne].
      * unfold alike. rewrite Em. repeat split; reflexivity.
      * eapply alike_step; [ apply Same; [ | exact Hne ] | exact B ].
        destruct (S0_work _ _ H) as [A' _]. lia.
    + intros k' w' wo H H'. apply Insnoc in H' as [H'|[-> ->]].
      * assert (w' <> mine).
        { intros ->. apply (Dk _ _ H'). eapply S0_key; eassumption. }
        destruct (S0_work _ _ H) as [A' _].
        assert (Ew : obj st' w' = obj st w') by (apply Same; [ lia | assumption ]).
        rewrite Ew. destruct (i_shared _ _ I k' w' wo H H') as (P1 & P2 & P3 & P4).
        repeat split; try assumption.
        eapply received_frame; [ exact Far | lia | rewrite Ew; reflexivity | exact P4 ].
      * assert (w' = mine) by (eapply S0_val; eassumption). subst w'. rewrite Em.
        cbn [c_parent c_children].
        assert (NM : NoDup (keys (moved n (c_children (obj st0 w))))) by (rewrite keys_moved; exact NDw).
        repeat split.
        -- rewrite keys_union by exact NM. f_equal. unfold new_keys.
           change (map fst (moved n (c_children (obj st0 w)))) with (keys (moved n (c_children (obj st0 w)))).
           rewrite keys_moved. reflexivity.
        -- intros k2 H2. rewrite dget_union by exact NM. rewrite dget_moved.
           apply dget_none in H2. rewrite H2. reflexivity.
        -- intros k2 t H2. exists (n + t). rewrite Em. cbn [c_children].
           rewrite dget_union by exact NM. rewrite dget_moved.
           rewrite (proj2 (dget_In_iff k2 t _ NDw) H2). cbn [option_map].
           destruct (T k2 t) as (T1 & T2 & T3 & T4 & T5); [ rewrite Ow; exact H2 | ].
           rewrite (Ot k2 t H2) in T1, T2, T3, T5.
           destruct (O_text _ _ _ _ Hkw H2) as (A & _).
           fold n0. repeat split; auto; lia.
    + intros k' wo H H'. apply Insnoc in H as [H|[-> ->]]; [ | exfalso; apply H', In_S0; eauto ].
      destruct (i_new _ _ I k' wo H H') as (w' & P1 & P2 & P3 & P4 & P5 & P6).
      exists w'. rewrite Es. assert (Ew : obj st' w' = obj st w') by (apply Far; exact P2).
      rewrite Ew. repeat split; try assumption; try apply P2; try lia.
      * unfold alike in P3. rewrite Ew. apply P3.
      * rewrite Ew. apply P3.
      * rewrite Ew. apply P3.
      * eapply received_frame; [ exact Far | lia | rewrite Ew; reflexivity | exact P6 ].
  - (* a new key *)
    assert (Nk : ~ In k (keys S0)) by (apply dget_none; exact G).
    assert (Gs : dget k (c_children (obj st s)) = None).
    { apply dget_none. rewrite (i_keys _ _ I). intros H. apply in_app_iff in H as [H|H]; [ contradiction | ].
      unfold new_keys in H. apply filter_In in H as [H _]. contradiction. }
    destruct (step_new st s k w) as (st' & E & L' & F & N1 & N2 & N3 & N4 & N5 & N6); try lia; try assumption.
    { rewrite Ow. exact Iw. }
    set (n := length (objs st)) in *.
    assert (Same : forall x, x < n -> x <> s -> obj st' x = obj st x).
    { intros x Hx Hne. rewrite F by exact Hx.
      assert (Z : Nat.eqb s x = false) by (apply Nat.eqb_neq; auto). rewrite Z.
      destruct (obj st x); reflexivity. }
    assert (Far : forall x, n0 <= x < n -> obj st' x = obj st x) by (intros x Hx; apply Same; lia).
    assert (Es : obj st' s = MkColl (c_kind (obj st s)) (c_id (obj st s)) (c_urn (obj st s))
       (c_parent (obj st s)) (c_children (obj st s) ++ [(k, n + w)]) (c_graph (obj st s))).
    { rewrite F by lia. rewrite Nat.eqb_refl. reflexivity. }
    assert (Gd : forall k' v, dget k' (c_children (obj st s)) = Some v ->
      dget k' (c_children (obj st' s)) = Some v).
    { intros k' v H. rewrite Es. cbn [c_children]. rewrite dget_app, H. reflexivity. }
    exists st'. split; [ exact E | ]. constructor.
    + unfold n in L'. lia.
    + intros x A B C. rewrite Same; [ | lia | exact B ].
      apply (i_frame _ _ I); auto. intros H. apply C. apply Tsnoc. auto.
    + rewrite Es. destruct (i_self _ _ I) as [A B]. split; [ | exact B ].
      unfold alike. rewrite Es. exact A.
    + rewrite Es, new_keys_snoc. cbn [c_children]. unfold keys at 1. rewrite map_app.
      change (map fst (c_children (obj st s))) with (keys (c_children (obj st s))).
      rewrite (i_keys _ _ I), <- app_assoc.
      assert (Z : existsb (str_eqb k) (keys S0) = false) by (apply existsb_str_false; exact Nk).
      rewrite Z. reflexivity.
    + intros k' w' H. destruct (i_old _ _ I k' w' H) as [A B]. split; [ apply Gd; exact A | ].
      destruct (S0_work _ _ H) as (A' & _ & _ & B' & _).
      eapply alike_step; [ apply Same; [ lia | exact B' ] | exact B ].
    + intros k' w' wo H H'. apply Insnoc in H' as [H'|[-> ->]]; [ | exfalso; apply Nk, In_S0; eauto ].
      destruct (S0_work _ _ H) as (A' & _ & _ & B' & _).
      assert (Ew : obj st' w' = obj st w') by (apply Same; [ lia | assumption ]).
      rewrite Ew. destruct (i_shared _ _ I k' w' wo H H') as (P1 & P2 & P3 & P4).
      repeat split; try assumption.
      eapply received_frame; [ exact Far | lia | rewrite Ew; reflexivity | exact P4 ].
    + intros k' wo H H'. apply Insnoc in H as [H|[-> ->]].
      * destruct (i_new _ _ I k' wo H H') as (w' & P1 & P2 & P3 & P4 & P5 & P6).
        exists w'. assert (Ew : obj st' w' = obj st w') by (apply Far; exact P2).
        rewrite (Gd _ _ P1), Ew. repeat split; try assumption; try apply P2; try lia.
        -- rewrite Ew. apply P3.
        -- rewrite Ew. apply P3.
        -- rewrite Ew. apply P3.
        -- eapply received_frame; [ exact Far | lia | rewrite Ew; reflexivity | exact P6 ].
      * exists (n + w). rewrite N4, N5, keys_moved, Ow. rewrite Ow in N1, N3.
        assert (Gk : dget k (c_children (obj st' s)) = Some (n + w)).
        { rewrite Es. cbn [c_children]. rewrite dget_app, Gs. cbn. rewrite str_eqb_refl. reflexivity. }
        rewrite Gk. repeat split; try lia; auto.
        { congruence. }
        intros k2 t H2. exists (n + t). rewrite N5, Ow, dget_moved.
        rewrite (proj2 (dget_In_iff k2 t _ NDw) H2). cbn [option_map].
        destruct (O_text _ _ _ _ Hkw H2) as (A & _ & A2 & _).
        destruct (N6 t) as (T1 & T2 & T3 & T4 & T5); [ lia | exact A2 | ].
        rewrite (Ot k2 t H2) in T1, T2, T3, T4, T5.
        destruct (tg_text _ _ To k w k2 t Hkw H2) as (_ & _ & _ & P).
        rewrite P in T4. cbn in T4. fold n0. repeat split; auto; lia.
Qed.

Lemma inv_fold : forall l d st, inv d st ->
  (forall k w, In (k, w) (d ++ l) -> In (k, w) (c_children (obj st0 o))) ->
  NoDup (keys (d ++ l)) ->
  exists st', fold_left (take_work s) l (st, Ok tt) = (st', Ok tt) /\ inv (d ++ l) st'.
Proof.
  induction l as [|[k w] l IH]; intros d st I Hin Hn.
  - exists st. rewrite app_nil_r. auto.
  - destruct (inv_step d k w st I) as (st1 & E & I1).
    + apply Hin. apply in_app_iff. right. left. reflexivity.
    + unfold keys in Hn. rewrite map_app in Hn. cbn in Hn.
      apply NoDup_remove_2 in Hn. intros H. apply Hn. apply in_app_iff. auto.
    + intros. apply Hin. apply in_app_iff. auto.
    + cbn [fold_left]. rewrite E. replace (d ++ (k, w) :: l) with ((d ++ [(k, w)]) ++ l) in *
        by (rewrite <- app_assoc; reflexivity).
      apply IH; assumption.
Qed.

Lemma inv_start : inv [] st0.
Proof.
  constructor.
  - lia.
  - reflexivity.
  - repeat split.
  - cbn. rewrite app_nil_r. reflexivity.
  - intros k w H. split; [ apply dget_In_iff; [ apply (tg_dict _ _ Ts) | exact H ] | repeat split ].
  - intros k w wo _ [].
  - intros k wo [].
Qed.

Theorem textgroup_update_merged : c_urn (obj st0 s) = c_urn (obj st0 o) ->
  exists st', textgroup_update st0 s o = (st', Ok tt) /\ merged st0 s o st'.
Proof.
  intros Hu. unfold textgroup_update. rewrite (tg_kind _ _ To), Hu, str_eqb_refl.
  destruct (inv_fold (c_children (obj st0 o)) [] st0 inv_start) as (st' & E & I);
    [ auto | apply (tg_dict _ _ To) | ].
  exists st'. split; [ exact E | ]. cbn [app] in I. constructor.
  - apply (i_keys _ _ I).
  - apply (i_self _ _ I).
  - intros k w H N. destruct (i_old _ _ I k w H) as [A B]. split; [ exact A | ].
    destruct (S0_work _ _ H) as (A' & _ & _ & B' & _).
    apply (i_frame _ _ I); [ exact A' | exact B' | ]. intros (k' & H' & K).
    rewrite (S0_key _ _ _ H' H) in K. contradiction.
  - intros k w wo H H'. destruct (i_old _ _ I k w H) as [A B].
    destruct (i_shared _ _ I k w wo H H') as (P1 & P2 & P3 & P4). auto 10.
  - apply (i_new _ _ I).
  - intros x A B C. apply (i_frame _ _ I); [ exact A | exact B | ].
    intros (k & H & K). exact (C k H K).
Qed.

End Fold.

Theorem textgroup_update_errors : forall st s o,
  (c_kind (obj st o) <> KTextgroup -> textgroup_update st s o = (st, Err TypeError))
  /\ (c_kind (obj st o) = KTextgroup -> c_urn (obj st s) <> c_urn (obj st o) ->
      textgroup_update st s o = (st, Err InvalidURN)).
Proof.
  intros st s o. unfold textgroup_update. split.
  - intros H. destruct (c_kind (obj st o)); congruence.
  - intros -> H. destruct (str_eqb (c_urn (obj st s)) (c_urn (obj st o))) eqn:E; [ | reflexivity ].
    apply str_eqb_eq in E. contradiction.
Qed.

(** ** Merging twice *)

Lemma new_keys_none : forall {A B} (a : list (str * A)) (b : list (str * B)),
  (forall k, In k (keys b) -> In k (keys a)) -> new_keys a b = [].
Proof.
  intros A B a b H. unfold new_keys. apply filter_none. intros k Hk.
  apply negb_false_iff. apply existsb_str. apply H. exact Hk.
Qed.

Lemma In_new_keys : forall {A B} (a : list (str * A)) (b : list (str * B)) k,
  In k (new_keys a b) <-> In k (keys b) /\ ~ In k (keys a).
Proof.
  intros. unfold new_keys. rewrite filter_In, negb_true_iff.
  change (map fst a) with (keys a). change (map fst b) with (keys b).
  rewrite existsb_str_false. reflexivity.
Qed.

Lemma NoDup_app_ : forall {A} (a b : list A), NoDup a -> NoDup b ->
  (forall x, In x a -> In x b -> False) -> NoDup (a ++ b).
Proof.
  intros A a b Ha Hb H. induction Ha as [|x a Hx Ha IH]; [ exact Hb | ]. cbn. constructor.
  - intros X. apply in_app_iff in X as [X|X]; [ contradiction | ]. apply (H x); cbn; auto.
  - apply IH. intros y Hy. apply H. right. exact Hy.
Qed.

Lemma NoDup_new_keys : forall {A B} (a : list (str * A)) (b : list (str * B)),
  NoDup (keys a) -> NoDup (keys b) -> NoDup (keys a ++ new_keys a b).
Proof.
  intros A B a b Ha Hb. apply NoDup_app_; [ exact Ha | apply NoDup_filter; exact Hb | ].
  intros k H H'. apply In_new_keys in H' as [_ H']. contradiction.
Qed.

Lemma In_keys : forall {A} k (d : list (str * A)), In k (keys d) <-> exists v, In (k, v) d.
Proof.
  intros A k d. unfold keys. rewrite in_map_iff. split.
  - intros [[k' w] [E H]]. cbn in E. subst k'. eauto.
  - intros [w H]. exists (k, w). auto.
Qed.

Section After.

Variables (st : state) (s o : nat) (st' : state).
Hypothesis Ts : textgroup_tree st s.
Hypothesis To : textgroup_tree st o.
Hypothesis Hso : s <> o.
Hypothesis M : merged st s o st'.
Hypothesis Len : length (objs st) <= length (objs st').

Lemma after_other : forall x, (x = o \/ exists k w, In (k, w) (c_children (obj st o))
    /\ (x = w \/ exists k2, In (k2, x) (c_children (obj st w)))) ->
  x < length (objs st) /\ obj st' x = obj st x.
Proof.
  intros x H.
  assert (A : x < length (objs st) /\ x <> s /\ forall k, ~ In (k, x) (c_children (obj st s))).
  { destruct H as [->|(k & w & H & [->|[k2 H2]])].
    - split; [ apply (tg_in _ _ To) | ]. split; [ auto | ]. intros k H.
      destruct (S0_work st s o Ts To k o H) as (_ & _ & _ & _ & X). congruence.
    - eapply (O_work st s o Ts To Hso); eassumption.
    - destruct (O_text st s o Ts To k w k2 x H H2) as (X & Y & _ & Z). auto. }
  destruct A as (A & B & C). split; [ exact A | ].
  apply (m_frame _ _ _ _ M); [ exact A | exact B | ]. intros k Hk. destruct (C k Hk).
Qed.

Lemma after_other_tree : textgroup_tree st' o.
Proof.
  assert (Eo : obj st' o = obj st o) by (apply after_other; auto).
  assert (Ew : forall k w, In (k, w) (c_children (obj st o)) -> w < length (objs st) /\ obj st' w = obj st w)
    by (intros; apply after_other; right; eauto).
  constructor.
  - pose proof (tg_in _ _ To). lia.
  - rewrite Eo. apply (tg_kind _ _ To).
  - rewrite Eo. apply (tg_dict _ _ To).
  - intros k w H. rewrite Eo in H. destruct (Ew k w H) as [A B]. rewrite B.
    split; [ lia | ]. apply (tg_work _ _ To k w H).
  - intros k w k2 t H H2. rewrite Eo in H. destruct (Ew k w H) as [A B]. rewrite B in H2.
    destruct (after_other t) as [C D]; [ right; exists k, w; eauto | ].
    unfold text. rewrite D. split; [ lia | ]. apply (tg_text _ _ To k w k2 t H H2).
Qed.

Lemma after_dict : NoDup (keys (c_children (obj st' s))).
Proof.
  rewrite (m_keys _ _ _ _ M). apply NoDup_new_keys; [ apply (tg_dict _ _ Ts) | apply (tg_dict _ _ To) ].
Qed.

(** Each work after the merge comes from one of three places. *)
Lemma after_work : forall k w', In (k, w') (c_children (obj st' s)) ->
  (In (k, w') (c_children (obj st s)) /\ ~ In k (keys (c_children (obj st o))))
  \/ (exists wo, In (k, w') (c_children (obj st s)) /\ In (k, wo) (c_children (obj st o)))
  \/ (exists wo, In (k, wo) (c_children (obj st o)) /\ ~ In k (keys (c_children (obj st s)))).
Proof.
  intros k w' H. pose proof H as H'. apply dget_In_iff in H'; [ | exact after_dict ].
  assert (K : In k (keys (c_children (obj st' s)))) by (apply In_keys; eauto).
  rewrite (m_keys _ _ _ _ M) in K. apply in_app_iff in K as [K|K].
  - apply In_keys in K as [w K].
    destruct (dget k (c_children (obj st o))) as [wo|] eqn:E.
    + apply dget_In in E. destruct (m_shared _ _ _ _ M k w wo K E) as [X _].
      assert (w = w') by congruence. subst w'. right. left. eauto.
    + apply dget_none in E. destruct (m_kept _ _ _ _ M k w K E) as [X _].
      assert (w = w') by congruence. subst w'. left. auto.
  - apply In_new_keys in K as [K N]. apply In_keys in K as [wo K]. right. right. eauto.
Qed.

Lemma after_self_tree : textgroup_tree st' s.
Proof.
  pose proof (tg_in _ _ Ts) as Ls.
  assert (Tx : forall wo w', received st wo st' w' ->
    (forall k t, In (k, t) (c_children (obj st wo)) -> text st t /\ c_id (obj st t) = k) ->
    forall k t', dget k (c_children (obj st' w')) = Some t' ->
    In k (keys (c_children (obj st wo))) ->
    t' < length (objs st') /\ text st' t' /\ c_id (obj st' t') = k /\ c_parent (obj st' t') = Some w').
  { intros wo w' R Ht k t' G K. apply In_keys in K as [t K].
    destruct (R k t K) as (u & A & B & (C1 & C2 & C3) & D & _). rewrite A in G. injection G as <-.
    destruct (Ht k t K) as [[sub E1] E2]. repeat split; try lia; try congruence.
    exists sub. congruence. }
  constructor.
  - lia.
  - destruct (m_self _ _ _ _ M) as [(A & _) _]. rewrite <- A. apply (tg_kind _ _ Ts).
  - exact after_dict.
  - intros k w' H. pose proof H as G. apply dget_In_iff in G; [ | exact after_dict ].
    destruct (after_work k w' H) as [[A B]|[(wo & A & B)|(wo & A & B)]].
    + destruct (m_kept _ _ _ _ M k w' A B) as [_ E]. rewrite E.
      destruct (tg_work _ _ Ts k w' A) as (X & Y). split; [ lia | exact Y ].
    + destruct (m_shared _ _ _ _ M k w' wo A B) as (_ & (C1 & C2 & C3) & D & E & _).
      destruct (tg_work _ _ Ts k w' A) as (X1 & X2 & X3 & X4 & X5).
      destruct (tg_work _ _ To k wo B) as (_ & _ & _ & _ & Y5).
      rewrite E. repeat split; try congruence; [ lia | ]. apply NoDup_new_keys; assumption.
    + destruct (m_new _ _ _ _ M k wo A B) as (w2 & G2 & C & (D1 & D2 & D3) & E & F & _).
      rewrite G in G2. injection G2 as <-.
      destruct (tg_work _ _ To k wo A) as (_ & X2 & X3 & _ & X5).
      rewrite F. repeat split; try congruence; lia.
  - intros k w' k2 t' H H2. pose proof H as G. apply dget_In_iff in G; [ | exact after_dict ].
    destruct (after_work k w' H) as [[A B]|[(wo & A & B)|(wo & A & B)]].
    + destruct (m_kept _ _ _ _ M k w' A B) as [_ E]. rewrite E in H2.
      destruct (tg_text _ _ Ts k w' k2 t' A H2) as (X1 & [sub X2] & X3 & X4).
      assert (Et : obj st' t' = obj st t').
      { apply (m_frame _ _ _ _ M); [ exact X1 | | ].
        - intros ->. rewrite (tg_kind _ _ Ts) in X2. discriminate.
        - intros k' K. destruct (tg_work _ _ Ts k' t' K) as (_ & Y & _). congruence. }
      unfold text. rewrite Et. repeat split; eauto; lia.
    + destruct (m_shared _ _ _ _ M k w' wo A B) as (_ & _ & _ & E & F & R).
      destruct (tg_work _ _ Ts k w' A) as (_ & _ & _ & _ & Nw).
      destruct (tg_work _ _ To k wo B) as (_ & _ & _ & _ & No).
      assert (G2 : dget k2 (c_children (obj st' w')) = Some t').
      { apply dget_In_iff; [ rewrite E; apply NoDup_new_keys; assumption | exact H2 ]. }
      destruct (dget k2 (c_children (obj st wo))) as [u|] eqn:Q.
      * apply (Tx wo w' R); [ | exact G2 | apply dget_keys; congruence ].
        intros k3 t3 H3. destruct (tg_text _ _ To k wo k3 t3 B H3) as (_ & Y & Z & _). auto.
      * apply dget_none in Q. rewrite (F k2 Q) in G2. apply dget_In in G2.
        destruct (tg_text _ _ Ts k w' k2 t' A G2) as (X1 & [sub X2] & X3 & X4).
        assert (Et : obj st' t' = obj st t').
        { apply (m_frame _ _ _ _ M); [ exact X1 | | ].
          - intros ->. rewrite (tg_kind _ _ Ts) in X2. discriminate.
          - intros k' K. destruct (tg_work _ _ Ts k' t' K) as (_ & Y & _). congruence. }
        unfold text. rewrite Et. repeat split; eauto; lia.
    + destruct (m_new _ _ _ _ M k wo A B) as (w2 & G2 & C & _ & E & F & R).
      rewrite G in G2. injection G2 as <-.
      destruct (tg_work _ _ To k wo A) as (_ & _ & _ & _ & No).
      apply (Tx wo w' R).
      * intros k3 t3 H3. destruct (tg_text _ _ To k wo k3 t3 A H3) as (_ & Y & Z & _). auto.
      * apply dget_In_iff; [ rewrite F; exact No | exact H2 ].
      * rewrite <- F. apply In_keys. eauto.
Qed.

(** Every work and text of the other one is there now. *)
Lemma after_has : forall k wo, In (k, wo) (c_children (obj st o)) ->
  exists w', In (k, w') (c_children (obj st' s))
    /\ (forall k2, In k2 (keys (c_children (obj st wo))) -> In k2 (keys (c_children (obj st' w')))).
Proof.
  intros k wo H. destruct (dget k (c_children (obj st s))) as [w|] eqn:E.
  - apply dget_In in E. destruct (m_shared _ _ _ _ M k w wo E H) as (A & _ & _ & B & _).
    exists w. split; [ apply dget_In; exact A | ]. intros k2 H2. rewrite B.
    apply in_app_iff. destruct (dget k2 (c_children (obj st w))) eqn:F.
    + left. apply dget_keys. congruence.
    + right. apply In_new_keys. split; [ exact H2 | apply dget_none; exact F ].
  - apply dget_none in E. destruct (m_new _ _ _ _ M k wo H E) as (w' & A & _ & _ & _ & B & _).
    exists w'. split; [ apply dget_In; exact A | ]. intros k2 H2. rewrite B. exact H2.
Qed.

End After.

Theorem merge_twice : forall st s o st1 st2,
  textgroup_tree st s -> textgroup_tree st o -> s <> o ->
  merged st s o st1 -> length (objs st) <= length (objs st1) ->
  merged st1 s o st2 -> outline st2 s = outline st1 s.
Proof.
  intros st s o st1 st2 Ts To Hso M1 L1 M2.
  pose proof (after_self_tree st s o st1 Ts To Hso M1 L1) as T1.
  pose proof (after_other_tree st s o st1 Ts To Hso M1 L1) as O1.
  assert (Eo : obj st1 o = obj st o) by (apply (after_other st s o st1 Ts To Hso M1 o); auto).
  assert (Kn : new_keys (c_children (obj st1 s)) (c_children (obj st1 o)) = []).
  { apply new_keys_none. intros k H. rewrite Eo in H. apply In_keys in H as [wo H].
    destruct (after_has st s o st1 M1 k wo H) as (w' & A & _). apply In_keys. eauto. }
  pose proof (m_keys _ _ _ _ M2) as K. rewrite Kn, app_nil_r in K.
  assert (D2 : NoDup (keys (c_children (obj st2 s)))) by (rewrite K; apply (tg_dict _ _ T1)).
  assert (Same : forall k w, In (k, w) (c_children (obj st1 s)) ->
    In (k, w) (c_children (obj st2 s))
    /\ keys (c_children (obj st2 w)) = keys (c_children (obj st1 w))).
  { intros k w H. destruct (dget k (c_children (obj st1 o))) as [wo|] eqn:E.
    - apply dget_In in E. destruct (m_shared _ _ _ _ M2 k w wo H E) as (A & _ & _ & B & _).
      split; [ apply dget_In; exact A | ]. rewrite B.
      rewrite new_keys_none; [ apply app_nil_r | ].
      intros k2 H2. rewrite Eo in E.
      assert (Ewo : obj st1 wo = obj st wo).
      { apply (after_other st s o st1 Ts To Hso M1 wo). right. eauto. }
      rewrite Ewo in H2. destruct (after_has st s o st1 M1 k wo E) as (w' & C & D).
      assert (w' = w).
      { apply dget_In_iff in C, H; try apply (tg_dict _ _ T1). congruence. }
      subst w'. apply D. exact H2.
    - apply dget_none in E. destruct (m_kept _ _ _ _ M2 k w H E) as [A B].
      split; [ apply dget_In; exact A | rewrite B; reflexivity ]. }
  (* the same keys in the same order with the same objects *)
  unfold outline.
  assert (Q : forall l1 l2 : list (str * nat), keys l2 = keys l1 -> NoDup (keys l2) ->
    (forall k w, In (k, w) l1 -> In (k, w) l2) -> l2 = l1).
  { induction l1 as [|[k w] l1 IH]; intros [|[k' w'] l2] A B C; try discriminate; [ reflexivity | ].
    cbn in A. injection A as -> A. inversion B as [|? ? B1 B2]; subst.
    assert (w' = w).
    { destruct (C k w (or_introl eq_refl)) as [X|X]; [ congruence | ].
      exfalso. apply B1. apply In_keys. eauto. }
    subst w'. f_equal. apply IH; [ exact A | exact B2 | ]. intros k2 w2 H.
    destruct (C k2 w2 (or_intror H)) as [X|X]; [ | exact X ]. injection X as <- <-.
    exfalso. apply B1. rewrite (A : keys l2 = keys l1). apply In_keys. eauto. }
  rewrite (Q _ _ K D2 (fun k w H => proj1 (Same k w H))).
  apply map_ext_in. intros [k w] H. cbn. f_equal. apply (Same k w H).
Qed.

Theorem textgroup_update_twice : forall st s o st1,
  textgroup_tree st s -> textgroup_tree st o -> s <> o ->
  (forall k w wo, In (k, w) (c_children (obj st s)) ->
     In (k, wo) (c_children (obj st o)) -> c_urn (obj st w) = c_urn (obj st wo)) ->
  textgroup_update st s o = (st1, Ok tt) ->
  exists st2, textgroup_update st1 s o = (st2, Ok tt)
    /\ outline st2 s = outline st1 s.
Proof.
  intros st s o st1 Ts To Hso Hu E.
  assert (U : c_urn (obj st s) = c_urn (obj st o)).
  { unfold textgroup_update in E. rewrite (tg_kind _ _ To) in E.
    destruct (str_eqb (c_urn (obj st s)) (c_urn (obj st o))) eqn:X; [ | discriminate ].
    apply str_eqb_eq. exact X. }
  destruct (textgroup_update_merged st s o Ts To Hso Hu U) as (st' & E' & M1).
  rewrite E in E'. injection E' as <-.
  assert (L1 : length (objs st) <= length (objs st1)).
  { clear - E. unfold textgroup_update in E. destruct (c_kind (obj st o)); try discriminate.
    destruct (str_eqb _ _); [ | discriminate ].
    enough (G : forall l st r st1 r1, fold_left (take_work s) l (st, r) = (st1, r1) ->
      length (objs st) <= length (objs st1)) by (eapply G; exact E).
    clear. induction l as [|[k w] l IH]; intros st r st1 r1 E; cbn [fold_left] in E.
    { injection E as <- <-. lia. }
    destruct (take_work s (st, r) (k, w)) as [st2 r2] eqn:S. apply IH in E.
    enough (length (objs st) <= length (objs st2)) by lia. clear E IH.
    unfold take_work in S. destruct r as [u|e]; [ | injection S as <- <-; lia ].
    destruct (deepcopy st w) as [st3 copy] eqn:C.
    assert (L : length (objs st3) = length (objs st) + length (objs st)).
    { replace st3 with (fst (deepcopy st w)) by (rewrite C; reflexivity). apply length_copy. }
    destruct (dget k (c_children (obj st s))) as [mine|].
    - destruct (c_kind (obj st mine)); try (injection S as <- <-; lia).
      unfold work_update in S. destruct (c_kind (obj st3 copy)); try (injection S as <- <-; lia).
      destruct (str_eqb _ _); injection S as <- <-; [ | lia ].
      rewrite length_set_parent, length_takes. lia.
    - injection S as <- <-. rewrite length_set_parent. unfold set_child.
      cbn [with_obj objs]. rewrite length_upd. lia. }
  pose proof (after_self_tree st s o st1 Ts To Hso M1 L1) as T1.
  pose proof (after_other_tree st s o st1 Ts To Hso M1 L1) as O1.
  assert (Eo : obj st1 o = obj st o) by (apply (after_other st s o st1 Ts To Hso M1 o); auto).
  assert (Hu1 : forall k w wo, In (k, w) (c_children (obj st1 s)) ->
     In (k, wo) (c_children (obj st1 o)) -> c_urn (obj st1 w) = c_urn (obj st1 wo)).
  { intros k w wo H H'. rewrite Eo in H'.
    assert (Ew : obj st1 wo = obj st wo).
    { apply (after_other st s o st1 Ts To Hso M1 wo). right. eauto. }
    rewrite Ew. pose proof H as G. apply dget_In_iff in G; [ | apply (tg_dict _ _ T1) ].
    destruct (dget k (c_children (obj st s))) as [w0|] eqn:D.
    - apply dget_In in D. destruct (m_shared _ _ _ _ M1 k w0 wo D H') as (A & (_ & _ & B) & _).
      assert (w0 = w) by congruence. subst w0. rewrite <- B. eapply Hu; eassumption.
    - apply dget_none in D. destruct (m_new _ _ _ _ M1 k wo H' D) as (w' & A & _ & (_ & _ & B) & _).
      assert (w' = w) by congruence. subst w'. congruence. }
  assert (U1 : c_urn (obj st1 s) = c_urn (obj st1 o)).
  { destruct (m_self _ _ _ _ M1) as [(_ & _ & X) _]. rewrite Eo. congruence. }
  destruct (textgroup_update_merged st1 s o T1 O1 Hso Hu1 U1) as (st2 & E2 & M2).
  exists st2. split; [ exact E2 | ].
  exact (merge_twice st s o st1 st2 Ts To Hso M1 L1 M2).
Qed.
