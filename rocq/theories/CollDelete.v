(** Proofs about deleting from a collection. *)

From Coq Require Import List NArith Arith Bool Lia.
From Verif Require Import PyStr PyStrFacts MetaModel MetaSpec MetaProofs
  CollModel CollSpec CollProofs CollHist.
Import ListNotations.

Lemma below_last : forall st c d, below st c d ->
  exists y, (y = c \/ below st c y) /\ member st y d.
Proof.
  intros st c d H. induction H as [c m H|c m d H Hd (y & [->|Hy] & Hm)].
  - exists c. auto.
  - exists m. split; [ right; apply below_one; exact H | exact Hm ].
  - exists y. split; [ right; eapply below_more; eassumption | exact Hm ].
Qed.

Lemma below_trans : forall st a b c, below st a b -> below st b c -> below st a c.
Proof.
  intros st a b c H. induction H; intros Hc; eapply below_more; eauto.
Qed.

Lemma below_snoc : forall st a b c, (b = a \/ below st a b) -> member st b c -> below st a c.
Proof.
  intros st a b c [->|H] Hm; [ apply below_one; exact Hm | ].
  eapply below_trans; [ exact H | apply below_one; exact Hm ].
Qed.

(** Under a tree, ancestors are on the chain. *)
Lemma chain_below : forall st c, tree st c -> forall x y l,
  (x = c \/ below st c x) -> below st x y -> chain st y l ->
  exists l1 l2, l = l1 ++ x :: l2 /\ chain st x l2.
Proof.
  intros st c T x y l Hx Hy. revert l. induction Hy as [x m Hm|x m d Hm Hd IH]; intros l Hl.
  - pose proof (tree_parent _ _ T x m Hx Hm) as P. inversion Hl; subst; [ congruence | ].
    rewrite P in H. injection H as <-. exists [], l0. auto.
  - assert (Hm' : m = c \/ below st c m) by (right; eapply below_snoc; eassumption).
    destruct (IH Hm' l Hl) as (l1 & l2 & -> & Hl2).
    pose proof (tree_parent _ _ T x m Hx Hm) as P. inversion Hl2; subst; [ congruence | ].
    rewrite P in H. injection H as <-. exists (l1 ++ [m]), l. split; [ | assumption ].
    rewrite <- app_assoc. reflexivity.
Qed.

Lemma chain_acyclic : forall st c, tree st c -> forall x l,
  (x = c \/ below st c x) -> chain st x l -> ~ below st x x.
Proof.
  intros st c T x l Hx Hl H. destruct (chain_below _ _ T x x l Hx H Hl) as (l1 & l2 & -> & H2).
  pose proof (chain_unique _ _ _ _ Hl H2) as E.
  apply (f_equal (@length nat)) in E. rewrite app_length in E. cbn in E. lia.
Qed.

Lemma chain_down : forall st c, tree st c -> forall l, chain st c l ->
  forall x, below st c x -> exists l', chain st x l'.
Proof.
  intros st c T l Hl x Hx.
  assert (G : forall a, (a = c \/ below st c a) -> (exists l, chain st a l) ->
    below st a x -> exists l', chain st x l').
  { clear Hl l Hx. intros a Ha La Hax. revert Ha La. induction Hax as [a m Hm|a m d Hm Hd IH]; intros Ha [l Hl].
    - exists (a :: l). econstructor; [ | exact Hl ]. eapply (tree_parent _ _ T); eassumption.
    - apply IH; [ right; eapply below_snoc; eassumption | ].
      exists (a :: l). econstructor; [ | exact Hl ]. eapply (tree_parent _ _ T); eassumption. }
  apply (G c (or_introl eq_refl)); [ exists l; exact Hl | exact Hx ].
Qed.

Lemma In_ddel : forall {A} k (d : list (str * A)) k' v, NoDup (keys d) ->
  In (k', v) (ddel k d) <-> In (k', v) d /\ k' <> k.
Proof.
  intros A k d k' v. induction d as [|[x y] d IH]; cbn; intros Hn; [ tauto | ].
  inversion Hn as [|? ? Hx Hd]; subst. destruct (str_eqb x k) eqn:E.
  - apply str_eqb_eq in E. subst x. split.
    + intros H. split; [ auto | ]. intros ->. apply Hx.
      change (In (fst (k, v)) (map fst d)). apply in_map. exact H.
    + intros [[H|H] N]; [ congruence | exact H ].
  - cbn. rewrite IH by exact Hd. split.
    + intros [H|[H N]]; [ | auto ]. injection H as -> ->. split; [ auto | ].
      intros ->. rewrite str_eqb_refl in E. discriminate.
    + intros [[H|H] N]; auto.
Qed.

Lemma ddel_NoDup : forall {A} k (d : list (str * A)), NoDup (keys d) -> NoDup (keys (ddel k d)).
Proof.
  intros A k d. induction d as [|[x y] d IH]; cbn; intros H; [ constructor | ].
  inversion H as [|? ? Hx Hd]; subst. destruct (str_eqb x k); [ exact Hd | ]. cbn.
  constructor; [ | apply IH; exact Hd ]. intros X. apply Hx.
  unfold keys in X. apply in_map_iff in X as [[a b] [E X]]. cbn in E. subst a.
  apply In_ddel in X as [X _]; [ | exact Hd ].
  change (In (fst (x, b)) (map fst d)). apply in_map. exact X.
Qed.

(** The graph after a deletion. *)
Definition purge (me it : term) (g : graph) : graph :=
  md_unlink (md_remove (g_remove None None (Some it)
    (g_remove (Some it) None None g)) me None None) me None None.

Lemma In_purge : forall me it g s p o,
  In (s, p, o) (purge me it g)
  <-> In (s, p, o) g /\ s <> it /\ o <> it /\ s <> me /\ o <> me.
Proof.
  intros. unfold purge, md_unlink, md_remove. rewrite !In_remove, !covers_some.
  pose proof (covers_none s). pose proof (covers_none p). pose proof (covers_none o).
  split.
  - intros [[[[A B] C] D] E]. repeat split; auto; intros ->; tauto.
  - intros (A & B & C & D & E).
    repeat split; auto; intros (X & Y & Z); subst; auto.
Qed.

Section Delete.

Variables (st : state) (c i p : nat) (key : str).
Hypothesis T : tree st c.
Hypothesis Hi : below st c i.
Hypothesis Hp : c_parent (obj st i) = Some p.

Let st1 := with_graph st (c_graph (obj st c)) (purge (node (obj st c)) (node (obj st i))).
Let st2 := with_obj st1 p (fun x => put_children (ddel (c_id (obj st1 i)) (c_children x)) x).

Lemma p_in_tree : p = c \/ below st c p.
Proof.
  destruct (below_last _ _ _ Hi) as (y & Hy & Hm).
  pose proof (tree_parent _ _ T y i Hy Hm) as E. rewrite Hp in E. injection E as ->. exact Hy.
Qed.

Lemma p_member : member st p i.
Proof.
  destruct (below_last _ _ _ Hi) as (y & Hy & Hm).
  pose proof (tree_parent _ _ T y i Hy Hm) as E. rewrite Hp in E. injection E as ->. exact Hm.
Qed.

Lemma p_range : p < length (objs st).
Proof.
  destruct (Nat.lt_ge_cases p (length (objs st))) as [|H]; [ assumption | exfalso ].
  destruct p_member as [_ [k Hk]]. unfold obj in Hk.
  rewrite nth_overflow in Hk by exact H. destruct Hk.
Qed.

Lemma obj_st2 : forall x, obj st2 x
  = if Nat.eqb p x then put_children (ddel (c_id (obj st i)) (c_children (obj st x))) (obj st x)
    else obj st x.
Proof.
  intros x. unfold st2. rewrite obj_with.
  assert (L : Nat.ltb p (length (objs st1)) = true) by (apply Nat.ltb_lt; exact p_range).
  rewrite L, andb_true_r. reflexivity.
Qed.

Lemma id_st2 : forall x, c_id (obj st2 x) = c_id (obj st x).
Proof. intros x. rewrite obj_st2. destruct (Nat.eqb p x); reflexivity. Qed.

Lemma parent_st2 : forall x, c_parent (obj st2 x) = c_parent (obj st x).
Proof. intros x. rewrite obj_st2. destruct (Nat.eqb p x); reflexivity. Qed.

Lemma kind_st2 : forall x, c_kind (obj st2 x) = c_kind (obj st x).
Proof. intros x. rewrite obj_st2. destruct (Nat.eqb p x); reflexivity. Qed.

Lemma text_st2 : forall x, text st2 x <-> text st x.
Proof. intros x. unfold text. rewrite kind_st2. reflexivity. Qed.

Lemma children_st2 : forall x, (x = c \/ below st c x) -> forall k m,
  ~ text st x ->
  (In (k, m) (c_children (obj st2 x)) <-> In (k, m) (c_children (obj st x)) /\ m <> i).
Proof.
  intros x Hx k m Ht. rewrite obj_st2. destruct (Nat.eqb p x) eqn:E.
  - apply Nat.eqb_eq in E. subst x. cbn. rewrite In_ddel by (eapply tree_dict; eassumption).
    split; intros [H N]; (split; [ exact H | ]).
    + intros ->. apply N. eapply tree_key; eassumption.
    + intros ->. apply N.
      pose proof (tree_key _ _ T p _ m Hx Ht H) as K.
      apply (tree_ids _ _ T); [ right; eapply below_snoc; [ exact Hx | split; [ exact Ht | eauto ] ] | auto | ].
      congruence.
  - split; [ | tauto ]. intros H. split; [ exact H | ]. intros ->.
    apply Nat.eqb_neq in E. apply E.
    assert (M : member st x i) by (split; [ exact Ht | eauto ]).
    pose proof (tree_parent _ _ T x i Hx M). congruence.
Qed.

Lemma member_st2 : forall x, (x = c \/ below st c x) -> forall m,
  member st2 x m <-> member st x m /\ m <> i.
Proof.
  intros x Hx m. unfold member. rewrite text_st2. split.
  - intros [Ht [k H]]. apply children_st2 in H as [H N]; [ | assumption | assumption ]. eauto.
  - intros [[Ht [k H]] N]. split; [ exact Ht | ]. exists k. apply children_st2; auto.
Qed.

Definition sub (x : nat) : Prop := x = i \/ below st i x.

Lemma below_st2_below : forall a x, (a = c \/ below st c a) -> below st2 a x -> below st a x.
Proof.
  intros a x Ha H. induction H as [a m H|a m d H Hd IH].
  - apply member_st2 in H; [ | exact Ha ]. apply below_one. tauto.
  - apply member_st2 in H; [ | exact Ha ]. destruct H as [H _].
    eapply below_more; [ exact H | ]. apply IH. right. eapply below_snoc; eassumption.
Qed.

Lemma below_st2_sub : forall a x, (a = c \/ below st c a) -> ~ sub a ->
  below st2 a x -> ~ sub x.
Proof.
  assert (One : forall a m, (a = c \/ below st c a) -> ~ sub a -> member st2 a m -> ~ sub m).
  { intros a m Ha Na H [->|S].
    - apply member_st2 in H; [ | exact Ha ]. tauto.
    - apply member_st2 in H; [ | exact Ha ]. destruct H as [H _].
      destruct (below_last _ _ _ S) as (y & Hy & Hm). apply Na.
      assert (Y : y = c \/ below st c y).
      { destruct Hy as [->|Hy]; [ auto | right; eapply below_trans; [ exact Hi | exact Hy ] ]. }
      pose proof (tree_parent _ _ T a m Ha H) as P1.
      pose proof (tree_parent _ _ T y m Y Hm) as P2.
      rewrite P1 in P2. injection P2 as ->. exact Hy. }
  intros a x Ha Na H. induction H as [a m H|a m d H Hd IH].
  - eapply One; eassumption.
  - apply IH; [ | eapply One; eassumption ].
    apply member_st2 in H; [ | exact Ha ]. right. eapply below_snoc; [ exact Ha | tauto ].
Qed.

Lemma below_keep : forall a x, (a = c \/ below st c a) -> below st a x -> ~ sub x ->
  below st2 a x.
Proof.
  intros a x Ha H. induction H as [a m H|a m d H Hd IH]; intros N.
  - apply below_one. apply member_st2; [ exact Ha | ]. split; [ exact H | ].
    intros ->. apply N. left. reflexivity.
  - eapply below_more.
    + apply member_st2; [ exact Ha | ]. split; [ exact H | ]. intros ->. apply N. right. exact Hd.
    + apply IH; [ right; eapply below_snoc; eassumption | exact N ].
Qed.

Theorem delete_tree : (exists l, chain st c l) ->
  forall x, (x = c \/ below st2 c x)
    <-> (x = c \/ below st c x) /\ ~ (x = i \/ below st i x).
Proof.
  intros [l Hl].
  assert (Nc : ~ sub c).
  { intros [E|S].
    - apply (chain_acyclic _ _ T c l (or_introl eq_refl) Hl). pose proof Hi as X. rewrite <- E in X. exact X.
    - apply (chain_acyclic _ _ T c l (or_introl eq_refl) Hl). eapply below_trans; [ exact Hi | exact S ]. }
  intros x. split.
  - intros [->|H]; [ split; [ auto | exact Nc ] | ]. split.
    + right. apply below_st2_below; auto.
    + eapply below_st2_sub; [ left; reflexivity | exact Nc | exact H ].
  - intros [[->|H] N]; [ auto | ]. right. apply below_keep; auto.
Qed.

Theorem delete_keeps_tree : (exists l, chain st c l) -> tree st2 c.
Proof.
  intros Hl. pose proof (delete_tree Hl) as D.
  assert (In_ : forall x, x = c \/ below st2 c x -> x = c \/ below st c x)
    by (intros x Hx; apply D in Hx; tauto).
  constructor.
  - intros x Hx. rewrite obj_st2. destruct (Nat.eqb p x) eqn:E.
    + cbn. apply ddel_NoDup. eapply tree_dict; [ exact T | apply In_, Hx ].
    + eapply tree_dict; [ exact T | apply In_, Hx ].
  - intros x k m Hx Ht H. rewrite text_st2 in Ht. rewrite id_st2.
    apply children_st2 in H as [H _]; [ | apply In_, Hx | exact Ht ].
    eapply tree_key; [ exact T | apply In_, Hx | exact Ht | exact H ].
  - intros x m Hx H. rewrite parent_st2. apply member_st2 in H; [ | apply In_, Hx ].
    eapply tree_parent; [ exact T | apply In_, Hx | tauto ].
  - intros x y Hx Hy. rewrite !id_st2. apply (tree_ids _ _ T); apply In_; assumption.
Qed.

Lemma at_path_st2 : forall q a d, (a = c \/ below st c a) -> at_path st2 a q d ->
  exists q', at_path st a q' d /\ length q' = length q.
Proof.
  induction q as [|j q IH]; intros a d Ha H.
  - inversion H; subst. exists []. split; [ constructor | reflexivity ].
  - inversion H as [|? ? k m ? ? Ht Hk Hd]; subst.
    rewrite text_st2 in Ht. apply nth_error_In in Hk.
    apply children_st2 in Hk as [Hk _]; [ | exact Ha | exact Ht ].
    assert (Hm : m = c \/ below st c m).
    { right. eapply below_snoc; [ exact Ha | ]. split; [ exact Ht | eauto ]. }
    destruct (IH m d Hm Hd) as [q' [A B]]. apply In_nth_error in Hk as [j' Hj].
    exists (j' :: q'). split; [ econstructor; eassumption | cbn; lia ].
Qed.

Lemma delete_limit : forall limit, (exists l, descendants limit st c = Ok l) ->
  exists l, descendants limit st2 c = Ok l.
Proof.
  intros limit H. apply descendants_ok. intros q d Hd.
  destruct (at_path_st2 q c d (or_introl eq_refl) Hd) as [q' [A B]].
  rewrite <- B. eapply descendants_ok; eassumption.
Qed.

End Delete.

Lemma parents_with_graph : forall fuel st i f x,
  parents fuel (with_graph st i f) x = parents fuel st x.
Proof.
  intros fuel st i f x. unfold parents. change (obj (with_graph st i f) x) with (obj st x).
  generalize (c_parent (obj st x)). induction fuel as [|fuel IH]; intros [q|]; cbn; try reflexivity.
  change (obj (with_graph st i f) q) with (obj st q). rewrite IH. reflexivity.
Qed.

(** Deleting something below. *)
Theorem delete_below : forall limit st c key l0 up,
  tree st c -> descendants limit st c = Ok l0 -> chain st c up ->
  forall i, below st c i -> c_id (obj st i) = key ->
  exists fuel0, forall fuel, fuel0 <= fuel ->
  exists st', delitem limit fuel st c key = (st', Ok tt)
    /\ tree st' c
    /\ (forall x, (x = c \/ below st' c x)
          <-> (x = c \/ below st c x) /\ ~ (x = i \/ below st i x))
    /\ (forall x, c_kind (obj st' x) = c_kind (obj st x)
                  /\ c_id (obj st' x) = c_id (obj st x)
                  /\ c_parent (obj st' x) = c_parent (obj st x))
    /\ (forall key', exists b, contains limit st' c key' = Ok b
          /\ (b = true <-> exists x, (x = c \/ below st c x)
                /\ ~ (x = i \/ below st i x) /\ c_id (obj st x) = key')).
Proof.
  intros limit st c key l0 up T D U i Hi Ek.
  destruct (chain_down _ _ T up U i Hi) as [li Hli].
  destruct (below_last _ _ _ Hi) as (p & Hp & Hm).
  pose proof (tree_parent _ _ T p i Hp Hm) as P.
  exists (length li). intros fuel Hf.
  assert (G : getitem limit st c key = Ok i).
  { destruct (getitem limit st c key) as [x|e] eqn:E.
    - apply getitem_ok in E as [Hx Ex]. f_equal. apply (tree_ids _ _ T); [ exact Hx | auto | congruence ].
    - apply getitem_err in E as [[_ N]|[_ (q & d & Hq & Hl)]].
      + exfalso. apply (N i); auto.
      + exfalso. assert (X : length q < limit) by (eapply descendants_ok; eauto). lia. }
  unfold delitem. rewrite G.
  fold (purge (node (obj st c)) (node (obj st i))).
  set (st1 := with_graph st (c_graph (obj st c)) _).
  assert (Pa : parents fuel st1 i = Ok li).
  { unfold st1. rewrite parents_with_graph. apply chain_parents; assumption. }
  rewrite Pa. destruct li as [|q li].
  { inversion Hli; congruence. }
  assert (q = p) by (inversion Hli; congruence). subst q.
  assert (Dg : dget (c_id (obj st1 i)) (c_children (obj st1 p)) <> None).
  { unfold st1. rewrite !obj_with_graph. apply dget_keys. destruct Hm as [Ht [k Hk]].
    pose proof (tree_key _ _ T p k i Hp Ht Hk). subst k.
    unfold keys. change (c_id (obj st i)) with (fst (c_id (obj st i), i)). apply in_map. exact Hk. }
  destruct (dget (c_id (obj st1 i)) (c_children (obj st1 p))); [ | congruence ].
  eexists. split; [ reflexivity | ].
  assert (UC : exists l, chain st c l) by eauto.
  split; [ apply (delete_keeps_tree st c i p T Hi P UC) | ].
  split; [ apply (delete_tree st c i p T Hi P UC) | ].
  split.
  { intros x. split; [ apply (kind_st2 st c i p T Hi P) | ].
    split; [ apply (id_st2 st c i p T Hi P) | apply (parent_st2 st c i p T Hi P) ]. }
  intros key'.
  destruct (delete_limit st c i p T Hi P limit ltac:(eauto)) as [l2 D2].
  pose proof (delete_tree st c i p T Hi P UC) as DT.
  pose proof (id_st2 st c i p T Hi P) as IDS.
  unfold contains.
  match goal with |- context [descendants limit ?s c] =>
    set (st2 := s);
    change (descendants limit st2 c = Ok l2) in D2;
    change (forall x, (x = c \/ below st2 c x)
      <-> (x = c \/ below st c x) /\ ~ (x = i \/ below st i x)) in DT;
    change (forall x, c_id (obj st2 x) = c_id (obj st x)) in IDS end.
  rewrite D2. eexists. split; [ reflexivity | ].
  rewrite existsb_exists. split.
  - intros [x [Hx E]].
    assert (Y : x = c \/ below st2 c x).
    { apply in_app_iff in Hx as [Hx|[->|[]]]; [ | auto ]. right.
      apply (descendants_below _ _ _ _ D2). exact Hx. }
    apply DT in Y as [Y1 Y2]. exists x. repeat split; [ exact Y1 | exact Y2 | ].
    apply has_id_spec in E. rewrite <- E. symmetry. apply IDS.
  - intros (x & H1 & H2 & E). exists x. split.
    + destruct (proj2 (DT x) (conj H1 H2)) as [->|Z]; apply in_app_iff; [ right; left; reflexivity | ].
      left. apply (descendants_below _ _ _ _ D2). exact Z.
    + apply has_id_spec. rewrite <- E. apply IDS.
Qed.

(** What deletion does to the statements. *)
Theorem delete_graph : forall limit fuel st c key st',
  delitem limit fuel st c key = (st', Ok tt) ->
  c_graph (obj st c) < length (graphs st) ->
  exists i, getitem limit st c key = Ok i
    /\ (forall s p o, In (s, p, o) (nth (c_graph (obj st c)) (graphs st') [])
          <-> In (s, p, o) (nth (c_graph (obj st c)) (graphs st) [])
              /\ s <> node (obj st i) /\ o <> node (obj st i)
              /\ s <> node (obj st c) /\ o <> node (obj st c))
    /\ (forall g, g <> c_graph (obj st c) -> nth g (graphs st') [] = nth g (graphs st) []).
Proof.
  intros limit fuel st c key st' H Hg. unfold delitem in H.
  destruct (getitem limit st c key) as [i|e] eqn:G; [ | discriminate ].
  fold (purge (node (obj st c)) (node (obj st i))) in H.
  set (st1 := with_graph st (c_graph (obj st c)) _) in *.
  assert (E : graphs st' = graphs st1).
  { destruct (parents fuel st1 i) as [[|q l]|e]; [ congruence | | congruence ].
    destruct (dget _ _) in H; [ | congruence ]. injection H as <-. reflexivity. }
  exists i. split; [ reflexivity | ]. rewrite E. unfold st1. cbn [with_graph graphs]. split.
  - intros s p o. rewrite nth_upd, Nat.eqb_refl. apply Nat.ltb_lt in Hg. rewrite Hg.
    cbn [andb]. change (fun g => md_unlink _ _ _ _) with (purge (node (obj st c)) (node (obj st i))).
    apply In_purge.
  - intros g Hne. rewrite nth_upd.
    assert (X : Nat.eqb (c_graph (obj st c)) g = false) by (apply Nat.eqb_neq; auto).
    rewrite X. reflexivity.
Qed.

Theorem delete_unknown : forall limit fuel st c key e,
  getitem limit st c key = Err e -> delitem limit fuel st c key = (st, Err e).
Proof. intros. unfold delitem. rewrite H. reflexivity. Qed.
