(** Entering a textgroup in the inventories. *)

From Coq Require Import List NArith ZArith Arith Bool Lia.
From Verif Require Import PyStr PyStrFacts UrnModel UrnSpec UrnProofs MetaModel CollModel CollSpec CollProofs CollHist CollMerge
  InvModel InvSpec LocalModel LocalSpec LocalProofs LoadModel LoadSpec LoadDict LoadTree.
Import ListNotations.

Lemma textgroup_update_grows : forall st s o st1 r, textgroup_update st s o = (st1, r) -> length (objs st) <= length (objs st1).
Proof.
  intros st s o st1 r E. unfold textgroup_update in E. destruct (c_kind (obj st o)); try (injection E as <- <-; lia).
  destruct (str_eqb _ _); [|injection E as <- <-; lia].
  enough (G : forall l st r st1 r1, fold_left (take_work s) l (st, r) = (st1, r1) ->
    length (objs st) <= length (objs st1)) by (eapply G; exact E).
  clear. induction l as [|[k w] l IH]; intros st r st1 r1 E; cbn [fold_left] in E; [injection E as <- <-; lia|].
  destruct (take_work s (st, r) (k, w)) as [st2 r2] eqn:S. apply IH in E.
  enough (length (objs st) <= length (objs st2)) by lia. clear E IH.
  unfold take_work in S. destruct r as [u|e]; [|injection S as <- <-; lia].
  destruct (deepcopy st w) as [st3 copy] eqn:C.
  assert (L : length (objs st3) = length (objs st) + length (objs st)).
  { replace st3 with (fst (deepcopy st w)) by (rewrite C; reflexivity). apply length_copy. }
  destruct (dget k (c_children (obj st s))) as [mine|].
  - destruct (c_kind (obj st mine)); try (injection S as <- <-; lia).
    unfold work_update in S. destruct (c_kind (obj st3 copy)); try (injection S as <- <-; lia).
    destruct (str_eqb _ _); injection S as <- <-; [|lia].
    rewrite length_set_parent, length_takes. lia.
  - injection S as <- <-. rewrite length_set_parent. unfold set_child.
    cbn [with_obj objs]. rewrite length_upd. lia.
Qed.

(** ** What belongs to a textgroup *)
Definition inside (st : state) (g x : nat) : Prop :=
  x = g \/ (exists k, In (k, x) (kids st g)) \/ exists k w k2, In (k, w) (kids st g) /\ In (k2, x) (kids st w).

(** The same object, except for its graph. *)
Definition like (st st' : state) (x : nat) : Prop :=
  alike st x st' x /\ c_parent (obj st' x) = c_parent (obj st x) /\ kids st' x = kids st x.

Lemma like_refl : forall st x, like st st x.
Proof. intros. repeat split. Qed.
Lemma like_eq : forall st st' x, obj st' x = obj st x -> like st st' x.
Proof. intros st st' x E. unfold like, alike. rewrite E. repeat split. Qed.
Lemma like_trans : forall a b c x, like a b x -> like b c x -> like a c x.
Proof. intros a b c x ((A1 & A2 & A3) & A4 & A5) ((B1 & B2 & B3) & B4 & B5). repeat split; congruence. Qed.
Lemma alike_trans : forall a b c x, alike a x b x -> alike b x c x -> alike a x c x.
Proof. intros a b c x (A1 & A2 & A3) (B1 & B2 & B3). repeat split; congruence. Qed.

Lemma inside_in : forall st p k g x, good st p k g -> inside st g x -> x < length (objs st).
Proof.
  intros st p k g x G [->|[(k1 & I)|(k1 & w & k2 & I & I2)]]; [apply (tg_in _ _ (gd_tree _ _ _ _ G))| |].
  - apply (tg_work _ _ (gd_tree _ _ _ _ G) _ _ I).
  - apply (tg_text _ _ (gd_tree _ _ _ _ G) _ _ _ _ I I2).
Qed.

Lemma inside_kind : forall st p k g x, good st p k g -> inside st g x -> c_kind (obj st x) <> KInventory /\ c_kind (obj st x) <> KInventoryCollection.
Proof.
  intros st p k g x G [->|[(k1 & I)|(k1 & w & k2 & I & I2)]].
  - rewrite (tg_kind _ _ (gd_tree _ _ _ _ G)). split; discriminate.
  - destruct (tg_work _ _ (gd_tree _ _ _ _ G) _ _ I) as (_ & -> & _). split; discriminate.
  - destruct (tg_text _ _ (gd_tree _ _ _ _ G) _ _ _ _ I I2) as (_ & [sub ->] & _). split; discriminate.
Qed.

Lemma inside_same : forall st p k g p' k' g' x, good st p k g -> good st p' k' g' -> inside st g x -> inside st g' x -> g = g'.
Proof.
  intros st p k g p' k' g' x G G' X Y. destruct (gd_tree _ _ _ _ G) as [_ K _ W T]. destruct (gd_tree _ _ _ _ G') as [_ K' _ W' T'].
  destruct X as [->|[(k1 & I)|(k1 & w & k2 & I & I2)]]; destruct Y as [->|[(k1' & J)|(k1' & w' & k2' & J & J2)]]; auto;
    repeat match goal with
      | H : In (_, ?w) (kids st g), H2 : In (_, ?t) (kids st ?w) |- _ => pose proof (T _ _ _ _ H H2) as (_ & [? ?] & _ & ?); clear H2
      | H : In (_, ?w) (kids st g'), H2 : In (_, ?t) (kids st ?w) |- _ => pose proof (T' _ _ _ _ H H2) as (_ & [? ?] & _ & ?); clear H2
      end;
    repeat match goal with
      | H : In (_, ?w) (kids st g) |- _ => pose proof (W _ _ H) as (_ & ? & _ & ? & _); clear H
      | H : In (_, ?w) (kids st g') |- _ => pose proof (W' _ _ H) as (_ & ? & _ & ? & _); clear H
      end; try congruence.
Qed.

Lemma good_frame : forall st st' p k g, good st p k g -> length (objs st) <= length (objs st') ->
  (forall x, inside st g x -> like st st' x) -> good st' p k g /\ view_group st' g = view_group st g.
Proof.
  intros st st' p k g [T G1 G2 G3 G4 G5] L H.
  assert (Hg : like st st' g) by (apply H; left; reflexivity).
  assert (Hw : forall k w, In (k, w) (kids st g) -> like st st' w) by (intros; apply H; right; left; eauto).
  assert (Ht : forall k w k2 t, In (k, w) (kids st g) -> In (k2, t) (kids st w) -> like st st' t) by (intros; apply H; right; right; eauto 6).
  destruct Hg as ((A1 & A2 & A3) & A4 & A5). destruct T as [T1 T2 T3 T4 T5].
  split; [constructor; [constructor|..]|].
  - lia.
  - congruence.
  - rewrite A5. exact T3.
  - intros k' w I. rewrite A5 in I. destruct (Hw k' w I) as ((B1 & B2 & B3) & B4 & B5). destruct (T4 k' w I) as (C1 & C2 & C3 & C4 & C5).
    rewrite B5. repeat split; try congruence. lia.
  - intros k' w k2 t I I2. rewrite A5 in I. destruct (Hw k' w I) as (_ & _ & B5). rewrite B5 in I2.
    destruct (Ht _ _ _ _ I I2) as ((B1 & B2 & B3) & B4 & _). destruct (T5 _ _ _ _ I I2) as (C1 & [sub C2] & C3 & C4).
    repeat split; try congruence; [lia|exists sub; congruence].
  - congruence.
  - congruence.
  - congruence.
  - intros k' w I. rewrite A5 in I. destruct (Hw k' w I) as ((B1 & B2 & B3) & _). rewrite <- B3. apply G4. exact I.
  - intros k' w k2 t I I2. rewrite A5 in I. destruct (Hw k' w I) as (_ & _ & B5). rewrite B5 in I2.
    destruct (Ht _ _ _ _ I I2) as ((B1 & B2 & B3) & B4 & B6). destruct (G5 _ _ _ _ I I2) as (C1 & C2 & C3).
    repeat split; congruence.
  - unfold view_group. rewrite A5. apply map_ext_in. intros [k' w] I. cbn [fst snd]. destruct (Hw k' w I) as (_ & _ & ->). reflexivity.
Qed.

(** ** One textgroup replaced *)
Definition replaced (n0 k0 : str) (v : group_of nat) (L : inventories nat) : inventories nat :=
  map (fun il => if str_eqb (fst il) n0
                 then (fst il, map (fun e => if str_eqb (fst e) k0 then (fst e, v) else e) (snd il)) else il) L.

Lemma replaced_order : forall name n0 k0 v L, in_order name L -> fits k0 v -> in_order name (replaced n0 k0 v L).
Proof.
  intros name n0 k0 v L [O1 O2 O3 O4 O5] F.
  assert (IN : forall m l, In (m, l) (replaced n0 k0 v L) -> exists l', In (m, l') L /\ keys l = keys l' /\
    forall k ws, In (k, ws) l -> In (k, ws) l' \/ (k = k0 /\ ws = v)).
  { intros m l I. apply in_map_iff in I. destruct I as ([a b] & E & I). cbn [fst snd] in E. exists b.
    destruct (str_eqb a n0); injection E as <- <-; [|auto]. split; [exact I|]. split.
    - unfold keys. rewrite map_map. apply map_ext. intros e. destruct (str_eqb (fst e) k0); reflexivity.
    - intros k ws X. apply in_map_iff in X. destruct X as ([c d] & E & X). cbn [fst snd] in E.
      destruct (str_eqb c k0) eqn:Q; injection E as <- <-; [apply str_eqb_eq in Q; auto|auto]. }
  constructor; [exact O1| | | |].
  - intros n l I. apply IN in I. destruct I as (l' & I & _). eapply O2. exact I.
  - unfold replaced, keys. rewrite map_map. erewrite map_ext; [exact O3|]. intros e. destruct (str_eqb (fst e) n0); reflexivity.
  - unfold replaced. refine (eq_ind_r (@NoDup str) O4 (flat_keys_same _ _ _)). intros e _. cbn beta.
    match goal with |- context [if ?b then _ else _] => destruct b end; [|reflexivity]. cbn [snd].
    unfold keys. rewrite map_map. apply map_ext. intros x. destruct (str_eqb (fst x) k0); reflexivity.
  - intros n l k ws I I2. apply IN in I. destruct I as (l' & I & _ & H). destruct (H _ _ I2) as [X|[-> ->]]; [eapply O5; eassumption|exact F].
Qed.

Lemma replaced_shelve : forall name choice (L : inventories nat) n0 d0 k0 v0 v, in_order name L -> In (n0, d0) L -> In (k0, v0) d0 ->
  replaced n0 k0 (join_groups v0 v) L = shelve choice L (k0, v).
Proof.
  intros name choice L n0 d0 k0 v0 v [O1 O2 O3 O4 O5] I I2. unfold shelve. cbn [fst].
  assert (K : In k0 (flat_map (fun il => keys (snd il)) L)).
  { apply in_flat_map. exists (n0, d0). split; [exact I|]. apply In_keys. eauto. }
  destruct (find_place choice L k0) as [(n & d & J & Kd & ->)|[X _]]; [|contradiction].
  assert (E : (n, d) = (n0, d0)).
  { eapply (NoDup_flat_same (fun il => keys (snd il))); [exact O4|exact J|exact I|exact Kd|]. apply In_keys. eauto. }
  injection E as -> ->. unfold replaced. apply map_ext_in. intros [a b] X. cbn [fst snd].
  destruct (str_eqb a n0) eqn:Q; [|reflexivity]. apply str_eqb_eq in Q. subst a.
  assert (b = d0) by (eapply NoDup_key; [exact O3|exact X|exact I]). subst b. f_equal.
  assert (N : NoDup (keys d0)).
  { clear -O4 I. induction L as [|e L IH]; [destruct I|]. cbn [flat_map] in O4. destruct I as [->|I].
    - eapply NoDup_app_l. exact O4.
    - apply IH; [|exact I]. eapply NoDup_app_r. exact O4. }
  unfold add_group. rewrite merge_old; [|exact Kd|exact N]. apply map_ext_in. intros [c e] Y. cbn [fst snd].
  destruct (str_eqb c k0) eqn:Q; [|reflexivity]. apply str_eqb_eq in Q. subst c. f_equal. f_equal.
  eapply NoDup_key; [exact N|exact I2|exact Y].
Qed.

Lemma shelved_local : forall st st' root n0 i0 k0 g0 o ko, shelved st root -> at2 st root n0 i0 k0 g0 -> good st None ko o ->
  length (objs st) <= length (objs st') ->
  (forall x, x < length (objs st) -> ~ inside st g0 x -> ~ inside st o x -> like st st' x) ->
  good st' (Some i0) k0 g0 -> fits k0 (view_group st' g0) ->
  shelved st' root /\ view st' root = replaced n0 k0 (view_group st' g0) (view st root).
Proof.
  intros st st' root n0 i0 k0 g0 o ko S A P L Fr G NF. pose proof (at2_good _ _ S _ _ _ _ A) as Gg.
  assert (Kinv : forall x, x < length (objs st) -> c_kind (obj st x) = KInventory \/ c_kind (obj st x) = KInventoryCollection -> like st st' x).
  { intros x Lx K. apply Fr; [exact Lx| |]; intros X.
    - pose proof (inside_kind _ _ _ _ _ Gg X). tauto.
    - pose proof (inside_kind _ _ _ _ _ P X). tauto. }
  assert (Hroot : like st st' root) by (apply Kinv; [apply (sv_root _ _ S)|right; apply (sv_kind _ _ S)]).
  assert (Hinv : forall n i, at1 st root n i -> like st st' i).
  { intros n i H. destruct (sv_inv _ _ S n i H) as (X & Y & _). apply Kinv; auto. }
  assert (Hother : forall n i k g, at2 st root n i k g -> g <> g0 -> good st' (Some i) k g /\ view_group st' g = view_group st g).
  { intros n i k g H N. pose proof (at2_good _ _ S _ _ _ _ H) as Q. apply good_frame; [exact Q|exact L|].
    intros x X. apply Fr; [eapply inside_in; eassumption| |]; intros Y.
    - apply N. eapply inside_same; eassumption.
    - assert (g = o) by (eapply inside_same; eassumption). subst o. pose proof (gd_parent _ _ _ _ Q). pose proof (gd_parent _ _ _ _ P). congruence. }
  destruct Hroot as ((R1 & R2 & R3) & R4 & R5).
  assert (V : view st' root = replaced n0 k0 (view_group st' g0) (view st root)).
  { unfold view, replaced. rewrite R5, map_map. apply map_ext_in. intros [n i] I. cbn [fst snd].
    destruct (Hinv n i I) as (_ & _ & I5).
    destruct (str_eqb n n0) eqn:E.
    - apply str_eqb_eq in E. subst n. assert (i = i0) by (eapply at1_same; [exact S|exact I|exact (proj1 A)]). subst i. f_equal.
      unfold view_shelf. rewrite I5, map_map. apply map_ext_in. intros [k g] J. cbn [fst snd].
      destruct (str_eqb k k0) eqn:E.
      + apply str_eqb_eq in E. subst k. destruct (at2_same _ _ S _ _ _ _ _ _ _ (conj I J) A) as (_ & _ & ->). reflexivity.
      + f_equal. apply (Hother n0 i0 k g (conj I J)). intros ->. pose proof (gd_id _ _ _ _ (at2_good _ _ S _ _ _ _ (conj I J))).
        pose proof (gd_id _ _ _ _ Gg). assert (Q : k = k0) by congruence. rewrite Q, str_eqb_refl in E. discriminate.
    - f_equal. unfold view_shelf. rewrite I5. apply map_ext_in. intros [k g] J. cbn [fst snd]. f_equal.
      apply (Hother n i k g (conj I J)). intros ->.
      pose proof (gd_parent _ _ _ _ (at2_good _ _ S _ _ _ _ (conj I J))). pose proof (gd_parent _ _ _ _ Gg).
      assert (i = i0) by congruence. subst i. destruct (sv_inv _ _ S _ _ I) as (_ & _ & X & _). destruct (sv_inv _ _ S _ _ (proj1 A)) as (_ & _ & Y & _).
      assert (Q : n = n0) by congruence. rewrite Q, str_eqb_refl in E. discriminate. }
  split; [|exact V]. constructor.
  - pose proof (sv_root _ _ S). lia.
  - rewrite <- R1. apply (sv_kind _ _ S).
  - intros n i I. rewrite R5 in I. destruct (Hinv n i I) as ((I1 & I2 & I3) & I4 & I5). destruct (sv_inv _ _ S n i I) as (X1 & X2 & X3 & X4).
    repeat split; try congruence. lia.
  - intros n i k g I J. rewrite R5 in I. destruct (Hinv n i I) as (_ & _ & I5). rewrite I5 in J.
    destruct (Nat.eq_dec g g0) as [->|N]; [|apply (Hother n i k g (conj I J) N)].
    pose proof (gd_parent _ _ _ _ (at2_good _ _ S _ _ _ _ (conj I J))) as E1. pose proof (gd_parent _ _ _ _ Gg) as E2.
    pose proof (gd_id _ _ _ _ (at2_good _ _ S _ _ _ _ (conj I J))) as E3. pose proof (gd_id _ _ _ _ Gg) as E4.
    assert (i = i0) by congruence. assert (k = k0) by congruence. subst. exact G.
  - rewrite V. rewrite <- R2. apply replaced_order; [apply (sv_order _ _ S)|exact NF].
Qed.

Lemma getitem_at : forall limit st root x id, shelved st root -> somewhere st root x id -> getitem (5 + limit) st root id = Ok x.
Proof.
  intros limit st root x id S H. destruct (somewhere_below _ _ S _ _ H) as [B E].
  destruct (library_getitem limit st root id (shelved_library _ _ S)) as [(y & G & By & Ey)|[_ N]].
  - rewrite G. f_equal. destruct (below_somewhere _ _ S _ By) as (id' & H' & E'). apply (somewhere_unique _ _ S y x id); [congruence|exact H].
  - exfalso. eapply N; eassumption.
Qed.

Lemma contains_at : forall limit st root id, shelved st root ->
  (exists x, somewhere st root x id /\ contains (5 + limit) st root id = Ok true) \/
  ((forall x, ~ somewhere st root x id) /\ contains (5 + limit) st root id = Ok false).
Proof.
  intros limit st root id S. destruct (library_contains limit st root id (shelved_library _ _ S)) as [b E].
  pose proof (getitem_contains _ _ _ _ _ E) as G. rewrite E. destruct b.
  - left. destruct G as [x G]. exists x. split; [|reflexivity].
    destruct (library_getitem limit st root id (shelved_library _ _ S)) as [(y & G' & By & Ey)|[X _]]; [|congruence].
    rewrite G in G'. injection G' as <-. destruct (below_somewhere _ _ S _ By) as (id' & H' & E'). congruence.
  - right. split; [|reflexivity]. intros x H. rewrite (getitem_at limit _ _ _ _ S H) in G. discriminate.
Qed.

Lemma drel_intro : forall {A B} (R : A -> B -> Prop) (a : list (str * A)) (b : list (str * B)), NoDup (keys a) -> keys a = keys b ->
  (forall k x y, In (k, x) a -> In (k, y) b -> R x y) -> drel R a b.
Proof.
  intros A B R a. induction a as [|[k x] a IH]; intros [|[k' y] b] N K H; try discriminate; [constructor|].
  cbn in K. injection K as <- K. inversion N as [|? ? N1 N2]; subst. constructor.
  - cbn. split; [reflexivity|]. apply (H k); left; reflexivity.
  - apply IH; [exact N2|exact K|]. intros k' x' y' I J. apply (H k'); right; assumption.
Qed.

Definition anything {A B} (_ : A) (_ : B) : Prop := True.
Lemma drel_anything : forall {A B} (a : list (str * A)) (b : list (str * B)), NoDup (keys a) -> keys a = keys b -> drel anything a b.
Proof. intros. apply drel_intro; [assumption|assumption|]. intros. exact I. Qed.

Lemma in_view_group' : forall st g k ts, In (k, ts) (view_group st g) <-> exists w, In (k, w) (kids st g) /\ ts = kids st w.
Proof. intros st g k ts. apply (in_view (fun w => kids st w)). Qed.
Lemma keys_view_group : forall st g, keys (view_group st g) = keys (kids st g).
Proof. intros. unfold view_group. apply (keys_view (fun w => kids st w)). Qed.
Lemma good_dict : forall st p k g, good st p k g -> NoDup (keys (view_group st g)).
Proof. intros st p k g G. rewrite keys_view_group. apply (tg_dict _ _ (gd_tree _ _ _ _ G)). Qed.

(** ** A textgroup that is there already *)
Section Merging.
Variables (st st1 : state) (root : nat) (n0 : str) (i0 g o : nat) (ko : str).
Hypothesis S : shelved st root.
Hypothesis A : at2 st root n0 i0 ko g.
Hypothesis P : good st None ko o.
Hypothesis Fo : fits ko (view_group st o).
Hypothesis M : merged st g o st1.
Hypothesis Len : length (objs st) <= length (objs st1).

Let Gg : good st (Some i0) ko g := at2_good _ _ S _ _ _ _ A.
Let Ts : textgroup_tree st g := gd_tree _ _ _ _ Gg.
Let To : textgroup_tree st o := gd_tree _ _ _ _ P.

Lemma go : g <> o.
Proof using S A P.
  intros E. assert (X : c_parent (obj st g) = c_parent (obj st o)) by (rewrite E; reflexivity).
  rewrite (gd_parent _ _ _ _ Gg), (gd_parent _ _ _ _ P) in X. discriminate.
Qed.

Lemma other_same : forall x, inside st o x -> x < length (objs st) /\ obj st1 x = obj st x.
Proof using S A P M.
  intros x X. apply (after_other st g o st1 Ts To go M). destruct X as [X|[(k & X)|(k & w & k2 & X & Y)]]; [left; exact X|right..]; eauto 6.
Qed.

Lemma tree1 : textgroup_tree st1 g.
Proof using S A P M Len. apply (after_self_tree st g o st1 Ts To go M Len). Qed.

Lemma text_kept : forall k w k2 t, In (k, w) (kids st g) -> In (k2, t) (kids st w) -> obj st1 t = obj st t.
Proof using S A P M.
  intros k w k2 t I I2. destruct (tg_text _ _ Ts _ _ _ _ I I2) as (X1 & [sub X2] & X3 & X4). apply (m_frame _ _ _ _ M); [exact X1| |].
  - intros ->. rewrite (tg_kind _ _ Ts) in X2. discriminate.
  - intros k' K. destruct (tg_work _ _ Ts k' t K) as (_ & Y & _). congruence.
Qed.

Lemma good1 : good st1 (Some i0) ko g.
Proof using S A P M Len.
  pose proof tree1 as T1. destruct (m_self _ _ _ _ M) as [(S1 & S2 & S3) S4]. constructor.
  - exact T1.
  - rewrite <- S2. apply (gd_id _ _ _ _ Gg).
  - rewrite <- S3. apply (gd_urn _ _ _ _ Gg).
  - rewrite S4. apply (gd_parent _ _ _ _ Gg).
  - intros k w I. pose proof I as J. apply dget_In_iff in J; [|apply (tg_dict _ _ T1)].
    destruct (after_work st g o st1 Ts To M k w I) as [[X Y]|[(wo & X & Y)|(wo & X & Y)]].
    + destruct (m_kept _ _ _ _ M k w X Y) as [_ E]. rewrite E. apply (gd_work _ _ _ _ Gg _ _ X).
    + destruct (m_shared _ _ _ _ M k w wo X Y) as (_ & (_ & _ & E) & _). rewrite <- E. apply (gd_work _ _ _ _ Gg _ _ X).
    + destruct (m_new _ _ _ _ M k wo X Y) as (w' & D & _ & (_ & _ & E) & _). assert (w' = w) by congruence. subst w'.
      rewrite <- E. apply (gd_work _ _ _ _ P _ _ X).
  - intros k w k2 t I I2. pose proof I as J. apply dget_In_iff in J; [|apply (tg_dict _ _ T1)].
    destruct (tg_work _ _ T1 k w I) as (_ & _ & _ & _ & Nw).
    assert (Rc : forall wo, In (k, wo) (kids st o) -> received st wo st1 w -> In k2 (keys (kids st wo)) ->
      c_urn (obj st1 t) = k2 /\ c_kind (obj st1 t) <> KText Unknown /\ kids st1 t = []).
    { intros wo X R K. apply In_keys in K. destruct K as [u K]. destruct (R k2 u K) as (t' & D & _ & (B1 & B2 & B3) & _ & B4).
      apply dget_In_iff in I2; [|exact Nw]. assert (t' = t) by congruence. subst t'.
      destruct (gd_text _ _ _ _ P _ _ _ _ X K) as (C1 & C2 & C3). rewrite C3 in B4. cbn in B4.
      repeat split; try congruence. destruct (kids st1 t); [reflexivity|discriminate]. }
    destruct (after_work st g o st1 Ts To M k w I) as [[X Y]|[(wo & X & Y)|(wo & X & Y)]].
    + destruct (m_kept _ _ _ _ M k w X Y) as [_ E]. rewrite E in I2. rewrite (text_kept _ _ _ _ X I2). apply (gd_text _ _ _ _ Gg _ _ _ _ X I2).
    + destruct (m_shared _ _ _ _ M k w wo X Y) as (_ & _ & _ & _ & D & R).
      destruct (dget k2 (kids st wo)) as [u|] eqn:Q.
      * apply (Rc wo Y R). apply dget_In in Q. apply In_keys. eauto.
      * apply dget_none in Q. specialize (D k2 Q). apply dget_In_iff in I2; [|exact Nw]. rewrite D in I2. apply dget_In in I2.
        rewrite (text_kept _ _ _ _ X I2). apply (gd_text _ _ _ _ Gg _ _ _ _ X I2).
    + destruct (m_new _ _ _ _ M k wo X Y) as (w' & D & _ & _ & _ & K & R). assert (w' = w) by congruence. subst w'.
      apply (Rc wo X R). rewrite <- K. apply In_keys. eauto.
Qed.

Lemma outside_kept : forall x, x < length (objs st) -> ~ inside st g x -> obj st1 x = obj st x.
Proof using M.
  intros x L N. apply (m_frame _ _ _ _ M); [exact L| |].
  - intros ->. apply N. left. reflexivity.
  - intros k I. destruct N. right. left. eauto.
Qed.

Lemma alike1 : forall x, x < length (objs st) -> alike st x st1 x.
Proof using S A P M.
  intros x L. destruct (Nat.eq_dec x g) as [->|Ng]; [apply (m_self _ _ _ _ M)|].
  assert (E : obj st1 x = obj st x -> alike st x st1 x) by (intros E; unfold alike; rewrite E; auto).
  destruct (dget (c_id (obj st x)) (kids st g)) as [w|] eqn:D.
  - apply dget_In in D. destruct (Nat.eq_dec w x) as [->|Nw].
    + destruct (dget (c_id (obj st x)) (kids st o)) as [wo|] eqn:Q.
      * apply dget_In in Q. apply (m_shared _ _ _ _ M _ _ _ D Q).
      * apply dget_none in Q. apply E. apply (m_kept _ _ _ _ M _ _ D Q).
    + apply E. apply (m_frame _ _ _ _ M); [exact L|exact Ng|]. intros k I. destruct (tg_work _ _ Ts _ _ I) as (_ & _ & F & _). rewrite F in D. destruct Nw.
      eapply NoDup_key; [apply (tg_dict _ _ Ts)|exact D|exact I].
  - apply dget_none in D. apply E. apply (m_frame _ _ _ _ M); [exact L|exact Ng|]. intros k I.
    destruct (tg_work _ _ Ts _ _ I) as (_ & _ & F & _). rewrite F in D. destruct D. apply In_keys. eauto.
Qed.

Lemma wo_facts : forall k wo, In (k, wo) (kids st o) -> kids st1 wo = kids st wo /\ c_kind (obj st1 wo) = KWork /\ c_urn (obj st1 wo) = k /\
  c_parent (obj st1 wo) = Some o /\ NoDup (keys (kids st wo)) /\ ~ exists k', In (k', wo) (kids st1 g).
Proof using S A P M Len.
  intros k wo I. destruct (other_same wo) as [L E]; [right; left; eauto|]. rewrite E.
  destruct (tg_work _ _ To _ _ I) as (_ & K & _ & Q & N). split; [reflexivity|]. split; [exact K|]. split; [apply (gd_work _ _ _ _ P _ _ I)|].
  split; [exact Q|]. split; [exact N|]. intros [k' X]. destruct (tg_work _ _ tree1 _ _ X) as (_ & _ & _ & Y & _). rewrite E, Q in Y.
  injection Y as Y. apply go. symmetry. exact Y.
Qed.

Lemma to_facts : forall k wo k2 t, In (k, wo) (kids st o) -> In (k2, t) (kids st wo) ->
  t < length (objs st1) /\ (exists sub, c_kind (obj st1 t) = KText sub) /\ c_id (obj st1 t) = k2 /\ c_urn (obj st1 t) = k2 /\
  c_kind (obj st1 t) <> KText Unknown /\ c_parent (obj st1 t) = Some wo /\ kids st1 t = [].
Proof using S A P M Len.
  intros k wo k2 t I I2. destruct (other_same t) as [L E]; [right; right; eauto 6|]. rewrite E.
  destruct (tg_text _ _ To _ _ _ _ I I2) as (_ & K & C & Q). destruct (gd_text _ _ _ _ P _ _ _ _ I I2) as (B1 & B2 & B3).
  split; [lia|]. auto 10.
Qed.

Lemma wo_key : forall k k' wo, In (k, wo) (kids st o) -> In (k', wo) (kids st o) -> k = k'.
Proof using P. intros k k' wo X Y. destruct (tg_work _ _ To _ _ X) as (_ & _ & <- & _). destruct (tg_work _ _ To _ _ Y) as (_ & _ & <- & _). reflexivity. Qed.

Lemma w1_key : forall k k' w, In (k, w) (kids st1 g) -> In (k', w) (kids st1 g) -> k = k'.
Proof using S A P M Len. intros k k' w X Y. destruct (tg_work _ _ tree1 _ _ X) as (_ & _ & <- & _). destruct (tg_work _ _ tree1 _ _ Y) as (_ & _ & <- & _). reflexivity. Qed.

Lemma w1_val : forall k w w', In (k, w) (kids st1 g) -> In (k, w') (kids st1 g) -> w = w'.
Proof using S A P M Len. intros k w w' X Y. eapply NoDup_key; [apply (tg_dict _ _ tree1)|exact X|exact Y]. Qed.

Lemma w1_has : forall k wo, In (k, wo) (kids st o) -> exists w, In (k, w) (kids st1 g) /\
  forall k2, In k2 (keys (kids st wo)) -> In k2 (keys (kids st1 w)).
Proof using S A P M. intros k wo I. apply (after_has st g o st1 M k wo I). Qed.

(** The texts already taken back, for the works of [l]. *)
Record taken (l : list (str * nat)) (s : state) : Prop := {
  tk_len : length (objs s) = length (objs st1);
  tk_id : forall x, alike st1 x s x;
  tk_stay : forall x, (forall k wo k2, In (k, wo) l -> ~ In (k2, x) (kids st wo)) -> c_parent (obj s x) = c_parent (obj st1 x);
  tk_move : forall k wo k2 t w, In (k, wo) l -> In (k2, t) (kids st wo) -> In (k, w) (kids st1 g) -> c_parent (obj s t) = Some w;
  tk_kids : forall x, (forall k wo, In (k, wo) l -> ~ In (k, x) (kids st1 g)) -> kids s x = kids st1 x;
  tk_work : forall k wo w, In (k, wo) l -> In (k, w) (kids st1 g) -> kids s w = union (kids st1 w) (kids st wo) }.

Lemma taken_nil : taken [] st1.
Proof using. constructor; auto; try (intros; contradiction). intros x. repeat split. Qed.

Section Taken.
Variables (l : list (str * nat)) (s : state).
Hypothesis Sub : forall k wo, In (k, wo) l -> In (k, wo) (kids st o).
Hypothesis T : taken l s.

Lemma not_work : forall x, c_kind (obj st1 x) <> KWork -> forall k wo, In (k, wo) l -> ~ In (k, x) (kids st1 g).
Proof using S A P M Len. intros x K k wo _ X. destruct (tg_work _ _ tree1 _ _ X) as (_ & Y & _). contradiction. Qed.
Lemma not_moved : forall x, (forall sub, c_kind (obj st1 x) <> KText sub) -> forall k wo k2, In (k, wo) l -> ~ In (k2, x) (kids st wo).
Proof using S A P M Len Sub. intros x K k wo k2 I X. destruct (to_facts _ _ _ _ (Sub _ _ I) X) as (_ & [sub Y] & _). eapply K. exact Y. Qed.

Lemma taken_group : kids s g = kids st1 g /\ c_parent (obj s g) = Some i0.
Proof using S A P M Len Sub T.
  split.
  - apply (tk_kids _ _ T). apply not_work. rewrite (tg_kind _ _ tree1). discriminate.
  - rewrite (tk_stay _ _ T); [apply (gd_parent _ _ _ _ good1)|]. apply not_moved. intros sub. rewrite (tg_kind _ _ tree1). discriminate.
Qed.

Lemma text_not_moved : forall k w k2 t, In (k, w) (kids st1 g) -> In (k2, t) (kids st1 w) ->
  forall k' wo k3, In (k', wo) l -> ~ In (k3, t) (kids st wo).
Proof using S A P M Len Sub.
  intros k w k2 t I I2 k' wo k3 J X. destruct (tg_text _ _ tree1 _ _ _ _ I I2) as (_ & _ & _ & E).
  destruct (to_facts _ _ _ _ (Sub _ _ J) X) as (_ & _ & _ & _ & _ & F & _). rewrite E in F. injection F as ->.
  destruct (wo_facts _ _ (Sub _ _ J)) as (_ & _ & _ & _ & _ & N). apply N. eauto.
Qed.

(** The texts of a work: taken back, or left there. *)
Lemma taken_texts : forall k w, In (k, w) (kids st1 g) ->
  keys (kids s w) = keys (kids st1 w) /\
  forall k2 t, In (k2, t) (kids s w) ->
    (exists wo, In (k, wo) l /\ In (k2, t) (kids st wo)) \/ In (k2, t) (kids st1 w).
Proof using S A P M Len Sub T.
  intros k w I. destruct (tg_work _ _ tree1 _ _ I) as (_ & _ & _ & _ & N).
  destruct (dget k l) as [wo|] eqn:D.
  - apply dget_In in D. rewrite (tk_work _ _ T _ _ _ D I). destruct (wo_facts _ _ (Sub _ _ D)) as (_ & _ & _ & _ & No & _). split.
    + rewrite keys_union by exact No. rewrite new_keys_none; [apply app_nil_r|]. intros k2 K. destruct (w1_has _ _ (Sub _ _ D)) as (w' & X & Y).
      assert (w' = w) by (eapply w1_val; eassumption). subst w'. apply Y. exact K.
    + intros k2 t J. apply dget_In_iff in J; [|apply NoDup_union; exact N]. rewrite dget_union in J by exact No.
      destruct (dget k2 (kids st wo)) as [u|] eqn:Q; [left|right; apply dget_In; exact J]. injection J as ->. apply dget_In in Q. eauto.
  - apply dget_none in D. rewrite (tk_kids _ _ T); [split; [reflexivity|auto]|]. intros k' wo J X.
    assert (k = k') by (eapply w1_key; eassumption). subst k'. apply D. apply In_keys. eauto.
Qed.

Lemma good_taken : good s (Some i0) ko g.
Proof using S A P M Len Sub T.
  destruct taken_group as [Kg Pg]. pose proof good1 as [T1 G1 G2 G3 G4 G5]. destruct T1 as [T1 T2 T3 T4 T5].
  destruct (tk_id _ _ T g) as (I1 & I2 & I3). pose proof (tk_len _ _ T) as L.
  assert (Tx : forall k w k2 t, In (k, w) (kids s g) -> In (k2, t) (kids s w) ->
    (t < length (objs s) /\ text s t /\ c_id (obj s t) = k2 /\ c_parent (obj s t) = Some w) /\
    c_urn (obj s t) = k2 /\ c_kind (obj s t) <> KText Unknown /\ kids s t = []).
  { intros k w k2 t I J. rewrite Kg in I. destruct (tk_id _ _ T t) as (J1 & J2 & J3). unfold text. rewrite <- J1, <- J2, <- J3.
    destruct (proj2 (taken_texts k w I) k2 t J) as [(wo & X & Y)|X].
    - destruct (to_facts _ _ _ _ (Sub _ _ X) Y) as (E1 & E2 & E3 & E4 & E5 & E6 & E7).
      rewrite (tk_move _ _ T _ _ _ _ _ X Y I). rewrite (tk_kids _ _ T); [|apply not_work; destruct E2 as [sub ->]; discriminate].
      split; [split; [lia|]; auto|auto].
    - destruct (T5 _ _ _ _ I X) as (E1 & E2 & E3 & E4). destruct (G5 _ _ _ _ I X) as (F1 & F2 & F3).
      rewrite (tk_stay _ _ T); [|eapply text_not_moved; eassumption].
      rewrite (tk_kids _ _ T); [|apply not_work; destruct E2 as [sub ->]; discriminate]. split; [split; [lia|]; auto|auto]. }
  constructor; [constructor|..]; try congruence; try lia.
  - intros k w I. rewrite Kg in I. destruct (tk_id _ _ T w) as (J1 & J2 & J3). destruct (T4 _ _ I) as (E1 & E2 & E3 & E4 & E5).
    rewrite (tk_stay _ _ T); [|apply not_moved; intros sub; rewrite E2; discriminate].
    rewrite (proj1 (taken_texts _ _ I)). split; [lia|]. repeat split; congruence.
  - intros k w k2 t I J. apply (Tx k w k2 t I J).
  - intros k w I. rewrite Kg in I. destruct (tk_id _ _ T w) as (J1 & J2 & J3). rewrite <- J3. apply G4. exact I.
  - intros k w k2 t I J. apply (Tx k w k2 t I J).
Qed.

Lemma view_keys_taken : rel_group anything (view_group s g) (join_groups (view_group st g) (view_group st o)).
Proof using S A P M Len Sub T.
  destruct taken_group as [Kg _]. pose proof (good_dict _ _ _ _ good_taken) as N.
  assert (NK : NoDup (keys (view_group st g))) by (apply (good_dict _ _ _ _ Gg)).
  assert (NO : NoDup (keys (view_group st o))) by (apply (good_dict _ _ _ _ P)).
  apply drel_intro; [exact N| |].
  - unfold join_groups. rewrite keys_merges by exact NO. rewrite keys_view_group, Kg, (m_keys _ _ _ _ M). rewrite keys_view_group. f_equal.
    unfold new_keys. change (map fst (view_group st g)) with (keys (view_group st g)). change (map fst (view_group st o)) with (keys (view_group st o)).
    rewrite !keys_view_group. reflexivity.
  - intros k x y X Y. apply in_view_group' in X. destruct X as (w & X & ->). rewrite Kg in X.
    destruct (tg_work _ _ tree1 _ _ X) as (_ & _ & _ & _ & Nw). destruct (taken_texts _ _ X) as [KT _].
    apply drel_anything; [rewrite KT; exact Nw|]. rewrite KT.
    apply In_merges in Y; [|exact NK|exact NO].
    assert (D : dget k (kids st1 g) = Some w) by (apply dget_In_iff; [apply (tg_dict _ _ tree1)|exact X]).
    destruct Y as [(a & b & Ya & Yb & ->)|[[Ya Yb]|[Ya Yb]]].
    + apply in_view_group' in Ya. destruct Ya as (w0 & Ya & ->). apply in_view_group' in Yb. destruct Yb as (wo & Yb & ->).
      destruct (m_shared _ _ _ _ M _ _ _ Ya Yb) as (E & _ & _ & K & _). assert (w0 = w) by congruence. subst w0.
      unfold join_works. rewrite keys_merges; [exact K|]. apply (tg_work _ _ To _ _ Yb).
    + apply in_view_group' in Ya. destruct Ya as (w0 & Ya & ->). rewrite keys_view_group in Yb.
      destruct (m_kept _ _ _ _ M _ _ Ya Yb) as [E E2]. assert (w0 = w) by congruence. subst w0. rewrite E2. reflexivity.
    + apply in_view_group' in Yb. destruct Yb as (wo & Yb & ->). rewrite keys_view_group in Ya.
      destruct (m_new _ _ _ _ M _ _ Yb Ya) as (w' & E & _ & _ & _ & K & _). assert (w' = w) by congruence. subst w'. exact K.
Qed.

Lemma fits_taken : fits ko (view_group s g).
Proof using S A P M Len Sub T Fo.
  assert (X : fits ko (join_groups (view_group st g) (view_group st o))).
  { apply fits_join; [|exact Fo]. eapply (io_urns _ _ (sv_order _ _ S)); [eapply in_view_shelf; exact (proj1 A)|eapply in_view_group; exact A]. }
  destruct X as (ns & cts & tg & P1 & P2 & P3 & E & F). exists ns, cts, tg. repeat (split; [assumption|]).
  eapply rel_names_fit; [apply view_keys_taken|exact F].
Qed.

Lemma like_taken : forall x, x < length (objs st) -> ~ inside st g x -> ~ inside st o x -> like st s x.
Proof using S A P M Len Sub T.
  intros x L Ng No. pose proof (outside_kept x L Ng) as E. apply like_trans with st1; [apply like_eq; exact E|].
  split; [apply (tk_id _ _ T)|]. split.
  - apply (tk_stay _ _ T). intros k wo k2 I J. apply No. right. right. eauto 6.
  - apply (tk_kids _ _ T). intros k wo I X. apply Ng. pose proof X as X'. apply dget_In_iff in X'; [|apply (tg_dict _ _ tree1)].
    destruct (after_work st g o st1 Ts To M k x X) as [[Y _]|[(wo' & Y & _)|(wo' & Y & Z)]]; [right; left; eauto|right; left; eauto|].
    destruct (m_new _ _ _ _ M _ _ Y Z) as (w' & D & Lw & _). assert (w' = x) by congruence. subst w'. lia.
Qed.

Lemma shelved_taken : shelved s root /\ view s root = replaced n0 ko (view_group s g) (view st root).
Proof using S A P M Len Sub T Fo.
  eapply shelved_local; [exact S|exact A|exact P| |apply like_taken|apply good_taken|apply fits_taken].
  rewrite (tk_len _ _ T). exact Len.
Qed.
End Taken.

Lemma taken_step : forall limit l s k wo, (forall k wo, In (k, wo) l -> In (k, wo) (kids st o)) -> taken l s ->
  In (k, wo) (kids st o) -> ~ In k (keys l) ->
  exists s', enter_work (5 + limit) root o (s, Ok tt) (k, wo) = (s', Ok tt) /\ taken (l ++ [(k, wo)]) s'.
Proof using S A P M Len Fo.
  intros limit l s k wo Sub T I N. destruct (shelved_taken l s Sub T) as [Ss _]. destruct (taken_group l s Sub T) as [Kg Pg].
  pose proof (good_taken l s Sub T) as Gs.
  assert (A2 : at2 s root n0 i0 ko g).
  { assert (Lr : like st s root).
    { apply (like_taken l s Sub T); [apply (sv_root _ _ S)| |]; intros X.
      - pose proof (inside_kind _ _ _ _ _ Gg X). rewrite (sv_kind _ _ S) in *. tauto.
      - pose proof (inside_kind _ _ _ _ _ P X). rewrite (sv_kind _ _ S) in *. tauto. }
    assert (Li : like st s i0).
    { destruct (sv_inv _ _ S _ _ (proj1 A)) as (L & K & _). apply (like_taken l s Sub T); [exact L| |]; intros X.
      - pose proof (inside_kind _ _ _ _ _ Gg X). rewrite K in *. tauto.
      - pose proof (inside_kind _ _ _ _ _ P X). rewrite K in *. tauto. }
    destruct Lr as (_ & _ & E1). destruct Li as (_ & _ & E2). split; [red; rewrite E1; exact (proj1 A)|rewrite E2; exact (proj2 A)]. }
  destruct (w1_has k wo I) as (w & W & _).
  assert (A3 : at3 s root n0 i0 ko g k w) by (split; [exact A2|rewrite Kg; exact W]).
  assert (Io : c_id (obj s o) = ko).
  { destruct (tk_id _ _ T o) as (_ & E & _). rewrite <- E. rewrite (proj2 (other_same o (or_introl eq_refl))). apply (gd_id _ _ _ _ P). }
  unfold enter_work. rewrite Io. rewrite (getitem_at limit s root g ko Ss) by (right; right; left; eauto).
  cbn [fst snd].
  assert (Ex : existsb (str_eqb k) (map fst (kids s g)) = true).
  { apply existsb_str. change (In k (keys (kids s g))). rewrite Kg. apply In_keys. eauto. }
  rewrite Ex. rewrite (getitem_at limit s root w k Ss) by (right; right; right; left; eauto 6).
  destruct (tk_id _ _ T w) as (W1 & W2 & W3). destruct (tk_id _ _ T wo) as (V1 & V2 & V3).
  destruct (wo_facts k wo I) as (E1 & E2 & E3 & E4 & E5 & E6). destruct (tg_work _ _ tree1 _ _ W) as (Lw & Kw & Iw & Pw & Nw).
  unfold update_any. rewrite <- W1, Kw. unfold work_update. rewrite <- V1, E2. rewrite <- W3, (gd_work _ _ _ _ good1 _ _ W), <- V3, E3, str_eqb_refl.
  assert (Ko : kids s wo = kids st wo).
  { rewrite (tk_kids _ _ T); [exact E1|]. intros k' wo' _ X. apply E6. eauto. }
  rewrite Ko. eexists. split; [reflexivity|]. pose proof (tk_len _ _ T) as L.
  assert (O : forall x, obj (fold_left (take_text w) (kids st wo) s) x = let y := obj s x in
    MkColl (c_kind y) (c_id y) (c_urn y) (if existsb (Nat.eqb x) (map snd (kids st wo)) then Some w else c_parent y)
      (if Nat.eqb w x then union (c_children y) (kids st wo) else c_children y) (c_graph y)).
  { intros x. apply obj_takes; [lia|]. intros k2 t J. destruct (to_facts _ _ _ _ I J) as (X1 & _ & X2 & _).
    destruct (tk_id _ _ T t) as (_ & Y & _). split; [lia|congruence]. }
  assert (Ex2 : forall x, existsb (Nat.eqb x) (map snd (kids st wo)) = true <-> exists k2, In (k2, x) (kids st wo)).
  { intros x. rewrite existsb_exists. split.
    - intros (y & Y & E). apply Nat.eqb_eq in E. subst y. apply in_map_iff in Y. destruct Y as ([k2 t] & E & Y). cbn in E. subst t. eauto.
    - intros (k2 & X). exists x. split; [apply in_map_iff; exists (k2, x); auto|apply Nat.eqb_refl]. }
  constructor.
  - rewrite length_takes. exact L.
  - intros x. rewrite (tk_id _ _ T x) || idtac. destruct (tk_id _ _ T x) as (X1 & X2 & X3). unfold alike. rewrite O. cbn [c_kind c_id c_urn]. auto.
  - intros x H. rewrite O. cbn [c_parent]. destruct (existsb (Nat.eqb x) (map snd (kids st wo))) eqn:Q.
    + apply Ex2 in Q. destruct Q as [k2 Q]. exfalso. apply (H k wo k2); [apply in_app_iff; right; left; reflexivity|exact Q].
    + apply (tk_stay _ _ T). intros k' wo' k2 J. apply (H k' wo' k2). apply in_app_iff. left. exact J.
  - intros k' wo' k2 t w' J X Y. rewrite O. cbn [c_parent]. apply in_app_iff in J. destruct J as [J|[J|[]]].
    + assert (Q : existsb (Nat.eqb t) (map snd (kids st wo)) = false).
      { apply not_true_iff_false. intros Q. apply Ex2 in Q. destruct Q as [k3 Q].
        destruct (to_facts _ _ _ _ I Q) as (_ & _ & _ & _ & _ & F1 & _). destruct (to_facts _ _ _ _ (Sub _ _ J) X) as (_ & _ & _ & _ & _ & F2 & _).
        assert (wo = wo') by congruence. subst wo'. apply N. rewrite (wo_key _ _ _ I (Sub _ _ J)). apply In_keys. eauto. }
      rewrite Q. eapply (tk_move _ _ T); eassumption.
    + injection J as <- <-. assert (w' = w) by (eapply w1_val; eassumption). subst w'.
      assert (Q : existsb (Nat.eqb t) (map snd (kids st wo)) = true) by (apply Ex2; eauto). rewrite Q. reflexivity.
  - intros x H. rewrite O. cbn [c_children]. destruct (Nat.eqb w x) eqn:Q.
    + apply Nat.eqb_eq in Q. subst x. exfalso. apply (H k wo); [apply in_app_iff; right; left; reflexivity|exact W].
    + apply (tk_kids _ _ T). intros k' wo' J. apply (H k' wo'). apply in_app_iff. left. exact J.
  - intros k' wo' w' J Y. rewrite O. cbn [c_children]. apply in_app_iff in J. destruct J as [J|[J|[]]].
    + destruct (Nat.eqb w w') eqn:Q.
      * apply Nat.eqb_eq in Q. subst w'. exfalso. apply N. rewrite (w1_key _ _ _ W Y). apply In_keys. eauto.
      * eapply (tk_work _ _ T); eassumption.
    + injection J as <- <-. assert (w' = w) by (eapply w1_val; eassumption). subst w'. rewrite Nat.eqb_refl. f_equal.
      apply (tk_kids _ _ T). intros k' wo' J X. apply N. rewrite (w1_key _ _ _ W X). apply In_keys. eauto.
Qed.

Lemma taken_all : forall limit l2 l1 s, l1 ++ l2 = kids st o -> taken l1 s ->
  exists s', fold_left (enter_work (5 + limit) root o) l2 (s, Ok tt) = (s', Ok tt) /\ taken (kids st o) s'.
Proof using S A P M Len Fo.
  intros limit l2. induction l2 as [|[k wo] l2 IH]; intros l1 s E T.
  - rewrite app_nil_r in E. subst l1. exists s. auto.
  - assert (Sub : forall k' wo', In (k', wo') l1 -> In (k', wo') (kids st o)) by (intros; rewrite <- E; apply in_app_iff; auto).
    destruct (taken_step limit l1 s k wo Sub T) as (s' & E' & T').
    + rewrite <- E. apply in_app_iff. right. left. reflexivity.
    + pose proof (tg_dict _ _ To) as N. rewrite <- E in N. unfold keys in N. rewrite map_app in N. cbn [map fst] in N. intros X.
      apply NoDup_remove_2 in N. apply N. apply in_app_iff. left. exact X.
    + cbn [fold_left]. rewrite E'. apply (IH (l1 ++ [(k, wo)]) s'); [rewrite <- app_assoc; exact E|exact T'].
Qed.

Lemma view_taken : forall s, taken (kids st o) s -> view_group s g = join_groups (view_group st g) (view_group st o).
Proof using S A P M Len Fo.
  intros s T. set (Sub := fun k wo (H : In (k, wo) (kids st o)) => H).
  pose proof (view_keys_taken _ s Sub T) as R. pose proof (good_dict _ _ _ _ (good_taken _ s Sub T)) as N.
  destruct (taken_group _ s Sub T) as [Kg _].
  assert (NK : NoDup (keys (view_group st g))) by (apply (good_dict _ _ _ _ Gg)).
  assert (NO : NoDup (keys (view_group st o))) by (apply (good_dict _ _ _ _ P)).
  assert (NJ : NoDup (keys (join_groups (view_group st g) (view_group st o)))) by (apply NoDup_merges; exact NK).
  apply dict_ext; [exact N|apply (drel_keys _ _ _ R)|]. intros k.
  destruct (dget k (view_group s g)) as [x|] eqn:X; destruct (dget k (join_groups (view_group st g) (view_group st o))) as [y|] eqn:Y.
  - f_equal. apply dget_In in X. apply dget_In in Y.
    assert (KK : keys x = keys y).
    { destruct (drel_In _ _ _ _ _ R X) as (y' & Y' & Q). assert (y' = y) by (eapply NoDup_key; [exact NJ|exact Y'|exact Y]). subst y'.
      apply (drel_keys _ _ _ Q). }
    apply in_view_group' in X. destruct X as (w & X & ->). rewrite Kg in X.
    assert (D : dget k (kids st1 g) = Some w) by (apply dget_In_iff; [apply (tg_dict _ _ tree1)|exact X]).
    destruct (tg_work _ _ tree1 _ _ X) as (_ & _ & _ & _ & Nw).
    apply dict_ext; [rewrite (proj1 (taken_texts _ s Sub T _ _ X)); exact Nw|exact KK|]. intros k2.
    apply In_merges in Y; [|exact NK|exact NO]. destruct Y as [(a & b & Ya & Yb & ->)|[[Ya Yb]|[Ya Yb]]].
    + apply in_view_group' in Ya. destruct Ya as (w0 & Ya & ->). apply in_view_group' in Yb. destruct Yb as (wo & Yb & ->).
      destruct (m_shared _ _ _ _ M _ _ _ Ya Yb) as (E & _ & _ & _ & F & _). assert (w0 = w) by congruence. subst w0.
      destruct (wo_facts _ _ Yb) as (_ & _ & _ & _ & No & _).
      rewrite (tk_work _ _ T _ _ _ Yb X), dget_union by exact No. unfold join_works. rewrite dget_merges by exact No.
      destruct (dget k2 (kids st wo)) as [u|] eqn:Q; [destruct (dget k2 (kids st w)); reflexivity|].
      apply dget_none in Q. rewrite (F k2 Q). destruct (dget k2 (kids st w)); reflexivity.
    + apply in_view_group' in Ya. destruct Ya as (w0 & Ya & ->). rewrite keys_view_group in Yb.
      destruct (m_kept _ _ _ _ M _ _ Ya Yb) as [E E2]. assert (w0 = w) by congruence. subst w0.
      rewrite (tk_kids _ _ T), E2; [reflexivity|]. intros k' wo' J Z. apply Yb. rewrite (w1_key _ _ _ X Z). apply In_keys. eauto.
    + apply in_view_group' in Yb. destruct Yb as (wo & Yb & ->). destruct (wo_facts _ _ Yb) as (_ & _ & _ & _ & No & _).
      rewrite (tk_work _ _ T _ _ _ Yb X), dget_union by exact No.
      destruct (dget k2 (kids st wo)) as [u|] eqn:Q; [reflexivity|]. apply dget_none in Q. apply dget_none. intros Z. apply Q.
      rewrite keys_view_group in Ya. destruct (m_new _ _ _ _ M _ _ Yb Ya) as (w' & E & _ & _ & _ & K & _).
      assert (w' = w) by congruence. subst w'. rewrite <- K. exact Z.
  - exfalso. apply dget_none in Y. apply Y. rewrite <- (drel_keys _ _ _ R). apply dget_In in X. apply In_keys. eauto.
  - exfalso. apply dget_none in X. apply X. rewrite (drel_keys _ _ _ R). apply dget_In in Y. apply In_keys. eauto.
  - reflexivity.
Qed.
End Merging.

(** ** A textgroup that is new *)
Lemma shelved_like : forall st st' root, shelved st root -> length (objs st') = length (objs st) ->
  (forall x, like st st' x) -> shelved st' root /\ view st' root = view st root.
Proof.
  intros st st' root S L H.
  assert (V : view st' root = view st root).
  { unfold view. destruct (H root) as (_ & _ & ->). apply map_ext_in. intros [n i] I. cbn [fst snd]. f_equal.
    unfold view_shelf. destruct (H i) as (_ & _ & ->). apply map_ext_in. intros [k g] J. cbn [fst snd]. f_equal.
    unfold view_group. destruct (H g) as (_ & _ & ->). apply map_ext_in. intros [k2 w] J2. cbn [fst snd]. f_equal.
    apply (H w). }
  split; [|exact V]. destruct (H root) as ((R1 & R2 & R3) & R4 & R5). constructor.
  - rewrite L. apply (sv_root _ _ S).
  - rewrite <- R1. apply (sv_kind _ _ S).
  - intros n i I. rewrite R5 in I. destruct (H i) as ((I1 & I2 & I3) & I4 & I5). rewrite L, <- I1, <- I2, I4. apply (sv_inv _ _ S n i I).
  - intros n i k g I J. rewrite R5 in I. destruct (H i) as (_ & _ & I5). rewrite I5 in J.
    apply (good_frame st st'); [eapply sv_group; eassumption|lia|]. intros x _. apply H.
  - rewrite V, <- R2. apply (sv_order _ _ S).
Qed.

Lemma shelved_add : forall st root n i ko o choice, shelved st root -> at1 st root n i -> good st None ko o -> fits ko (view_group st o) ->
  (forall x, ~ somewhere st root x ko) -> choice ko = Some n ->
  let st1 := set_parent st o i in
  length (objs st1) = length (objs st) /\ shelved st1 root /\ at2 st1 root n i ko o /\
  view st1 root = shelve choice (view st root) (ko, view_group st o) /\
  (forall x, alike st x st1 x) /\ (forall x, x <> o -> x <> i -> like st st1 x) /\ kids st1 o = kids st o.
Proof.
  intros st root n i ko o choice S I P Fo New Ch st1.
  assert (Lo : o < length (objs st)) by (apply (tg_in _ _ (gd_tree _ _ _ _ P))).
  destruct (sv_inv _ _ S n i I) as (Li & Ki & Idi & Pi).
  assert (Nio : o <> i) by (intros ->; rewrite (tg_kind _ _ (gd_tree _ _ _ _ P)) in Ki; discriminate).
  assert (Nk : ~ In ko (keys (kids st i))).
  { intros X. apply In_keys in X. destruct X as [g X]. apply (New g). right. right. left. exists n, i. split; assumption. }
  assert (O : forall x, obj st1 x = let y := obj st x in MkColl (c_kind y) (c_id y) (c_urn y) (if Nat.eqb o x then Some i else c_parent y)
     (if Nat.eqb i x then c_children y ++ [(ko, o)] else c_children y) (c_graph y)).
  { intros x. unfold st1. rewrite obj_set_parent by assumption. cbn zeta. rewrite (gd_id _ _ _ _ P).
    destruct (Nat.eqb i x) eqn:E; cbn [andb]; [|reflexivity]. apply Nat.eqb_eq in E. subst x.
    destruct (existsb (str_eqb ko) (keys (kids st i))) eqn:Q; [apply existsb_str in Q; contradiction|reflexivity]. }
  assert (L : length (objs st1) = length (objs st)) by (unfold st1; apply length_set_parent).
  assert (Al : forall x, alike st x st1 x) by (intros x; unfold alike; rewrite O; repeat split).
  assert (Fr : forall x, x <> o -> x <> i -> like st st1 x).
  { intros x X Y. split; [apply Al|]. rewrite O. cbn [c_parent c_children]. 
    apply not_eq_sym, Nat.eqb_neq in X. apply not_eq_sym, Nat.eqb_neq in Y. rewrite X, Y. auto. }
  assert (Ko : kids st1 o = kids st o).
  { rewrite O. cbn [c_children]. apply not_eq_sym, Nat.eqb_neq in Nio. rewrite Nio. reflexivity. }
  assert (KI : kids st1 i = kids st i ++ [(ko, o)]) by (rewrite O; cbn [c_children]; rewrite Nat.eqb_refl; reflexivity).
  assert (Par : forall x, x <> o -> c_parent (obj st1 x) = c_parent (obj st x)).
  { intros x X. rewrite O. cbn [c_parent]. apply not_eq_sym, Nat.eqb_neq in X. rewrite X. reflexivity. }
  assert (Go : good st1 (Some i) ko o /\ view_group st1 o = view_group st o).
  { assert (Hin : forall x, inside st o x -> x <> o -> like st st1 x).
    { intros x X N. apply Fr; [exact N|]. intros ->. pose proof (inside_kind _ _ _ _ _ P X). tauto. }
    assert (Wn : forall k w, In (k, w) (kids st o) -> w <> o /\ like st st1 w).
    { intros k w J. assert (w <> o).
      { intros ->. destruct (tg_work _ _ (gd_tree _ _ _ _ P) _ _ J) as (_ & K & _). rewrite (tg_kind _ _ (gd_tree _ _ _ _ P)) in K. discriminate. }
      split; [assumption|]. apply Hin; [right; left; eauto|assumption]. }
    assert (Tn : forall k w k2 t, In (k, w) (kids st o) -> In (k2, t) (kids st w) -> like st st1 t).
    { intros k w k2 t J J2. apply Hin; [right; right; eauto 6|]. intros ->.
      destruct (tg_text _ _ (gd_tree _ _ _ _ P) _ _ _ _ J J2) as (_ & [sub K] & _). rewrite (tg_kind _ _ (gd_tree _ _ _ _ P)) in K. discriminate. }
    destruct (Al o) as (A1 & A2 & A3). destruct P as [[T1 T2 T3 T4 T5] G1 G2 G3 G4 G5].
    split; [constructor; [constructor|..]|].
    - lia.
    - congruence.
    - rewrite Ko. exact T3.
    - intros k w J. rewrite Ko in J. destruct (Wn k w J) as (_ & (B1 & B2 & B3) & B4 & B5). destruct (T4 k w J) as (C1 & C2 & C3 & C4 & C5).
      rewrite B5. split; [lia|]. repeat split; congruence.
    - intros k w k2 t J J2. rewrite Ko in J. destruct (Wn k w J) as (_ & _ & _ & B5). rewrite B5 in J2.
      destruct (Tn _ _ _ _ J J2) as ((B1 & B2 & B3) & B4 & _). destruct (T5 _ _ _ _ J J2) as (C1 & [sub C2] & C3 & C4).
      split; [lia|]. split; [exists sub; congruence|]. split; congruence.
    - congruence.
    - congruence.
    - rewrite O. cbn [c_parent]. rewrite Nat.eqb_refl. reflexivity.
    - intros k w J. rewrite Ko in J. destruct (Wn k w J) as (_ & (B1 & B2 & B3) & _). rewrite <- B3. apply G4. exact J.
    - intros k w k2 t J J2. rewrite Ko in J. destruct (Wn k w J) as (_ & _ & _ & B5). rewrite B5 in J2.
      destruct (Tn _ _ _ _ J J2) as ((B1 & B2 & B3) & B4 & B6). destruct (G5 _ _ _ _ J J2) as (C1 & C2 & C3).
      repeat split; congruence.
    - unfold view_group. rewrite Ko. apply map_ext_in. intros [k w] J. cbn [fst snd]. destruct (Wn k w J) as (_ & _ & _ & ->). reflexivity. }
  assert (Rr : root <> o /\ root <> i).
  { split; intros E.
    - pose proof (sv_kind _ _ S) as K. rewrite E, (tg_kind _ _ (gd_tree _ _ _ _ P)) in K. discriminate.
    - pose proof (sv_kind _ _ S) as K. rewrite E, Ki in K. discriminate. }
  destruct (Fr root (proj1 Rr) (proj2 Rr)) as ((R1 & R2 & R3) & R4 & R5).
  assert (Old : forall n' i' k g, at2 st root n' i' k g -> good st1 (Some i') k g /\ view_group st1 g = view_group st g).
  { intros n' i' k g H. pose proof (at2_good _ _ S _ _ _ _ H) as Q. apply good_frame; [exact Q|lia|]. intros x X.
    apply Fr; intros ->.
    - assert (g = o) by (eapply inside_same; [exact Q|exact P|exact X|left; reflexivity]). subst g.
      pose proof (gd_parent _ _ _ _ Q). pose proof (gd_parent _ _ _ _ P). congruence.
    - pose proof (inside_kind _ _ _ _ _ Q X). tauto. }
  assert (V : view st1 root = shelve choice (view st root) (ko, view_group st o)).
  { unfold shelve. cbn [fst].
    destruct (find_place choice (view st root) ko) as [(n' & d & J & K & _)|[NK E]].
    - exfalso. apply (in_view (view_shelf st)) in J. destruct J as (i' & J & ->). unfold view_shelf in K. rewrite keys_view in K.
      apply In_keys in K. destruct K as [g K]. apply (New g). right. right. left. exists n', i'. split; assumption.
    - rewrite E, Ch. unfold view. rewrite R5, map_map. apply map_ext_in. intros [n' i'] J. cbn [fst snd].
      assert (Sh : i' <> i -> view_shelf st1 i' = view_shelf st i').
      { intros N. unfold view_shelf.
        assert (X : kids st1 i' = kids st i').
        { rewrite O. cbn [c_children]. apply not_eq_sym, Nat.eqb_neq in N. rewrite N. reflexivity. }
        rewrite X. apply map_ext_in. intros [k g] Q. cbn [fst snd]. f_equal. apply (Old n' i' k g (conj J Q)). }
      destruct (str_eqb n' n) eqn:Q.
      + apply str_eqb_eq in Q. subst n'. assert (i' = i) by (eapply at1_same; eassumption). subst i'. f_equal.
        unfold add_group. rewrite merge_new; [|unfold view_shelf; rewrite keys_view; exact Nk].
        unfold view_shelf. rewrite KI, map_app. cbn [map fst snd]. rewrite (proj2 Go). f_equal.
        apply map_ext_in. intros [k g] Q. cbn [fst snd]. f_equal. apply (Old n i k g (conj J Q)).
      + f_equal. apply Sh. intros ->. destruct (sv_inv _ _ S n' i J) as (_ & _ & X & _). assert (X' : n' = n) by congruence.
        rewrite X', str_eqb_refl in Q. discriminate. }
  assert (Sh : shelved st1 root).
  { constructor.
    - rewrite L. apply (sv_root _ _ S).
    - rewrite <- R1. apply (sv_kind _ _ S).
    - intros n' i' J. rewrite R5 in J. destruct (sv_inv _ _ S n' i' J) as (X1 & X2 & X3 & X4). destruct (Al i') as (Y1 & Y2 & Y3).
      rewrite Par; [|intros ->; rewrite (tg_kind _ _ (gd_tree _ _ _ _ P)) in X2; discriminate].
      split; [lia|]. repeat split; congruence.
    - intros n' i' k g J Q. rewrite R5 in J. rewrite O in Q. cbn [c_children] in Q. destruct (Nat.eqb i i') eqn:E.
      + apply Nat.eqb_eq in E. subst i'. apply in_app_iff in Q. destruct Q as [Q|[Q|[]]].
        * apply (Old n' i k g (conj J Q)).
        * injection Q as <- <-. apply Go.
      + apply (Old n' i' k g (conj J Q)).
    - rewrite V, <- R2. apply shelve_order; [apply (sv_order _ _ S)|exact Fo]. }
  split; [exact L|]. split; [exact Sh|]. split; [|auto]. split; [red; rewrite R5; exact I|]. rewrite KI. apply in_app_iff. right. left. reflexivity.
Qed.

(** A work that receives itself stays as it is. *)
Lemma union_self : forall d, NoDup (keys d) -> union d d = d.
Proof.
  intros d N. apply dict_ext.
  - apply NoDup_union. exact N.
  - rewrite keys_union by exact N. rewrite new_keys_none; [apply app_nil_r|]. auto.
  - intros k. rewrite dget_union by exact N. destruct (dget k d); reflexivity.
Qed.

Lemma update_self : forall st p k g k2 w, good st p k g -> In (k2, w) (kids st g) ->
  exists st', update_any st w w = (st', Ok tt) /\ length (objs st') = length (objs st) /\ forall x, like st st' x.
Proof.
  intros st p k g k2 w G I. destruct (tg_work _ _ (gd_tree _ _ _ _ G) _ _ I) as (L & K & _ & _ & N).
  unfold update_any, work_update. rewrite K, str_eqb_refl. eexists. split; [reflexivity|]. split; [apply length_takes|].
  intros x. unfold like, alike.
  rewrite (obj_takes (kids st w) st w L); [|intros k3 t J; destruct (tg_text _ _ (gd_tree _ _ _ _ G) _ _ _ _ I J) as (X & _ & Y & _); auto].
  cbn [c_kind c_id c_urn c_parent c_children]. split; [auto|]. split.
  - destruct (existsb (Nat.eqb x) (map snd (kids st w))) eqn:E; [|reflexivity]. apply existsb_exists in E. destruct E as (y & Y & E).
    apply Nat.eqb_eq in E. subst y. apply in_map_iff in Y. destruct Y as ([k3 t] & E & Y). cbn in E. subst t.
    symmetry. apply (tg_text _ _ (gd_tree _ _ _ _ G) _ _ _ _ I Y).
  - destruct (Nat.eqb w x) eqn:E; [|reflexivity]. apply Nat.eqb_eq in E. subst x. apply union_self. exact N.
Qed.

Lemma enter_self : forall limit root n i ko o l st, shelved st root -> at2 st root n i ko o ->
  (forall k w, In (k, w) l -> In (k, w) (kids st o)) ->
  exists st', fold_left (enter_work (5 + limit) root o) l (st, Ok tt) = (st', Ok tt) /\ length (objs st') = length (objs st) /\
    forall x, like st st' x.
Proof.
  intros limit root n i ko o l. induction l as [|[k w] l IH]; intros st S A Sub.
  - exists st. split; [reflexivity|]. split; [reflexivity|]. intros x. apply like_refl.
  - pose proof (at2_good _ _ S _ _ _ _ A) as G. assert (I : In (k, w) (kids st o)) by (apply Sub; left; reflexivity).
    destruct (update_self _ _ _ _ _ _ G I) as (st1 & E & L & H). destruct (shelved_like _ _ _ S L H) as [S1 _].
    assert (A1 : at2 st1 root n i ko o).
    { destruct (H root) as (_ & _ & E1). destruct (H i) as (_ & _ & E2). split; [red; rewrite E1; exact (proj1 A)|rewrite E2; exact (proj2 A)]. }
    destruct (IH st1 S1 A1) as (st2 & E2 & L2 & H2).
    { intros k' w' J. destruct (H o) as (_ & _ & ->). apply Sub. right. exact J. }
    exists st2. cbn [fold_left]. unfold enter_work at 2. rewrite (gd_id _ _ _ _ G), (getitem_at limit st root o ko S) by (right; right; left; eauto).
    cbn [fst snd]. assert (Ex : existsb (str_eqb k) (map fst (kids st o)) = true).
    { apply existsb_str. change (In k (keys (kids st o))). apply In_keys. eauto. }
    rewrite Ex, (getitem_at limit st root w k S) by (right; right; right; left; exists n, i, ko, o; split; assumption).
    rewrite E. split; [exact E2|]. split; [congruence|]. intros x. eapply like_trans; [apply H|apply H2].
Qed.

(** ** Dispatching by name *)
Lemma dispatch_by_name : forall st d tests c path, filters_by_name d tests ->
  dispatch st d c (Some path) = match choice_of tests path (c_id (obj st c)) with
                    | None => (st, Err UndispatchedTextError)
                    | Some n => let '(st1, r) := child st (d_root d) n in
                                match r with Ok i => (set_parent st1 c i, Ok tt) | Err e => (st1, Err e) end
                    end.
Proof.
  intros st d tests c path F. unfold filters_by_name in F. unfold dispatch, choice_of.
  assert (R : Forall2 (fun (m : str * filter_fun) (t : str * (str -> str -> bool)) => fst m = fst t /\ forall st c path, snd m st c (Some path) = Ok (snd t path (c_id (obj st c)))) (rev (d_methods d)) (rev tests)).
  { induction F as [|m t ms ts H F IH]; [constructor|]. cbn [rev]. apply Forall2_app; [exact IH|]. constructor; [exact H|constructor]. }
  induction R as [|[n f] [n' t] ms ts [E H] R IH]; [reflexivity|]. cbn in E. subst n'. cbn [dispatch_in find snd fst].
  cbn in H. rewrite H. destruct (t path (c_id (obj st c))); [reflexivity|exact IH].
Qed.

(** ** Entering *)
Theorem enter_ok : forall limit st d root tests o path ko, shelved st root -> d_root d = root -> filters_by_name d tests ->
  good st None ko o -> fits ko (view_group st o) ->
  (forall n, choice_of tests path ko = Some n -> In n (keys (kids st root))) ->
  exists st' r, enter (5 + limit) st d o path = (st', r) /\
    r = (match place (choice_of tests path) (view st root) ko with None => Err UndispatchedTextError | Some _ => Ok tt end) /\
    shelved st' root /\ view st' root = shelve (choice_of tests path) (view st root) (ko, view_group st o) /\
    length (objs st) <= length (objs st') /\ (forall x, x < length (objs st) -> alike st x st' x) /\
    (forall k o', good st None k o' -> o' <> o -> good st' None k o' /\ view_group st' o' = view_group st o').
Proof.
  intros limit st d root tests o path ko S Dr Fl P Fo Ch. unfold enter. rewrite Dr, (gd_id _ _ _ _ P).
  destruct (contains_at limit st root ko S) as [(g & Sm & ->)|[New ->]].
  - assert (A : exists n i, at2 st root n i ko g).
    { destruct Fo as (ns & cts & tg & P1 & P2 & P3 & E & _).
      assert (Lv : urn_level ko 1) by (exists ns, cts, (Group tg); auto 10).
      destruct Sm as [[-> E1]|[B|[B|[(n & i & k & h & B)|(n & i & k & h & k2 & w & B)]]]]; [| |exact B| |]; exfalso.
      - pose proof (io_root _ _ (sv_order _ _ S)) as R. rewrite <- E1 in R. eapply level_not; eassumption.
      - eapply level_not; [exact Lv|]. apply (at1_name _ _ S _ _ B).
      - pose proof (urn_level_same _ _ _ Lv (level3 _ _ S _ _ _ _ _ _ B)). discriminate.
      - pose proof (urn_level_same _ _ _ Lv (level4 _ _ S _ _ _ _ _ _ _ _ B)). discriminate. }
    destruct A as (n & i & A). rewrite (getitem_at limit st root g ko S Sm). pose proof (at2_good _ _ S _ _ _ _ A) as Gg.
    unfold update_any. rewrite (tg_kind _ _ (gd_tree _ _ _ _ Gg)).
    assert (Ngo : g <> o) by (eapply go; eassumption).
    destruct (textgroup_update_merged st g o (gd_tree _ _ _ _ Gg) (gd_tree _ _ _ _ P) Ngo) as (st1 & E & M).
    { intros k w wo X Y. rewrite (gd_work _ _ _ _ Gg _ _ X), (gd_work _ _ _ _ P _ _ Y). reflexivity. }
    { rewrite (gd_urn _ _ _ _ Gg), (gd_urn _ _ _ _ P). reflexivity. }
    rewrite E. pose proof (textgroup_update_grows _ _ _ _ _ E) as Len.
    assert (Ko : kids st1 o = kids st o).
    { destruct (other_same st st1 root n i g o ko S A P M o (or_introl eq_refl)) as [_ ->]. reflexivity. }
    rewrite Ko.
    destruct (taken_all st st1 root n i g o ko S A P Fo M Len limit (kids st o) [] st1 eq_refl (taken_nil st st1 g)) as (st2 & E2 & T).
    exists st2, (Ok tt). split; [exact E2|].
    set (Sub := fun k wo (H : In (k, wo) (kids st o)) => H).
    destruct (shelved_taken st st1 root n i g o ko S A P Fo M Len _ st2 Sub T) as [S2 V2].
    assert (IL : In (n, view_shelf st i) (view st root)) by (apply in_view_shelf; exact (proj1 A)).
    assert (IG : In (ko, view_group st g) (view_shelf st i)) by (eapply in_view_group; exact A).
    split.
    { destruct (find_place (choice_of tests path) (view st root) ko) as [(n' & d' & _ & _ & ->)|[X _]]; [reflexivity|].
      exfalso. apply X. apply in_flat_map. exists (n, view_shelf st i). split; [exact IL|]. apply In_keys. eauto. }
    split; [exact S2|]. split.
    { rewrite V2, (view_taken st st1 root n i g o ko S A P Fo M Len st2 T).
      eapply replaced_shelve; [apply (sv_order _ _ S)|exact IL|exact IG]. }
    split; [rewrite (tk_len _ _ _ _ _ T); exact Len|]. split.
    { intros x Lx. eapply alike_trans; [eapply alike1; eassumption|apply (tk_id _ _ _ _ _ T)]. }
    intros k o' G' N. apply good_frame; [exact G'|rewrite (tk_len _ _ _ _ _ T); exact Len|]. intros x X.
    apply (like_taken st st1 root n i g o ko S A P M Len _ st2 Sub T); [eapply inside_in; eassumption| |]; intros Y.
    + assert (o' = g) by (eapply inside_same; eassumption). subst o'. pose proof (gd_parent _ _ _ _ Gg). pose proof (gd_parent _ _ _ _ G'). congruence.
    + apply N. eapply inside_same; eassumption.
  - rewrite (dispatch_by_name st d tests o path Fl), (gd_id _ _ _ _ P), Dr.
    assert (Pl : place (choice_of tests path) (view st root) ko = choice_of tests path ko).
    { destruct (find_place (choice_of tests path) (view st root) ko) as [(n' & d' & J & K & _)|[_ X]]; [|exact X].
      exfalso. apply (in_view (view_shelf st)) in J. destruct J as (i' & J & ->). unfold view_shelf in K. rewrite keys_view in K.
      apply In_keys in K. destruct K as [g K]. apply (New g). right. right. left. exists n', i'. split; assumption. }
    rewrite Pl. destruct (choice_of tests path ko) as [n|] eqn:C.
    + assert (I : exists i, at1 st root n i) by (apply In_keys; apply Ch; reflexivity). destruct I as [i I].
      assert (D : dget n (kids st root) = Some i).
      { apply dget_In_iff; [|exact I]. pose proof (io_distinct _ _ (sv_order _ _ S)) as N. unfold view in N. rewrite keys_view in N. exact N. }
      unfold child. rewrite D.
      destruct (shelved_add st root n i ko o (choice_of tests path) S I P Fo New C) as (L & S1 & A1 & V1 & Al & Fr & Ko).
      destruct (enter_self limit root n i ko o (kids (set_parent st o i) o) (set_parent st o i) S1 A1) as (st2 & E2 & L2 & H2); [auto|].
      exists st2, (Ok tt). split; [exact E2|]. split; [reflexivity|].
      destruct (shelved_like _ _ _ S1 L2 H2) as [S2 V2]. split; [exact S2|]. split; [congruence|].
      split; [lia|]. split; [intros x Lx; eapply alike_trans; [apply Al|apply H2]|].
      intros k o' G' N. apply good_frame; [exact G'|lia|]. intros x X. eapply like_trans; [apply Fr|apply H2]; intros ->.
      * apply N. eapply inside_same; [exact G'|exact P|exact X|left; reflexivity].
      * pose proof (inside_kind _ _ _ _ _ G' X) as [K _]. apply K. apply (sv_inv _ _ S _ _ I).
    + exists st, (Err UndispatchedTextError). split; [reflexivity|]. split; [reflexivity|]. split; [exact S|].
      split; [unfold shelve; cbn [fst]; rewrite Pl; reflexivity|]. split; [lia|]. split; [intros; repeat split|]. auto.
Qed.
