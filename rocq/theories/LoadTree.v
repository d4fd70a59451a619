(** Collections in order: what the resolver relies on while it loads. *)

From Coq Require Import List NArith ZArith Arith Bool Lia.
From Verif Require Import PyStr PyStrFacts UrnModel UrnSpec UrnProofs MetaModel CollModel CollSpec CollProofs CollHist CollMerge
  InvModel InvSpec LocalModel LocalSpec LocalProofs LoadModel LoadSpec LoadDict.
Import ListNotations.

Notation kids st x := (c_children (obj st x)).

Definition view_group (st : state) (g : nat) : group_of nat := map (fun e => (fst e, kids st (snd e))) (kids st g).
Definition view_shelf (st : state) (i : nat) : shelf_of nat := map (fun e => (fst e, view_group st (snd e))) (kids st i).
Definition view (st : state) (root : nat) : inventories nat := map (fun e => (fst e, view_shelf st (snd e))) (kids st root).

Lemma in_view : forall {A B} (f : A -> B) (d : list (str * A)) k y,
  In (k, y) (map (fun e => (fst e, f (snd e))) d) <-> exists x, In (k, x) d /\ y = f x.
Proof.
  intros A B f d k y. rewrite in_map_iff. split.
  - intros ([k' x] & E & I). cbn in E. injection E as <- <-. eauto.
  - intros (x & I & ->). exists (k, x). auto.
Qed.
Lemma keys_view : forall {A B} (f : A -> B) (d : list (str * A)), keys (map (fun e => (fst e, f (snd e))) d) = keys d.
Proof. intros A B f d. unfold keys. rewrite map_map. apply map_ext. reflexivity. Qed.

(** A textgroup in order, in [p]. *)
Record good (st : state) (p : option nat) (k : str) (g : nat) : Prop := {
  gd_tree : textgroup_tree st g;
  gd_id : c_id (obj st g) = k;
  gd_urn : c_urn (obj st g) = k;
  gd_parent : c_parent (obj st g) = p;
  gd_work : forall k w, In (k, w) (kids st g) -> c_urn (obj st w) = k;
  gd_text : forall k w k2 t, In (k, w) (kids st g) -> In (k2, t) (kids st w) ->
    c_urn (obj st t) = k2 /\ c_kind (obj st t) <> KText Unknown /\ kids st t = [] }.

(** Everything in order. *)
Record shelved (st : state) (root : nat) : Prop := {
  sv_root : root < length (objs st);
  sv_kind : c_kind (obj st root) = KInventoryCollection;
  sv_inv : forall n i, In (n, i) (kids st root) ->
    i < length (objs st) /\ c_kind (obj st i) = KInventory /\ c_id (obj st i) = n /\ c_parent (obj st i) = Some root;
  sv_group : forall n i k g, In (n, i) (kids st root) -> In (k, g) (kids st i) -> good st (Some i) k g;
  sv_order : in_order (c_id (obj st root)) (view st root) }.

Lemma NoDup_key : forall {A} (d : list (str * A)) k x y, NoDup (keys d) -> In (k, x) d -> In (k, y) d -> x = y.
Proof.
  intros A d k x y N X Y. apply dget_In_iff in X; [|exact N]. apply dget_In_iff in Y; [|exact N]. congruence.
Qed.

Lemma NoDup_flat_same : forall {A B} (f : A -> list B) (l : list A) a b x, NoDup (flat_map f l) -> In a l -> In b l ->
  In x (f a) -> In x (f b) -> a = b.
Proof.
  intros A B f l a b x N. revert a b. induction l as [|c l IH]; intros a b Ia Ib Xa Xb; [destruct Ia|].
  cbn in N. 
  assert (D : NoDup (f c) /\ NoDup (flat_map f l) /\ forall y, In y (f c) -> ~ In y (flat_map f l)).
  { clear -N. induction (f c) as [|z m IHm]; cbn in *.
    - split; [constructor|]. split; [exact N|]. intros ? [].
    - inversion N as [|? ? N1 N2]; subst. destruct (IHm N2) as (A1 & A2 & A3). rewrite in_app_iff in N1.
      split; [constructor; [tauto|exact A1]|]. split; [exact A2|]. intros y [<-|Y]; [tauto|apply A3; exact Y]. }
  destruct D as (_ & N2 & D). destruct Ia as [<-|Ia], Ib as [<-|Ib]; auto.
  - destruct (D x Xa). apply in_flat_map. eauto.
  - destruct (D x Xb). apply in_flat_map. eauto.
Qed.

Section Shelved.
Variables (st : state) (root : nat).
Hypothesis S : shelved st root.

Definition at1 (n : str) (i : nat) : Prop := In (n, i) (kids st root).
Definition at2 (n : str) (i : nat) (k : str) (g : nat) : Prop := at1 n i /\ In (k, g) (kids st i).
Definition at3 (n : str) (i : nat) (k : str) (g : nat) (k2 : str) (w : nat) : Prop := at2 n i k g /\ In (k2, w) (kids st g).
Definition at4 (n : str) (i : nat) (k : str) (g : nat) (k2 : str) (w : nat) (k3 : str) (t : nat) : Prop :=
  at3 n i k g k2 w /\ In (k3, t) (kids st w).

Lemma in_view_shelf : forall n i, at1 n i -> In (n, view_shelf st i) (view st root).
Proof. intros n i H. apply (in_view (view_shelf st)). eauto. Qed.
Lemma in_view_group : forall n i k g, at2 n i k g -> In (k, view_group st g) (view_shelf st i).
Proof. intros n i k g [_ H]. apply (in_view (view_group st)). eauto. Qed.
Lemma in_view_work : forall n i k g k2 w, at3 n i k g k2 w -> In (k2, kids st w) (view_group st g).
Proof. intros n i k g k2 w [_ H]. apply (in_view (fun w => kids st w)). eauto. Qed.

Lemma at2_names : forall n i k g, at2 n i k g ->
  exists ns cts tg, plain_ns ns /\ plain_ns cts /\ plain_part (Group tg) /\ k = write_urn ns cts (Group tg) None /\
    names_fit ns cts tg (view_group st g).
Proof using S.
  intros n i k g H. eapply (io_urns _ _ (sv_order _ _ S)); [apply in_view_shelf; exact (proj1 H)|eapply in_view_group; exact H].
Qed.

Lemma at3_names : forall n i k g k2 w, at3 n i k g k2 w ->
  exists ns cts tg wk, plain_ns ns /\ plain_ns cts /\ plain_part (Work tg wk) /\ k = write_urn ns cts (Group tg) None /\
    k2 = write_urn ns cts (Work tg wk) None /\ NoDup (keys (kids st w)) /\
    forall k3 t, In (k3, t) (kids st w) -> exists vs, plain_part (Version tg wk vs) /\ k3 = write_urn ns cts (Version tg wk vs) None.
Proof using S.
  intros n i k g k2 w H. destruct (at2_names n i k g (proj1 H)) as (ns & cts & tg & P1 & P2 & P3 & E & N & F).
  destruct (F k2 (kids st w) (in_view_work _ _ _ _ _ _ H)) as (wk & Q1 & Q2 & Q3 & Q4).
  exists ns, cts, tg, wk. repeat (split; [assumption|]). assumption.
Qed.

Lemma at4_names : forall n i k g k2 w k3 t, at4 n i k g k2 w k3 t ->
  exists ns cts tg wk vs, plain_ns ns /\ plain_ns cts /\ plain_part (Version tg wk vs) /\ k = write_urn ns cts (Group tg) None /\
    k2 = write_urn ns cts (Work tg wk) None /\ k3 = write_urn ns cts (Version tg wk vs) None.
Proof using S.
  intros n i k g k2 w k3 t [H I]. destruct (at3_names _ _ _ _ _ _ H) as (ns & cts & tg & wk & P1 & P2 & P3 & E1 & E2 & _ & F).
  destruct (F k3 t I) as (vs & Q1 & Q2). exists ns, cts, tg, wk, vs. auto 10.
Qed.

Lemma at2_good : forall n i k g, at2 n i k g -> good st (Some i) k g.
Proof using S. intros n i k g [H1 H2]. eapply sv_group; eassumption. Qed.

Lemma at1_same : forall n i i', at1 n i -> at1 n i' -> i = i'.
Proof using S.
  intros n i i' A B. pose proof (io_distinct _ _ (sv_order _ _ S)) as N. unfold view in N. rewrite keys_view in N.
  eapply NoDup_key; eassumption.
Qed.

Lemma shelf_dict : forall n i, at1 n i -> NoDup (keys (kids st i)).
Proof using S.
  intros n i A. pose proof (io_groups _ _ (sv_order _ _ S)) as N. pose proof (in_view_shelf _ _ A) as I. revert N I.
  generalize (view st root). intros L N I. induction L as [|x L IH]; [destruct I|]. cbn in N. destruct I as [->|I].
  - clear IH. cbn [snd] in N. unfold view_shelf in N. rewrite keys_view in N.
    clear -N. induction (keys (kids st i)) as [|a l IH]; [constructor|]. cbn in N. inversion N as [|? ? N1 N2]; subst.
    constructor; [rewrite in_app_iff in N1; tauto|apply IH; exact N2].
  - apply IH; [|exact I]. eapply NoDup_app_r. exact N.
Qed.
Lemma at2_same : forall n i k g n' i' g', at2 n i k g -> at2 n' i' k g' -> n = n' /\ i = i' /\ g = g'.
Proof using S.
  intros n i k g n' i' g' A B.
  assert (E : (n, view_shelf st i) = (n', view_shelf st i')).
  { apply (NoDup_flat_same (fun il => keys (snd il)) (view st root) _ _ k (io_groups _ _ (sv_order _ _ S))).
    - apply in_view_shelf. exact (proj1 A).
    - apply in_view_shelf. exact (proj1 B).
    - unfold view_shelf. cbn [snd]. rewrite keys_view. apply In_keys. exists g. exact (proj2 A).
    - unfold view_shelf. cbn [snd]. rewrite keys_view. apply In_keys. exists g'. exact (proj2 B). }
  injection E as -> _. assert (i = i') by (eapply at1_same; [exact (proj1 A)|exact (proj1 B)]). subst i'.
  split; [reflexivity|]. split; [reflexivity|].
  eapply NoDup_key; [eapply shelf_dict; exact (proj1 A)|exact (proj2 A)|exact (proj2 B)].
Qed.


Lemma at3_same : forall n i k g k2 w n' i' k' g' w', at3 n i k g k2 w -> at3 n' i' k' g' k2 w' ->
  n = n' /\ i = i' /\ k = k' /\ g = g' /\ w = w'.
Proof using S.
  intros n i k g k2 w n' i' k' g' w' A B.
  destruct (at3_names _ _ _ _ _ _ A) as (ns & cts & tg & wk & P1 & P2 & P3 & E1 & E2 & _).
  destruct (at3_names _ _ _ _ _ _ B) as (ns' & cts' & tg' & wk' & Q1 & Q2 & Q3 & F1 & F2 & _).
  rewrite E2 in F2. apply write_urn_inj in F2; try assumption. destruct F2 as (<- & <- & F2). injection F2 as <- <-.
  subst k k'. destruct (at2_same _ _ _ _ _ _ _ (proj1 A) (proj1 B)) as (<- & <- & <-).
  repeat (split; [reflexivity|]).
  eapply NoDup_key; [apply (tg_dict _ _ (gd_tree _ _ _ _ (at2_good _ _ _ _ (proj1 A))))|exact (proj2 A)|exact (proj2 B)].
Qed.

Lemma at4_same : forall n i k g k2 w k3 t n' i' k' g' k2' w' t', at4 n i k g k2 w k3 t -> at4 n' i' k' g' k2' w' k3 t' ->
  n = n' /\ i = i' /\ k = k' /\ g = g' /\ k2 = k2' /\ w = w' /\ t = t'.
Proof using S.
  intros n i k g k2 w k3 t n' i' k' g' k2' w' t' A B.
  destruct (at4_names _ _ _ _ _ _ _ _ A) as (ns & cts & tg & wk & vs & P1 & P2 & P3 & E1 & E2 & E3).
  destruct (at4_names _ _ _ _ _ _ _ _ B) as (ns' & cts' & tg' & wk' & vs' & Q1 & Q2 & Q3 & F1 & F2 & F3).
  rewrite E3 in F3. apply write_urn_inj in F3; try assumption. destruct F3 as (<- & <- & F3). injection F3 as <- <- <-.
  subst k k' k2 k2'. destruct (at3_same _ _ _ _ _ _ _ _ _ _ _ (proj1 A) (proj1 B)) as (<- & <- & _ & <- & <-).
  repeat (split; [reflexivity|]).
  destruct (tg_work _ _ (gd_tree _ _ _ _ (at2_good _ _ _ _ (proj1 (proj1 A)))) _ _ (proj2 (proj1 A))) as (_ & _ & _ & _ & N).
  eapply NoDup_key; [exact N|exact (proj2 A)|exact (proj2 B)].
Qed.

(** Everything below the root. *)
Definition somewhere (x : nat) (id : str) : Prop :=
  (x = root /\ id = c_id (obj st root)) \/ at1 id x \/ (exists n i, at2 n i id x) \/ (exists n i k g, at3 n i k g id x) \/
  exists n i k g k2 w, at4 n i k g k2 w id x.

Lemma root_not_text : ~ text st root.
Proof using S. intros [s X]. rewrite (sv_kind _ _ S) in X. discriminate. Qed.

Lemma at1_facts : forall n i, at1 n i -> c_id (obj st i) = n /\ inventory_layer st i /\ ~ text st i.
Proof using S.
  intros n i A. destruct (sv_inv _ _ S n i A) as (_ & K & E & _). split; [exact E|]. split.
  - split; [exact K|]. intros k g I. pose proof (at2_good n i k g (conj A I)) as [T _ _ _ _ _].
    split; [apply (tg_kind _ _ T)|]. intros k2 w I2. destruct (tg_work _ _ T k2 w I2) as (_ & K2 & _). split; [exact K2|].
    intros k3 t I3. apply (tg_text _ _ T k2 w k3 t I2 I3).
  - intros [s X]. congruence.
Qed.

Lemma shelved_layers : collection_layer st root.
Proof using S. split; [apply (sv_kind _ _ S)|]. intros n i A. apply (at1_facts n i A). Qed.

Lemma below_somewhere : forall x, x = root \/ below st root x -> exists id, somewhere x id /\ c_id (obj st x) = id.
Proof using S.
  intros x [->|B]; [exists (c_id (obj st root)); split; [left; auto|reflexivity]|].
  inversion B as [c i M|c i d M B']; subst; destruct M as [_ [n M]]; pose proof (at1_facts n _ M) as (E1 & L & NT).
  - exists n. split; [right; left; exact M|exact E1].
  - destruct (below_inventory _ _ _ L B') as [[[_ [k I]] _]|[(g & [_ [k I]] & _ & [_ [k2 I2]] & _)|(g & w & [_ [k I]] & _ & [_ [k2 I2]] & _ & [_ [k3 I3]] & _)]];
      pose proof (at2_good n i k _ (conj M I)) as [T G1 G2 G3 G4 G5].
    + exists k. split; [right; right; left; exists n, i; split; assumption|exact G1].
    + exists k2. split; [right; right; right; left; exists n, i, k, g; split; [split|]; assumption|]. apply (tg_work _ _ T k2 x I2).
    + exists k3. split; [right; right; right; right; exists n, i, k, g, k2, w; split; [split; [split|]|]; assumption|]. apply (tg_text _ _ T k2 w k3 x I2 I3).
Qed.

Lemma somewhere_below : forall x id, somewhere x id -> (x = root \/ below st root x) /\ c_id (obj st x) = id.
Proof using S.
  intros x id [[-> ->]|[A|[(n & i & A)|[(n & i & k & g & A)|(n & i & k & g & k2 & w & A)]]]].
  - auto.
  - pose proof (at1_facts _ _ A) as (E & _). split; [right; constructor; split; [apply root_not_text|eauto]|exact E].
  - pose proof (at1_facts _ _ (proj1 A)) as (_ & _ & NT). pose proof (at2_good _ _ _ _ A) as G. split; [|apply (gd_id _ _ _ _ G)].
    right. eapply below_more; [split; [apply root_not_text|exists n; exact (proj1 A)]|]. constructor. split; [exact NT|]. exists id. exact (proj2 A).
  - pose proof (at1_facts _ _ (proj1 (proj1 A))) as (_ & _ & NT). pose proof (at2_good _ _ _ _ (proj1 A)) as G.
    pose proof (gd_tree _ _ _ _ G) as T. destruct (tg_work _ _ T id x (proj2 A)) as (_ & _ & E & _). split; [|exact E].
    right. eapply below_more; [split; [apply root_not_text|exists n; exact (proj1 (proj1 A))]|].
    eapply below_more; [split; [exact NT|exists k; exact (proj2 (proj1 A))]|]. constructor.
    split; [eapply not_text; [apply (tg_kind _ _ T)|discriminate]|exists id; exact (proj2 A)].
  - destruct A as [A I3]. pose proof (at1_facts _ _ (proj1 (proj1 A))) as (_ & _ & NT). pose proof (at2_good _ _ _ _ (proj1 A)) as G.
    pose proof (gd_tree _ _ _ _ G) as T. destruct (tg_work _ _ T k2 w (proj2 A)) as (_ & K & _).
    destruct (tg_text _ _ T k2 w id x (proj2 A) I3) as (_ & _ & E & _). split; [|exact E].
    right. eapply below_more; [split; [apply root_not_text|exists n; exact (proj1 (proj1 A))]|].
    eapply below_more; [split; [exact NT|exists k; exact (proj2 (proj1 A))]|].
    eapply below_more; [split; [eapply not_text; [apply (tg_kind _ _ T)|discriminate]|exists k2; exact (proj2 A)]|]. constructor.
    split; [eapply not_text; [exact K|discriminate]|exists id; exact I3].
Qed.

Lemma urn_not : forall ns cts p, ~ not_a_urn (write_urn ns cts p None).
Proof. intros ns cts p H. eapply H. unfold write_urn. reflexivity. Qed.

Definition urn_level (id : str) (n : nat) : Prop :=
  exists ns cts p, plain_ns ns /\ plain_ns cts /\ plain_part p /\ part_size p = n /\ id = write_urn ns cts p None.

Lemma urn_level_same : forall id n m, urn_level id n -> urn_level id m -> n = m.
Proof.
  intros id n m (ns & cts & p & A1 & A2 & A3 & A4 & A5) (ns' & cts' & p' & B1 & B2 & B3 & B4 & B5).
  subst id. apply write_urn_inj in B5; try assumption. destruct B5 as (_ & _ & ->). congruence.
Qed.

Lemma plain_shorter : forall tg wk vs, plain_part (Version tg wk vs) -> plain_part (Work tg wk) /\ plain_part (Group tg).
Proof. intros tg wk vs (A & B & C). cbn. auto. Qed.

Lemma level2 : forall n i id x, at2 n i id x -> urn_level id 1.
Proof using S. intros n i id x A. destruct (at2_names _ _ _ _ A) as (ns & cts & tg & P1 & P2 & P3 & E & _). exists ns, cts, (Group tg). auto 10. Qed.
Lemma level3 : forall n i k g id x, at3 n i k g id x -> urn_level id 2.
Proof using S. intros n i k g id x A. destruct (at3_names _ _ _ _ _ _ A) as (ns & cts & tg & wk & P1 & P2 & P3 & _ & E & _). exists ns, cts, (Work tg wk). auto 10. Qed.
Lemma level4 : forall n i k g k2 w id x, at4 n i k g k2 w id x -> urn_level id 3.
Proof using S. intros n i k g k2 w id x A. destruct (at4_names _ _ _ _ _ _ _ _ A) as (ns & cts & tg & wk & vs & P1 & P2 & P3 & _ & _ & E). exists ns, cts, (Version tg wk vs). auto 10. Qed.
Lemma level_not : forall id n, urn_level id n -> ~ not_a_urn id.
Proof. intros id n (ns & cts & p & _ & _ & _ & _ & ->). apply urn_not. Qed.

Lemma at1_name : forall n i, at1 n i -> not_a_urn n /\ n <> c_id (obj st root).
Proof using S. intros n i A. eapply (io_names _ _ (sv_order _ _ S)). eapply in_view_shelf. exact A. Qed.

Lemma somewhere_unique : forall x y id, somewhere x id -> somewhere y id -> x = y.
Proof using S.
  intros x y id X Y. pose proof (io_root _ _ (sv_order _ _ S)) as R.
  destruct X as [[-> E]|[A|[(n & i & A)|[(n & i & k & g & A)|(n & i & k & g & k2 & w & A)]]]];
  destruct Y as [[-> F]|[B|[(n' & i' & B)|[(n' & i' & k' & g' & B)|(n' & i' & k' & g' & k2' & w' & B)]]]]; subst;
  try (pose proof (at1_name _ _ A) as [NA MA]); try (pose proof (at1_name _ _ B) as [NB MB]);
  try (pose proof (level2 _ _ _ _ A) as LA); try (pose proof (level3 _ _ _ _ _ _ A) as LA); try (pose proof (level4 _ _ _ _ _ _ _ _ A) as LA);
  try (pose proof (level2 _ _ _ _ B) as LB); try (pose proof (level3 _ _ _ _ _ _ B) as LB); try (pose proof (level4 _ _ _ _ _ _ _ _ B) as LB);
  try reflexivity; try congruence; try (exfalso; eapply level_not; eassumption);
  try (pose proof (urn_level_same _ _ _ LA LB); discriminate).
  - eapply at1_same; eassumption.
  - eapply at2_same; eassumption.
  - eapply at3_same; eassumption.
  - eapply at4_same; eassumption.
Qed.

Theorem shelved_library : library st root.
Proof using S.
  constructor.
  - apply shelved_layers.
  - constructor.
    + intros x X. destruct (below_somewhere x X) as (id & H & E).
      destruct H as [[-> _]|[A|[(n & i & A)|[(n & i & k & g & A)|(n & i & k & g & k2 & w & [A I3])]]]].
      * pose proof (io_distinct _ _ (sv_order _ _ S)) as N. unfold view in N. rewrite keys_view in N. exact N.
      * eapply shelf_dict. exact A.
      * apply (tg_dict _ _ (gd_tree _ _ _ _ (at2_good _ _ _ _ A))).
      * apply (tg_work _ _ (gd_tree _ _ _ _ (at2_good _ _ _ _ (proj1 A))) _ _ (proj2 A)).
      * destruct (gd_text _ _ _ _ (at2_good _ _ _ _ (proj1 A)) _ _ _ _ (proj2 A) I3) as (_ & _ & ->). constructor.
    + intros x k m X NT I. destruct (below_somewhere x X) as (id & H & E).
      destruct H as [[-> _]|[A|[(n & i & A)|[(n & i & k' & g & A)|(n & i & k' & g & k2 & w & [A I3])]]]].
      * symmetry. apply (at1_facts _ _ I).
      * symmetry. apply (gd_id _ _ _ _ (at2_good _ _ _ _ (conj A I))).
      * symmetry. apply (tg_work _ _ (gd_tree _ _ _ _ (at2_good _ _ _ _ A)) _ _ I).
      * symmetry. apply (tg_text _ _ (gd_tree _ _ _ _ (at2_good _ _ _ _ (proj1 A))) _ _ _ _ (proj2 A) I).
      * destruct NT. apply (tg_text _ _ (gd_tree _ _ _ _ (at2_good _ _ _ _ (proj1 A))) _ _ _ _ (proj2 A) I3).
    + intros x m X [NT [k I]]. destruct (below_somewhere x X) as (id & H & E).
      destruct H as [[-> _]|[A|[(n & i & A)|[(n & i & k' & g & A)|(n & i & k' & g & k2 & w & [A I3])]]]].
      * apply (sv_inv _ _ S _ _ I).
      * apply (gd_parent _ _ _ _ (at2_good _ _ _ _ (conj A I))).
      * apply (tg_work _ _ (gd_tree _ _ _ _ (at2_good _ _ _ _ A)) _ _ I).
      * apply (tg_text _ _ (gd_tree _ _ _ _ (at2_good _ _ _ _ (proj1 A))) _ _ _ _ (proj2 A) I).
      * destruct NT. apply (tg_text _ _ (gd_tree _ _ _ _ (at2_good _ _ _ _ (proj1 A))) _ _ _ _ (proj2 A) I3).
    + intros x y X Y E. destruct (below_somewhere x X) as (id & H & Ex). destruct (below_somewhere y Y) as (id' & H' & Ey).
      apply (somewhere_unique x y id); [exact H|]. rewrite <- Ex, E, Ey. exact H'.
  - intros x w g (i & [_ [n M1]] & [_ [k M2]] & [_ [k2 M3]] & [_ [k3 M4]]).
    destruct (at4_names n i k g k2 w k3 x) as (ns & cts & tg & wk & vs & P1 & P2 & P3 & E1 & E2 & E3); [split; [split; [split|]|]; assumption|].
    pose proof (at2_good n i k g (conj M1 M2)) as G.
    exists ns, cts, tg, wk, vs. rewrite (gd_urn _ _ _ _ G), (gd_work _ _ _ _ G _ _ M3).
    destruct (gd_text _ _ _ _ G _ _ _ _ M3 M4) as (U & _). destruct (tg_text _ _ (gd_tree _ _ _ _ G) _ _ _ _ M3 M4) as (_ & _ & D & _).
    rewrite U, D. auto 10.
  - intros x w g (i & [_ [n M1]] & [_ [k M2]] & [_ [k2 M3]] & [_ [k3 M4]]).
    pose proof (at2_good n i k g (conj M1 M2)) as G. apply (gd_text _ _ _ _ G _ _ _ _ M3 M4).
Qed.
End Shelved.
