(** Facts about dictionaries put together. *)

From Coq Require Import List NArith ZArith Arith Bool Lia.
From Verif Require Import PyStr PyStrFacts UrnModel UrnSpec MetaModel CollModel CollSpec CollProofs CollHist CollMerge
  InvModel InvSpec LocalModel LocalSpec LocalProofs LoadModel LoadSpec.
Import ListNotations.

Lemma str_eqb_false : forall a b, a <> b -> str_eqb a b = false.
Proof. intros a b H. destruct (str_eqb a b) eqn:E; [apply str_eqb_eq in E; contradiction|reflexivity]. Qed.

Lemma NoDup_app_r : forall {A} (a b : list A), NoDup (a ++ b) -> NoDup b.
Proof. intros A a b. induction a as [|x a IH]; cbn; intros N; [exact N|]. inversion N; subst. auto. Qed.
Lemma NoDup_app_l : forall {A} (a b : list A), NoDup (a ++ b) -> NoDup a.
Proof.
  intros A a b. induction a as [|x a IH]; cbn; intros N; [constructor|]. inversion N as [|? ? N1 N2]; subst.
  constructor; [rewrite in_app_iff in N1; tauto|auto].
Qed.

Lemma dict_ext : forall {A} (a b : list (str * A)), NoDup (keys a) -> keys a = keys b -> (forall k, dget k a = dget k b) -> a = b.
Proof.
  intros A a. induction a as [|[k v] a IH]; intros [|[k' v'] b] N K D; try discriminate; [reflexivity|].
  cbn in K. injection K as <- K. cbn in N. inversion N as [|? ? N1 N2]; subst.
  assert (v' = v).
  { specialize (D k). cbn in D. rewrite str_eqb_refl in D. congruence. }
  subst v'. f_equal. apply IH; [exact N2|exact K|]. intros x. specialize (D x). cbn in D.
  destruct (str_eqb k x) eqn:E; [|exact D]. apply str_eqb_eq in E. subst x.
  assert (X : forall l : list (str * A), ~ In k (keys l) -> dget k l = None).
  { induction l as [|[y z] l IHl]; cbn; intros H; [reflexivity|]. destruct (str_eqb y k) eqn:F; [apply str_eqb_eq in F; subst; tauto|].
    apply IHl. tauto. }
  rewrite !X; [reflexivity| |exact N1]. change (~ In k (map fst b)). rewrite <- K. exact N1.
Qed.

Lemma dget_missing : forall {A} k (l : list (str * A)), ~ In k (keys l) <-> dget k l = None.
Proof.
  intros A k l. induction l as [|[y z] l IHl]; cbn; [tauto|]. destruct (str_eqb y k) eqn:F.
  - apply str_eqb_eq in F. subst. split; [tauto|discriminate].
  - rewrite <- IHl. split; [tauto|]. intros H [->|X]; [rewrite str_eqb_refl in F; discriminate|contradiction].
Qed.

Section Merge.
Context {A : Type}.
Variable j : A -> A -> A.

Lemma dget_merge : forall d k v x, dget x (merge_in j d (k, v)) =
  if str_eqb k x then Some (match dget k d with Some a => j a v | None => v end) else dget x d.
Proof.
  intros d k v x. induction d as [|[y z] d IH]; cbn [merge_in dget fst snd].
  - reflexivity.
  - destruct (str_eqb y k) eqn:E; cbn [dget].
    + apply str_eqb_eq in E. subst y. destruct (str_eqb k x); reflexivity.
    + destruct (str_eqb y x) eqn:F; [|exact IH]. apply str_eqb_eq in F. subst y.
      destruct (str_eqb k x) eqn:G; [|reflexivity]. apply str_eqb_eq in G. subst x. rewrite str_eqb_refl in E. discriminate.
Qed.

Lemma merge_new : forall d k v, ~ In k (keys d) -> merge_in j d (k, v) = d ++ [(k, v)].
Proof.
  intros d k v. induction d as [|[y z] d IH]; cbn; intros H; [reflexivity|].
  rewrite str_eqb_false by tauto. f_equal. apply IH. tauto.
Qed.

Lemma merge_old : forall d k v, In k (keys d) -> NoDup (keys d) ->
  merge_in j d (k, v) = map (fun e => if str_eqb (fst e) k then (fst e, j (snd e) v) else e) d.
Proof.
  intros d k v. induction d as [|[y z] d IH]; cbn; intros H N; [destruct H|].
  inversion N as [|? ? N1 N2]; subst. destruct (str_eqb y k) eqn:E.
  - f_equal. apply str_eqb_eq in E. subst y. symmetry. transitivity (map (fun e => e) d); [|apply map_id].
    apply map_ext_in. intros [a b] I. cbn. rewrite str_eqb_false; [reflexivity|]. intros ->. destruct N1. apply In_keys. eauto.
  - f_equal. apply IH; [|exact N2]. destruct H as [->|H]; [rewrite str_eqb_refl in E; discriminate|exact H].
Qed.

Lemma keys_merge : forall d k v, keys (merge_in j d (k, v)) = if existsb (str_eqb k) (keys d) then keys d else keys d ++ [k].
Proof.
  intros d k v. induction d as [|[y z] d IH]; cbn [merge_in fst snd]; [reflexivity|].
  change (keys ((y, z) :: d)) with (y :: keys d). cbn [existsb].
  destruct (str_eqb y k) eqn:E.
  - apply str_eqb_eq in E. subst y. rewrite str_eqb_refl. reflexivity.
  - assert (F : str_eqb k y = false) by (apply str_eqb_false; intros ->; rewrite str_eqb_refl in E; discriminate).
    rewrite F. cbn [orb]. change (keys ((y, z) :: merge_in j d (k, v))) with (y :: keys (merge_in j d (k, v))). rewrite IH. destruct (existsb (str_eqb k) (keys d)); reflexivity.
Qed.

Lemma NoDup_merge : forall d k v, NoDup (keys d) -> NoDup (keys (merge_in j d (k, v))).
Proof.
  intros d k v N. rewrite keys_merge. destruct (existsb (str_eqb k) (keys d)) eqn:E; [exact N|].
  apply NoDup_app_; [exact N|repeat constructor; intros []|]. intros x X [<-|[]].
  apply existsb_str_false in E. contradiction.
Qed.

Lemma dget_merges : forall new d x, NoDup (keys new) -> dget x (fold_left (merge_in j) new d) =
  match dget x d, dget x new with
  | Some a, Some b => Some (j a b)
  | Some a, None => Some a
  | None, o => o
  end.
Proof.
  induction new as [|[k v] new IH]; intros d x N; cbn [fold_left].
  - cbn. destruct (dget x d); reflexivity.
  - cbn in N. inversion N as [|? ? N1 N2]; subst. rewrite IH by exact N2. rewrite dget_merge. cbn [dget].
    destruct (str_eqb k x) eqn:E; [|reflexivity]. apply str_eqb_eq in E. subst x.
    fold (@keys A) in N1. apply dget_missing in N1. rewrite N1. destruct (dget k d); reflexivity.
Qed.

Lemma keys_merges : forall new d, NoDup (keys new) -> keys (fold_left (merge_in j) new d) = keys d ++ new_keys d new.
Proof.
  induction new as [|[k v] new IH]; intros d N; cbn [fold_left].
  - cbn. rewrite app_nil_r. reflexivity.
  - cbn in N. inversion N as [|? ? N1 N2]; subst. rewrite IH by exact N2. unfold new_keys.
    change (map fst (merge_in j d (k, v))) with (keys (merge_in j d (k, v))). rewrite keys_merge. cbn [map fst filter].
    change (map fst d) with (keys d). change (map fst new) with (keys new). fold (@keys A) in N1.
    destruct (existsb (str_eqb k) (keys d)) eqn:E; cbn [negb]; [reflexivity|]. rewrite <- app_assoc. f_equal. cbn [app]. f_equal.
    apply filter_ext_in. intros x X. rewrite existsb_app. cbn. rewrite orb_false_r.
    rewrite (str_eqb_false x k); [rewrite orb_false_r; reflexivity|]. intros ->. contradiction.
Qed.

Lemma NoDup_merges : forall new d, NoDup (keys d) -> NoDup (keys (fold_left (merge_in j) new d)).
Proof. induction new as [|[k v] new IH]; intros d N; cbn [fold_left]; [exact N|]. apply IH. apply NoDup_merge. exact N. Qed.

Lemma In_merges : forall new d k x, In (k, x) (fold_left (merge_in j) new d) -> NoDup (keys d) -> NoDup (keys new) ->
  (exists a b, In (k, a) d /\ In (k, b) new /\ x = j a b) \/ (In (k, x) d /\ ~ In k (keys new)) \/ (~ In k (keys d) /\ In (k, x) new).
Proof.
  intros new d k x I N N'. apply dget_In_iff in I; [|apply NoDup_merges; exact N]. rewrite dget_merges in I by exact N'.
  destruct (dget k d) as [a|] eqn:E; destruct (dget k new) as [b|] eqn:F.
  - left. injection I as <-. exists a, b. apply dget_In_iff in E; [|exact N]. apply dget_In_iff in F; [|exact N']. auto.
  - right; left. injection I as <-. apply dget_In_iff in E; [|exact N]. apply dget_missing in F. auto.
  - right; right. apply dget_missing in E. injection I as <-. apply dget_In_iff in F; [|exact N']. auto.
  - discriminate.
Qed.
End Merge.

Lemma has_key_true : forall {A} k (d : list (str * A)), has_key k d = true <-> In k (keys d).
Proof.
  intros A k d. unfold has_key. rewrite existsb_exists. split.
  - intros ([y z] & I & E). cbn in E. apply str_eqb_eq in E. subst. apply In_keys. eauto.
  - intros H. apply In_keys in H. destruct H as [v I]. exists (k, v). split; [exact I|apply str_eqb_refl].
Qed.
Lemma has_key_false : forall {A} k (d : list (str * A)), has_key k d = false <-> ~ In k (keys d).
Proof. intros. rewrite <- has_key_true. destruct (has_key k d); split; congruence. Qed.

(** ** Two dictionaries alike *)
Definition drel {A B} (R : A -> B -> Prop) (d : list (str * A)) (d' : list (str * B)) : Prop :=
  Forall2 (fun e x => fst e = fst x /\ R (snd e) (snd x)) d d'.

Lemma drel_keys : forall {A B} (R : A -> B -> Prop) d d', drel R d d' -> keys d = keys d'.
Proof. intros A B R d d' H. induction H as [|e x d d' [E _] H IH]; [reflexivity|]. cbn. f_equal; assumption. Qed.

Lemma drel_In : forall {A B} (R : A -> B -> Prop) d d' k a, drel R d d' -> In (k, a) d -> exists b, In (k, b) d' /\ R a b.
Proof.
  intros A B R d d' k a H I. induction H as [|e x d d' [E F] H IH]; [destruct I|]. destruct I as [->|I].
  - destruct x as [k' b]. cbn in *. subst k'. eauto.
  - destruct (IH I) as (b & X & Y). exists b. cbn. auto.
Qed.
Lemma drel_In_r : forall {A B} (R : A -> B -> Prop) d d' k b, drel R d d' -> In (k, b) d' -> exists a, In (k, a) d /\ R a b.
Proof.
  intros A B R d d' k b H I. induction H as [|e x d d' [E F] H IH]; [destruct I|]. destruct I as [->|I].
  - destruct e as [k' a]. cbn in *. subst k'. eauto.
  - destruct (IH I) as (a & X & Y). exists a. cbn. auto.
Qed.

Lemma drel_mono : forall {A B} (R R' : A -> B -> Prop) d d', drel R d d' -> (forall k a b, In (k, a) d -> In (k, b) d' -> R a b -> R' a b) -> drel R' d d'.
Proof.
  intros A B R R' d d' H. induction H as [|[k a] [k' b] d d' [E F] H IH]; intros M; constructor.
  - cbn in *. subst k'. split; [reflexivity|]. eapply M; [left|left|]; try reflexivity. exact F.
  - apply IH. intros k0 a0 b0 X Y. eapply M; right; eassumption.
Qed.

Lemma drel_merge : forall {A B} (R : A -> B -> Prop) j j', (forall a b a' b', R a a' -> R b b' -> R (j a b) (j' a' b')) ->
  forall d d' k v v', drel R d d' -> R v v' -> drel R (merge_in j d (k, v)) (merge_in j' d' (k, v')).
Proof.
  intros A B R j j' J d d' k v v' H V. induction H as [|[a x] [b y] d d' [E F] H IH]; cbn [merge_in fst snd].
  - repeat constructor; assumption.
  - cbn in E. subst b. destruct (str_eqb a k); constructor; cbn; auto.
Qed.

Lemma drel_merges : forall {A B} (R : A -> B -> Prop) j j', (forall a b a' b', R a a' -> R b b' -> R (j a b) (j' a' b')) ->
  forall new new' d d', drel R new new' -> drel R d d' -> drel R (fold_left (merge_in j) new d) (fold_left (merge_in j') new' d').
Proof.
  intros A B R j j' J new new' d d' H. revert d d'. induction H as [|[a x] [b y] new new' [E F] H IH]; intros d d' D; cbn [fold_left]; [exact D|].
  apply IH. cbn in E. subst b. apply drel_merge; assumption.
Qed.

Section Param.
Context {A B : Type}.
Variable R : A -> B -> Prop.
Definition rel_work : work_of A -> work_of B -> Prop := drel R.
Definition rel_group : group_of A -> group_of B -> Prop := drel rel_work.
Definition rel_shelf : shelf_of A -> shelf_of B -> Prop := drel rel_group.
Definition rel_all : inventories A -> inventories B -> Prop := drel rel_shelf.

Lemma rel_join_works : forall a b a' b', rel_work a a' -> rel_work b b' -> rel_work (join_works a b) (join_works a' b').
Proof. intros a b a' b' H1 H2. apply drel_merges; try assumption. auto. Qed.
Lemma rel_join_groups : forall a b a' b', rel_group a a' -> rel_group b b' -> rel_group (join_groups a b) (join_groups a' b').
Proof. intros a b a' b' H1 H2. apply drel_merges; try assumption. apply rel_join_works. Qed.
Lemma rel_add_group : forall d d' k g g', rel_shelf d d' -> rel_group g g' -> rel_shelf (add_group d (k, g)) (add_group d' (k, g')).
Proof. intros d d' k g g' H1 H2. apply drel_merge; try assumption. apply rel_join_groups. Qed.

Lemma rel_place : forall choice L L' k, rel_all L L' -> place choice L k = place choice L' k.
Proof.
  intros choice L L' k H. unfold place. induction H as [|[n d] [n' d'] L L' [E F] H IH]; [reflexivity|]. cbn in E. subst n'.
  cbn [find snd fst]. replace (has_key k d') with (has_key k d); [destruct (has_key k d); [reflexivity|exact IH]|].
  cbn in F. apply drel_keys in F. apply Bool.eq_true_iff_eq. rewrite !has_key_true, F. reflexivity.
Qed.

Lemma rel_shelve : forall choice L L' k g g', rel_all L L' -> rel_group g g' ->
  rel_all (shelve choice L (k, g)) (shelve choice L' (k, g')).
Proof.
  intros choice L L' k g g' H G. unfold shelve. cbn [fst]. rewrite (rel_place choice L L' k H).
  destruct (place choice L' k) as [n|]; [|exact H].
  induction H as [|[m d] [m' d'] L L' [E F] H IH]; cbn [map fst snd]; constructor; [|exact IH]. cbn in E. subst m'.
  destruct (str_eqb m n); cbn; split; try reflexivity; [|exact F]. apply rel_add_group; assumption.
Qed.

Lemma rel_names_fit : forall ns cts tg g g', rel_group g g' -> (names_fit ns cts tg g <-> names_fit ns cts tg g').
Proof.
  intros ns cts tg g g' H. unfold names_fit. rewrite (drel_keys _ _ _ H). split; intros [N F]; (split; [exact N|]).
  - intros k ts I. destruct (drel_In_r _ _ _ _ _ H I) as (x & X & Y). destruct (F k x X) as (wk & P & E & D & V).
    exists wk. split; [exact P|]. split; [exact E|]. rewrite <- (drel_keys _ _ _ Y). split; [exact D|].
    intros k2 t I2. destruct (drel_In_r _ _ _ _ _ Y I2) as (y & Y1 & _). eapply V. exact Y1.
  - intros k ts I. destruct (drel_In _ _ _ _ _ H I) as (x & X & Y). destruct (F k x X) as (wk & P & E & D & V).
    exists wk. split; [exact P|]. split; [exact E|]. rewrite (drel_keys _ _ _ Y). split; [exact D|].
    intros k2 t I2. destruct (drel_In _ _ _ _ _ Y I2) as (y & Y1 & _). eapply V. exact Y1.
Qed.

Lemma rel_in_order : forall name L L', rel_all L L' -> (in_order name L <-> in_order name L').
Proof.
  intros name L L' H.
  assert (K : flat_map (fun il => keys (snd il)) L = flat_map (fun il => keys (snd il)) L').
  { induction H as [|[n d] [n' d'] L L' [E F] H IH]; [reflexivity|]. cbn [flat_map snd]. f_equal; [apply (drel_keys _ _ _ F)|exact IH]. }
  split; intros [O1 O2 O3 O4 O5]; (constructor; [exact O1| | | |]).
  - intros n l I. destruct (drel_In_r _ _ _ _ _ H I) as (x & X & _). eapply O2. exact X.
  - rewrite <- (drel_keys _ _ _ H). exact O3.
  - rewrite <- K. exact O4.
  - intros n l k ws I I2. destruct (drel_In_r _ _ _ _ _ H I) as (x & X & Y). destruct (drel_In_r _ _ _ _ _ Y I2) as (z & Z & V).
    destruct (O5 _ _ _ _ X Z) as (ns & cts & tg & P1 & P2 & P3 & E & F). exists ns, cts, tg. repeat (split; [assumption|]).
    eapply rel_names_fit; eassumption.
  - intros n l I. destruct (drel_In _ _ _ _ _ H I) as (x & X & _). eapply O2. exact X.
  - rewrite (drel_keys _ _ _ H). exact O3.
  - rewrite K. exact O4.
  - intros n l k ws I I2. destruct (drel_In _ _ _ _ _ H I) as (x & X & Y). destruct (drel_In _ _ _ _ _ Y I2) as (z & Z & V).
    destruct (O5 _ _ _ _ X Z) as (ns & cts & tg & P1 & P2 & P3 & E & F). exists ns, cts, tg. repeat (split; [assumption|]).
    eapply rel_names_fit; eassumption.
Qed.
End Param.

(** ** Names stay in order *)
Section Order.
Context {A : Type}.

Lemma join_works_fit : forall (a b : work_of A) (P : str -> Prop), NoDup (keys a) ->
  (forall k t, In (k, t) a -> P k) -> (forall k t, In (k, t) b -> P k) -> NoDup (keys b) ->
  NoDup (keys (join_works a b)) /\ forall k t, In (k, t) (join_works a b) -> P k.
Proof.
  intros a b P N Ha Hb N'. unfold join_works. split; [apply NoDup_merges; exact N|]. intros k t I.
  apply In_merges in I; [|exact N|exact N']. destruct I as [(x & y & X & Y & _)|[[X _]|[_ X]]]; eauto.
Qed.

Lemma join_groups_fit : forall ns cts tg (a b : group_of A), plain_ns ns -> plain_ns cts ->
  names_fit ns cts tg a -> names_fit ns cts tg b -> names_fit ns cts tg (join_groups a b).
Proof.
  intros ns cts tg a b Pn Pc [Na Fa] [Nb Fb]. split; [apply NoDup_merges; exact Na|]. intros k ts I.
  apply In_merges in I; [|exact Na|exact Nb]. destruct I as [(x & y & X & Y & ->)|[[X _]|[_ X]]]; [|apply Fa; exact X|apply Fb; exact X].
  destruct (Fa k x X) as (wk & P & E & D & V). destruct (Fb k y Y) as (wk' & P' & E' & D' & V').
  rewrite E in E'. apply write_urn_inj in E'; try assumption. destruct E' as (_ & _ & E'). injection E' as <-.
  exists wk. split; [exact P|]. split; [exact E|]. apply join_works_fit; eauto.
Qed.

Definition fits (k : str) (g : group_of A) : Prop :=
  exists ns cts tg, plain_ns ns /\ plain_ns cts /\ plain_part (Group tg) /\ k = write_urn ns cts (Group tg) None /\ names_fit ns cts tg g.

Lemma fits_join : forall k a b, fits k a -> fits k b -> fits k (join_groups a b).
Proof.
  intros k a b (ns & cts & tg & P1 & P2 & P3 & E & F) (ns' & cts' & tg' & Q1 & Q2 & Q3 & E' & F').
  rewrite E in E'. apply write_urn_inj in E'; try assumption. destruct E' as (<- & <- & E'). injection E' as <-.
  exists ns, cts, tg. repeat (split; [assumption|]). apply join_groups_fit; assumption.
Qed.

Lemma find_place : forall choice (L : inventories A) k,
  (exists n d, In (n, d) L /\ In k (keys d) /\ place choice L k = Some n) \/
  (~ In k (flat_map (fun il => keys (snd il)) L) /\ place choice L k = choice k).
Proof.
  intros choice L k. unfold place. destruct (find (fun e => has_key k (snd e)) L) as [[n d]|] eqn:E.
  - left. apply find_some in E. destruct E as [I H]. apply has_key_true in H. exists n, d. auto.
  - right. split; [|reflexivity]. intros X. apply in_flat_map in X. destruct X as ([n d] & I & K).
    apply (find_none _ _ E) in I. apply has_key_false in I. contradiction.
Qed.

Lemma flat_keys_same : forall (f : str * shelf_of A -> str * shelf_of A) (L : inventories A),
  (forall e, In e L -> keys (snd (f e)) = keys (snd e)) ->
  flat_map (fun il => keys (snd il)) (map f L) = flat_map (fun il => keys (snd il)) L.
Proof.
  intros f L H. induction L as [|e L IH]; [reflexivity|]. cbn [map flat_map]. f_equal; [apply H; left; reflexivity|].
  apply IH. intros x X. apply H. right. exact X.
Qed.

Lemma flat_keys_add : forall (L : inventories A) n k g, NoDup (keys L) -> ~ In k (flat_map (fun il => keys (snd il)) L) ->
  NoDup (flat_map (fun il => keys (snd il)) L) ->
  NoDup (flat_map (fun il => keys (snd il)) (map (fun il => if str_eqb (fst il) n then (fst il, add_group (snd il) (k, g)) else il) L)).
Proof.
  intros L n k g. induction L as [|[m d] L IH]; intros N F D; [constructor|]. cbn [map flat_map fst snd] in *.
  cbn in N. inversion N as [|? ? N1 N2]; subst. rewrite in_app_iff in F.
  assert (D1 : NoDup (keys d) /\ NoDup (flat_map (fun il => keys (snd il)) L) /\ forall x, In x (keys d) -> In x (flat_map (fun il => keys (snd il)) L) -> False).
  { clear -D. revert D. generalize (flat_map (fun il : str * shelf_of A => keys (snd il)) L). intros l D.
    change (keys d) with (keys (d : list (str * group_of A))) in *. revert D. generalize (keys (d : list (str * group_of A))). intros m D.
    induction m as [|x m IH]; cbn in *; [split; [constructor|]; split; [exact D|]; intros ? []|].
    inversion D as [|? ? D1 D2]; subst. destruct (IH D2) as (X1 & X2 & X3). rewrite in_app_iff in D1.
    split; [constructor; tauto|]. split; [exact X2|]. intros y [<-|Y]; [tauto|]. apply X3. exact Y. }
  destruct D1 as (D1 & D2 & D3). destruct (str_eqb m n) eqn:E.
  - apply str_eqb_eq in E. subst m. cbn [snd].
    assert (X : map (fun il : str * shelf_of A => if str_eqb (fst il) n then (fst il, add_group (snd il) (k, g)) else il) L = L).
    { transitivity (map (fun x : str * shelf_of A => x) L); [|apply map_id]. apply map_ext_in. intros [a b] I. cbn [fst snd]. rewrite str_eqb_false; [reflexivity|].
      intros ->. apply N1. apply In_keys. eauto. }
    rewrite X. unfold add_group. rewrite merge_new by tauto. unfold keys. rewrite map_app. fold (@keys (group_of A)). cbn [map fst].
    rewrite <- app_assoc. cbn [app].
    apply NoDup_app_; [exact D1|constructor; [tauto|exact D2]|]. intros x Y [<-|Z]; [tauto|]. eapply D3; eassumption.
  - cbn [snd]. assert (G : forall x, In x (flat_map (fun il => keys (snd il)) (map (fun il => if str_eqb (fst il) n then (fst il, add_group (snd il) (k, g)) else il) L)) ->
      x = k \/ In x (flat_map (fun il : str * shelf_of A => keys (snd il)) L)).
    { clear. intros x X. apply in_flat_map in X. destruct X as (e & I & K). apply in_map_iff in I. destruct I as (e' & <- & I).
      destruct (str_eqb (fst e') n); [|right; apply in_flat_map; eauto]. cbn [snd] in K. unfold add_group in K. rewrite keys_merge in K.
      destruct (existsb (str_eqb k) (keys (snd e'))); [right; apply in_flat_map; eauto|]. apply in_app_iff in K.
      destruct K as [K|[<-|[]]]; [right; apply in_flat_map; eauto|left; reflexivity]. }
    apply NoDup_app_; [exact D1|apply IH; tauto|]. intros x X Y. apply G in Y. destruct Y as [->|Y]; [tauto|]. eapply D3; eassumption.
Qed.

Lemma shelve_order : forall name choice (L : inventories A) k g, in_order name L -> fits k g -> in_order name (shelve choice L (k, g)).
Proof.
  intros name choice L k g [O1 O2 O3 O4 O5] F. unfold shelve. cbn [fst]. 
  assert (NM : forall n, keys (map (fun il : str * shelf_of A => if str_eqb (fst il) n then (fst il, add_group (snd il) (k, g)) else il) L) = keys L).
  { intros n. unfold keys. rewrite map_map. apply map_ext. intros e. destruct (str_eqb (fst e) n); reflexivity. }
  assert (IN : forall n m l, In (m, l) (map (fun il : str * shelf_of A => if str_eqb (fst il) n then (fst il, add_group (snd il) (k, g)) else il) L) ->
    exists l', In (m, l') L /\ (l = l' \/ l = add_group l' (k, g))).
  { intros n m l I. apply in_map_iff in I. destruct I as ([a b] & E & I). cbn [fst snd] in E.
    destruct (str_eqb a n); injection E as <- <-; eauto. }
  destruct (find_place choice L k) as [(n & d & I & K & ->)|[NK E]].
  - constructor; [exact O1| | | |].
    + intros m l X. apply IN in X. destruct X as (l' & X & _). eapply O2. exact X.
    + rewrite NM. exact O3.
    + rewrite flat_keys_same; [exact O4|]. intros [a b] X. cbn [fst snd]. destruct (str_eqb a n) eqn:E; [|reflexivity].
      apply str_eqb_eq in E. subst a. cbn [snd]. unfold add_group. rewrite keys_merge.
      assert (b = d) by (apply dget_In_iff in X; [|exact O3]; apply dget_In_iff in I; [|exact O3]; congruence). subst b.
      apply existsb_str in K. rewrite K. reflexivity.
    + intros m l k' ws X Y. apply IN in X. destruct X as (l' & X & [->| ->]); [eapply O5; eassumption|].
      assert (NL : NoDup (keys l')).
      { clear -O4 X. induction L as [|e L IH]; [destruct X|]. cbn [flat_map] in O4. destruct X as [->|X].
        - eapply NoDup_app_l. exact O4.
        - apply IH; [|exact X]. eapply NoDup_app_r. exact O4. }
      apply dget_In_iff in Y; [|apply NoDup_merge; exact NL]. unfold add_group in Y. rewrite dget_merge in Y.
      destruct (str_eqb k k') eqn:E; [|apply dget_In_iff in Y; [|exact NL]; eapply O5; eassumption].
      apply str_eqb_eq in E. subst k'. injection Y as <-. destruct (dget k l') as [x|] eqn:G; [|exact F].
      apply dget_In_iff in G; [|exact NL]. apply fits_join; [eapply O5; eassumption|exact F].
  - rewrite E. destruct (choice k) as [n|]; [|constructor; assumption]. constructor; [exact O1| | | |].
    + intros m l X. apply IN in X. destruct X as (l' & X & _). eapply O2. exact X.
    + rewrite NM. exact O3.
    + apply flat_keys_add; assumption.
    + intros m l k' ws X Y. apply IN in X. destruct X as (l' & X & [->| ->]); [eapply O5; eassumption|].
      unfold add_group in Y. rewrite merge_new in Y.
      * apply in_app_iff in Y. destruct Y as [Y|[Y|[]]]; [eapply O5; eassumption|]. injection Y as <- <-. exact F.
      * intros Z. apply NK. apply in_flat_map. exists (m, l'). auto.
Qed.
End Order.
