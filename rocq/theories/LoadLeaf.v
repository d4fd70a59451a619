(** Which description of a text is kept. *)

From Coq Require Import List NArith ZArith Arith Bool Lia.
From Verif Require Import PyStr PyStrFacts UrnModel UrnSpec UrnProofs MetaModel CollModel CollSpec CollProofs CollMerge
  InvModel InvSpec LocalModel LocalSpec LocalProofs LoadModel LoadSpec LoadDict LoadTree LoadEnter LoadFold.
Import ListNotations.

Section Leaf.
Context {A : Type}.

Definition in_group (g : group_of A) (u : str) (x : A) : Prop := exists k ts, In (k, ts) g /\ In (u, x) ts.
Definition in_shelf (l : shelf_of A) (u : str) (x : A) : Prop := exists k g, In (k, g) l /\ in_group g u x.

Lemma join_works_has : forall (a b : work_of A) u x, NoDup (keys a) -> NoDup (keys b) ->
  (In (u, x) (join_works a b) <-> In (u, x) b \/ (In (u, x) a /\ ~ In u (keys b))).
Proof.
  intros a b u x Na Nb. assert (N : NoDup (keys (join_works a b))) by (apply NoDup_merges; exact Na).
  rewrite <- (dget_In_iff _ _ _ N). unfold join_works. rewrite dget_merges by exact Nb.
  rewrite dget_missing, <- (dget_In_iff u x b Nb), <- (dget_In_iff u x a Na).
  destruct (dget u a) as [y|]; destruct (dget u b) as [z|]; split; try tauto; try (intros [H|[H H']]; congruence); intros H; auto; try (right; split; [exact H|reflexivity]).
Qed.

Lemma text_work : forall ns cts tg (g : group_of A) k2 ts u x, plain_ns ns -> plain_ns cts -> names_fit ns cts tg g ->
  In (k2, ts) g -> In (u, x) ts -> exists wk vs, plain_part (Version tg wk vs) /\ plain_part (Work tg wk) /\
    k2 = write_urn ns cts (Work tg wk) None /\ u = write_urn ns cts (Version tg wk vs) None.
Proof.
  intros ns cts tg g k2 ts u x P1 P2 [_ F] I J. destruct (F _ _ I) as (wk & P & -> & _ & V). destruct (V _ _ J) as (vs & Q & ->).
  exists wk, vs. auto.
Qed.

Lemma same_work : forall ns cts tg (g g' : group_of A) k2 ts k2' ts' u x x', plain_ns ns -> plain_ns cts ->
  names_fit ns cts tg g -> names_fit ns cts tg g' -> In (k2, ts) g -> In (u, x) ts -> In (k2', ts') g' -> In (u, x') ts' -> k2 = k2'.
Proof.
  intros ns cts tg g g' k2 ts k2' ts' u x x' P1 P2 F F' I J I' J'.
  destruct (text_work _ _ _ _ _ _ _ _ P1 P2 F I J) as (wk & vs & Q & _ & -> & ->).
  destruct (text_work _ _ _ _ _ _ _ _ P1 P2 F' I' J') as (wk' & vs' & Q' & _ & -> & E).
  apply write_urn_inj in E; try assumption. destruct E as (_ & _ & E). injection E as -> ->. reflexivity.
Qed.

Lemma join_groups_has : forall ns cts tg (a b : group_of A) u x, plain_ns ns -> plain_ns cts -> names_fit ns cts tg a -> names_fit ns cts tg b ->
  (in_group (join_groups a b) u x <-> in_group b u x \/ (in_group a u x /\ ~ exists y, in_group b u y)).
Proof.
  intros ns cts tg a b u x P1 P2 Fa Fb. destruct (Fa) as [Na Ga]. destruct (Fb) as [Nb Gb].
  assert (Da : forall k ts, In (k, ts) a -> NoDup (keys ts)) by (intros k ts I; destruct (Ga _ _ I) as (? & ? & ? & D & _); exact D).
  assert (Db : forall k ts, In (k, ts) b -> NoDup (keys ts)) by (intros k ts I; destruct (Gb _ _ I) as (? & ? & ? & D & _); exact D).
  assert (N : NoDup (keys (join_groups a b))) by (apply NoDup_merges; exact Na).
  split.
  - intros (k2 & ts & I & J). apply In_merges in I; try assumption. destruct I as [(ta & tb & Ia & Ib & ->)|[[Ia NI]|[NI Ib]]].
    + apply join_works_has in J; [|eauto|eauto]. destruct J as [J|[J NJ]]; [left; exists k2, tb; auto|].
      right. split; [exists k2, ta; auto|]. intros (y & k2' & tb' & Ib' & Jb').
      assert (k2 = k2') by (eapply (same_work ns cts tg a b); eassumption). subst k2'.
      assert (tb' = tb) by (eapply NoDup_key; [exact Nb|exact Ib'|exact Ib]). subst tb'. apply NJ. apply In_keys. eauto.
    + right. split; [exists k2, ts; auto|]. intros (y & k2' & tb' & Ib' & Jb').
      assert (k2 = k2') by (eapply (same_work ns cts tg a b); eassumption). subst k2'. apply NI. apply In_keys. eauto.
    + left. exists k2, ts. auto.
  - assert (G : forall k2, dget k2 (join_groups a b) = match dget k2 a, dget k2 b with
        | Some ta, Some tb => Some (join_works ta tb) | Some ta, None => Some ta | None, r => r end).
    { intros k2. unfold join_groups. rewrite dget_merges by exact Nb. destruct (dget k2 a), (dget k2 b); reflexivity. }
    intros [(k2 & tb & Ib & Jb)|[(k2 & ta & Ia & Ja) NO]].
    + pose proof Ib as Ib'. apply (dget_In_iff _ _ _ Nb) in Ib. destruct (dget k2 a) as [ta|] eqn:E.
      * exists k2, (join_works ta tb). split; [apply (dget_In_iff _ _ _ N); rewrite G, E, Ib; reflexivity|].
        apply join_works_has; [apply (dget_In_iff _ _ _ Na) in E; eauto|eauto|auto].
      * exists k2, tb. split; [apply (dget_In_iff _ _ _ N); rewrite G, E; exact Ib|exact Jb].
    + pose proof Ia as Ia'. apply (dget_In_iff _ _ _ Na) in Ia. destruct (dget k2 b) as [tb|] eqn:E.
      * exists k2, (join_works ta tb). split; [apply (dget_In_iff _ _ _ N); rewrite G, E, Ia; reflexivity|].
        apply (dget_In_iff _ _ _ Nb) in E. apply join_works_has; [eauto|eauto|]. right. split; [exact Ja|].
        intros X. apply In_keys in X. destruct X as (y & X). apply NO. exists y, k2, tb. auto.
      * exists k2, ta. split; [apply (dget_In_iff _ _ _ N); rewrite G, E, Ia; reflexivity|exact Ja].
Qed.

Lemma same_group : forall k (g : group_of A) k' (g' : group_of A) u x x', fits k g -> fits k' g' -> in_group g u x -> in_group g' u x' -> k = k'.
Proof.
  intros k g k' g' u x x' (ns & cts & tg & P1 & P2 & P3 & -> & F) (ns' & cts' & tg' & P1' & P2' & P3' & -> & F')
    (k2 & ts & I & J) (k2' & ts' & I' & J').
  destruct (text_work _ _ _ _ _ _ _ _ P1 P2 F I J) as (wk & vs & Q & _ & _ & ->).
  destruct (text_work _ _ _ _ _ _ _ _ P1' P2' F' I' J') as (wk' & vs' & Q' & _ & _ & E).
  apply write_urn_inj in E; try assumption. destruct E as (-> & -> & E). injection E as -> _ _. reflexivity.
Qed.

Lemma fits_names : forall k (a b : group_of A), fits k a -> fits k b -> exists ns cts tg, plain_ns ns /\ plain_ns cts /\
  names_fit ns cts tg a /\ names_fit ns cts tg b.
Proof.
  intros k a b (ns & cts & tg & P1 & P2 & P3 & E & F) (ns' & cts' & tg' & Q1 & Q2 & Q3 & E' & F').
  rewrite E in E'. apply write_urn_inj in E'; try assumption. destruct E' as (<- & <- & E'). injection E' as <-.
  exists ns, cts, tg. auto.
Qed.

Lemma add_group_has : forall (l : shelf_of A) k g u x, NoDup (keys l) -> (forall k' g', In (k', g') l -> fits k' g') -> fits k g ->
  (in_shelf (add_group l (k, g)) u x <-> in_group g u x \/ (in_shelf l u x /\ ~ exists y, in_group g u y)).
Proof.
  intros l k g u x N H F. assert (NM : NoDup (keys (add_group l (k, g)))) by (apply NoDup_merge; exact N).
  assert (G : forall k', dget k' (add_group l (k, g)) = if str_eqb k k' then Some (match dget k l with Some v => join_groups v g | None => g end) else dget k' l).
  { intros k'. unfold add_group. rewrite dget_merge. reflexivity. }
  split.
  - intros (k' & g' & I & J). apply (dget_In_iff _ _ _ NM) in I. rewrite G in I. destruct (str_eqb k k') eqn:E.
    + apply str_eqb_eq in E. subst k'. injection I as <-. destruct (dget k l) as [v|] eqn:D; [|left; exact J].
      apply (dget_In_iff _ _ _ N) in D. destruct (fits_names k v g (H _ _ D) F) as (ns & cts & tg & P1 & P2 & F1 & F2).
      apply (join_groups_has ns cts tg) in J; try assumption. destruct J as [J|[J NO]]; [left; exact J|].
      right. split; [exists k, v; auto|exact NO].
    + apply (dget_In_iff _ _ _ N) in I. right. split; [exists k', g'; auto|]. intros (y & Y).
      assert (k = k') by (eapply (same_group k g k' g'); [exact F|apply H; exact I|exact Y|exact J]). subst k'.
      rewrite str_eqb_refl in E. discriminate.
  - intros [J|[(k' & g' & I & J) NO]].
    + exists k, (match dget k l with Some v => join_groups v g | None => g end). split.
      * apply (dget_In_iff _ _ _ NM). rewrite G, str_eqb_refl. reflexivity.
      * destruct (dget k l) as [v|] eqn:D; [|exact J]. apply (dget_In_iff _ _ _ N) in D.
        destruct (fits_names k v g (H _ _ D) F) as (ns & cts & tg & P1 & P2 & F1 & F2).
        apply (join_groups_has ns cts tg); try assumption. auto.
    + destruct (str_eqb k k') eqn:E.
      * apply str_eqb_eq in E. subst k'. exists k, (join_groups g' g). pose proof I as I'. apply (dget_In_iff _ _ _ N) in I.
        split; [apply (dget_In_iff _ _ _ NM); rewrite G, str_eqb_refl, I; reflexivity|].
        destruct (fits_names k g' g (H _ _ I') F) as (ns & cts & tg & P1 & P2 & F1 & F2).
        apply (join_groups_has ns cts tg); try assumption. auto.
      * exists k', g'. split; [|exact J]. apply (dget_In_iff _ _ _ NM). rewrite G, E. apply (dget_In_iff _ _ _ N). exact I.
Qed.

Lemma held_shelf : forall (L : inventories A) u x, held L u x <-> exists n l, In (n, l) L /\ in_shelf l u x.
Proof.
  intros L u x. split.
  - intros (n & l & k & ws & k2 & ts & I1 & I2 & I3 & I4). exists n, l. split; [exact I1|]. exists k, ws. split; [exact I2|]. exists k2, ts. auto.
  - intros (n & l & I1 & k & ws & I2 & k2 & ts & I3 & I4). exists n, l, k, ws, k2, ts. auto.
Qed.

Lemma shelve_has : forall name choice (L : inventories A) k g u x, in_order name L -> fits k g ->
  (forall n, choice k = Some n -> In n (keys L)) -> place choice L k <> None ->
  (held (shelve choice L (k, g)) u x <-> in_group g u x \/ (held L u x /\ ~ exists y, in_group g u y)).
Proof.
  intros name choice L k g u x O F D P. unfold shelve. cbn [fst].
  destruct (place choice L k) as [n|] eqn:E; [|contradiction].
  assert (IN : exists l, In (n, l) L).
  { destruct (find_place choice L k) as [(n' & d & I & K & E')|[NK E']]; rewrite E' in E.
    - injection E as ->. eauto.
    - apply D in E. apply In_keys in E. exact E. }
  destruct IN as (l0 & I0).
  assert (DL : forall m l, In (m, l) L -> NoDup (keys l)).
  { intros m l I. pose proof (io_groups _ _ O) as X. clear -X I. induction L as [|e L IH]; [destruct I|]. cbn [flat_map] in X.
    destruct I as [->|I]; [eapply NoDup_app_l; exact X|]. apply IH; [exact I|eapply NoDup_app_r; exact X]. }
  assert (FL : forall m l k' g', In (m, l) L -> In (k', g') l -> fits k' g') by (intros m l k' g' I J; exact (io_urns _ _ O _ _ _ _ I J)).
  assert (ME : forall m l, In (m, l) (map (fun il => if str_eqb (fst il) n then (fst il, add_group (snd il) (k, g)) else il) L) <->
    (m = n /\ exists l', In (m, l') L /\ l = add_group l' (k, g)) \/ (m <> n /\ In (m, l) L)).
  { intros m l. rewrite in_map_iff. split.
    - intros ([m' l'] & X & I). cbn [fst snd] in X. destruct (str_eqb m' n) eqn:Y; injection X as <- <-.
      + apply str_eqb_eq in Y. left. split; [exact Y|]. eauto.
      + right. split; [|exact I]. intros ->. rewrite str_eqb_refl in Y. discriminate.
    - intros [[-> (l' & I & ->)]|[NE I]].
      + exists (n, l'). cbn [fst snd]. rewrite str_eqb_refl. auto.
      + exists (m, l). cbn [fst snd]. rewrite str_eqb_false by exact NE. auto. }
  (* a text of the group can only be where the group goes *)
  assert (ON : forall m l y y', In (m, l) L -> in_shelf l u y -> in_group g u y' -> m = n).
  { intros m l y y' I (k' & g' & I' & J') J. assert (k = k') by (eapply (same_group k g k' g'); [exact F|eapply FL; eassumption|exact J|exact J']). subst k'.
    destruct (find_place choice L k) as [(n' & d & I2 & K & E')|[NK E']]; rewrite E' in E.
    - injection E as ->. assert (X : (m, l) = (n, d)); [|congruence].
      eapply (NoDup_flat_same (fun il : str * shelf_of A => keys (snd il)) L _ _ k); [apply (io_groups _ _ O)|exact I|exact I2| |exact K].
      apply In_keys. eauto.
    - exfalso. apply NK. apply in_flat_map. exists (m, l). split; [exact I|]. apply In_keys. eauto. }
  rewrite !held_shelf. split.
  - intros (m & l & I & J). apply ME in I. destruct I as [[-> (l' & I & ->)]|[NE I]].
    + apply add_group_has in J; [|eauto|eauto|exact F]. destruct J as [J|[J NO]]; [auto|]. right. split; [eauto|exact NO].
    + right. split; [eauto|]. intros (y & Y). apply NE. eapply ON; eassumption.
  - intros [J|[(m & l & I & J) NO]].
    + exists n, (add_group l0 (k, g)). split; [apply ME; left; eauto|]. apply add_group_has; [eauto|eauto|exact F|auto].
    + destruct (list_eq_dec N.eq_dec m n) as [->|NE].
      * exists n, (add_group l (k, g)). split; [apply ME; left; eauto|]. apply add_group_has; [eauto|eauto|exact F|auto].
      * exists m, l. split; [apply ME; auto|exact J].
Qed.

Lemma shelves_have : forall name tests (es : list (str * (str * group_of A))) (L : inventories A) u x, in_order name L ->
  (forall p k g, In (p, (k, g)) es -> fits k g /\ forall n, choice_of tests p k = Some n -> In n (keys L)) ->
  (forall pre p k g post, es = pre ++ (p, (k, g)) :: post ->
     place (choice_of tests p) (fold_left (shelve_at tests) pre L) k <> None) ->
  (held (fold_left (shelve_at tests) es L) u x <->
   (exists pre p k g post, es = pre ++ (p, (k, g)) :: post /\ in_group g u x /\ forall p' k' g' y, In (p', (k', g')) post -> ~ in_group g' u y) \/
   (held L u x /\ forall p k g y, In (p, (k, g)) es -> ~ in_group g u y)).
Proof.
  intros name tests es. induction es as [|[p [k g]] es IH]; intros L u x O H Pl.
  - cbn [fold_left]. split; [intros X; right; split; [exact X|intros ? ? ? ? []]|]. intros [(pre & p & k & g & post & E & _)|[X _]]; [destruct pre; discriminate|exact X].
  - cbn [fold_left]. destruct (H p k g (or_introl eq_refl)) as (F & D). pose proof (Pl [] p k g es eq_refl) as P. cbn [fold_left] in P.
    rewrite (IH (shelve_at tests L (p, (k, g))) u x); [|apply shelve_order; assumption| |].
    2:{ intros p' k' g' I. destruct (H p' k' g' (or_intror I)) as (F' & D'). split; [exact F'|]. unfold shelve_at. rewrite keys_shelve. exact D'. }
    2:{ intros pre p' k' g' post E. apply (Pl ((p, (k, g)) :: pre) p' k' g' post). rewrite E. reflexivity. }
    unfold shelve_at at 1. cbn [fst snd].
    rewrite (shelve_has name (choice_of tests p) L k g u x O F D P). split.
    + intros [(pre & p' & k' & g' & post & -> & X & Y)|[[X|[X NO]] Y]].
      * left. exists ((p, (k, g)) :: pre), p', k', g', post. auto.
      * left. exists [], p, k, g, es. auto.
      * right. split; [exact X|]. intros p' k' g' y [E|I]; [injection E as <- <- <-; intros Z; apply NO; eauto|eapply Y; exact I].
    + intros [(pre & p' & k' & g' & post & E & X & Y)|[X Y]].
      * destruct pre as [|e pre]; cbn [app] in E; inversion E; subst.
        -- right. split; [auto|exact Y].
        -- left. exists pre, p', k', g', post. auto.
      * right. split; [|intros p' k' g' y I; eapply Y; right; exact I]. right. split; [exact X|]. intros (y & Z). eapply Y; [left; reflexivity|exact Z].
Qed.
End Leaf.
