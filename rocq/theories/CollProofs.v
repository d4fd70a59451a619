(** Proofs about reading collections: members, descendants, lookup. *)

From Coq Require Import List NArith Arith Bool Lia Sorting.Sorted.
From Verif Require Import PyStr PyStrFacts MetaModel MetaSpec MetaProofs CollModel CollSpec.
Import ListNotations.

(** ** The store *)

Lemma length_upd : forall {A} (l : list A) i f, length (upd l i f) = length l.
Proof. intros A l. induction l as [|x l IH]; intros [|i] f; cbn; auto. Qed.

Lemma nth_upd : forall {A} (l : list A) i j f d,
  nth j (upd l i f) d
  = if Nat.eqb i j && Nat.ltb i (length l) then f (nth j l d) else nth j l d.
Proof.
  intros A l. induction l as [|x l IH]; intros [|i] [|j] f d; cbn; auto.
  - rewrite andb_false_r. reflexivity.
  - rewrite IH. reflexivity.
Qed.

Lemma obj_with : forall st c f d,
  obj (with_obj st c f) d
  = if Nat.eqb c d && Nat.ltb c (length (objs st)) then f (obj st d) else obj st d.
Proof. intros. apply nth_upd. Qed.

Lemma obj_with_graph : forall st i f d, obj (with_graph st i f) d = obj st d.
Proof. reflexivity. Qed.

Lemma is_text_spec : forall st c, is_text (c_kind (obj st c)) = true <-> text st c.
Proof.
  intros st c. unfold text. destruct (c_kind (obj st c)); cbn;
    (split; [ intros H; try discriminate; eauto | intros [? H]; try discriminate; auto ]).
Qed.

Lemma is_text_false : forall st c, is_text (c_kind (obj st c)) = false <-> ~ text st c.
Proof. intros. rewrite <- is_text_spec. symmetry. apply not_true_iff_false. Qed.

Lemma In_members : forall st c m, In m (members st c) <-> member st c m.
Proof.
  intros st c m. unfold members, member.
  destruct (is_text (c_kind (obj st c))) eqn:E.
  - apply is_text_spec in E. split; [ intros [] | tauto ].
  - apply is_text_false in E. rewrite in_map_iff. split.
    + intros [[k x] [<- H]]. split; [ exact E | ]. exists k. exact H.
    + intros [_ [k H]]. exists (k, m). auto.
Qed.

Lemma mapM_Forall2 : forall {A B} (f : A -> result B) l ls,
  mapM f l = Ok ls <-> Forall2 (fun a b => f a = Ok b) l ls.
Proof.
  intros A B f l. induction l as [|a l IH]; intros ls; cbn.
  - split; [ intros H; injection H as <-; constructor | intros H; inversion H; reflexivity ].
  - destruct (f a) as [b|e] eqn:E; cbn.
    + destruct (mapM f l) as [bs|e] eqn:M; cbn.
      * split.
        -- intros H. injection H as <-. constructor; [ exact E | ]. apply IH. reflexivity.
        -- intros H. inversion H; subst. apply IH in H4. congruence.
      * split; [ discriminate | ]. intros H. inversion H; subst. apply IH in H4. discriminate.
    + split; [ discriminate | ]. intros H. inversion H; subst. congruence.
Qed.

(** ** Descendants *)

(** The places under [c], in the order of the listing. *)
Definition indexed (st : state) (c : nat) : list (nat * nat) :=
  combine (seq 0 (length (members st c))) (members st c).

Fixpoint places (limit : nat) (st : state) (c : nat) : list (list nat) :=
  match limit with
  | 0 => []
  | S limit' =>
      if is_text (c_kind (obj st c)) then [] else
      map (fun a : nat * nat => [fst a]) (indexed st c)
      ++ flat_map (fun a : nat * nat => map (cons (fst a)) (places limit' st (snd a)))
           (indexed st c)
  end.

Lemma combine_seq_nth : forall {A} (l : list A) s i a,
  In (i, a) (combine (seq s (length l)) l) <-> s <= i /\ nth_error l (i - s) = Some a.
Proof.
  intros A l. induction l as [|x l IH]; intros s i a; cbn.
  - split; [ tauto | ]. intros [_ H]. destruct (i - s); discriminate.
  - rewrite IH. split.
    + intros [H|[H1 H2]].
      * injection H as <- <-. split; [ lia | ]. rewrite Nat.sub_diag. reflexivity.
      * split; [ lia | ]. replace (i - s) with (S (i - S s)) by lia. exact H2.
    + intros [H1 H2]. destruct (i - s) eqn:E.
      * left. cbn in H2. injection H2 as ->. f_equal. lia.
      * right. split; [ lia | ]. cbn in H2. replace (i - S s) with n by lia. exact H2.
Qed.

Lemma In_indexed : forall st c i m,
  In (i, m) (indexed st c)
  <-> ~ text st c /\ exists k, nth_error (c_children (obj st c)) i = Some (k, m).
Proof.
  intros st c i m. unfold indexed. rewrite combine_seq_nth, Nat.sub_0_r.
  unfold members. destruct (is_text (c_kind (obj st c))) eqn:E.
  - apply is_text_spec in E. split; [ intros [_ H]; destruct i; discriminate | tauto ].
  - apply is_text_false in E. rewrite nth_error_map. split.
    + intros [_ H]. split; [ exact E | ].
      destruct (nth_error (c_children (obj st c)) i) as [[k x]|]; [ | discriminate ].
      cbn in H. injection H as ->. eauto.
    + intros [_ [k H]]. rewrite H. split; [ lia | reflexivity ].
Qed.

Lemma snd_indexed : forall st c, map snd (indexed st c) = members st c.
Proof.
  intros st c. unfold indexed. generalize 0. induction (members st c) as [|m l IH];
    intros s; cbn; [ reflexivity | ]. rewrite IH. reflexivity.
Qed.

Lemma indexed_sorted : forall st c,
  StronglySorted (fun a b : nat * nat => fst a < fst b) (indexed st c).
Proof.
  intros st c. unfold indexed. generalize 0. induction (members st c) as [|m l IH];
    intros s; cbn; constructor; [ apply IH | ].
  apply Forall_forall. intros [i x] H. apply combine_seq_nth in H. cbn. lia.
Qed.

Lemma sorted_app : forall {A} (R : A -> A -> Prop) l l',
  StronglySorted R l -> StronglySorted R l' ->
  (forall a b, In a l -> In b l' -> R a b) -> StronglySorted R (l ++ l').
Proof.
  intros A R l l' Hl Hl' H. induction Hl as [|a l Hl IH Ha]; cbn; [ exact Hl' | ].
  constructor.
  - apply IH. intros. apply H; [ right | ]; assumption.
  - apply Forall_app. split; [ exact Ha | ]. apply Forall_forall. intros b Hb.
    apply H; [ left; reflexivity | exact Hb ].
Qed.

Lemma sorted_flat : forall {A B} (R : A -> A -> Prop) (S : B -> B -> Prop)
    (f : A -> list B) l,
  StronglySorted R l -> (forall a, In a l -> StronglySorted S (f a)) ->
  (forall a b p q, R a b -> In p (f a) -> In q (f b) -> S p q) ->
  StronglySorted S (flat_map f l).
Proof.
  intros A B R S f l Hl Hs Hc. induction Hl as [|a l Hl IH Ha]; cbn; [ constructor | ].
  apply sorted_app.
  - apply Hs. left. reflexivity.
  - apply IH. intros. apply Hs. right. assumption.
  - intros p q Hp Hq. apply in_flat_map in Hq as [b [Hb Hq]].
    apply (Hc a b); [ | exact Hp | exact Hq ]. rewrite Forall_forall in Ha. apply Ha, Hb.
Qed.

Lemma sorted_map : forall {A B} (R : A -> A -> Prop) (S : B -> B -> Prop) (f : A -> B) l,
  StronglySorted R l -> (forall a b, R a b -> S (f a) (f b)) ->
  StronglySorted S (map f l).
Proof.
  intros A B R S f l Hl H. induction Hl as [|a l Hl IH Ha]; cbn; constructor; [ exact IH | ].
  apply Forall_forall. intros b Hb. apply in_map_iff in Hb as [x [<- Hx]].
  apply H. rewrite Forall_forall in Ha. apply Ha, Hx.
Qed.

Lemma places_nonempty : forall limit st c p, In p (places limit st c) -> p <> [].
Proof.
  intros [|limit] st c p H; [ destruct H | ]. cbn in H.
  destruct (is_text (c_kind (obj st c))); [ destruct H | ].
  apply in_app_iff in H as [H|H].
  - apply in_map_iff in H as [a [<- _]]. discriminate.
  - apply in_flat_map in H as [a [_ H]]. apply in_map_iff in H as [q [<- _]]. discriminate.
Qed.

Lemma places_sorted : forall limit st c,
  StronglySorted listed_before (places limit st c).
Proof.
  induction limit as [|limit IH]; intros st c; cbn; [ constructor | ].
  destruct (is_text (c_kind (obj st c))); [ constructor | ].
  apply sorted_app.
  - eapply sorted_map; [ apply indexed_sorted | ]. intros a b H. apply lb_members. exact H.
  - eapply sorted_flat; [ apply indexed_sorted | | ].
    + intros a _. eapply sorted_map; [ apply IH | ]. intros p q H. apply lb_inside. exact H.
    + intros a b p q H Hp Hq. apply in_map_iff in Hp as [p' [<- Hp]].
      apply in_map_iff in Hq as [q' [<- Hq]].
      apply lb_first; [ | | exact H ]; eapply places_nonempty; eassumption.
  - intros p q Hp Hq. apply in_map_iff in Hp as [a [<- _]].
    apply in_flat_map in Hq as [b [_ Hq]]. apply in_map_iff in Hq as [q' [<- Hq]].
    apply lb_shallow. eapply places_nonempty. eassumption.
Qed.

Lemma at_path_cons : forall st c i p d,
  at_path st c (i :: p) d <-> exists m, In (i, m) (indexed st c) /\ at_path st m p d.
Proof.
  intros st c i p d. split.
  - intros H. inversion H; subst. exists m. split; [ | assumption ].
    apply In_indexed. eauto.
  - intros [m [H H2]]. apply In_indexed in H as [H [k Hk]]. econstructor; eassumption.
Qed.

Lemma places_complete : forall limit st c l, descendants limit st c = Ok l ->
  forall p d, p <> [] -> at_path st c p d -> In p (places limit st c).
Proof.
  induction limit as [|limit IH]; intros st c l H p d Hp Hd; [ discriminate | ].
  cbn in H |- *. destruct p as [|i p]; [ congruence | ].
  apply at_path_cons in Hd as [m [Hi Hd]].
  assert (Ht : ~ text st c) by (apply In_indexed in Hi; tauto).
  apply is_text_false in Ht. rewrite Ht in *.
  destruct (mapM (descendants limit st) (members st c)) as [subs|e] eqn:M; [ | discriminate ].
  apply mapM_Forall2 in M. apply in_app_iff.
  destruct p as [|j p].
  - left. apply in_map_iff. exists (i, m). auto.
  - right. apply in_flat_map. exists (i, m). split; [ exact Hi | ].
    apply in_map_iff. exists (j :: p). split; [ reflexivity | ]. cbn [snd].
    assert (Hm : In m (members st c)).
    { rewrite <- snd_indexed. apply in_map_iff. exists (i, m). auto. }
    clear H Ht. induction M as [|a b l1 l2 Hab M IHM]; [ destruct Hm | ].
    destruct Hm as [->|Hm]; [ | apply IHM; exact Hm ].
    eapply IH; [ exact Hab | discriminate | exact Hd ].
Qed.

Lemma Forall2_app_ : forall {A B} (R : A -> B -> Prop) a b c d,
  Forall2 R a b -> Forall2 R c d -> Forall2 R (a ++ c) (b ++ d).
Proof. intros. apply Forall2_app; assumption. Qed.

Lemma Forall2_map_l : forall {A B C} (R : B -> C -> Prop) (f : A -> B) l l',
  Forall2 (fun a c => R (f a) c) l l' <-> Forall2 R (map f l) l'.
Proof.
  intros A B C R f l. induction l as [|a l IH]; intros l'; cbn.
  - split; intros H; inversion H; constructor.
  - split; intros H; inversion H; subst; constructor; auto; apply IH; assumption.
Qed.

Lemma Forall2_impl : forall {A B} (R S : A -> B -> Prop) l l',
  (forall a b, R a b -> S a b) -> Forall2 R l l' -> Forall2 S l l'.
Proof. intros A B R S l l' H F. induction F; constructor; auto. Qed.

Lemma places_targets : forall limit st c l, descendants limit st c = Ok l ->
  Forall2 (at_path st c) (places limit st c) l.
Proof.
  induction limit as [|limit IH]; intros st c l H; [ discriminate | ].
  cbn in H |- *. destruct (is_text (c_kind (obj st c))) eqn:Ht.
  { injection H as <-. constructor. }
  apply is_text_false in Ht.
  destruct (mapM (descendants limit st) (members st c)) as [subs|e] eqn:M; [ | discriminate ].
  cbn in H. injection H as <-. apply mapM_Forall2 in M. apply Forall2_app_.
  - rewrite <- snd_indexed. apply (proj1 (Forall2_map_l (at_path st c) _ _ _)).
    assert (G : forall a, In a (indexed st c) -> at_path st c [fst a] (snd a)).
    { intros [i m] Hi. apply at_path_cons. exists m. split; [ exact Hi | constructor ]. }
    revert G. generalize (indexed st c). induction l as [|a l IHl]; intros G; cbn; constructor.
    + apply G. left. reflexivity.
    + apply IHl. intros. apply G. right. assumption.
  - rewrite <- snd_indexed in M.
    assert (G : forall a, In a (indexed st c) -> In a (indexed st c)) by auto.
    revert G M. generalize subs. generalize (indexed st c) at 1 3 4.
    induction l as [|[i m] l IHl]; intros ls G M; inversion M; subst; cbn; [ constructor | ].
    apply Forall2_app_; [ | apply IHl; [ intros; apply G; right; assumption | assumption ] ].
    cbn [fst snd] in *. apply (proj1 (Forall2_map_l (at_path st c) (cons i) _ _)).
    eapply Forall2_impl; [ | apply IH; eassumption ].
    intros p d Hp. apply at_path_cons. exists m. split; [ apply G; left; reflexivity | exact Hp ].
Qed.

(** The complete description of the listing. *)
Theorem descendants_listing : forall limit st c l,
  descendants limit st c = Ok l ->
  exists places, Forall2 (at_path st c) places l
    /\ StronglySorted listed_before places
    /\ forall p, In p places <-> p <> [] /\ exists d, at_path st c p d.
Proof.
  intros limit st c l H. exists (places limit st c).
  pose proof (places_targets _ _ _ _ H) as T.
  split; [ exact T | ]. split; [ apply places_sorted | ]. intros p. split.
  - intros Hp. split; [ eapply places_nonempty; exact Hp | ].
    revert Hp. generalize dependent l. intros l _ T Hp. induction T; [ destruct Hp | ].
    destruct Hp as [->|Hp]; [ eauto | auto ].
  - intros [Hp [d Hd]]. eapply places_complete; eassumption.
Qed.

Lemma at_path_below : forall st p c d, at_path st c p d -> p <> [] -> below st c d.
Proof.
  intros st p. induction p as [|i p IH]; intros c d H Hp; [ congruence | ].
  inversion H as [|? ? k m ? ? Ht Hk Hd]; subst.
  assert (Hm : member st c m) by (split; [ assumption | exists k; eapply nth_error_In; eassumption ]).
  destruct p as [|j p].
  - inversion Hd; subst. apply below_one. exact Hm.
  - eapply below_more; [ exact Hm | ]. apply IH; [ assumption | discriminate ].
Qed.

Lemma below_at_path : forall st c d, below st c d -> exists p, p <> [] /\ at_path st c p d.
Proof.
  intros st c d H. induction H as [c m [Ht [k Hm]]|c m d [Ht [k Hm]] H [p [Hp IH]]];
    apply In_nth_error in Hm as [i Hi].
  - exists [i]. split; [ discriminate | ]. econstructor; [ exact Ht | exact Hi | constructor ].
  - exists (i :: p). split; [ discriminate | ]. econstructor; eassumption.
Qed.

Theorem descendants_below : forall limit st c l, descendants limit st c = Ok l ->
  forall d, In d l <-> below st c d.
Proof.
  intros limit st c l H d.
  destruct (descendants_listing _ _ _ _ H) as (ps & F & _ & C). split.
  - intros Hd. assert (G : exists p, In p ps /\ at_path st c p d).
    { clear C H. induction F; [ destruct Hd | ]. destruct Hd as [->|Hd].
      - exists x. split; [ left; reflexivity | assumption ].
      - destruct (IHF Hd) as [p [X Y]]. exists p. split; [ right; exact X | exact Y ]. }
    destruct G as [p [Hp Hat]]. eapply at_path_below; [ exact Hat | ].
    apply C in Hp. tauto.
  - intros Hb. apply below_at_path in Hb as [p [Hp Hat]].
    assert (X : In p ps) by (apply C; eauto).
    clear C H. induction F; [ destruct X | ]. destruct X as [->|X].
    + left. clear - H Hat. revert y d H Hat. revert c. induction p as [|i p IH]; intros c y d H1 H2.
      * inversion H1; inversion H2; subst. reflexivity.
      * apply at_path_cons in H1 as [m1 [A1 B1]]. apply at_path_cons in H2 as [m2 [A2 B2]].
        apply In_indexed in A1 as [_ [k1 A1]]. apply In_indexed in A2 as [_ [k2 A2]].
        rewrite A1 in A2. injection A2 as _ ->. eapply IH; eassumption.
    + right. apply IHF. exact X.
Qed.

(** The recursion limit: it is reached exactly when some place is that deep. *)
Theorem descendants_ok : forall limit st c,
  (exists l, descendants limit st c = Ok l)
  <-> forall p d, at_path st c p d -> length p < limit.
Proof.
  induction limit as [|limit IH]; intros st c.
  - split; [ intros [l H]; discriminate | ]. intros H. exfalso.
    specialize (H [] c (at_here _ _)). inversion H.
  - cbn [descendants]. destruct (is_text (c_kind (obj st c))) eqn:Ht.
    + apply is_text_spec in Ht. split; [ | eauto ]. intros _ p d H.
      inversion H; subst; [ cbn; lia | contradiction ].
    + apply is_text_false in Ht. split.
      * intros [l H] p d Hd. destruct p as [|i p]; [ cbn; lia | ].
        apply at_path_cons in Hd as [m [Hi Hd]].
        destruct (mapM (descendants limit st) (members st c)) as [subs|e] eqn:M; [ | discriminate ].
        apply mapM_Forall2 in M.
        assert (Hm : In m (members st c)).
        { rewrite <- snd_indexed. apply in_map_iff. exists (i, m). auto. }
        assert (X : exists l', descendants limit st m = Ok l').
        { clear H. induction M; [ destruct Hm | ]. destruct Hm as [->|Hm]; eauto. }
        cbn. apply -> Nat.succ_lt_mono. eapply IH; eassumption.
      * intros H.
        assert (X : exists subs, mapM (descendants limit st) (members st c) = Ok subs).
        { assert (Y : forall m, In m (members st c) -> exists l', descendants limit st m = Ok l').
          { intros m Hm. apply IH. intros p d Hd. rewrite <- snd_indexed in Hm.
            apply in_map_iff in Hm as [[i m'] [E Hi]]. cbn in E. subst m'.
            assert (Z : at_path st c (i :: p) d) by (apply at_path_cons; eauto).
            specialize (H _ _ Z). cbn in H. lia. }
          revert Y. generalize (members st c). induction l as [|m l IHl]; intros Y.
          - exists []. reflexivity.
          - destruct (Y m (or_introl eq_refl)) as [b Hb].
            destruct IHl as [bs Hbs]; [ intros; apply Y; right; assumption | ].
            exists (b :: bs). cbn. rewrite Hb. cbn. rewrite Hbs. reflexivity. }
        destruct X as [subs ->]. cbn. eauto.
Qed.

Lemma mapM_err : forall {A B} (f : A -> result B) l e, mapM f l = Err e ->
  exists a, In a l /\ f a = Err e.
Proof.
  intros A B f l e. induction l as [|a l IH]; cbn; [ discriminate | ].
  destruct (f a) as [b|e'] eqn:E; cbn.
  - destruct (mapM f l) as [bs|e']; cbn; [ discriminate | ]. intros H. injection H as ->.
    destruct (IH eq_refl) as [x [Hx X]]. eauto.
  - intros H. injection H as ->. eauto.
Qed.

Theorem descendants_err : forall limit st c e,
  descendants limit st c = Err e -> e = RecursionError.
Proof.
  induction limit as [|limit IH]; intros st c e H; cbn in H.
  - congruence.
  - destruct (is_text (c_kind (obj st c))); [ discriminate | ].
    destruct (mapM (descendants limit st) (members st c)) as [subs|e'] eqn:M; [ discriminate | ].
    cbn in H. injection H as ->. apply mapM_err in M as [m [_ M]]. eapply IH. exact M.
Qed.

(** ** Lookup and membership *)

Lemma has_id_spec : forall st k c, has_id st k c = true <-> c_id (obj st c) = k.
Proof. intros. unfold has_id. rewrite str_eqb_eq. split; congruence. Qed.

Theorem contains_spec : forall limit st c key b,
  contains limit st c key = Ok b ->
  (b = true <-> exists x, (x = c \/ below st c x) /\ c_id (obj st x) = key).
Proof.
  intros limit st c key b H. unfold contains in H.
  destruct (descendants limit st c) as [l|] eqn:D; [ | discriminate ].
  cbn in H. injection H as <-. rewrite existsb_exists. split.
  - intros [x [Hx E]]. exists x. apply has_id_spec in E. split; [ | exact E ].
    apply in_app_iff in Hx as [Hx|[->|[]]]; [ | auto ].
    right. apply (descendants_below _ _ _ _ D). exact Hx.
  - intros [x [Hx E]]. exists x. split; [ | apply has_id_spec; exact E ].
    apply in_app_iff. destruct Hx as [->|Hx]; [ right; left; reflexivity | ].
    left. apply (descendants_below _ _ _ _ D). exact Hx.
Qed.

Theorem getitem_ok : forall limit st c key x,
  getitem limit st c key = Ok x ->
  (x = c \/ below st c x) /\ c_id (obj st x) = key.
Proof.
  intros limit st c key x H. unfold getitem in H.
  destruct (has_id st key c) eqn:E.
  { injection H as <-. split; [ auto | apply has_id_spec; exact E ]. }
  destruct (find (has_id st key) (members st c)) as [m|] eqn:F.
  { injection H as <-. apply find_some in F as [F1 F2]. apply has_id_spec in F2.
    split; [ | exact F2 ]. right. apply below_one, In_members, F1. }
  destruct (descendants limit st c) as [l|] eqn:D; [ | discriminate ]. cbn in H.
  destruct (find (has_id st key) l) as [m|] eqn:F'; [ | discriminate ].
  injection H as <-. apply find_some in F' as [F1 F2]. apply has_id_spec in F2.
  split; [ | exact F2 ]. right. apply (descendants_below _ _ _ _ D). exact F1.
Qed.

Theorem getitem_contains : forall limit st c key b,
  contains limit st c key = Ok b ->
  if b then exists x, getitem limit st c key = Ok x
  else getitem limit st c key = Err UnknownCollection.
Proof.
  intros limit st c key b H. pose proof (contains_spec _ _ _ _ _ H) as S.
  unfold contains in H. unfold getitem.
  destruct (descendants limit st c) as [l|] eqn:D; [ | discriminate ].
  destruct b.
  - destruct (has_id st key c) eqn:E; [ eauto | ].
    destruct (find (has_id st key) (members st c)) as [m|] eqn:F; [ eauto | ].
    cbn [bind]. destruct (find (has_id st key) l) as [m|] eqn:F'; [ eauto | ]. exfalso.
    destruct (proj1 S eq_refl) as [x [[->|Hx] Ex]].
    + apply has_id_spec in Ex. congruence.
    + apply (descendants_below _ _ _ _ D) in Hx.
      pose proof (find_none _ _ F' x Hx) as N. apply has_id_spec in Ex. congruence.
  - assert (N : forall x, x = c \/ below st c x -> has_id st key x = false).
    { intros x Hx. destruct (has_id st key x) eqn:E; [ | reflexivity ].
      apply has_id_spec in E. assert (false = true) by (apply S; eauto). discriminate. }
    rewrite (N c) by auto.
    destruct (find (has_id st key) (members st c)) as [m|] eqn:F.
    { apply find_some in F as [F1 F2]. rewrite (N m) in F2; [ discriminate | ].
      right. apply below_one, In_members, F1. }
    cbn [bind]. destruct (find (has_id st key) l) as [m|] eqn:F'; [ | reflexivity ].
    apply find_some in F' as [F1 F2]. rewrite (N m) in F2; [ discriminate | ].
    right. apply (descendants_below _ _ _ _ D). exact F1.
Qed.

(** The error cases of the lookup. *)
Lemma descendants_deep : forall limit st c e, descendants limit st c = Err e ->
  exists p d, at_path st c p d /\ limit <= length p.
Proof.
  induction limit as [|limit IH]; intros st c e D.
  - exists [], c. split; [ constructor | cbn; lia ].
  - cbn in D. destruct (is_text (c_kind (obj st c))) eqn:Ht; [ discriminate | ].
    destruct (mapM (descendants limit st) (members st c)) as [subs|e'] eqn:M; [ discriminate | ].
    cbn in D. injection D as ->. apply mapM_err in M as [m [Hm M]].
    destruct (IH st m e M) as (p & d & Hp & Hl).
    rewrite <- snd_indexed in Hm. apply in_map_iff in Hm as [[i m'] [Em Hi]].
    cbn in Em. subst m'. exists (i :: p), d. split; [ apply at_path_cons; eauto | cbn; lia ].
Qed.

Theorem getitem_err : forall limit st c key e,
  getitem limit st c key = Err e ->
  (e = UnknownCollection
   /\ forall x, x = c \/ below st c x -> c_id (obj st x) <> key)
  \/ (e = RecursionError /\ exists p d, at_path st c p d /\ limit <= length p).
Proof.
  intros limit st c key e H. unfold getitem in H.
  destruct (has_id st key c) eqn:E; [ discriminate | ].
  destruct (find (has_id st key) (members st c)) as [m|] eqn:F; [ discriminate | ].
  destruct (descendants limit st c) as [l|e'] eqn:D; cbn in H.
  - destruct (find (has_id st key) l) as [m|] eqn:F'; [ discriminate | ].
    injection H as <-. left. split; [ reflexivity | ]. intros x [->|Hx] Ex.
    + apply has_id_spec in Ex. congruence.
    + apply (descendants_below _ _ _ _ D) in Hx.
      pose proof (find_none _ _ F' x Hx). apply has_id_spec in Ex. congruence.
  - injection H as ->. right. pose proof (descendants_err _ _ _ _ D). subst e.
    split; [ reflexivity | ].
    eapply descendants_deep. exact D.
Qed.

(** ** Ancestors *)

Theorem parents_chain : forall fuel st c l, parents fuel st c = Ok l -> chain st c l.
Proof.
  intros fuel st. unfold parents. induction fuel as [|fuel IH]; intros c l H.
  - destruct (c_parent (obj st c)) eqn:E; [ discriminate | ].
    cbn in H. injection H as <-. constructor. exact E.
  - destruct (c_parent (obj st c)) as [p|] eqn:E; cbn in H.
    + destruct (parents_from fuel st (c_parent (obj st p))) as [l'|] eqn:F; [ | discriminate ].
      cbn in H. injection H as <-. econstructor; [ exact E | ]. apply IH. exact F.
    + injection H as <-. constructor. exact E.
Qed.

Theorem chain_parents : forall st c l, chain st c l ->
  forall fuel, length l <= fuel -> parents fuel st c = Ok l.
Proof.
  intros st c l H. induction H as [c E|c p l E H IH]; intros fuel Hf; unfold parents; rewrite E.
  - destruct fuel; reflexivity.
  - destruct fuel as [|fuel]; [ cbn in Hf; lia | ]. cbn.
    unfold parents in IH. rewrite IH by (cbn in Hf; lia). reflexivity.
Qed.

Lemma chain_unique : forall st c l l', chain st c l -> chain st c l' -> l = l'.
Proof.
  intros st c l l' H. revert l'. induction H as [c E|c p l E H IH]; intros l' H'; inversion H'; subst.
  - reflexivity.
  - congruence.
  - congruence.
  - rewrite E in H0. injection H0 as ->. f_equal. apply IH. assumption.
Qed.

(** ** Texts below *)

Theorem readable_spec : forall limit st c l, descendants limit st c = Ok l ->
  exists r, readable_descendants limit st c = Ok r
    /\ r = filter (readable st) l
    /\ forall d, In d r <-> below st c d /\ text st d.
Proof.
  intros limit st c l H. unfold readable_descendants. rewrite H. cbn.
  eexists. split; [ reflexivity | ]. split; [ reflexivity | ]. intros d.
  rewrite filter_In, (descendants_below _ _ _ _ H). unfold readable.
  rewrite is_text_spec. reflexivity.
Qed.

Lemma desc_text : forall limit st c, text st c -> descendants (S limit) st c = Ok [].
Proof. intros. cbn. apply is_text_spec in H. rewrite H. reflexivity. Qed.

Lemma children_members : forall st c, ~ text st c ->
  members st c = map snd (c_children (obj st c)).
Proof. intros st c H. apply is_text_false in H. unfold members. rewrite H. reflexivity. Qed.

Lemma filter_all : forall {A} (f : A -> bool) l, (forall a, In a l -> f a = true) -> filter f l = l.
Proof.
  intros A f l. induction l as [|a l IH]; intros H; [ reflexivity | ]. cbn.
  rewrite (H a (or_introl eq_refl)), IH; [ reflexivity | ]. intros. apply H. right. assumption.
Qed.

Lemma filter_none : forall {A} (f : A -> bool) l, (forall a, In a l -> f a = false) -> filter f l = [].
Proof.
  intros A f l. induction l as [|a l IH]; intros H; [ reflexivity | ]. cbn.
  rewrite (H a (or_introl eq_refl)), IH; [ reflexivity | ]. intros. apply H. right. assumption.
Qed.

Lemma mapM_all : forall {A B} (f : A -> result B) (g : A -> B) l,
  (forall a, In a l -> f a = Ok (g a)) -> mapM f l = Ok (map g l).
Proof.
  intros A B f g l. induction l as [|a l IH]; intros H; [ reflexivity | ]. cbn.
  rewrite (H a (or_introl eq_refl)). cbn. rewrite IH; [ reflexivity | ].
  intros. apply H. right. assumption.
Qed.

(** A layer: if every child lists its texts as its readable descendants, so
    does the container. *)
Lemma layer_step : forall limit st c (f : nat -> result (list nat)),
  ~ text st c ->
  (forall k m, In (k, m) (c_children (obj st c)) ->
     ~ text st m /\ exists d, descendants limit st m = Ok d
     /\ f m = Ok (filter (readable st) d)) ->
  exists d, descendants (S limit) st c = Ok d
    /\ flat_mapM f (map snd (c_children (obj st c))) = Ok (filter (readable st) d).
Proof.
  intros limit st c f Hc H. cbn [descendants]. pose proof Hc as Hc'.
  apply is_text_false in Hc'. rewrite Hc'. rewrite children_members by exact Hc.
  set (g := fun m => match descendants limit st m with Ok d => d | Err _ => [] end).
  rewrite (mapM_all _ g).
  2:{ intros m Hm. apply in_map_iff in Hm as [[k x] [<- Hm]].
      destruct (H _ _ Hm) as [_ [d [E _]]]. cbn. unfold g. rewrite E. reflexivity. }
  cbn. eexists. split; [ reflexivity | ]. unfold flat_mapM.
  rewrite (mapM_all _ (fun m => filter (readable st) (g m))).
  2:{ intros m Hm. apply in_map_iff in Hm as [[k x] [<- Hm]].
      destruct (H _ _ Hm) as [_ [d [E F]]]. cbn. unfold g. rewrite E. exact F. }
  cbn. f_equal. rewrite filter_app, filter_none.
  - cbn. induction (map snd (c_children (obj st c))) as [|m l IH]; [ reflexivity | ].
    cbn. rewrite filter_app, IH. reflexivity.
  - intros m Hm. apply in_map_iff in Hm as [[k x] [<- Hm]].
    destruct (H _ _ Hm) as [N _]. unfold readable. apply is_text_false. exact N.
Qed.

Lemma work_layer_texts : forall limit st c, work_layer st c ->
  ~ text st c /\ exists d, descendants (S (S limit)) st c = Ok d
    /\ texts_of st c = Ok (filter (readable st) d).
Proof.
  intros limit st c [K A].
  assert (Hc : ~ text st c) by (intros [s X]; congruence).
  split; [ exact Hc | ]. cbn [descendants]. pose proof Hc as Hc'.
  apply is_text_false in Hc'. rewrite Hc'. rewrite children_members by exact Hc.
  assert (T : forall m, In m (map snd (c_children (obj st c))) -> text st m).
  { intros m Hm. apply in_map_iff in Hm as [[k x] [<- Hm]]. eapply A. exact Hm. }
  rewrite (mapM_all _ (fun _ => [])).
  2:{ intros m Hm. pose proof (T m Hm) as X. apply is_text_spec in X.
      cbn. rewrite X. reflexivity. }
  cbn. eexists. split; [ reflexivity | ]. unfold texts_of. rewrite K. f_equal.
  rewrite filter_app, filter_all.
  - replace (concat (map (fun _ => []) (map snd (c_children (obj st c))))) with (@nil nat).
    + cbn. rewrite app_nil_r. reflexivity.
    + clear. induction (map snd (c_children (obj st c))); [ reflexivity | exact IHl ].
  - intros m Hm. unfold readable. apply is_text_spec, T, Hm.
Qed.

Lemma textgroup_layer_texts : forall limit st c, textgroup_layer st c ->
  ~ text st c /\ exists d, descendants (S (S (S limit))) st c = Ok d
    /\ texts_listed st c = Ok (filter (readable st) d).
Proof.
  intros limit st c [K A].
  assert (Hc : ~ text st c) by (intros [s X]; congruence).
  split; [ exact Hc | ].
  destruct (layer_step (S (S limit)) st c (texts_of st) Hc) as [d [E F]].
  { intros k m Hm. apply work_layer_texts. eapply A. exact Hm. }
  exists d. split; [ exact E | ]. unfold texts_listed. rewrite K.
  unfold works_of. rewrite K. cbn [bind]. exact F.
Qed.

Lemma inventory_layer_texts : forall limit st c, inventory_layer st c ->
  ~ text st c /\ exists d, descendants (S (S (S (S limit)))) st c = Ok d
    /\ texts_listed st c = Ok (filter (readable st) d).
Proof.
  intros limit st c [K A].
  assert (Hc : ~ text st c) by (intros [s X]; congruence).
  split; [ exact Hc | ].
  destruct (layer_step (S (S (S limit))) st c (texts_listed st) Hc) as [d [E F]].
  { intros k m Hm. apply textgroup_layer_texts. eapply A. exact Hm. }
  exists d. split; [ exact E | ]. rewrite <- F. unfold texts_listed at 1. rewrite K.
  unfold textgroups_of. rewrite K. cbn [bind].
  unfold flat_mapM. f_equal.
  assert (G : forall m, In m (map snd (c_children (obj st c))) ->
     (ws <- works_of st m ;; (ls <- mapM (texts_of st) ws ;; Ok (concat ls)))
     = texts_listed st m).
  { intros m Hm. apply in_map_iff in Hm as [[k x] [<- Hm]]. destruct (A _ _ Hm) as [Km _].
    cbn. unfold texts_listed. rewrite Km. reflexivity. }
  revert G. generalize (map snd (c_children (obj st c))).
  induction l as [|m l IH]; intros G; [ reflexivity | ]. cbn.
  rewrite (G m (or_introl eq_refl)), IH; [ reflexivity | ]. intros. apply G. right. assumption.
Qed.

Lemma collection_layer_texts : forall limit st c, collection_layer st c ->
  exists d, descendants (S (S (S (S (S limit))))) st c = Ok d
    /\ texts_listed st c = Ok (filter (readable st) d).
Proof.
  intros limit st c [K A].
  assert (Hc : ~ text st c) by (intros [s X]; congruence).
  destruct (layer_step (S (S (S (S limit)))) st c (texts_listed st) Hc) as [d [E F]].
  { intros k m Hm. apply inventory_layer_texts. eapply A. exact Hm. }
  exists d. split; [ exact E | ]. rewrite <- F. unfold texts_listed at 1. rewrite K.
  rewrite children_members by exact Hc. unfold flat_mapM. f_equal.
  assert (G : forall m, In m (map snd (c_children (obj st c))) ->
     (ts <- textgroups_of st m ;;
      ls <- mapM (fun t => ws <- works_of st t ;; (ls <- mapM (texts_of st) ws ;; Ok (concat ls))) ts ;;
      Ok (concat ls))
     = texts_listed st m).
  { intros m Hm. apply in_map_iff in Hm as [[k x] [<- Hm]]. destruct (A _ _ Hm) as [Km _].
    cbn. unfold texts_listed. rewrite Km. reflexivity. }
  revert G. generalize (map snd (c_children (obj st c))).
  induction l as [|m l IH]; intros G; [ reflexivity | ]. cbn.
  rewrite (G m (or_introl eq_refl)), IH; [ reflexivity | ]. intros. apply G. right. assumption.
Qed.

Theorem len_counts : forall limit st c,
  work_layer st c \/ textgroup_layer st c \/ inventory_layer st c \/ collection_layer st c ->
  exists d, readable_descendants (5 + limit) st c = Ok d
    /\ coll_len st c = Ok (length d).
Proof.
  intros limit st c H. unfold readable_descendants, coll_len.
  assert (G : exists d, descendants (5 + limit) st c = Ok d
    /\ texts_listed st c = Ok (filter (readable st) d)).
  { destruct H as [H|[H|[H|H]]].
    - destruct (work_layer_texts (S (S (S limit))) _ _ H) as [_ [d [E F]]]. exists d.
      split; [ exact E | ]. destruct H as [K _]. unfold texts_listed. rewrite K. exact F.
    - destruct (textgroup_layer_texts (S (S limit)) _ _ H) as [_ X]. exact X.
    - destruct (inventory_layer_texts (S limit) _ _ H) as [_ X]. exact X.
    - apply (collection_layer_texts limit). exact H. }
  destruct G as [d [E F]]. rewrite E, F. cbn. eauto.
Qed.

Theorem contains_err : forall limit st c key e,
  contains limit st c key = Err e ->
  e = RecursionError /\ exists p d, at_path st c p d /\ limit <= length p.
Proof.
  intros limit st c key e H. unfold contains in H.
  destruct (descendants limit st c) as [l|e'] eqn:D; [ discriminate | ].
  cbn in H. injection H as ->. split; [ eapply descendants_err; exact D | ].
  eapply descendants_deep. exact D.
Qed.
