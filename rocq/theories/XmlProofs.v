(** Lemmas about XML trees, XPath selection and passage extraction. *)

From Coq Require Import List NArith Arith Bool Lia.
From Verif Require Import PyStr PyStrFacts XmlModel XmlSpec.
Import ListNotations.

Lemma node_ind' : forall P : node -> Prop,
  (forall t a x y kids, Forall P kids -> P (Elem t a x y kids)) -> forall n, P n.
Proof.
  intros P H. fix IH 1. intros [t a x y kids]. apply H.
  induction kids as [|k kids IHk]; constructor; [apply IH|exact IHk].
Qed.

(** ** Steps *)

Lemma sat_pred_spec : forall n t, sat_pred n t = true <-> test_holds n t.
Proof.
  intros n [a|a v]; cbn; destruct (get_attr a (n_attrs n)) as [w|].
  - split; [intros _; exists w; reflexivity|reflexivity].
  - split; [discriminate|intros [v H]; discriminate].
  - rewrite str_eqb_eq. split; [intros ->; reflexivity|congruence].
  - split; discriminate.
Qed.

Lemma sat_spec : forall s n, sat s n = true <-> step_holds s n.
Proof.
  intros s n. unfold sat, step_holds. rewrite andb_true_iff. split.
  - intros [H1 H2]. split.
    + intros t Ht. rewrite Ht in H1. apply str_eqb_eq. exact H1.
    + intros g t Hg Ht. rewrite forallb_forall in H2. specialize (H2 g Hg).
      rewrite forallb_forall in H2. apply sat_pred_spec. auto.
  - intros [H1 H2]. split.
    + destruct (s_name s) as [t|]; [|reflexivity]. apply str_eqb_eq. auto.
    + apply forallb_forall. intros g Hg. apply forallb_forall. intros t Ht. apply sat_pred_spec. eauto.
Qed.

Lemma at_position_lookup : forall p n m, at_position n p m <-> lookup n p = Some m.
Proof.
  induction p as [|i p IH]; intros n m; cbn.
  - split; [inversion 1; subst; reflexivity|injection 1 as <-; constructor].
  - split.
    + inversion 1 as [|? ? ? k' ? Hk Ha]; subst. rewrite Hk. apply IH. assumption.
    + destruct (nth_error (n_kids n) i) as [k|] eqn:E; [|discriminate].
      intros H. econstructor; [exact E|apply IH; exact H].
Qed.

Lemma selects_inv : forall s xs n p, selects (s :: xs) n p ->
  exists a i p' m, p = a ++ i :: p' /\ at_position n (a ++ [i]) m /\ step_holds s m /\
    (s_desc s = false -> a = []) /\ selects xs m p'.
Proof. intros s xs n p H. inversion H; subst. eauto 10. Qed.

Lemma at_position_cons : forall n i p m, at_position n (i :: p) m <->
  exists k, nth_error (n_kids n) i = Some k /\ at_position k p m.
Proof.
  intros n i p m. split; [inversion 1; subst; eauto|].
  intros (k & H1 & H2). econstructor; eassumption.
Qed.
Lemma at_position_nil : forall n m, at_position n [] m <-> n = m.
Proof. intros n m. split; [inversion 1; reflexivity|intros ->; constructor]. Qed.

Lemma matches_selects : forall p xs n, matches p xs n = true <-> selects xs n p.
Proof.
  induction p as [|i p IH]; intros xs n.
  - cbn. destruct xs as [|s xs]; [split; [intros _; constructor|reflexivity]|].
    split; [discriminate|]. intros H. apply selects_inv in H. destruct H as ([|] & ? & ? & ? & H & _); discriminate.
  - destruct xs as [|s xs]; cbn; [split; [discriminate|inversion 1]|].
    destruct (nth_error (n_kids n) i) as [k|] eqn:E.
    + rewrite orb_true_iff, !andb_true_iff, sat_spec, !IH. split.
      * intros [[H1 H2]|[H1 H2]].
        -- apply (sel_step s xs n [] i p k); [apply at_position_cons; eexists; split; [exact E|constructor]|assumption|auto|assumption].
        -- apply selects_inv in H2. destruct H2 as (a & j & p' & m & -> & Ha & Hs & Hd & Hp).
           apply (sel_step s xs n (i :: a) j p' m); try assumption.
           ++ cbn. apply at_position_cons. eauto.
           ++ congruence.
      * intros H. apply selects_inv in H. destruct H as (a & j & p' & m & He & Ha & Hs & Hd & Hp).
        destruct a as [|j' a].
        -- injection He as -> ->. apply at_position_cons in Ha. destruct Ha as (k' & Hk & Ha).
           apply at_position_nil in Ha. subst m. left. assert (k' = k) by congruence. subst. auto.
        -- injection He as -> ->. apply at_position_cons in Ha. destruct Ha as (k' & Hk & Ha).
           assert (k' = k) by congruence. subst. right. split.
           ++ destruct (s_desc s); [reflexivity|]. discriminate (Hd eq_refl).
           ++ apply sel_step with m; try assumption. intros Hd'. discriminate (Hd Hd').
    + split; [discriminate|]. intros H. apply selects_inv in H. destruct H as (a & j & p' & m & He & Ha & _).
      destruct a as [|j' a]; injection He as -> ->; apply at_position_cons in Ha;
        destruct Ha as (k' & Hk & _); congruence.
Qed.

(** ** Positions *)

Definition below_from := fix go (i : nat) (l : list node) : list path :=
  match l with
  | [] => []
  | k :: l' => [i] :: map (cons i) (below k) ++ go (S i) l'
  end.

Lemma below_unfold : forall n, below n = below_from 0 (n_kids n).
Proof. intros [t a x y kids]. reflexivity. Qed.

Lemma In_below_from : forall l i q, In q (below_from i l) <->
  exists j k p, nth_error l j = Some k /\ q = (i + j) :: p /\ (p = [] \/ In p (below k)).
Proof.
  induction l as [|k l IH]; intros i q; cbn.
  - split; [intros []|]. intros (j & k & p & H & _). destruct j; discriminate.
  - rewrite in_app_iff, IH, in_map_iff. split.
    + intros [<-|[(p & <- & Hp)|(j & k' & p & Hj & -> & Hp)]].
      * exists 0, k, []. rewrite Nat.add_0_r. auto.
      * exists 0, k, p. rewrite Nat.add_0_r. auto.
      * exists (S j), k', p. rewrite Nat.add_succ_r. auto.
    + intros (j & k' & p & Hj & -> & Hp). destruct j as [|j].
      * injection Hj as <-. rewrite Nat.add_0_r. destruct Hp as [->|Hp]; [left; reflexivity|right; left; eauto].
      * right. right. exists j, k', p. rewrite Nat.add_succ_r. auto.
Qed.

Lemma In_below : forall p n, In p (below n) <-> p <> [] /\ exists m, lookup n p = Some m.
Proof.
  induction p as [|i p IH]; intros n; rewrite below_unfold, In_below_from.
  - split; [intros (j & k & p & _ & H & _); discriminate|intros [[] _]; reflexivity].
  - cbn. split.
    + intros (j & k & p' & Hj & [= -> ->] & Hp). rewrite Hj. split; [discriminate|].
      destruct Hp as [->|Hp]; [exists k; reflexivity|]. apply IH in Hp. tauto.
    + intros (_ & m & Hm). destruct (nth_error (n_kids n) i) as [k|] eqn:E; [|discriminate].
      exists i, k, p. split; [exact E|]. split; [reflexivity|].
      destruct p; [left; reflexivity|]. right. apply IH. split; [discriminate|eauto].
Qed.

Lemma selects_lookup : forall xs n p, selects xs n p -> exists m, lookup n p = Some m.
Proof.
  intros xs n p H. induction H as [n|s xs n a i p m Ha Hs Hd H IH]; [eexists; reflexivity|].
  destruct IH as [m' IH]. exists m'. clear -Ha IH. revert n Ha. induction a as [|j a IHa]; intros n Ha.
  - apply at_position_cons in Ha. destruct Ha as (k & Hk & Ha). apply at_position_nil in Ha. subst k.
    cbn. rewrite Hk. exact IH.
  - apply at_position_cons in Ha. destruct Ha as (k & Hk & Ha). cbn. rewrite Hk. apply IHa. exact Ha.
Qed.

Lemma selects_nil : forall n p, selects [] n p <-> p = [].
Proof. intros n p. split; [inversion 1; reflexivity|intros ->; constructor]. Qed.

Lemma selects_nonnil : forall s xs n p, selects (s :: xs) n p -> p <> [].
Proof. intros s xs n p H. inversion H. destruct a; discriminate. Qed.

Lemma In_xpath : forall n xs p, xs <> [] -> (In p (xpath n xs) <-> selects xs n p).
Proof.
  intros n xs p Hx. unfold xpath. rewrite filter_In, matches_selects, In_below. split; [tauto|].
  intros H. split; [|exact H]. split; [|eapply selects_lookup; exact H].
  destruct xs; [congruence|]. eapply selects_nonnil. exact H.
Qed.

Lemma selects_some_spec : forall n xs, xs <> [] ->
  (selects_some n xs = true <-> exists p, selects xs n p).
Proof.
  intros n xs Hx. unfold selects_some. destruct (xpath n xs) as [|p l] eqn:E.
  - split; [discriminate|]. intros [p Hp]. apply In_xpath in Hp; [|exact Hx]. rewrite E in Hp. destruct Hp.
  - split; [|reflexivity]. intros _. exists p. apply In_xpath; [exact Hx|]. rewrite E. left. reflexivity.
Qed.

Lemma continues_spec : forall k q, continues k q = true <-> exists p, selects q k p.
Proof.
  intros k [|s q]; cbn.
  - split; [intros _; exists []; constructor|reflexivity].
  - apply selects_some_spec. discriminate.
Qed.

(** Selecting below a child. *)
Lemma selects_cons : forall s q n i p, selects (s :: q) n (i :: p) <->
  exists k, nth_error (n_kids n) i = Some k /\
    ((step_holds s k /\ selects q k p) \/ (s_desc s = true /\ selects (s :: q) k p)).
Proof.
  intros s q n i p. rewrite <- matches_selects. cbn.
  destruct (nth_error (n_kids n) i) as [k|] eqn:E.
  - rewrite orb_true_iff, !andb_true_iff, sat_spec, !matches_selects. split.
    + intros H. exists k. split; [reflexivity|exact H].
    + intros (k' & [= <-] & H). exact H.
  - split; [discriminate|]. intros (k & [=] & _).
Qed.

Lemma first_child_spec : forall f l i,
  match first_child f i l with
  | Some j => exists k, i <= j /\ nth_error l (j - i) = Some k /\ f k = true /\
                        (forall j' k', j' < j - i -> nth_error l j' = Some k' -> f k' = false)
  | None => forall k, In k l -> f k = false
  end.
Proof.
  intros f l. induction l as [|k l IH]; intros i; cbn.
  - intros k [].
  - destruct (f k) eqn:E.
    + exists k. rewrite Nat.sub_diag. repeat split; [lia|exact E|]. intros j' k' Hj. lia.
    + specialize (IH (S i)). destruct (first_child f (S i) l) as [j|].
      * destruct IH as (k' & Hj & Hk & Hf & Hb). exists k'. split; [lia|].
        destruct (j - i) as [|d] eqn:Ed; [lia|]. replace (j - S i) with d in * by lia.
        split; [exact Hk|]. split; [exact Hf|]. intros [|j'] k'' Hj' Hn; cbn in Hn.
        -- congruence.
        -- apply (Hb j' k''); [lia|exact Hn].
      * intros k' [<-|Hk']; [exact E|auto].
Qed.

(** performXpath finds the child on the way to a selected element. *)
Lemma perform_first : forall n s q p,
  selects (s :: q) n p ->
  exists i k p' loop,
    perform_xpath n (s :: q) = Ok (i, loop) /\ nth_error (n_kids n) i = Some k /\
    selects (s :: q) n (i :: p') /\ selects (if loop : bool then s :: q else q) k p' /\
    (loop = false -> step_holds s k) /\ (loop = true -> s_desc s = true).
Proof.
  intros n s q p H. unfold perform_xpath.
  pose proof (first_child_spec (fun k => sat s k && continues k q) (n_kids n) 0) as H1.
  destruct (first_child (fun k => sat s k && continues k q) 0 (n_kids n)) as [i|].
  - destruct H1 as (k & _ & Hk & Hf & _). rewrite Nat.sub_0_r in Hk.
    apply andb_true_iff in Hf. destruct Hf as [Hs Hc]. apply sat_spec in Hs. apply continues_spec in Hc.
    destruct Hc as [p' Hp']. exists i, k, p', false. split; [reflexivity|]. split; [exact Hk|].
    split; [apply selects_cons; eauto 6|]. split; [exact Hp'|]. split; [auto|discriminate].
  - destruct p as [|i0 p0]; [destruct (selects_nonnil _ _ _ _ H eq_refl)|].
    apply selects_cons in H. destruct H as (k0 & Hk0 & [[Hs Hq]|[Hd Hq]]).
    { exfalso. assert (Hc : continues k0 q = true) by (apply continues_spec; eauto).
      apply sat_spec in Hs. specialize (H1 k0 (nth_error_In _ _ Hk0)). cbn in H1. rewrite Hs, Hc in H1. discriminate. }
    rewrite Hd.
    pose proof (first_child_spec (fun k => selects_some k (s :: q)) (n_kids n) 0) as H2.
    destruct (first_child (fun k => selects_some k (s :: q)) 0 (n_kids n)) as [i|].
    + destruct H2 as (k & _ & Hk & Hf & _). rewrite Nat.sub_0_r in Hk.
      apply selects_some_spec in Hf; [|discriminate]. destruct Hf as [p' Hp'].
      exists i, k, p', true. split; [reflexivity|]. split; [exact Hk|].
      split; [apply selects_cons; eauto 6|]. split; [exact Hp'|]. split; [discriminate|auto].
    + exfalso. assert (Hc : selects_some k0 (s :: q) = true) by (apply selects_some_spec; [discriminate|eauto]).
      specialize (H2 k0 (nth_error_In _ _ Hk0)). cbn in H2. congruence.
Qed.

(** ... and the only one, when only one element is selected. *)
Lemma perform_only : forall n s q i p,
  selects_only (s :: q) n (i :: p) ->
  exists k loop,
    perform_xpath n (s :: q) = Ok (i, loop) /\ nth_error (n_kids n) i = Some k /\
    selects_only (if loop : bool then s :: q else q) k p.
Proof.
  intros n s q i p [H Hu]. destruct (perform_first n s q _ H) as (j & k & p' & loop & Hp & Hk & Hs & Hq & Hl & Hd).
  specialize (Hu _ Hs) as Hj. injection Hj as -> ->. exists k, loop. split; [exact Hp|]. split; [exact Hk|].
  split; [exact Hq|]. intros p2 Hp2. assert (Hs2 : selects (s :: q) n (i :: p2)).
  { apply selects_cons. exists k. split; [exact Hk|]. destruct loop; [right; auto|left; auto]. }
  specialize (Hu _ Hs2). congruence.
Qed.

Lemma perform_none : forall n xs, (forall p, ~ selects xs n p) -> perform_xpath n xs = Err IndexError.
Proof.
  intros n [|s q] H; [reflexivity|]. unfold perform_xpath.
  pose proof (first_child_spec (fun k => sat s k && continues k q) (n_kids n) 0) as H1.
  destruct (first_child (fun k => sat s k && continues k q) 0 (n_kids n)) as [i|].
  - exfalso. destruct H1 as (k & _ & Hk & Hf & _). rewrite Nat.sub_0_r in Hk.
    apply andb_true_iff in Hf. destruct Hf as [Hs Hc]. apply sat_spec in Hs. apply continues_spec in Hc.
    destruct Hc as [p' Hp']. apply (H (i :: p')). apply selects_cons. eauto 6.
  - destruct (s_desc s) eqn:Hd; [|reflexivity].
    pose proof (first_child_spec (fun k => selects_some k (s :: q)) (n_kids n) 0) as H2.
    destruct (first_child (fun k => selects_some k (s :: q)) 0 (n_kids n)) as [i|]; [|reflexivity].
    exfalso. destruct H2 as (k & _ & Hk & Hf & _). rewrite Nat.sub_0_r in Hk.
    apply selects_some_spec in Hf; [|discriminate]. destruct Hf as [p' Hp'].
    apply (H (i :: p')). apply selects_cons. eauto 6.
Qed.

(** ** Rendering *)

Fixpoint from {A} (j : nat) (kids : list node) (f : nat -> node -> list A) : list A :=
  match kids with [] => [] | k :: l => f j k ++ from (S j) l f end.

Lemma from_ext : forall A kids j (f g : nat -> node -> list A),
  (forall m k, nth_error kids m = Some k -> f (j + m) k = g (j + m) k) -> from j kids f = from j kids g.
Proof.
  intros A. induction kids as [|k l IH]; intros j f g H; [reflexivity|]. cbn.
  pose proof (H 0 k eq_refl) as H0. rewrite Nat.add_0_r in H0. rewrite H0. f_equal.
  apply IH. intros m k' Hm. specialize (H (S m) k' Hm). rewrite Nat.add_succ_r in H. exact H.
Qed.

Lemma from_nil : forall A kids j (f : nat -> node -> list A),
  (forall m k, nth_error kids m = Some k -> f (j + m) k = []) -> from j kids f = [].
Proof.
  intros A kids j f H. rewrite (from_ext _ _ _ f (fun _ _ => [])); [|exact H].
  clear H. revert j. induction kids; intros j; [reflexivity|]. cbn. auto.
Qed.

Lemma from_last : forall A kids j i2 k2 (f g : nat -> node -> list A),
  j <= i2 -> nth_error kids (i2 - j) = Some k2 ->
  (forall m k, m < i2 -> f m k = g m k) -> (forall m k, i2 <= m -> f m k = []) ->
  (forall m k, i2 < m -> g m k = []) ->
  from j kids g = from j kids f ++ g i2 k2.
Proof.
  intros A. induction kids as [|k l IH]; intros j i2 k2 f g Hj Hk Hl Hf Hg.
  - destruct (i2 - j); discriminate.
  - cbn. destruct (Nat.eq_dec j i2) as [->|Hn].
    + rewrite Nat.sub_diag in Hk. injection Hk as ->. rewrite (Hf i2) by lia.
      rewrite (from_nil _ l (S i2) g), (from_nil _ l (S i2) f), app_nil_r; [reflexivity| |].
      * intros m k' _. apply Hf. lia.
      * intros m k' _. apply Hg. lia.
    + rewrite <- app_assoc, (Hl j k) by lia. f_equal.
      apply IH; try assumption; [lia|]. destruct (i2 - j) as [|d] eqn:Ed; [lia|].
      replace (i2 - S j) with d by lia. exact Hk.
Qed.

Definition pline (d : nat) (parts : path -> part) (pn : path * node) : list line :=
  let '(p, n) := pn in
  match parts p with
  | Whole => [(d + length p, n_tag n, n_attrs n, n_text n,
               match p, parts (removelast p) with _ :: _, Whole => n_tail n | _, _ => [] end)]
  | Tag => [(d + length p, n_tag n, n_attrs n, [], [])]
  | Absent => []
  end.
Definition render (d : nat) (parts : path -> part) (n : node) : list line :=
  flat_map (pline d parts) (positions n).

Lemma render_0 : forall parts n, passage_lines parts n = render 0 parts n.
Proof. intros. reflexivity. Qed.

Definition positions_from := fix go (i : nat) (l : list node) : list (path * node) :=
  match l with
  | [] => []
  | k :: l' => map (fun pn => (i :: fst pn, snd pn)) (positions k) ++ go (S i) l'
  end.

Lemma positions_unfold : forall n, positions n = ([], n) :: positions_from 0 (n_kids n).
Proof. intros [t a x y kids]. reflexivity. Qed.

Lemma flat_map_positions_from : forall A (f : path * node -> list A) l i,
  flat_map f (positions_from i l) =
  from i l (fun j k => flat_map (fun pn => f (j :: fst pn, snd pn)) (positions k)).
Proof.
  intros A f l. induction l as [|k l IH]; intros i; [reflexivity|]. cbn.
  rewrite flat_map_app, IH. f_equal. rewrite !flat_map_concat_map, map_map. reflexivity.
Qed.

Lemma render_ext : forall d parts parts' n, (forall p, parts p = parts' p) -> render d parts n = render d parts' n.
Proof.
  intros d parts parts' n H. unfold render. apply flat_map_ext. intros [p m]. unfold pline. destruct p; rewrite !H; reflexivity.
Qed.

Lemma render_kids : forall d parts n, parts [] <> Whole ->
  flat_map (pline d parts) (positions_from 0 (n_kids n)) =
  from 0 (n_kids n) (fun j k => render (S d) (fun p => parts (j :: p)) k).
Proof.
  intros d parts n Hw. rewrite flat_map_positions_from. apply from_ext. intros m k _. unfold render.
  apply flat_map_ext. intros [p q]. unfold pline. cbn [fst snd length Nat.add]. rewrite <- plus_n_Sm.
  destruct (parts (m :: p)); try reflexivity.
  destruct p as [|i p]; [|reflexivity]. cbn [removelast]. destruct (parts []); congruence.
Qed.

Lemma render_tag : forall d parts n, parts [] = Tag ->
  render d parts n = (d, n_tag n, n_attrs n, [], []) ::
    from 0 (n_kids n) (fun j k => render (S d) (fun p => parts (j :: p)) k).
Proof.
  intros d parts n H. unfold render at 1. rewrite positions_unfold. cbn [flat_map]. unfold pline at 1.
  rewrite H. cbn. rewrite Nat.add_0_r. f_equal. apply render_kids. congruence.
Qed.

Lemma render_absent : forall d parts n, (forall p, parts p = Absent) -> render d parts n = [].
Proof.
  intros d parts n H. unfold render. rewrite (flat_map_ext _ (fun _ => [])).
  - induction (positions n); [reflexivity|assumption].
  - intros [p m]. unfold pline. rewrite H. reflexivity.
Qed.

(** All lines with their tails. *)
Lemma flat_map_kids_from : forall A (f : node -> list A) l j, flat_map f l = from j l (fun _ k => f k).
Proof. intros A f. induction l as [|k l IH]; intros j; [reflexivity|]. cbn. rewrite (IH (S j)). reflexivity. Qed.

Lemma lines_positions : forall n d, lines d n =
  flat_map (fun pn : path * node => [(d + length (fst pn), n_tag (snd pn), n_attrs (snd pn), n_text (snd pn), n_tail (snd pn))]) (positions n).
Proof.
  induction n as [t a x y kids IH] using node_ind'. intros d.
  rewrite positions_unfold. cbn [n_kids lines flat_map fst snd length n_tag n_attrs n_text n_tail app].
  rewrite Nat.add_0_r. f_equal. rewrite flat_map_positions_from. cbn [fst snd length].
  rewrite (flat_map_kids_from _ (lines (S d)) kids 0). apply from_ext. intros m k Hk.
  rewrite Forall_forall in IH. rewrite (IH k (nth_error_In _ _ Hk)).
  apply flat_map_ext. intros [p q]. cbn. rewrite Nat.add_succ_r. reflexivity.
Qed.

Lemma render_whole : forall d parts n, (forall p, parts p = Whole) -> render d parts n = lines d (copy_full n).
Proof.
  intros d parts [t a x y kids] H. unfold render. rewrite positions_unfold. cbn [flat_map]. unfold pline at 1.
  rewrite H. cbn [length copy_full lines n_tag n_attrs n_text n_kids app]. rewrite Nat.add_0_r. f_equal.
  rewrite flat_map_positions_from, (flat_map_kids_from _ (lines (S d)) kids 0).
  apply from_ext. intros m k _. rewrite lines_positions. apply flat_map_ext. intros [p q]. unfold pline. cbn [fst snd].
  rewrite !H. cbn. rewrite Nat.add_succ_r. reflexivity.
Qed.

(** ** Parts *)

Lemma is_prefix_refl : forall p, is_prefix p p = true.
Proof. induction p; cbn; [reflexivity|]. rewrite Nat.eqb_refl. assumption. Qed.
Lemma precedes_irrefl : forall p, precedes p p = false.
Proof. induction p as [|i p IH]; [reflexivity|]. cbn [precedes]. rewrite Nat.ltb_irrefl, Nat.eqb_refl. exact IH. Qed.

Definition part_from (P p : path) : part :=
  if is_prefix P p || precedes P p then Whole else if is_above p P then Tag else Absent.
Definition part_upto (P p : path) : part :=
  if (precedes p P || is_prefix P p) && negb (is_above p P) then Whole
  else if is_above p P then Tag else Absent.

Lemma is_above_cons : forall i p j q, is_above (i :: p) (j :: q) = Nat.eqb i j && is_above p q.
Proof.
  intros. unfold is_above. cbn. rewrite (Nat.eqb_sym j i). destruct (Nat.eqb i j); cbn; [reflexivity|reflexivity].
Qed.
Lemma is_above_nil : forall j q, is_above [] (j :: q) = true.
Proof. reflexivity. Qed.
Lemma is_above_nil_r : forall p, is_above p [] = false.
Proof. intros [|i p]; reflexivity. Qed.

Lemma part_from_cons : forall i P j p,
  part_from (i :: P) (j :: p) =
  if Nat.ltb j i then Absent else if Nat.eqb j i then part_from P p else Whole.
Proof.
  intros i P j p. unfold part_from. rewrite is_above_cons. cbn [is_prefix precedes]. rewrite (Nat.eqb_sym i j).
  destruct (Nat.ltb_spec j i); destruct (Nat.eqb_spec j i); destruct (Nat.ltb_spec i j); cbn; try lia; try reflexivity.
Qed.

Lemma part_upto_cons : forall i P j p,
  part_upto (i :: P) (j :: p) =
  if Nat.ltb j i then Whole else if Nat.eqb j i then part_upto P p else Absent.
Proof.
  intros i P j p. unfold part_upto. rewrite is_above_cons. cbn [is_prefix precedes]. rewrite (Nat.eqb_sym i j).
  destruct (Nat.ltb_spec j i); destruct (Nat.eqb_spec j i); destruct (Nat.ltb_spec i j); cbn; try lia; try reflexivity.
Qed.

Lemma part_from_here : forall p, part_from [] p = Whole.
Proof. reflexivity. Qed.
Lemma part_upto_here : forall p, part_upto [] p = Whole.
Proof. intros p. unfold part_upto. rewrite is_above_nil_r. cbn. destruct (precedes p []); reflexivity. Qed.

Lemma part_of_cons_lt : forall i1 P1 i2 P2 j p, i1 < i2 ->
  part_of (i1 :: P1) (i2 :: P2) (j :: p) =
  if Nat.ltb j i1 then Absent else if Nat.eqb j i1 then part_from P1 p
  else if Nat.ltb j i2 then Whole else if Nat.eqb j i2 then part_upto P2 p else Absent.
Proof.
  intros i1 P1 i2 P2 j p Hi. unfold part_of, part_from, part_upto. rewrite !is_above_cons. cbn [is_prefix precedes].
  rewrite (Nat.eqb_sym i1 j), (Nat.eqb_sym i2 j).
  destruct (Nat.ltb_spec j i1); destruct (Nat.eqb_spec j i1); destruct (Nat.ltb_spec i1 j);
  destruct (Nat.ltb_spec j i2); destruct (Nat.eqb_spec j i2); destruct (Nat.ltb_spec i2 j); cbn; try lia; try reflexivity.
  - rewrite andb_true_r. destruct (is_prefix P1 p || precedes P1 p); [reflexivity|]. cbn.
    rewrite orb_false_r. reflexivity.
Qed.

Lemma part_of_cons_eq : forall i P1 P2 j p,
  part_of (i :: P1) (i :: P2) (j :: p) = if Nat.eqb j i then part_of P1 P2 p else Absent.
Proof.
  intros i P1 P2 j p. unfold part_of. rewrite !is_above_cons. cbn [is_prefix precedes].
  rewrite (Nat.eqb_sym i j).
  destruct (Nat.eqb_spec j i); destruct (Nat.ltb_spec i j); destruct (Nat.ltb_spec j i); cbn; try lia; try reflexivity.
Qed.

Lemma part_of_here : forall p, part_of [] [] p = Whole.
Proof. intros p. unfold part_of. cbn. rewrite is_above_nil_r. destruct (precedes p []); reflexivity. Qed.

(** ** The loops *)

(** No sibling of an element on the way to [P] compares equal to it. *)
Definition alone (same : node -> node -> bool) (n : node) (P : path) : Prop :=
  forall a i b m j ki kj, P = a ++ i :: b -> at_position n a m ->
    nth_error (n_kids m) i = Some ki -> nth_error (n_kids m) j = Some kj -> j <> i -> same kj ki = false.

Lemma alone_here : forall same n i p ki, alone same n (i :: p) -> nth_error (n_kids n) i = Some ki ->
  forall m k, nth_error (n_kids n) m = Some k -> eq_node same m i k ki = Nat.eqb m i.
Proof.
  intros same n i p ki H Hi m k Hm. unfold eq_node. destruct (Nat.eqb_spec m i); [reflexivity|]. cbn.
  apply (H [] i p n m ki k); auto. constructor.
Qed.

Lemma alone_below : forall same n i p k, alone same n (i :: p) -> nth_error (n_kids n) i = Some k -> alone same k p.
Proof.
  intros same n i p k H Hi a i' b m j ki kj -> Ha Hki Hkj Hj.
  apply (H (i :: a) i' b m j ki kj); auto. apply at_position_cons. eauto.
Qed.

Section Lists.
Variable same : node -> node -> bool.
Variables (i : nat) (r child : node) (D : nat).

Lemma side_fol_after : forall kids j, i < j ->
  (forall m k, nth_error kids m = Some k -> eq_node same (j + m) i k r = Nat.eqb (j + m) i) ->
  flat_map (lines D) (side_siblings same i r child false true true j kids) =
  from j kids (fun _ k => lines D (copy_full k)).
Proof.
  induction kids as [|k l IH]; intros j Hj He; [reflexivity|]. cbn [side_siblings from].
  pose proof (He 0 k eq_refl) as H0. rewrite Nat.add_0_r in H0. rewrite H0.
  destruct (Nat.eqb_spec j i); [lia|]. cbn [negb andb flat_map]. f_equal. apply IH; [lia|].
  intros m k' Hm. specialize (He (S m) k' Hm). rewrite Nat.add_succ_r in He. exact He.
Qed.

Lemma side_fol : forall kids j, j <= i ->
  (forall m k, nth_error kids m = Some k -> eq_node same (j + m) i k r = Nat.eqb (j + m) i) ->
  flat_map (lines D) (side_siblings same i r child false true false j kids) =
  from j kids (fun j k => if Nat.ltb j i then [] else if Nat.eqb j i then lines D child else lines D (copy_full k)).
Proof.
  induction kids as [|k l IH]; intros j Hj He; [reflexivity|]. cbn [side_siblings from].
  pose proof (He 0 k eq_refl) as H0. rewrite Nat.add_0_r in H0. rewrite H0.
  assert (He' : forall m k', nth_error l m = Some k' -> eq_node same (S j + m) i k' r = Nat.eqb (S j + m) i).
  { intros m k' Hm. specialize (He (S m) k' Hm). rewrite Nat.add_succ_r in He. exact He. }
  destruct (Nat.eqb_spec j i) as [->|Hn].
  - rewrite Nat.ltb_irrefl. cbn [flat_map]. f_equal. rewrite side_fol_after; [|lia|exact He'].
    apply from_ext. intros m k' _. destruct (Nat.ltb_spec (S i + m) i); [lia|]. destruct (Nat.eqb_spec (S i + m) i); [lia|reflexivity].
  - destruct (Nat.ltb_spec j i); [|lia]. cbn [negb andb app]. apply IH; [lia|exact He'].
Qed.

Lemma side_pre : forall kids j, j <= i ->
  (forall m k, nth_error kids m = Some k -> eq_node same (j + m) i k r = Nat.eqb (j + m) i) ->
  flat_map (lines D) (side_siblings same i r child true false false j kids) =
  from j kids (fun j k => if Nat.ltb j i then lines D (copy_full k) else if Nat.eqb j i then lines D child else []).
Proof.
  induction kids as [|k l IH]; intros j Hj He; [reflexivity|]. cbn [side_siblings from].
  pose proof (He 0 k eq_refl) as H0. rewrite Nat.add_0_r in H0. rewrite H0.
  assert (He' : forall m k', nth_error l m = Some k' -> eq_node same (S j + m) i k' r = Nat.eqb (S j + m) i).
  { intros m k' Hm. specialize (He (S m) k' Hm). rewrite Nat.add_succ_r in He. exact He. }
  destruct (Nat.eqb_spec j i) as [->|Hn].
  - rewrite Nat.ltb_irrefl. cbn [flat_map]. f_equal. symmetry. apply from_nil.
    intros m k' _. destruct (Nat.ltb_spec (S i + m) i); [lia|]. destruct (Nat.eqb_spec (S i + m) i); [lia|reflexivity].
  - destruct (Nat.ltb_spec j i); [|lia]. cbn [negb andb flat_map]. f_equal. apply IH; [lia|exact He'].
Qed.
End Lists.

Lemma range_after : forall same i1 i2 r1 r2 copy1 D kids j, j <= i2 ->
  (forall m k, nth_error kids m = Some k -> eq_node same (j + m) i2 k r2 = Nat.eqb (j + m) i2) ->
  exists l, range_siblings same i1 i2 r1 r2 copy1 true j kids = Ok l /\
  flat_map (lines D) l = from j kids (fun j k => if Nat.ltb j i2 then lines D (copy_full k) else []).
Proof.
  intros same i1 i2 r1 r2 copy1 D. induction kids as [|k l IH]; intros j Hj He; [eexists; split; reflexivity|].
  cbn [range_siblings from].
  pose proof (He 0 k eq_refl) as H0. rewrite Nat.add_0_r in H0. rewrite H0.
  assert (He' : forall m k', nth_error l m = Some k' -> eq_node same (S j + m) i2 k' r2 = Nat.eqb (S j + m) i2).
  { intros m k' Hm. specialize (He (S m) k' Hm). rewrite Nat.add_succ_r in He. exact He. }
  destruct (Nat.eqb_spec j i2) as [->|Hn].
  - exists []. split; [reflexivity|]. rewrite Nat.ltb_irrefl. cbn [app flat_map]. symmetry. apply from_nil.
    intros m k' _. destruct (Nat.ltb_spec (S i2 + m) i2); [lia|reflexivity].
  - destruct (IH (S j) ltac:(lia) He') as (l' & Hl & Hf). rewrite Hl. cbn [bind]. exists (copy_full k :: l').
    split; [reflexivity|]. cbn [flat_map]. rewrite Hf. destruct (Nat.ltb_spec j i2); [reflexivity|lia].
Qed.

Lemma range_list : forall same i1 i2 r1 r2 copy1 D c kids j, j <= i1 -> i1 < i2 ->
  nth_error kids (i1 - j) = Some r1 -> copy1 r1 = Ok c ->
  (forall m k, nth_error kids m = Some k -> eq_node same (j + m) i1 k r1 = Nat.eqb (j + m) i1) ->
  (forall m k, nth_error kids m = Some k -> eq_node same (j + m) i2 k r2 = Nat.eqb (j + m) i2) ->
  exists l, range_siblings same i1 i2 r1 r2 copy1 false j kids = Ok l /\
  flat_map (lines D) l = from j kids (fun j k =>
    if Nat.ltb j i1 then [] else if Nat.eqb j i1 then lines D c else if Nat.ltb j i2 then lines D (copy_full k) else []).
Proof.
  intros same i1 i2 r1 r2 copy1 D c. induction kids as [|k l IH]; intros j Hj Hi Hr Hc He1 He2;
    [eexists; split; reflexivity|].
  cbn [range_siblings from].
  pose proof (He1 0 k eq_refl) as H0. rewrite Nat.add_0_r in H0. rewrite H0.
  assert (He1' : forall m k', nth_error l m = Some k' -> eq_node same (S j + m) i1 k' r1 = Nat.eqb (S j + m) i1).
  { intros m k' Hm. specialize (He1 (S m) k' Hm). rewrite Nat.add_succ_r in He1. exact He1. }
  assert (He2' : forall m k', nth_error l m = Some k' -> eq_node same (S j + m) i2 k' r2 = Nat.eqb (S j + m) i2).
  { intros m k' Hm. specialize (He2 (S m) k' Hm). rewrite Nat.add_succ_r in He2. exact He2. }
  destruct (Nat.eqb_spec j i1) as [->|Hn].
  - rewrite Nat.sub_diag in Hr. injection Hr as ->. rewrite Hc. cbn [bind].
    destruct (range_after same i1 i2 r1 r2 copy1 D l (S i1) ltac:(lia) He2') as (l' & Hl & Hf).
    rewrite Hl. cbn [bind]. exists (c :: l'). split; [reflexivity|]. cbn [flat_map]. rewrite Hf, Nat.ltb_irrefl. f_equal.
    apply from_ext. intros m k' _. destruct (Nat.ltb_spec (S i1 + m) i1); [lia|].
    destruct (Nat.eqb_spec (S i1 + m) i1); [lia|reflexivity].
  - destruct (IH (S j) ltac:(lia) Hi) as (l' & Hl & Hf); try assumption.
    { destruct (i1 - j) as [|d] eqn:Ed; [lia|]. replace (i1 - S j) with d by lia. exact Hr. }
    exists l'. split; [exact Hl|]. rewrite Hf. destruct (Nat.ltb_spec j i1); [reflexivity|lia].
Qed.

(** One end of a range: everything from it on, or up to it. *)
Lemma side_loop_spec : forall same P fuel n xs d, P <> [] -> length P <= fuel ->
  selects_only xs n P -> alone same n P ->
  (exists l, side_loop same fuel n xs false true = Ok l /\
     flat_map (lines (S d)) l = from 0 (n_kids n) (fun j k => render (S d) (fun p => part_from P (j :: p)) k)) /\
  (exists l, side_loop same fuel n xs true false = Ok l /\
     flat_map (lines (S d)) l = from 0 (n_kids n) (fun j k => render (S d) (fun p => part_upto P (j :: p)) k)).
Proof.
  intros same. induction P as [|i P IH]; intros fuel n xs d Hne Hf Hs Ha; [congruence|].
  destruct fuel as [|fuel]; [cbn in Hf; lia|].
  destruct xs as [|s q]; [destruct Hs as [Hs _]; apply selects_nil in Hs; discriminate|].
  destruct (perform_only n s q i P Hs) as (k & loop & Hp & Hk & Ho).
  pose proof (alone_here same n i P k Ha Hk) as He.
  pose proof (alone_below same n i P k Ha Hk) as Hb.
  set (queue := if loop then s :: q else q) in *.
  cbn [side_loop]. rewrite Hp. cbn [bind orb tl]. fold queue. rewrite Hk.
  assert (HQ : (queue = [] /\ P = []) \/ (queue <> [] /\ P <> [])).
  { destruct queue as [|s' q'].
    - left. destruct Ho as [Ho _]. apply selects_nil in Ho. auto.
    - right. split; [discriminate|]. destruct Ho as [Ho _]. eapply selects_nonnil. exact Ho. }
  destruct HQ as [[Hq ->]|[Hq HP]].
  - rewrite Hq. cbn [copy_end bind]. split; eexists; (split; [reflexivity|]).
    + rewrite side_fol; [|lia|exact He]. apply from_ext. intros m k' Hm.
      destruct (Nat.ltb_spec (0 + m) i); [symmetry; apply render_absent; intros p; rewrite part_from_cons;
        destruct (Nat.ltb_spec (0 + m) i); [reflexivity|lia]|].
      destruct (Nat.eqb_spec (0 + m) i) as [E|E]; symmetry.
      * cbn [Nat.add] in E. subst m. assert (k' = k) by congruence. subst k'. apply render_whole. intros p.
        rewrite part_from_cons. cbn [Nat.add]. rewrite Nat.ltb_irrefl, Nat.eqb_refl. reflexivity.
      * apply render_whole. intros p. rewrite part_from_cons.
        destruct (Nat.ltb_spec (0 + m) i); [lia|]. destruct (Nat.eqb_spec (0 + m) i); [lia|reflexivity].
    + rewrite side_pre; [|lia|exact He]. apply from_ext. intros m k' Hm.
      destruct (Nat.ltb_spec (0 + m) i); [symmetry; apply render_whole; intros p; rewrite part_upto_cons;
        destruct (Nat.ltb_spec (0 + m) i); [reflexivity|lia]|].
      destruct (Nat.eqb_spec (0 + m) i) as [E|E]; symmetry.
      * cbn [Nat.add] in E. subst m. assert (k' = k) by congruence. subst k'. apply render_whole. intros p.
        rewrite part_upto_cons. cbn [Nat.add]. rewrite Nat.ltb_irrefl, Nat.eqb_refl. apply part_upto_here.
      * apply render_absent. intros p. rewrite part_upto_cons.
        destruct (Nat.ltb_spec (0 + m) i); [lia|]. destruct (Nat.eqb_spec (0 + m) i); [lia|reflexivity].
  - destruct (IH fuel k queue (S d) HP ltac:(cbn in Hf; lia) Ho Hb) as [(l1 & Hl1 & Hr1) (l2 & Hl2 & Hr2)].
    assert (Hce : forall rec, copy_end rec queue k = (kids <- rec k queue ;; Ok (copy_shell k kids))).
    { intros rec. unfold copy_end. destruct queue; [congruence|reflexivity]. }
    rewrite !Hce, Hl1, Hl2. cbn [bind]. split; eexists; (split; [reflexivity|]).
    + rewrite side_fol; [|lia|exact He]. apply from_ext. intros m k' Hm.
      destruct (Nat.ltb_spec (0 + m) i); [symmetry; apply render_absent; intros p; rewrite part_from_cons;
        destruct (Nat.ltb_spec (0 + m) i); [reflexivity|lia]|].
      destruct (Nat.eqb_spec (0 + m) i) as [E|E].
      * cbn [Nat.add] in *. subst m. assert (k' = k) by congruence. subst k'.
        rewrite (render_ext _ _ (part_from P)) by (intros p; rewrite part_from_cons, Nat.ltb_irrefl, Nat.eqb_refl; reflexivity).
        rewrite render_tag.
        -- cbn [copy_shell lines]. f_equal. exact Hr1.
        -- destruct P; [congruence|reflexivity].
      * symmetry. apply render_whole. intros p. rewrite part_from_cons.
        destruct (Nat.ltb_spec (0 + m) i); [lia|]. destruct (Nat.eqb_spec (0 + m) i); [lia|reflexivity].
    + rewrite side_pre; [|lia|exact He]. apply from_ext. intros m k' Hm.
      destruct (Nat.ltb_spec (0 + m) i); [symmetry; apply render_whole; intros p; rewrite part_upto_cons;
        destruct (Nat.ltb_spec (0 + m) i); [reflexivity|lia]|].
      destruct (Nat.eqb_spec (0 + m) i) as [E|E].
      * cbn [Nat.add] in *. subst m. assert (k' = k) by congruence. subst k'.
        rewrite (render_ext _ _ (part_upto P)) by (intros p; rewrite part_upto_cons, Nat.ltb_irrefl, Nat.eqb_refl; reflexivity).
        rewrite render_tag.
        -- cbn [copy_shell lines]. f_equal. exact Hr2.
        -- destruct P; [congruence|reflexivity].
      * symmetry. apply render_absent. intros p. rewrite part_upto_cons.
        destruct (Nat.ltb_spec (0 + m) i); [lia|]. destruct (Nat.eqb_spec (0 + m) i); [lia|reflexivity].
Qed.

Lemma pred_eqb_spec : forall a b, reflect (a = b) (pred_eqb a b).
Proof.
  intros [x|x v] [y|y w]; cbn; try (constructor; congruence).
  - destruct (str_eqb_spec x y); constructor; congruence.
  - destruct (str_eqb_spec x y), (str_eqb_spec v w); cbn; constructor; congruence.
Qed.

Lemma step_eqb_spec : forall a b, reflect (a = b) (step_eqb a b).
Proof.
  intros [d1 n1 p1] [d2 n2 p2]. unfold step_eqb. cbn [s_desc s_name s_preds].
  destruct (Bool.eqb_spec d1 d2); cbn; [|constructor; congruence].
  destruct (opt_eqb_spec _ _ str_eqb_spec n1 n2); cbn; [|constructor; congruence].
  destruct (list_eqb_spec _ _ (list_eqb_spec _ _ pred_eqb_spec) p1 p2); constructor; congruence.
Qed.

Lemma steps_eqb_spec : forall a b, reflect (a = b) (steps_eqb a b).
Proof. exact (list_eqb_spec _ _ step_eqb_spec). Qed.

Lemma queue_cases : forall q k P, selects q k P -> (q = [] /\ P = []) \/ (q <> [] /\ P <> []).
Proof.
  intros [|s q] k P H.
  - left. apply selects_nil in H. auto.
  - right. split; [discriminate|]. eapply selects_nonnil. exact H.
Qed.

Lemma copy_end_nonnil : forall rec queue k, queue <> [] ->
  copy_end rec queue k = (kids <- rec k queue ;; Ok (copy_shell k kids)).
Proof. intros rec [|s q] k H; [congruence|reflexivity]. Qed.

Lemma from_only : forall A kids i k (g : nat -> node -> list A), nth_error kids i = Some k ->
  (forall m k', m <> i -> g m k' = []) -> from 0 kids g = g i k.
Proof.
  intros A kids i k g Hk Hg. rewrite (from_last _ kids 0 i k (fun _ _ => []) g); try lia.
  - rewrite from_nil by reflexivity. reflexivity.
  - rewrite Nat.sub_0_r. exact Hk.
  - intros m k' Hm. symmetry. apply Hg. lia.
  - reflexivity.
  - intros m k' Hm. apply Hg. lia.
Qed.

(** The last position of a range. *)
Definition range_end (P1 P2 : path) : path := if is_prefix P1 P2 then P1 else P2.

Lemma passage_loop_spec : forall same P1 P2 fuel n xs1 xs2 d,
  P1 <> [] -> P2 <> [] -> length P1 <= fuel -> length P2 <= fuel ->
  selects_only xs1 n P1 -> selects_only xs2 n P2 -> alone same n P1 -> alone same n P2 ->
  is_prefix P1 P2 = true \/ precedes P1 P2 = true ->
  exists l, passage_loop same fuel n xs1 xs2 = Ok l /\
    flat_map (lines (S d)) l =
    from 0 (n_kids n) (fun j k => render (S d) (fun p => part_of P1 (range_end P1 P2) (j :: p)) k).
Proof.
  intros same. induction P1 as [|i1 P1 IH]; intros P2 fuel n xs1 xs2 d Hn1 Hn2 Hf1 Hf2 Hs1 Hs2 Ha1 Ha2 Ho; [congruence|].
  destruct P2 as [|i2 P2]; [congruence|].
  destruct fuel as [|fuel]; [cbn in Hf1; lia|]. cbn in Hf1, Hf2.
  destruct xs1 as [|s1 q1]; [destruct Hs1 as [Hs _]; apply selects_nil in Hs; discriminate|].
  destruct xs2 as [|s2 q2]; [destruct Hs2 as [Hs _]; apply selects_nil in Hs; discriminate|].
  destruct (perform_only n s1 q1 i1 P1 Hs1) as (k1 & loop1 & Hp1 & Hk1 & Ho1).
  destruct (perform_only n s2 q2 i2 P2 Hs2) as (k2 & loop2 & Hp2 & Hk2 & Ho2).
  pose proof (alone_here same n i1 P1 k1 Ha1 Hk1) as He1.
  pose proof (alone_here same n i2 P2 k2 Ha2 Hk2) as He2.
  pose proof (alone_below same n i1 P1 k1 Ha1 Hk1) as Hb1.
  pose proof (alone_below same n i2 P2 k2 Ha2 Hk2) as Hb2.
  cbn [passage_loop]. rewrite Hp1. cbn [bind tl].
  set (Q1 := if loop1 then s1 :: q1 else q1) in *.
  assert (HQ2 : exists Q2, (if steps_eqb (s1 :: q1) (s2 :: q2) then Ok (i1, Q1)
      else ' (i2, loop2) <- perform_xpath n (s2 :: q2);; Ok (i2, if loop2 then s2 :: q2 else tl (s2 :: q2))) = Ok (i2, Q2)
      /\ selects_only Q2 k2 P2).
  { destruct (steps_eqb_spec (s1 :: q1) (s2 :: q2)) as [E|E].
    - injection E as <- <-. rewrite Hp1 in Hp2. injection Hp2 as <- <-. exists Q1. split; [reflexivity|exact Ho2].
    - rewrite Hp2. cbn [bind tl]. eexists. split; [reflexivity|exact Ho2]. }
  cbn [tl] in HQ2. destruct HQ2 as (Q2 & HQ2 & Hs2'). cbn [tl]. rewrite HQ2. cbn [bind]. rewrite Hk1, Hk2.
  pose proof (queue_cases _ _ _ (proj1 Ho1)) as HC1. pose proof (queue_cases _ _ _ (proj1 Hs2')) as HC2.
  rewrite (He2 i1 k1 Hk1).
  destruct (Nat.eqb_spec i1 i2) as [<-|Hne].
  - (* same child *)
    assert (k2 = k1) by congruence. subst k2.
    destruct HC1 as [[Hq ->]|[Hq HP]].
    + rewrite Hq. cbn [copy_end bind]. eexists. split; [reflexivity|].
      assert (Hr : range_end [i1] (i1 :: P2) = [i1]) by (unfold range_end; cbn; rewrite Nat.eqb_refl; reflexivity).
      rewrite Hr. cbn [flat_map]. rewrite app_nil_r. symmetry.
      rewrite (from_only _ (n_kids n) i1 k1).
      * apply render_whole. intros p. rewrite part_of_cons_eq, Nat.eqb_refl. apply part_of_here.
      * exact Hk1.
      * intros m k Hm. apply render_absent. intros p. rewrite part_of_cons_eq.
        destruct (Nat.eqb_spec m i1); [congruence|reflexivity].
    + destruct HC2 as [[Hq2 ->]|[Hq2 HP2]].
      { exfalso. destruct P1; [congruence|]. cbn [is_prefix precedes] in Ho. rewrite Nat.ltb_irrefl, Nat.eqb_refl in Ho. cbn in Ho.
        destruct Ho; discriminate. }
      rewrite copy_end_nonnil by exact Hq.
      destruct (IH P2 fuel k1 Q1 Q2 (S d)) as (l & Hl & Hr); try assumption; try lia.
      { cbn [is_prefix precedes] in Ho. rewrite Nat.ltb_irrefl, Nat.eqb_refl in Ho. exact Ho. }
      rewrite Hl. cbn [bind]. eexists. split; [reflexivity|].
      assert (Hre : range_end (i1 :: P1) (i1 :: P2) = i1 :: range_end P1 P2)
        by (unfold range_end; cbn; rewrite Nat.eqb_refl; destruct (is_prefix P1 P2); reflexivity).
      rewrite Hre. cbn [flat_map]. rewrite app_nil_r. symmetry.
      rewrite (from_only _ (n_kids n) i1 k1).
      * rewrite (render_ext _ _ (part_of P1 (range_end P1 P2)))
          by (intros p; rewrite part_of_cons_eq, Nat.eqb_refl; reflexivity).
        rewrite render_tag.
        -- cbn [copy_shell lines]. f_equal. symmetry. exact Hr.
        -- unfold range_end. destruct P1 as [|a P1]; [congruence|]. destruct P2 as [|b P2]; [congruence|].
           destruct (is_prefix (a :: P1) (b :: P2)); reflexivity.
      * exact Hk1.
      * intros m k Hm. apply render_absent. intros p. rewrite part_of_cons_eq.
        destruct (Nat.eqb_spec m i1); [congruence|reflexivity].
  - (* two children *)
    assert (Hlt : i1 < i2).
    { cbn [is_prefix precedes] in Ho. destruct (Nat.eqb_spec i1 i2); [congruence|]. cbn [andb] in Ho. rewrite orb_false_r in Ho.
      destruct Ho as [Ho|Ho]; [discriminate|]. apply Nat.ltb_lt. exact Ho. }
    assert (Hre : range_end (i1 :: P1) (i2 :: P2) = i2 :: P2).
    { unfold range_end. cbn. destruct (Nat.eqb_spec i1 i2); [congruence|reflexivity]. }
    rewrite Hre.
    assert (HE1 : exists c, copy_end (fun r q => side_loop same fuel r q false true) Q1 k1 = Ok c /\
                    lines (S d) c = render (S d) (part_from P1) k1).
    { destruct HC1 as [[Hq ->]|[Hq HP]].
      - rewrite Hq. eexists. split; [reflexivity|]. symmetry. apply render_whole. reflexivity.
      - rewrite copy_end_nonnil by exact Hq.
        destruct (side_loop_spec same P1 fuel k1 Q1 (S d) HP ltac:(lia) Ho1 Hb1) as [(l & Hl & Hr) _].
        rewrite Hl. eexists. split; [reflexivity|]. rewrite render_tag.
        + cbn [copy_shell lines]. f_equal. exact Hr.
        + destruct P1; [congruence|reflexivity]. }
    assert (HE2 : exists c, copy_end (fun r q => side_loop same fuel r q true false) Q2 k2 = Ok c /\
                    lines (S d) c = render (S d) (part_upto P2) k2).
    { destruct HC2 as [[Hq ->]|[Hq HP]].
      - rewrite Hq. eexists. split; [reflexivity|]. symmetry. apply render_whole. apply part_upto_here.
      - rewrite copy_end_nonnil by exact Hq.
        destruct (side_loop_spec same P2 fuel k2 Q2 (S d) HP ltac:(lia) Hs2' Hb2) as [_ (l & Hl & Hr)].
        rewrite Hl. eexists. split; [reflexivity|]. rewrite render_tag.
        + cbn [copy_shell lines]. f_equal. exact Hr.
        + destruct P2; [congruence|reflexivity]. }
    destruct HE1 as (c1 & Hc1 & Hl1). destruct HE2 as (c2 & Hc2 & Hl2).
    destruct (range_list same i1 i2 k1 k2 _ (S d) c1 (n_kids n) 0 ltac:(lia) Hlt
                ltac:(rewrite Nat.sub_0_r; exact Hk1) Hc1 He1 He2) as (l & Hl & Hr).
    rewrite Hl. cbn [bind]. rewrite Hc2. cbn [bind]. eexists. split; [reflexivity|].
    rewrite flat_map_app, Hr. cbn [flat_map]. rewrite app_nil_r, Hl1, Hl2.
    set (g := fun j k => render (S d) (fun p => part_of (i1 :: P1) (i2 :: P2) (j :: p)) k).
    rewrite (from_last _ (n_kids n) 0 i2 k2
               (fun j k => if Nat.ltb j i1 then [] else if Nat.eqb j i1 then g j k else
                  if Nat.ltb j i2 then g j k else []) g); try lia.
    + f_equal.
      * apply from_ext. intros m k Hm. cbn [Nat.add]. unfold g.
        destruct (Nat.ltb_spec m i1); [reflexivity|].
        destruct (Nat.eqb_spec m i1) as [->|Hm1].
        -- assert (k = k1) by congruence. subst k. apply render_ext. intros p.
           rewrite part_of_cons_lt, Nat.ltb_irrefl, Nat.eqb_refl by exact Hlt. reflexivity.
        -- destruct (Nat.ltb_spec m i2); [|reflexivity]. symmetry. apply render_whole. intros p.
           rewrite part_of_cons_lt by exact Hlt. destruct (Nat.ltb_spec m i1); [lia|].
           destruct (Nat.eqb_spec m i1); [lia|]. destruct (Nat.ltb_spec m i2); [reflexivity|lia].
      * unfold g. apply render_ext. intros p. rewrite part_of_cons_lt, Nat.ltb_irrefl, Nat.eqb_refl by exact Hlt.
        destruct (Nat.ltb_spec i2 i1); [lia|]. destruct (Nat.eqb_spec i2 i1); [lia|reflexivity].
    + rewrite Nat.sub_0_r. exact Hk2.
    + intros m k Hm. destruct (Nat.ltb_spec m i1).
      * unfold g. symmetry. apply render_absent. intros p. rewrite part_of_cons_lt by exact Hlt.
        destruct (Nat.ltb_spec m i1); [reflexivity|lia].
      * destruct (Nat.eqb_spec m i1); [reflexivity|]. destruct (Nat.ltb_spec m i2); [reflexivity|lia].
    + intros m k Hm. destruct (Nat.ltb_spec m i1); [reflexivity|]. destruct (Nat.eqb_spec m i1); [lia|].
      destruct (Nat.ltb_spec m i2); [lia|reflexivity].
    + intros m k Hm. unfold g. apply render_absent. intros p. rewrite part_of_cons_lt by exact Hlt.
      destruct (Nat.ltb_spec m i1); [lia|]. destruct (Nat.eqb_spec m i1); [lia|].
      destruct (Nat.ltb_spec m i2); [lia|]. destruct (Nat.eqb_spec m i2); [lia|reflexivity].
Qed.

(** ** Extraction *)

Lemma lookup_height : forall p n m, lookup n p = Some m -> length p < height n.
Proof.
  induction p as [|i p IH]; intros [t a x y kids] m H; cbn in *; [lia|].
  destruct (nth_error kids i) as [k|] eqn:E; [|discriminate].
  apply IH in H. apply nth_error_In in E.
  assert (Hk : height k <= fold_right Nat.max 0 (map height kids)).
  { clear -E. induction kids as [|k' kids IH]; [destruct E|]. cbn. destruct E as [->|E]; [lia|]. apply IH in E. lia. }
  lia.
Qed.

Lemma selects_only_nonnil : forall xs n P, xs <> [] -> selects_only xs n P -> P <> [].
Proof. intros [|s xs] n P Hx [H _]; [congruence|]. eapply selects_nonnil. exact H. Qed.

Lemma extract_lines : forall same root xs1 xs2 P1 P2,
  xs1 <> [] -> xs2 <> [] -> selects_only xs1 root P1 -> selects_only xs2 root P2 ->
  alone same root P1 -> alone same root P2 ->
  is_prefix P1 P2 = true \/ precedes P1 P2 = true ->
  exists R, extract same root xs1 xs2 = Ok R /\
            lines 0 R = passage_lines (part_of P1 (range_end P1 P2)) root.
Proof.
  intros same root xs1 xs2 P1 P2 Hx1 Hx2 H1 H2 Ha1 Ha2 Ho.
  pose proof (selects_only_nonnil _ _ _ Hx1 H1) as Hn1. pose proof (selects_only_nonnil _ _ _ Hx2 H2) as Hn2.
  assert (Hlen : forall xs P, selects_only xs root P -> length P <= S (height root)).
  { intros xs P [H _]. apply selects_lookup in H. destruct H as [m Hm]. apply lookup_height in Hm. lia. }
  destruct (passage_loop_spec same P1 P2 (S (height root)) root xs1 xs2 0 Hn1 Hn2 (Hlen _ _ H1) (Hlen _ _ H2) H1 H2 Ha1 Ha2 Ho)
    as (l & Hl & Hr).
  unfold extract. rewrite Hl. cbn [bind]. eexists. split; [reflexivity|].
  rewrite render_0, render_tag.
  - cbn [copy_shell lines]. f_equal. exact Hr.
  - unfold range_end. destruct P1 as [|a P1]; [congruence|]. destruct P2 as [|b P2]; [congruence|].
    destruct (is_prefix (a :: P1) (b :: P2)); reflexivity.
Qed.

Lemma alone_identity : forall n P, alone identity_only n P.
Proof. intros n P a i b m j ki kj _ _ _ _ _. reflexivity. Qed.

Lemma extract_nothing : forall same root xs1 xs2,
  (forall p, ~ selects xs1 root p) \/ (forall p, ~ selects xs2 root p) ->
  extract same root xs1 xs2 = Err IndexError.
Proof.
  intros same root xs1 xs2 H. unfold extract. cbn [passage_loop].
  destruct (perform_xpath root xs1) as [[i1 loop1]|e] eqn:E1.
  - destruct H as [H|H]; [rewrite (perform_none _ _ H) in E1; discriminate|]. cbn [bind].
    destruct (steps_eqb_spec xs1 xs2) as [->|Hne].
    + rewrite (perform_none _ _ H) in E1. discriminate.
    + rewrite (perform_none _ _ H). reflexivity.
  - cbn [bind]. destruct xs1 as [|s1 q1]; [injection E1 as <-; reflexivity|].
    unfold perform_xpath in E1.
    destruct (first_child _ 0 (n_kids root)); [discriminate|].
    destruct (s_desc s1); [destruct (first_child _ 0 (n_kids root)); [discriminate|]|]; injection E1 as <-; reflexivity.
Qed.

(** The end of the range contains its start. *)
Lemma passage_loop_inverted : forall same P2 fuel n xs1 xs2 a P,
  length P2 <= fuel -> selects_only xs1 n (P2 ++ a :: P) -> selects_only xs2 n P2 ->
  alone same n (P2 ++ a :: P) ->
  passage_loop same (S fuel) n xs1 xs2 = Err IndexError.
Proof.
  intros same. induction P2 as [|i P2 IH]; intros fuel n xs1 xs2 a P Hf H1 H2 Ha.
  - destruct xs2 as [|s2 q2]; [|destruct H2 as [H2 _]; destruct (selects_nonnil _ _ _ _ H2 eq_refl)].
    destruct xs1 as [|s1 q1]; [destruct H1 as [H1 _]; apply selects_nil in H1; discriminate|].
    destruct (perform_only n s1 q1 a P H1) as (k & loop & Hp & _). cbn [passage_loop]. rewrite Hp. reflexivity.
  - destruct fuel as [|fuel]; [cbn in Hf; lia|].
    destruct xs1 as [|s1 q1]; [destruct H1 as [H1 _]; apply selects_nil in H1; discriminate|].
    destruct xs2 as [|s2 q2]; [destruct H2 as [H2 _]; apply selects_nil in H2; discriminate|].
    destruct (perform_only n s1 q1 i _ H1) as (k & loop1 & Hp1 & Hk & Ho1).
    destruct (perform_only n s2 q2 i _ H2) as (k' & loop2 & Hp2 & Hk' & Ho2).
    assert (k' = k) by congruence. subst k'.
    change (passage_loop same (S (S fuel)) n (s1 :: q1) (s2 :: q2)) with
      ('(i1, loop1) <- perform_xpath n (s1 :: q1) ;;
       let q1' := if loop1 : bool then s1 :: q1 else q1 in
       '(i2, q2') <- (if steps_eqb (s1 :: q1) (s2 :: q2) then Ok (i1, q1')
                    else '(i2, loop2) <- perform_xpath n (s2 :: q2) ;;
                         Ok (i2, if loop2 : bool then s2 :: q2 else q2)) ;;
       match nth_error (n_kids n) i1, nth_error (n_kids n) i2 with
       | Some r1, Some r2 =>
          if eq_node same i1 i2 r1 r2 then
            c <- copy_end (fun r q => passage_loop same (S fuel) r q q2') q1' r1 ;; Ok [c]
          else
            before <- range_siblings same i1 i2 r1 r2
                        (copy_end (fun r q => side_loop same (S fuel) r q false true) q1')
                        false 0 (n_kids n) ;;
            last <- copy_end (fun r q => side_loop same (S fuel) r q true false) q2' r2 ;;
            Ok (before ++ [last])
       | _, _ => Err IndexError
       end).
    rewrite Hp1. cbn [bind]. destruct (steps_eqb_spec (s1 :: q1) (s2 :: q2)) as [E|E].
    { exfalso. rewrite E in H1. destruct H1 as [_ Hu]. specialize (Hu _ (proj1 H2)).
      apply (f_equal (@length nat)) in Hu. cbn in Hu. rewrite app_length in Hu. cbn in Hu. lia. }
    rewrite Hp2. cbn [bind]. rewrite Hk. unfold eq_node. rewrite Nat.eqb_refl. cbn [orb].
    rewrite copy_end_nonnil.
    + rewrite (IH fuel k _ _ a P); [reflexivity|cbn in Hf; lia|exact Ho1|exact Ho2|].
      eapply alone_below; eassumption.
    + destruct loop1; [discriminate|]. intros Hq. rewrite Hq in Ho1. destruct Ho1 as [Ho1 _].
      apply selects_nil in Ho1. destruct P2; discriminate.
Qed.

Lemma extract_inverted : forall same root xs1 xs2 P2 a P,
  selects_only xs1 root (P2 ++ a :: P) -> selects_only xs2 root P2 -> alone same root (P2 ++ a :: P) ->
  extract same root xs1 xs2 = Err IndexError.
Proof.
  intros same root xs1 xs2 P2 a P H1 H2 Ha. unfold extract.
  rewrite (passage_loop_inverted same P2 (height root) root xs1 xs2 a P); [reflexivity| |assumption..].
  destruct H2 as [H2 _]. apply selects_lookup in H2. destruct H2 as [m Hm]. apply lookup_height in Hm. lia.
Qed.

(** ** Single references *)

Lemma height_kid : forall n i k, nth_error (n_kids n) i = Some k -> height k < height n.
Proof.
  intros [t a x y kids] i k H. cbn in *. apply nth_error_In in H. apply le_n_S.
  induction kids as [|k' kids IH]; [destruct H|]. cbn. destruct H as [->|H]; [lia|]. apply IH in H. lia.
Qed.

Lemma text_of_copy_full : forall n, text_of (copy_full n) = text_of n.
Proof. intros [t a x y kids]. reflexivity. Qed.

(** A one-element result: its text is that of the selected element. *)
Lemma passage_loop_single : forall same fuel n xs p d, height n <= fuel ->
  xs <> [] -> selects xs n p ->
  exists P e c, passage_loop same fuel n xs xs = Ok [c] /\ selects xs n P /\ lookup n P = Some e /\
    n_tail c = [] /\ text_of c = text_of e /\
    lines (S d) c = from 0 (n_kids n) (fun j k => render (S d) (fun p => part_of P P (j :: p)) k).
Proof.
  intros same. induction fuel as [|fuel IH]; intros n xs p d Hh Hx Hs.
  { destruct n. cbn in Hh. lia. }
  destruct xs as [|s q]; [congruence|].
  destruct (perform_first n s q p Hs) as (i & k & p' & loop & Hp & Hk & Hsi & Hq & Hl & Hd).
  cbn [passage_loop]. rewrite Hp. cbn [bind tl].
  destruct (steps_eqb_spec (s :: q) (s :: q)) as [_|E]; [|congruence]. cbn [bind]. rewrite Hk.
  unfold eq_node. rewrite Nat.eqb_refl. cbn [orb].
  set (Q := if loop then s :: q else q) in *.
  destruct (queue_cases _ _ _ Hq) as [[HQ HP]|[HQ HP]].
  - rewrite HQ. cbn [copy_end bind]. subst p'. exists [i], k, (copy_full k).
    split; [reflexivity|]. split; [exact Hsi|]. split; [cbn; rewrite Hk; reflexivity|]. split; [reflexivity|].
    split; [apply text_of_copy_full|]. symmetry. rewrite (from_only _ (n_kids n) i k).
    + apply render_whole. intros p0. rewrite part_of_cons_eq, Nat.eqb_refl. apply part_of_here.
    + exact Hk.
    + intros m k' Hm. apply render_absent. intros p0. rewrite part_of_cons_eq.
      destruct (Nat.eqb_spec m i); [congruence|reflexivity].
  - rewrite copy_end_nonnil by exact HQ.
    pose proof (height_kid _ _ _ Hk) as Hhk.
    destruct (IH k Q p' (S d) ltac:(lia) HQ Hq) as (P & e & c & Hc & HsP & HeP & Ht & Htx & Hli).
    rewrite Hc. cbn [bind]. exists (i :: P), e, (copy_shell k [c]). split; [reflexivity|].
    split. { apply selects_cons. exists k. split; [exact Hk|]. unfold Q in HsP. destruct loop; [right; auto|left; auto]. }
    split; [cbn; rewrite Hk; exact HeP|]. split; [reflexivity|].
    split. { cbn. rewrite Ht, Htx, !app_nil_r. reflexivity. }
    symmetry. rewrite (from_only _ (n_kids n) i k).
    + rewrite (render_ext _ _ (part_of P P)) by (intros p0; rewrite part_of_cons_eq, Nat.eqb_refl; reflexivity).
      rewrite render_tag.
      * cbn [copy_shell lines flat_map]. rewrite app_nil_r. f_equal. symmetry. exact Hli.
      * destruct P as [|b P]; [|reflexivity]. destruct Q as [|s' q']; [congruence|].
        destruct (selects_nonnil _ _ _ _ HsP eq_refl).
    + exact Hk.
    + intros m k' Hm. apply render_absent. intros p0. rewrite part_of_cons_eq.
      destruct (Nat.eqb_spec m i); [congruence|reflexivity].
Qed.

Lemma extract_single : forall same root xs, xs <> [] -> (exists p, selects xs root p) ->
  exists R P e, extract same root xs xs = Ok R /\ selects xs root P /\ at_position root P e /\
    text_of R = text_of e /\ lines 0 R = passage_lines (part_of P P) root.
Proof.
  intros same root xs Hx [p Hp].
  destruct (passage_loop_single same (S (height root)) root xs p 0 ltac:(lia) Hx Hp)
    as (P & e & c & Hc & HsP & HeP & Ht & Htx & Hli).
  unfold extract. rewrite Hc. cbn [bind]. exists (copy_shell root [c]), P, e.
  split; [reflexivity|]. split; [exact HsP|]. split; [apply at_position_lookup; exact HeP|].
  split; [cbn; rewrite Ht, Htx, !app_nil_r; reflexivity|].
  rewrite render_0, render_tag.
  - cbn [copy_shell lines flat_map]. rewrite app_nil_r. f_equal. exact Hli.
  - destruct P as [|b P]; [|reflexivity]. destruct xs as [|s q]; [congruence|].
    destruct (selects_nonnil _ _ _ _ HsP eq_refl).
Qed.

(** ** A tree is determined by its lines. *)

Definition shallow (d : nat) (r : list line) : Prop :=
  match r with [] => True | (d', _, _, _, _) :: _ => d' <= d end.

Lemma lines_app_inj : forall n1 n2 d r1 r2, shallow d r1 -> shallow d r2 ->
  lines d n1 ++ r1 = lines d n2 ++ r2 -> n1 = n2 /\ r1 = r2.
Proof.
  induction n1 as [t1 a1 x1 y1 k1 IH] using node_ind'. intros [t2 a2 x2 y2 k2] d r1 r2 Hr1 Hr2 H.
  cbn in H. injection H as <- <- <- <- H.
  enough (k1 = k2 /\ r1 = r2) as [-> ->] by auto.
  revert k2 H. induction k1 as [|c1 k1 IHk]; intros k2 H; destruct k2 as [|c2 k2]; cbn [flat_map app] in H.
  - auto.
  - exfalso. subst r1. destruct c2. cbn in Hr1. lia.
  - exfalso. subst r2. destruct c1. cbn in Hr2. lia.
  - inversion IH as [|? ? IHc IHl]; subst. rewrite <- !app_assoc in H.
    assert (Hsh : forall k r, shallow d r -> shallow (S d) (flat_map (lines (S d)) k ++ r)).
    { intros [|[? ? ? ? ?] k] r Hr; cbn; [|lia]. destruct r as [|[[[[d' ?] ?] ?] ?] r]; cbn in *; [exact I|lia]. }
    apply IHc in H; [|apply Hsh; assumption|apply Hsh; assumption]. destruct H as [-> H].
    destruct (IHk IHl k2 H) as [-> ->]. auto.
Qed.

Lemma lines_inj : forall d n1 n2, lines d n1 = lines d n2 -> n1 = n2.
Proof.
  intros d n1 n2 H. apply (lines_app_inj n1 n2 d [] []); [exact I|exact I|]. rewrite H. reflexivity.
Qed.

(** ** Objectified documents *)

Lemma lookup_app : forall a q n, lookup n (a ++ q) = match lookup n a with Some m => lookup m q | None => None end.
Proof.
  induction a as [|i a IH]; intros q n; [reflexivity|]. cbn. destruct (nth_error (n_kids n) i); [apply IH|reflexivity].
Qed.


Lemma alone_objectified : forall eqv n P,
  (forall a i m j ki kj, P = a ++ [i] -> at_position n a m ->
     nth_error (n_kids m) i = Some ki -> nth_error (n_kids m) j = Some kj -> j <> i ->
     n_kids ki = [] -> n_kids kj = [] -> eqv (n_text kj) (n_text ki) = false) ->
  (exists m, lookup n P = Some m) ->
  alone (objectified eqv) n P.
Proof.
  intros eqv n P H HP a i b m j ki kj -> Ha Hi Hj Hne. unfold objectified, is_leaf.
  destruct (n_kids kj) as [|? ?] eqn:Ej; [|reflexivity].
  destruct (n_kids ki) as [|? ?] eqn:Ei; [|reflexivity]. cbn.
  destruct b as [|b0 b].
  - eapply H; eauto.
  - exfalso. destruct HP as [mm HP]. apply at_position_lookup in Ha.
    rewrite lookup_app, Ha in HP. cbn in HP. rewrite Hi in HP. cbn in HP. rewrite Ei in HP.
    destruct b0; discriminate.
Qed.

(** ** Concrete trees *)

Lemma selects_only_xpath : forall n xs p, xs <> [] -> xpath n xs = [p] -> selects_only xs n p.
Proof.
  intros n xs p Hx H. split.
  - apply In_xpath; [exact Hx|]. rewrite H. left; reflexivity.
  - intros q Hq. apply In_xpath in Hq; [|exact Hx]. rewrite H in Hq. destruct Hq as [<-|[]]. reflexivity.
Qed.

Definition two_words : node :=
  Elem #"p" [] [] [] [Elem #"w" [(#"n", #"1")] #"one" #" and " []; Elem #"w" [(#"n", #"2")] #"two" [] []].
Definition word (k : str) : list step := [MkStep false (Some #"w") [[PEq #"n" k]]].

Lemma tail_dropped : exists root xs1 xs2 P1 P2 R,
  selects_only xs1 root P1 /\ selects_only xs2 root P2 /\ precedes P1 P2 = true /\
  extract identity_only root xs1 xs2 = Ok R /\
  text_of root = #"one and two" /\ text_of R = #"onetwo" /\ P1 = [0] /\ P2 = [1] /\ length (n_kids root) = 2.
Proof.
  exists two_words, (word #"1"), (word #"2"), [0], [1].
  eexists. split; [apply selects_only_xpath; [discriminate|reflexivity]|].
  split; [apply selects_only_xpath; [discriminate|reflexivity]|].
  repeat split; reflexivity.
Qed.

(** Four lines of which two read the same. *)
Definition four_lines : node :=
  Elem #"p" [] [] [] [Elem #"l" [(#"n", #"1")] #"alas" [] []; Elem #"l" [(#"n", #"2")] #"woe" [] [];
                      Elem #"l" [(#"n", #"3")] #"alas" [] []; Elem #"l" [(#"n", #"4")] #"end" [] []].
Definition line_no (k : str) : list step := [MkStep false (Some #"l") [[PEq #"n" k]]].

Lemma objectified_starts_early : exists root xs1 xs2 P1 P2 R,
  selects_only xs1 root P1 /\ selects_only xs2 root P2 /\ precedes P1 P2 = true /\
  extract (objectified str_eqb) root xs1 xs2 = Ok R /\ P1 = [2] /\ P2 = [3] /\
  map (fun k => get_attr #"n" (n_attrs k)) (n_kids R) = [Some #"1"; Some #"2"; Some #"3"; Some #"4"].
Proof.
  exists four_lines, (line_no #"3"), (line_no #"4"), [2], [3].
  eexists. split; [apply selects_only_xpath; [discriminate|reflexivity]|].
  split; [apply selects_only_xpath; [discriminate|reflexivity]|].
  repeat split; reflexivity.
Qed.

Lemma objectified_loses_end : exists root xs1 xs2 P1 P2 R,
  selects_only xs1 root P1 /\ selects_only xs2 root P2 /\ precedes P1 P2 = true /\
  extract (objectified str_eqb) root xs1 xs2 = Ok R /\ P1 = [0] /\ P2 = [2] /\
  map (fun k => get_attr #"n" (n_attrs k)) (n_kids R) = [Some #"1"].
Proof.
  exists four_lines, (line_no #"1"), (line_no #"3"), [0], [2].
  eexists. split; [apply selects_only_xpath; [discriminate|reflexivity]|].
  split; [apply selects_only_xpath; [discriminate|reflexivity]|].
  repeat split; reflexivity.
Qed.

Lemma extract_objectified : forall eqv root xs1 xs2 P1 P2,
  xs1 <> [] -> xs2 <> [] -> selects_only xs1 root P1 -> selects_only xs2 root P2 ->
  (forall P a i m j ki kj, P = P1 \/ P = P2 -> P = a ++ [i] -> at_position root a m ->
     nth_error (n_kids m) i = Some ki -> nth_error (n_kids m) j = Some kj -> j <> i ->
     n_kids ki = [] -> n_kids kj = [] -> eqv (n_text kj) (n_text ki) = false) ->
  is_prefix P1 P2 = true \/ precedes P1 P2 = true ->
  exists R, extract (objectified eqv) root xs1 xs2 = Ok R /\ extract identity_only root xs1 xs2 = Ok R.
Proof.
  intros eqv root xs1 xs2 P1 P2 Hx1 Hx2 H1 H2 He Ho.
  assert (Ha : forall P xs, P = P1 \/ P = P2 -> selects_only xs root P -> alone (objectified eqv) root P).
  { intros P xs HP [HS _]. apply alone_objectified.
    - intros a i m j ki kj HE Hm Hi Hj Hne. exact (He P a i m j ki kj HP HE Hm Hi Hj Hne).
    - apply selects_lookup in HS. exact HS. }
  destruct (extract_lines (objectified eqv) root xs1 xs2 P1 P2) as (R & HR & HL); eauto.
  destruct (extract_lines identity_only root xs1 xs2 P1 P2) as (R' & HR' & HL'); auto using alone_identity.
  exists R. split; [exact HR|]. rewrite HR'. f_equal. apply (lines_inj 0). congruence.
Qed.
