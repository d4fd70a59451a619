(** Lemmas about citation schemes. *)

From Coq Require Import List NArith ZArith Arith Bool Lia Permutation.
From Verif Require Import PyStr PyStrFacts RefModel RefProofs SchemeModel SchemeSpec.
Import ListNotations.

Lemma update_length : forall A (l : list A) i f, length (update l i f) = length l.
Proof. induction l as [|x l IH]; intros [|i] f; cbn; auto. Qed.
Lemma update_same : forall A (l : list A) i f x, nth_error l i = Some x -> nth_error (update l i f) i = Some (f x).
Proof. induction l as [|y l IH]; intros [|i] f x H; cbn in *; try discriminate; [congruence|auto]. Qed.
Lemma update_other : forall A (l : list A) i j f, i <> j -> nth_error (update l i f) j = nth_error l j.
Proof. induction l as [|y l IH]; intros [|i] [|j] f H; cbn; try reflexivity; [congruence|auto]. Qed.

(** Chains of children. *)
Fixpoint links (h : cheap) (l : list nat) : Prop :=
  match l with
  | [] => True
  | x :: l' =>
      (exists n, nth_error h x = Some n /\ cn_children n = match l' with [] => [] | y :: _ => [y] end) /\
      links h l'
  end.

Lemma links_skipn : forall h k l, links h l -> links h (skipn k l).
Proof. induction k as [|k IH]; intros [|x l] H; cbn; auto. apply IH. apply H. Qed.

Lemma links_lt : forall h l x, links h l -> In x l -> x < length h.
Proof.
  induction l as [|y l IH]; intros x H Hi; [contradiction|]. destruct H as [[n [Hn _]] H].
  destruct Hi as [<-|Hi]; [|apply IH; assumption]. apply nth_error_Some. congruence.
Qed.

Lemma iter_chain : forall l h x fuel, links h (x :: l) -> length (x :: l) <= fuel ->
  iter_fuel fuel h x = Ok (x :: l).
Proof.
  induction l as [|y l IH]; intros h x [|fuel] H Hf; cbn in Hf; try lia;
    destruct H as [[n [Hn Hc]] H]; cbn [iter_fuel]; rewrite Hn, Hc; cbn [mapM bind concat].
  - reflexivity.
  - rewrite IH by (assumption || cbn; lia). cbn [bind concat app]. rewrite app_nil_r. reflexivity.
Qed.

Lemma depth_chain : forall l h x fuel, links h (x :: l) -> length (x :: l) <= fuel ->
  depth_fuel fuel h x = Ok (length (x :: l)).
Proof.
  induction l as [|y l IH]; intros h x [|fuel] H Hf; cbn in Hf; try lia;
    destruct H as [[n [Hn Hc]] H]; cbn [depth_fuel]; rewrite Hn, Hc; cbn [mapM bind].
  - reflexivity.
  - rewrite IH by (assumption || cbn; lia). cbn [bind fold_right length]. rewrite Nat.max_0_r. reflexivity.
Qed.

(** Root pointers lead outwards. *)
Definition roots_ok (h : cheap) (l : list nat) : Prop :=
  forall i x, nth_error l i = Some x ->
    exists n, nth_error h x = Some n /\
      match i with
      | 0 => cn_root n = None
      | S _ => exists j y, j < i /\ nth_error l j = Some y /\ cn_root n = Some y
      end.

Definition chain_ok (h : cheap) (l : list nat) : Prop := l <> [] /\ links h l /\ roots_ok h l.

Definition good (h : cheap) (cs : list (list nat)) : Prop :=
  Forall (chain_ok h) cs /\ NoDup (concat cs).

Lemma links_ext : forall h h' l,
  (forall x, In x l -> exists n n', nth_error h x = Some n /\ nth_error h' x = Some n' /\ cn_children n = cn_children n') ->
  links h l -> links h' l.
Proof.
  induction l as [|x l IH]; intros He H; [exact I|]. destruct H as [[n [Hn Hc]] H]. split.
  - destruct (He x (or_introl eq_refl)) as [m [m' [H1 [H2 H3]]]]. exists m'. split; [exact H2|]. congruence.
  - apply IH; [|exact H]. intros y Hy. apply He; right; exact Hy.
Qed.

Lemma roots_ext : forall h h' l,
  (forall x, In x l -> exists n n', nth_error h x = Some n /\ nth_error h' x = Some n' /\ cn_root n = cn_root n') ->
  roots_ok h l -> roots_ok h' l.
Proof.
  intros h h' l He H i x Hx. destruct (He x (nth_error_In _ _ Hx)) as [m [m' [H1 [H2 H3]]]].
  destruct (H i x Hx) as [n [Hn Hr]]. exists m'. split; [exact H2|].
  replace (cn_root m') with (cn_root n) by congruence. exact Hr.
Qed.

Lemma chain_ext : forall h h' l,
  (forall x, In x l -> x < length h /\ nth_error h' x = nth_error h x) ->
  chain_ok h l -> chain_ok h' l.
Proof.
  intros h h' l He [H1 [H2 H3]]. split; [exact H1|].
  assert (Hx : forall x, In x l -> exists n, nth_error h x = Some n /\ nth_error h' x = Some n).
  { intros x Hi. destruct (He x Hi) as [Hl E]. apply nth_error_Some in Hl.
    destruct (nth_error h x) as [n|]; [|congruence]. exists n. auto. }
  split; [eapply links_ext; [|exact H2]|eapply roots_ext; [|exact H3]];
    intros x Hi; destruct (Hx x Hi) as [n [A B]]; exists n, n; auto.
Qed.

Lemma chain_lt : forall h l x, chain_ok h l -> In x l -> x < length h.
Proof. intros h l x [_ [H _]] Hi. eapply links_lt; eassumption. Qed.

Lemma good_lt : forall h cs x, good h cs -> In x (concat cs) -> x < length h.
Proof.
  intros h cs x [H _] Hi. apply in_concat in Hi. destruct Hi as [l [Hl Hi]].
  rewrite Forall_forall in H. eapply chain_lt; [apply H; exact Hl|exact Hi].
Qed.

(** Reading the heap after a creation. *)
Lemma new_none : forall h name rd,
  cit_new h name rd None = (h ++ [MkNode name rd [] None], length h).
Proof.
  intros h name rd. unfold cit_new, set_children. f_equal.
  assert (E : forall (f : cnode -> cnode) n, update (h ++ [n]) (length h) f = h ++ [f n]).
  { clear. induction h as [|x h IH]; intros f n; cbn; [reflexivity|]. rewrite IH; reflexivity. }
  rewrite !E. reflexivity.
Qed.

Lemma update_last : forall (h : cheap) (f : cnode -> cnode) n, update (h ++ [n]) (length h) f = h ++ [f n].
Proof. induction h as [|x h IH]; intros f n; cbn; [reflexivity|]. rewrite IH; reflexivity. Qed.

Lemma update_app1 : forall (h : cheap) i f t, i < length h -> update (h ++ t) i f = update h i f ++ t.
Proof. induction h as [|x h IH]; intros [|i] f t H; cbn in *; try lia; [reflexivity|]. rewrite IH by lia. reflexivity. Qed.

Lemma new_some : forall h name rd v, v < length h ->
  cit_new h name rd (Some v) =
    (update h v (put_root (Some (length h))) ++ [MkNode name rd [v] None], length h).
Proof.
  intros h name rd v Hv. unfold cit_new, set_children. f_equal.
  assert (Hr : root_of (h ++ [MkNode name None [] None]) (length h) = length h).
  { unfold root_of. rewrite nth_error_app2, Nat.sub_diag by lia. reflexivity. }
  rewrite Hr, update_app1 by exact Hv.
  set (h' := update h v _). replace (length h) with (length h') by apply update_length.
  rewrite !update_last. reflexivity.
Qed.

(** Preservation. *)
Lemma NoDup_concat_cons : forall (l : list nat) cs, NoDup (concat (l :: cs)) ->
  NoDup l /\ NoDup (concat cs) /\ forall x, In x l -> ~ In x (concat cs).
Proof.
  intros l cs H. cbn in H. induction l as [|x l IH]; cbn in *.
  - repeat split; [constructor|exact H|intros x []].
  - inversion H as [|? ? Hx Hr]; subst. destruct (IH Hr) as [A [B C]]. split; [|split; [exact B|]].
    + constructor; [|exact A]. intros Hi; apply Hx. apply in_or_app; left; exact Hi.
    + intros y [<-|Hy]; [|apply C; exact Hy]. intros Hi; apply Hx. apply in_or_app; right; exact Hi.
Qed.

Lemma others_ok : forall h h' cs, good h cs ->
  (forall x, In x (concat cs) -> nth_error h' x = nth_error h x) -> Forall (chain_ok h') cs.
Proof.
  intros h h' cs G He. pose proof G as [H _]. rewrite Forall_forall in *. intros l Hl.
  apply (chain_ext h); [|apply H; exact Hl]. intros x Hx.
  assert (Hi : In x (concat cs)) by (apply in_concat; eauto).
  split; [eapply good_lt; eassumption|apply He; exact Hi].
Qed.

Lemma good_tail : forall h l cs, good h (l :: cs) -> good h cs.
Proof.
  intros h l cs [H N]. inversion H; subst. split; [assumption|]. apply (NoDup_concat_cons _ _ N).
Qed.

Lemma good_new : forall h cs name rd, good h cs ->
  good (fst (cit_new h name rd None)) ([snd (cit_new h name rd None)] :: cs).
Proof.
  intros h cs name rd G. rewrite new_none. cbn [fst snd]. split.
  - constructor.
    + split; [discriminate|]. split.
      * split; [|exact I]. exists (MkNode name rd [] None). split; [|reflexivity].
        rewrite nth_error_app2, Nat.sub_diag by lia. reflexivity.
      * intros [|i] x Hx; [|destruct i; discriminate]. cbn in Hx. injection Hx as <-.
        exists (MkNode name rd [] None). split; [|reflexivity].
        rewrite nth_error_app2, Nat.sub_diag by lia. reflexivity.
    + apply (others_ok h); [exact G|]. intros x Hx. apply nth_error_app1. eapply good_lt; eassumption.
  - cbn. constructor; [|apply G]. intros Hi. pose proof (good_lt _ _ _ G Hi). lia.
Qed.

Lemma good_wrap : forall h v l cs name rd, good h ((v :: l) :: cs) ->
  good (fst (cit_new h name rd (Some v))) ((snd (cit_new h name rd (Some v)) :: v :: l) :: cs).
Proof.
  intros h v l cs name rd G. pose proof G as [H N]. inversion H as [|? ? Hc Hcs]; subst.
  assert (Hv : v < length h) by (eapply chain_lt; [exact Hc|left; reflexivity]).
  destruct (NoDup_concat_cons _ _ N) as [N1 [N2 N3]].
  rewrite new_some by exact Hv. cbn [fst snd].
  set (h' := update h v (put_root (Some (length h))) ++ [MkNode name rd [v] None]).
  assert (Hlen : length (update h v (put_root (Some (length h)))) = length h) by apply update_length.
  assert (Hself : nth_error h' (length h) = Some (MkNode name rd [v] None)).
  { unfold h'. rewrite nth_error_app2, Hlen, Nat.sub_diag by lia. reflexivity. }
  assert (Hother : forall x, x < length h -> x <> v -> nth_error h' x = nth_error h x).
  { intros x Hx Hne. unfold h'. rewrite nth_error_app1 by lia. apply update_other. congruence. }
  destruct Hc as [_ [HL HR]].
  assert (Hvn : exists n, nth_error h v = Some n /\ nth_error h' v = Some (put_root (Some (length h)) n)).
  { destruct HL as [[n [Hn _]] _]. exists n. split; [exact Hn|]. unfold h'. rewrite nth_error_app1 by lia.
    apply update_same; exact Hn. }
  assert (Hl : forall x, In x l -> x < length h /\ x <> v).
  { intros x Hx. split; [eapply links_lt; [exact HL|right; exact Hx]|]. inversion N1; congruence. }
  split.
  - constructor.
    + split; [discriminate|]. split.
      * split; [exists (MkNode name rd [v] None); auto|].
        eapply links_ext; [|exact HL]. intros x [<-|Hx].
        -- destruct Hvn as [n [A B]]. exists n, (put_root (Some (length h)) n). auto.
        -- destruct (Hl x Hx) as [A B]. rewrite (Hother x A B). destruct (nth_error h x) as [n|] eqn:E.
           ++ exists n, n; auto.
           ++ apply nth_error_None in E; lia.
      * intros [|[|i]] x Hx; cbn in Hx.
        -- injection Hx as <-. exists (MkNode name rd [v] None). auto.
        -- injection Hx as <-. destruct Hvn as [n [A B]]. exists (put_root (Some (length h)) n). split; [exact B|].
           exists 0, (length h). cbn. auto.
        -- destruct (HR (S i) x Hx) as [n [Hn [j [y [Hj [Hy Hr]]]]]].
           destruct (Hl x (nth_error_In _ _ Hx)) as [A B]. exists n. rewrite (Hother x A B). split; [exact Hn|].
           exists (S j), y. split; [lia|]. auto.
    + apply (others_ok h); [apply (good_tail _ _ _ G)|]. intros x Hx. apply Hother.
      * eapply good_lt; [apply (good_tail _ _ _ G)|exact Hx].
      * intros ->. apply (N3 v (or_introl eq_refl)); exact Hx.
  - cbn. constructor; [|exact N]. intros Hi. pose proof (good_lt _ _ _ G Hi). lia.
Qed.

Lemma set_child_heap : forall h c v nc nv, c <> v -> nth_error h c = Some nc -> nth_error h v = Some nv ->
  let h' := cit_set_child h c (Some v) in
  nth_error h' c = Some (put_children [v] nc) /\
  nth_error h' v = Some (put_root (Some (root_of h c)) nv) /\
  (forall x, x <> c -> x <> v -> nth_error h' x = nth_error h x).
Proof.
  intros h c v nc nv Hne Hc Hv h'.
  set (h1 := set_children h c (Some v)).
  assert (C1 : nth_error h1 c = Some (put_children [v] nc)).
  { unfold h1, set_children. apply update_same. rewrite update_other by congruence. exact Hc. }
  assert (V1 : nth_error h1 v = Some (put_root (Some (root_of h c)) nv)).
  { unfold h1, set_children. rewrite update_other by congruence. apply update_same; exact Hv. }
  assert (O1 : forall x, x <> c -> x <> v -> nth_error h1 x = nth_error h x).
  { intros x H1 H2. unfold h1, set_children. rewrite !update_other by congruence. reflexivity. }
  assert (E : exists r, h' = update h1 v (put_root (Some r)) /\ r = root_of h c).
  { unfold h', cit_set_child. fold h1. unfold is_root, root_of. rewrite C1, Hc. cbn [put_children cn_root].
    destruct (cn_root nc) as [r|]; eauto. }
  destruct E as [r [E ->]]. rewrite E. split; [|split].
  - rewrite update_other by congruence. exact C1.
  - erewrite update_same by exact V1. reflexivity.
  - intros x H1 H2. rewrite update_other by congruence. apply O1; assumption.
Qed.

Lemma root_in_chain : forall h l c i, roots_ok h l -> nth_error l i = Some c ->
  exists j, j <= i /\ nth_error l j = Some (root_of h c).
Proof.
  intros h l c i HR Hi. destruct (HR i c Hi) as [n [Hn Hr]]. unfold root_of. rewrite Hn. destruct i as [|i].
  - rewrite Hr. exists 0; auto.
  - destruct Hr as [j [y [Hj [Hy Hr]]]]. rewrite Hr. exists j. split; [lia|exact Hy].
Qed.

Lemma links_app : forall h h' l1 c v l2, 
  links h (l1 ++ [c]) -> links h (v :: l2) ->
  NoDup (l1 ++ [c]) ->
  (exists n, nth_error h' c = Some n /\ cn_children n = [v]) ->
  (forall x, In x l1 \/ In x (v :: l2) ->
     exists n n', nth_error h x = Some n /\ nth_error h' x = Some n' /\ cn_children n = cn_children n') ->
  links h' (l1 ++ c :: v :: l2).
Proof.
  induction l1 as [|x l1 IH]; intros c v l2 H1 H2 HN Hc He.
  - cbn [app]. split; [exact Hc|]. eapply links_ext; [|exact H2]. intros y Hy. apply He; right; exact Hy.
  - cbn [app] in *. destruct H1 as [[n [Hn Hch]] H1]. split.
    + destruct (He x (or_introl (or_introl eq_refl))) as [m [m' [A [B C]]]]. exists m'. split; [exact B|].
      rewrite <- C. replace m with n by congruence. rewrite Hch. destruct l1; reflexivity.
    + apply (IH c v l2); try assumption.
      * inversion HN; assumption.
      * intros y [Hy|Hy]; apply He; [left; right; exact Hy|right; exact Hy].
Qed.

Lemma good_attach : forall h l1 c v l2 cs, good h ((l1 ++ [c]) :: (v :: l2) :: cs) ->
  good (cit_set_child h c (Some v)) ((l1 ++ c :: v :: l2) :: cs).
Proof.
  intros h l1 c v l2 cs G. pose proof G as [H N]. inversion H as [|? ? Hc1 H']; subst.
  inversion H' as [|? ? Hc2 Hcs]; subst.
  destruct (NoDup_concat_cons _ _ N) as [N1 [N2 N3]]. destruct (NoDup_concat_cons _ _ N2) as [N4 [N5 N6]].
  destruct Hc1 as [_ [L1 R1]]. destruct Hc2 as [_ [L2 R2]].
  assert (Hcin : In c (l1 ++ [c])) by (apply in_or_app; right; left; reflexivity).
  assert (Hne : c <> v). { intros ->. apply (N3 v Hcin). cbn. left; reflexivity. }
  assert (Hcx : exists nc, nth_error h c = Some nc).
  { pose proof (links_lt _ _ _ L1 Hcin) as Hl. apply nth_error_Some in Hl. destruct (nth_error h c); [eauto|congruence]. }
  destruct Hcx as [nc Hnc]. assert (Hvx : exists nv, nth_error h v = Some nv) by (destruct L2 as [[n [Hn _]] _]; eauto).
  destruct Hvx as [nv Hnv].
  destruct (set_child_heap h c v nc nv Hne Hnc Hnv) as [A [B C]].
  set (h' := cit_set_child h c (Some v)) in *.
  assert (D1 : forall x, In x l1 -> x <> c /\ x <> v).
  { intros x Hx. split.
    - intros ->. apply NoDup_remove_2 in N1. rewrite app_nil_r in N1. tauto.
    - intros ->. apply (N3 v); [apply in_or_app; left; exact Hx|left; reflexivity]. }
  assert (D2 : forall x, In x l2 -> x <> c /\ x <> v).
  { intros x Hx. split.
    - intros ->. apply (N3 c Hcin). cbn. right. apply in_or_app; left; exact Hx.
    - intros ->. inversion N4; tauto. }
  split.
  - constructor.
    + split; [destruct l1; discriminate|]. split.
      * apply (links_app h h' l1 c v l2); try assumption.
        -- exists (put_children [v] nc). auto.
        -- intros x [Hx|[<-|Hx]].
           ++ destruct (D1 x Hx) as [E1 E2]. rewrite (C x E1 E2).
              assert (Hl : x < length h) by (eapply links_lt; [exact L1|apply in_or_app; left; exact Hx]).
              apply nth_error_Some in Hl. destruct (nth_error h x) as [n|]; [|congruence]. exists n, n; auto.
           ++ exists nv, (put_root (Some (root_of h c)) nv). auto.
           ++ destruct (D2 x Hx) as [E1 E2]. rewrite (C x E1 E2).
              assert (Hl : x < length h) by (eapply links_lt; [exact L2|right; exact Hx]).
              apply nth_error_Some in Hl. destruct (nth_error h x) as [n|]; [|congruence]. exists n, n; auto.
      * intros i x Hx.
        destruct (lt_eq_lt_dec i (length l1)) as [[Hi|Hi]|Hi].
        -- rewrite nth_error_app1 in Hx by exact Hi.
           assert (Hx' : nth_error (l1 ++ [c]) i = Some x) by (rewrite nth_error_app1 by exact Hi; exact Hx).
           destruct (D1 x (nth_error_In _ _ Hx)) as [E1 E2]. rewrite (C x E1 E2).
           destruct (R1 i x Hx') as [n [Hn Hr]]. exists n. split; [exact Hn|]. destruct i as [|i]; [exact Hr|].
           destruct Hr as [j [y [Hj [Hy Hr]]]]. exists j, y. split; [exact Hj|]. split; [|exact Hr].
           rewrite nth_error_app1 in Hy by lia. rewrite nth_error_app1 by lia. exact Hy.
        -- subst i. rewrite nth_error_app2, Nat.sub_diag in Hx by lia. cbn in Hx. injection Hx as <-.
           assert (Hx' : nth_error (l1 ++ [c]) (length l1) = Some c) by (rewrite nth_error_app2, Nat.sub_diag by lia; reflexivity).
           destruct (R1 _ _ Hx') as [n [Hn Hr]]. replace nc with n in A by congruence.
           exists (put_children [v] n). split; [exact A|]. destruct (length l1) as [|m] eqn:El; [exact Hr|].
           destruct Hr as [j [y [Hj [Hy Hr]]]]. exists j, y. split; [exact Hj|]. split; [|exact Hr].
           rewrite nth_error_app1 in Hy by lia. rewrite nth_error_app1 by lia. exact Hy.
        -- destruct i as [|i]; [lia|]. rewrite nth_error_app2 in Hx by lia.
           replace (S i - length l1) with (S (i - length l1)) in Hx by lia. cbn in Hx.
           destruct (i - length l1) as [|k] eqn:Ek.
           ++ cbn in Hx. injection Hx as <-. exists (put_root (Some (root_of h c)) nv). split; [exact B|].
              assert (Hx' : nth_error (l1 ++ [c]) (length l1) = Some c) by (rewrite nth_error_app2, Nat.sub_diag by lia; reflexivity).
              destruct (root_in_chain _ _ _ _ R1 Hx') as [j [Hj Hy]].
              exists j, (root_of h c). split; [lia|]. split; [|reflexivity].
              destruct (Nat.eq_dec j (length l1)) as [->|Hd].
              ** rewrite Hx' in Hy. injection Hy as <-. rewrite nth_error_app2, Nat.sub_diag by lia. reflexivity.
              ** rewrite nth_error_app1 in Hy by lia. rewrite nth_error_app1 by lia. exact Hy.
           ++ cbn in Hx. destruct (D2 x (nth_error_In _ _ Hx)) as [E1 E2]. rewrite (C x E1 E2).
              destruct (R2 (S k) x Hx) as [n [Hn [j [y [Hj [Hy Hr]]]]]]. exists n. split; [exact Hn|].
              exists (length l1 + S j), y. split; [lia|]. split; [|exact Hr].
              rewrite nth_error_app2 by lia. replace (length l1 + S j - length l1) with (S j) by lia. exact Hy.
    + apply (others_ok h); [apply (good_tail _ (v :: l2)); apply (good_tail _ _ _ G)|].
      intros x Hx. apply C.
      * intros ->. apply (N3 c Hcin). cbn. right. apply in_or_app; right; exact Hx.
      * intros ->. apply (N6 v (or_introl eq_refl)). exact Hx.
  - cbn in N |- *. rewrite <- app_assoc in N |- *. exact N.
Qed.

Lemma built_good : forall h cs, built h cs -> good h cs.
Proof.
  intros h cs H. induction H.
  - split; constructor.
  - apply good_new; assumption.
  - apply good_wrap; assumption.
  - apply good_attach; assumption.
  - destruct IHbuilt as [A B]. split.
    + rewrite Forall_forall in *. intros l Hl. apply A. eapply Permutation_in; [apply Permutation_sym; eassumption|exact Hl].
    + eapply Permutation_NoDup; [|exact B]. clear - H0. induction H0; cbn.
      * constructor.
      * apply Permutation_app_head; assumption.
      * rewrite !app_assoc. apply Permutation_app_tail. apply Permutation_app_comm.
      * eapply Permutation_trans; eassumption.
Qed.

(** ** Reading a scheme *)

Lemma chain_length : forall h l, chain_ok h l -> NoDup l -> length l <= length h.
Proof.
  intros h l Hc HN. rewrite <- (seq_length (length h) 0). apply NoDup_incl_length; [exact HN|].
  intros x Hx. apply in_seq. pose proof (chain_lt _ _ _ Hc Hx). lia.
Qed.

Lemma skipn_nth : forall A (l : list A) k x, nth_error l k = Some x -> skipn k l = x :: skipn (S k) l.
Proof. induction l as [|y l IH]; intros [|k] x H; cbn in *; try discriminate; [congruence|]. apply (IH k x H). Qed.

Section Reading.
Variables (h : cheap) (l : list nat).
Hypothesis (Hok : chain_ok h l) (HN : NoDup l).

Lemma iter_at : forall k x, nth_error l k = Some x -> cit_iter h x = Ok (skipn k l).
Proof.
  intros k x Hx. pose proof (chain_length _ _ Hok HN) as HL. destruct Hok as [_ [HK _]].
  rewrite (skipn_nth _ _ _ _ Hx). apply iter_chain.
  - rewrite <- (skipn_nth _ _ _ _ Hx). apply links_skipn; exact HK.
  - rewrite <- (skipn_nth _ _ _ _ Hx), skipn_length. lia.
Qed.

Lemma depth_at : forall k x, nth_error l k = Some x -> cit_depth h x = Ok (length l - k).
Proof.
  intros k x Hx. pose proof (chain_length _ _ Hok HN) as HL. destruct Hok as [_ [HK _]].
  rewrite <- skipn_length. rewrite (skipn_nth _ _ _ _ Hx). apply depth_chain.
  - rewrite <- (skipn_nth _ _ _ _ Hx). apply links_skipn; exact HK.
  - rewrite <- (skipn_nth _ _ _ _ Hx), skipn_length. lia.
Qed.

Lemma nth_skipn : forall A (m : list A) k i, nth_error (skipn k m) i = nth_error m (k + i).
Proof. induction m as [|y m IH]; intros [|k] i; cbn; try reflexivity; [destruct i; reflexivity|]. apply IH. Qed.

Lemma getitem_at : forall k x i, nth_error l k = Some x ->
  cit_getitem h x i =
    if (Z.of_nat (length l - k) <=? i)%Z then Err KeyError
    else if (0 <=? i)%Z then
      match nth_error l (k + Z.to_nat i) with Some y => Ok y | None => Err IndexError end
    else if (0 <=? Z.of_nat (length l - k) + i)%Z then
      match nth_error l (k + Z.to_nat (Z.of_nat (length l - k) + i)) with Some y => Ok y | None => Err IndexError end
    else Err IndexError.
Proof.
  intros k x i Hx. unfold cit_getitem. rewrite (iter_at k x Hx). cbn [bind]. rewrite skipn_length.
  destruct (Z.ltb_spec (Z.of_nat (length l - k) - 1) i) as [H1|H1];
    destruct (Z.leb_spec (Z.of_nat (length l - k)) i) as [H2|H2]; try lia; [reflexivity|].
  unfold list_index. rewrite skipn_length.
  destruct (Z.ltb_spec i 0) as [H3|H3]; destruct (Z.leb_spec 0 i) as [H4|H4]; try lia.
  - destruct (Z.ltb_spec (Z.of_nat (length l - k) + i) 0) as [H5|H5];
      destruct (Z.leb_spec 0 (Z.of_nat (length l - k) + i)) as [H6|H6]; try lia; [reflexivity|].
    rewrite nth_skipn. reflexivity.
  - destruct (Z.ltb_spec i 0); [lia|]. rewrite nth_skipn. reflexivity.
Qed.

Lemma match_at : forall k x r, nth_error l k = Some x -> 1 <= ref_depth r ->
  cit_match h x r = match nth_error l (ref_depth r - 1) with Some y => Ok y | None => Err KeyError end.
Proof.
  intros k x r Hx Hr. unfold cit_match.
  assert (Hf : forall fuel k x, k < fuel -> nth_error l k = Some x ->
     match_fuel fuel h x r = match nth_error l (ref_depth r - 1) with Some y => Ok y | None => Err KeyError end).
  { clear k x Hx. induction fuel as [|fuel IH]; intros k x Hk Hx; [lia|]. cbn [match_fuel].
    destruct Hok as [_ [_ HR]]. destruct (HR k x Hx) as [n [Hn Hroot]].
    unfold is_root. rewrite Hn. destruct k as [|k].
    - rewrite Hroot. rewrite (getitem_at 0 x) by exact Hx. rewrite Nat.sub_0_r.
      destruct (Z.leb_spec (Z.of_nat (length l)) (Z.of_nat (ref_depth r) - 1)) as [H1|H1].
      + rewrite (proj2 (nth_error_None l (ref_depth r - 1))) by lia. reflexivity.
      + destruct (Z.leb_spec 0 (Z.of_nat (ref_depth r) - 1)); [|lia].
        replace (0 + Z.to_nat (Z.of_nat (ref_depth r) - 1)) with (ref_depth r - 1) by lia.
        assert (Hl : ref_depth r - 1 < length l) by lia. apply nth_error_Some in Hl.
        destruct (nth_error l (ref_depth r - 1)); congruence.
    - destruct Hroot as [j [y [Hj [Hy Hroot]]]]. rewrite Hroot. unfold root_of. rewrite Hn, Hroot.
      apply (IH j y); [lia|exact Hy]. }
  apply (Hf (length h) k x); [|exact Hx].
  pose proof (chain_length _ _ Hok HN). assert (k < length l) by (apply nth_error_Some; congruence). lia.
Qed.
End Reading.

Lemma built_scheme : forall h cs l, built h cs -> In l cs -> chain_ok h l /\ NoDup l.
Proof.
  intros h cs l H Hl. destruct (built_good _ _ H) as [A B]. rewrite Forall_forall in A. split; [apply A; exact Hl|].
  clear - Hl B. induction cs as [|m cs IH]; [contradiction|]. destruct (NoDup_concat_cons _ _ B) as [N1 [N2 _]].
  destruct Hl as [<-|Hl]; [exact N1|apply IH; assumption].
Qed.

(** ** Reading a refsDecl (ingest) *)

Lemma ingest_loop_spec : forall res g n cits,
  cn_root n = None -> last (map Some cits) None = Some (length g) ->
  Forall (fun e => snd e <> None) res ->
  exists m tail,
    ingest_loop (g ++ [n]) res cits = Ok (g ++ m :: tail, cits ++ seq (S (length g)) (length res)) /\
    length tail = length res /\
    (exists r, m = put_root r n) /\
    (res = [] -> m = n) /\
    (forall k, nth_error res k <> None -> S k = length res -> exists e, nth_error tail k = Some e /\ cn_root e = None) /\
    (forall k name p, nth_error res k = Some (name, Some p) ->
       exists e, nth_error tail k = Some e /\ cn_name e = name /\ cn_rd e = Some (slice_pattern p) /\
                 cn_children e = [length g + k]).
Proof.
  induction res as [|[name [p|]] res IH]; intros g n cits Hr Hl HF.
  - exists n, []. cbn. rewrite app_nil_r. repeat split; try reflexivity.
    + exists None. destruct n; cbn in *; subst; reflexivity.
    + intros [|k]; congruence.
    + intros [|k]; discriminate.
  - inversion HF as [|? ? _ HF']; subst. cbn [ingest_loop]. rewrite Hl.
    assert (Hlt : length g < length (g ++ [n])) by (rewrite app_length; cbn; lia).
    rewrite (new_some _ name (Some (slice_pattern p)) _ Hlt).
    rewrite update_last. rewrite app_length. cbn [length].
    set (n0 := put_root (Some (length g + 1)) n).
    set (c := MkNode name (Some (slice_pattern p)) [length g] None).
    destruct (IH (g ++ [n0]) c (cits ++ [length g + 1])) as [m [tail [E [Hlen [[r Hm] [He [Hroot Hch]]]]]]].
    + reflexivity.
    + rewrite map_app. cbn [map]. rewrite last_last, app_length. reflexivity.
    + exact HF'.
    + exists n0, (m :: tail). rewrite E. split.
      { do 2 f_equal.
        - rewrite <- app_assoc. reflexivity.
        - rewrite <- app_assoc, app_length. cbn. replace (length g + 1) with (S (length g)) by lia. reflexivity. }
      split; [cbn; lia|]. split; [eexists; reflexivity|]. split; [discriminate|]. split.
      * intros [|k] Hk Hs.
        -- destruct res; [|discriminate]. exists m. split; [reflexivity|]. rewrite He by reflexivity. reflexivity.
        -- cbn in *. apply Hroot; [exact Hk|lia].
      * intros [|k] name' p' Hk; cbn in Hk.
        -- injection Hk as <- <-. exists m. rewrite Hm. cbn. rewrite Nat.add_0_r. auto.
        -- destruct (Hch k name' p' Hk) as [e [A [B [C D]]]]. exists e. rewrite app_length in D. cbn in *.
           replace (length g + S k) with (length g + 1 + k) by lia. auto.
  - inversion HF; subst. cbn in *. congruence.
Qed.

Lemma fold_roots : forall ids (h : cheap) t x,
  nth_error (fold_left (fun g c => update g c (put_root (Some t))) ids h) x =
  if in_dec Nat.eq_dec x ids then option_map (put_root (Some t)) (nth_error h x) else nth_error h x.
Proof.
  induction ids as [|c ids IH]; intros h t x; cbn [fold_left]; [reflexivity|].
  rewrite IH. destruct (Nat.eq_dec c x) as [->|Hne].
  - destruct (in_dec Nat.eq_dec x (x :: ids)) as [_|Hx]; [|exfalso; apply Hx; left; reflexivity].
    destruct (nth_error h x) as [n|] eqn:E.
    + rewrite (update_same _ _ _ _ _ E). destruct (in_dec Nat.eq_dec x ids); reflexivity.
    + assert (E' : nth_error (update h x (put_root (Some t))) x = None)
        by (apply nth_error_None; rewrite update_length; apply nth_error_None; exact E).
      rewrite E'. destruct (in_dec Nat.eq_dec x ids); reflexivity.
  - rewrite update_other by exact Hne.
    destruct (in_dec Nat.eq_dec x ids) as [H1|H1], (in_dec Nat.eq_dec x (c :: ids)) as [H2|H2]; try reflexivity.
    + exfalso; apply H2; right; exact H1.
    + destruct H2; contradiction.
Qed.

Lemma fold_length : forall ids (h : cheap) t,
  length (fold_left (fun g c => update g c (put_root (Some t))) ids h) = length h.
Proof. induction ids as [|c ids IH]; intros h t; cbn; [reflexivity|]. rewrite IH, update_length; reflexivity. Qed.

Lemma ingest_spec : forall h res, res <> [] -> Forall (fun e => snd e <> None) res ->
  exists h', cit_ingest h res = Ok (h', length h + (length res - 1)) /\
    length h' = length h + length res /\
    (forall x, x < length h -> nth_error h' x = nth_error h x) /\
    (forall k name p, nth_error res k = Some (name, Some p) ->
       nth_error h' (length h + k) =
         Some (MkNode name (Some (slice_pattern p))
                 (match k with 0 => [] | S k' => [length h + k'] end)
                 (if S k =? length res then None else Some (length h + (length res - 1))))).
Proof.
  intros h [|[name [p|]] res] Hne HF; [congruence| |inversion HF; cbn in *; congruence].
  inversion HF as [|? ? _ HF']; subst. unfold cit_ingest. cbn [ingest_loop map last]. rewrite new_none. cbn [app].
  set (n := MkNode name (Some (slice_pattern p)) [] None).
  destruct (ingest_loop_spec res h n [length h] eq_refl eq_refl HF') as [m [tail [E [Hlen [[r Hm] [He [Hroot Hch]]]]]]].
  rewrite E. cbn [bind]. replace ([length h] ++ seq (S (length h)) (length res)) with (seq (length h) (S (length res))) by reflexivity.
  rewrite seq_S, rev_app_distr. cbn [rev app].
  set (top := length h + length res). cbn [length]. replace (length h + (S (length res) - 1)) with top by (unfold top; lia).
  rewrite rev_involutive.
  set (hh := fold_left _ _ _).
  exists hh. split; [reflexivity|]. unfold hh. split; [rewrite fold_length, app_length; cbn; lia|].
  assert (Hin : forall x, In x (seq (length h) (length res)) <-> length h <= x < top) by (intros; rewrite in_seq; unfold top; lia).
  split.
  - intros x Hx. rewrite fold_roots. destruct (in_dec Nat.eq_dec x (seq (length h) (length res))) as [Hi|Hi].
    + apply Hin in Hi. lia.
    + rewrite nth_error_app1 by exact Hx. reflexivity.
  - intros k name' p' Hk. rewrite fold_roots.
    assert (Hkl : k < S (length res)) by (change (S (length res)) with (length ((name, Some p) :: res)); apply nth_error_Some; congruence).
    assert (G : exists e, nth_error (h ++ m :: tail) (length h + k) = Some e /\ cn_name e = name' /\
              cn_rd e = Some (slice_pattern p') /\ cn_children e = match k with 0 => [] | S k' => [length h + k'] end /\
              (k = length res -> cn_root e = None)).
    { rewrite nth_error_app2 by lia. replace (length h + k - length h) with k by lia. destruct k as [|k]; cbn in *.
      - injection Hk as <- <-. exists m. rewrite Hm. cbn. repeat split; try reflexivity.
        intros Hz. destruct res; [|discriminate]. specialize (He eq_refl). rewrite Hm in He.
        unfold n, put_root in He. cbn in He. congruence.
      - destruct (Hch k name' p' Hk) as [e [A [B [C D]]]]. exists e. repeat split; try assumption.
        intros Hz. destruct (Hroot k) as [e' [A' B']]; [congruence|exact Hz|]. congruence. }
    destruct G as [e [G1 [G2 [G3 [G4 G5]]]]]. rewrite G1.
    destruct (in_dec Nat.eq_dec (length h + k) (seq (length h) (length res))) as [Hi|Hi].
    + apply Hin in Hi. unfold top in Hi. destruct (Nat.eqb_spec (S k) (S (length res))); [lia|].
      cbn. unfold put_root. rewrite G2, G3, G4. reflexivity.
    + assert (k = length res). { destruct (Nat.eq_dec k (length res)); [assumption|]. exfalso. apply Hi. apply Hin. unfold top. lia. }
      destruct (Nat.eqb_spec (S k) (S (length res))); [|lia]. destruct e as [en er ec eo]; cbn in *. rewrite G2, G3, G4, G5 by assumption. reflexivity.
Qed.

Lemma nth_rev_seq : forall b n i x, nth_error (rev (seq b n)) i = Some x -> i < n /\ x = b + (n - 1 - i).
Proof.
  intros b n i x H. assert (Hi : i < n). { rewrite <- (seq_length n b), <- rev_length. apply nth_error_Some; congruence. }
  split; [exact Hi|]. apply nth_error_nth with (d := 0) in H. rewrite rev_nth in H by (rewrite seq_length; exact Hi).
  rewrite seq_length, seq_nth in H by lia. lia.
Qed.

Lemma links_nth : forall h l,
  (forall i x, nth_error l i = Some x ->
     exists n, nth_error h x = Some n /\ cn_children n = match nth_error l (S i) with Some y => [y] | None => [] end) ->
  links h l.
Proof.
  induction l as [|x l IH]; intros H; [exact I|]. split.
  - destruct (H 0 x eq_refl) as [n [A B]]. exists n. split; [exact A|]. rewrite B. destruct l; reflexivity.
  - apply IH. intros i y Hy. apply (H (S i) y Hy).
Qed.

Lemma ingest_chain : forall h res h' top, res <> [] -> Forall (fun e => snd e <> None) res ->
  cit_ingest h res = Ok (h', top) ->
  chain_ok h' (rev (seq (length h) (length res))) /\ top = length h + (length res - 1).
Proof.
  intros h res h' top Hne HF E. destruct (ingest_spec h res Hne HF) as [hh [E' [Hl [Ho Hn]]]].
  rewrite E in E'. injection E' as <- ->. split; [|reflexivity].
  set (n := length res) in *.
  assert (Hn0 : n <> 0) by (unfold n; destruct res; cbn; congruence).
  assert (Hnode : forall k, k < n -> exists e, nth_error h' (length h + k) = Some e /\
            cn_children e = match k with 0 => [] | S k' => [length h + k'] end /\
            cn_root e = if S k =? n then None else Some (length h + (n - 1))).
  { intros k Hk. destruct (nth_error res k) as [[name [p|]]|] eqn:Ek.
    - rewrite (Hn k name p Ek). eexists; split; [reflexivity|]. cbn. auto.
    - rewrite Forall_forall in HF. specialize (HF _ (nth_error_In _ _ Ek)). cbn in HF. congruence.
    - apply nth_error_None in Ek. unfold n in Hk. lia. }
  split; [intros Hc; apply (f_equal (@length nat)) in Hc; rewrite rev_length, seq_length in Hc; cbn in Hc; lia|]. split.
  - apply links_nth. intros i x Hx. apply nth_rev_seq in Hx. destruct Hx as [Hi ->].
    destruct (Hnode (n - 1 - i)) as [e [A [B C]]]; [lia|]. exists e. split; [exact A|]. rewrite B.
    destruct (nth_error (rev (seq (length h) n)) (S i)) as [y|] eqn:Ey.
    + apply nth_rev_seq in Ey. destruct Ey as [Hy ->]. replace (n - 1 - i) with (S (n - 1 - S i)) by lia. reflexivity.
    + apply nth_error_None in Ey. rewrite rev_length, seq_length in Ey. replace (n - 1 - i) with 0 by lia. reflexivity.
  - intros i x Hx. pose proof (nth_rev_seq _ _ _ _ Hx) as [Hi ->].
    destruct (Hnode (n - 1 - i)) as [e [A [B C]]]; [lia|]. exists e. split; [exact A|]. rewrite C.
    destruct i as [|i].
    + replace (S (n - 1 - 0)) with n by lia. rewrite Nat.eqb_refl. reflexivity.
    + destruct (Nat.eqb_spec (S (n - 1 - S i)) n); [lia|]. exists 0, (length h + (n - 1)). split; [lia|]. split; [|reflexivity].
      destruct n as [|n']; [lia|]. rewrite seq_S, rev_app_distr. cbn. do 2 f_equal; lia.
Qed.

Lemma NoDup_rev_seq : forall b n, NoDup (rev (seq b n)).
Proof. intros. apply NoDup_rev, seq_NoDup. Qed.

(** ** The statements used by the property file *)

Lemma ref_depth_pos : forall r, 1 <= ref_depth r.
Proof.
  intros r. unfold ref_depth, id_list. destruct (split c_dot _) eqn:E; [exfalso; exact (split_nonnil _ _ E)|cbn; lia].
Qed.

Lemma scheme_listing : forall h cs l k x, built h cs -> In l cs -> nth_error l k = Some x ->
  cit_iter h x = Ok (skipn k l) /\
  cit_len h x = Ok (length l - k) /\
  cit_depth h x = Ok (length l - k).
Proof.
  intros h cs l k x Hb Hl Hx. destruct (built_scheme _ _ _ Hb Hl) as [Hok HN].
  pose proof (iter_at h l Hok HN k x Hx) as E. split; [exact E|]. split.
  - unfold cit_len. rewrite E. cbn. rewrite skipn_length. reflexivity.
  - apply depth_at; assumption.
Qed.

Lemma scheme_index : forall h cs l x k (i : nat), built h cs -> In l cs -> nth_error l k = Some x ->
  let n := length l - k in
  (i < n -> exists y, nth_error l (k + i) = Some y /\ cit_getitem h x (Z.of_nat i) = Ok y) /\
  (n <= i -> cit_getitem h x (Z.of_nat i) = Err KeyError) /\
  (1 <= i <= n -> exists y, nth_error l (k + (n - i)) = Some y /\ cit_getitem h x (- Z.of_nat i) = Ok y) /\
  (n < i -> cit_getitem h x (- Z.of_nat i) = Err IndexError).
Proof.
  intros h cs l x k i Hb Hl Hx n. destruct (built_scheme _ _ _ Hb Hl) as [Hok HN].
  rewrite !(getitem_at h l Hok HN k x) by exact Hx. fold n.
  assert (Hnth : forall j, j < length l -> exists y, nth_error l j = Some y).
  { intros j Hj. apply nth_error_Some in Hj. destruct (nth_error l j); [eauto|congruence]. }
  repeat split; intros H.
  - destruct (Z.leb_spec (Z.of_nat n) (Z.of_nat i)); [lia|]. destruct (Z.leb_spec 0 (Z.of_nat i)); [|lia].
    rewrite Nat2Z.id. destruct (Hnth (k + i)) as [y Hy]; [lia|]. exists y. rewrite Hy. auto.
  - destruct (Z.leb_spec (Z.of_nat n) (Z.of_nat i)); [reflexivity|lia].
  - destruct (Z.leb_spec (Z.of_nat n) (- Z.of_nat i)); [lia|]. destruct (Z.leb_spec 0 (- Z.of_nat i)); [lia|].
    destruct (Z.leb_spec 0 (Z.of_nat n + - Z.of_nat i)); [|lia].
    replace (Z.to_nat (Z.of_nat n + - Z.of_nat i)) with (n - i) by lia.
    destruct (Hnth (k + (n - i))) as [y Hy]; [lia|]. exists y. rewrite Hy. auto.
  - destruct (Z.leb_spec (Z.of_nat n) (- Z.of_nat i)); [lia|]. destruct (Z.leb_spec 0 (- Z.of_nat i)); [lia|].
    destruct (Z.leb_spec 0 (Z.of_nat n + - Z.of_nat i)); [lia|]. reflexivity.
Qed.

Lemma scheme_match : forall h cs l x r, built h cs -> In l cs -> In x l ->
  cit_match h x r = match nth_error l (ref_depth r - 1) with Some y => Ok y | None => Err KeyError end.
Proof.
  intros h cs l x r Hb Hl Hx. pose proof (ref_depth_pos r) as Hr. destruct (built_scheme _ _ _ Hb Hl) as [Hok HN].
  apply In_nth_error in Hx. destruct Hx as [k Hk]. eapply match_at; eassumption.
Qed.

Lemma ingest_scheme : forall h pats, pats <> [] -> Forall (fun p => snd p <> None) pats ->
  let b := length h in let n := length pats in
  exists h' top,
    cit_ingest h pats = Ok (h', top) /\
    nth_error (seq b n) (n - 1) = Some top /\
    cit_iter h' top = Ok (rev (seq b n)) /\
    (forall x, In x (seq b n) -> root_of h' x = top) /\
    (forall k name p, nth_error pats k = Some (name, Some p) ->
       exists o, nth_error h' (b + k) = Some o /\ cn_name o = name /\
                 cn_rd o = Some (firstn (length p - 8) (skipn 7 p))) /\
    (forall x r, In x (seq b n) ->
       cit_match h' x r = match nth_error (rev (seq b n)) (ref_depth r - 1) with
                          | Some y => Ok y | None => Err KeyError end) /\
    (forall x, x < b -> nth_error h' x = nth_error h x).
Proof.
  intros h pats Hne HF b n. destruct (ingest_spec h pats Hne HF) as [h' [E [Hlen [Ho Hn]]]].
  destruct (ingest_chain h pats h' _ Hne HF E) as [Hok _]. fold b n in E, Hlen, Ho, Hn, Hok.
  assert (HN : NoDup (rev (seq b n))) by apply NoDup_rev_seq.
  assert (Hn0 : n <> 0) by (unfold n; destruct pats; cbn; congruence).
  assert (Htop : nth_error (rev (seq b n)) 0 = Some (b + (n - 1))).
  { destruct n as [|n']; [lia|]. rewrite seq_S, rev_app_distr. cbn. do 2 f_equal; lia. }
  exists h', (b + (n - 1)). split; [exact E|]. split.
  { rewrite (nth_error_nth' _ 0) by (rewrite seq_length; lia). rewrite seq_nth by lia. reflexivity. }
  split; [rewrite (iter_at _ _ Hok HN 0) by exact Htop; reflexivity|]. split; [|split; [|split; [|exact Ho]]].
  - intros x Hx. apply in_seq in Hx. destruct (nth_error pats (x - b)) as [[name [p|]]|] eqn:Ep.
    + specialize (Hn _ _ _ Ep). replace (b + (x - b)) with x in Hn by lia. unfold root_of. rewrite Hn. cbn [cn_root].
      destruct (Nat.eqb_spec (S (x - b)) n) as [Heq|Heq]; [lia|reflexivity].
    + rewrite Forall_forall in HF. specialize (HF _ (nth_error_In _ _ Ep)). cbn in HF; congruence.
    + apply nth_error_None in Ep. fold n in Ep. lia.
  - intros k name p Hp. rewrite (Hn k name p Hp). eexists; split; [reflexivity|]. cbn. split; [reflexivity|].
    unfold slice_pattern. do 2 f_equal. lia.
  - intros x r Hx. pose proof (ref_depth_pos r) as Hr. apply in_rev in Hx. apply In_nth_error in Hx. destruct Hx as [k Hk]. eapply match_at; eassumption.
Qed.

Lemma nested_root_refuted : exists h l x, built h [l] /\ In x l /\ hd_error l <> Some (root_of h x).
Proof.
  pose proof (built_new _ _ (Some #"line") None built_empty) as H.
  pose proof (built_wrap _ _ _ _ (Some #"poem") None H) as H1.
  pose proof (built_wrap _ _ _ _ (Some #"book") None H1) as H2.
  vm_compute in H2. eexists _, _, 0. split; [exact H2|]. split.
  - right; right; left; reflexivity.
  - vm_compute. discriminate.
Qed.
