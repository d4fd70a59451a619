(** Lemmas about CTS references. *)

From Coq Require Import List NArith Arith Bool Lia.
From Verif Require Import PyStr PyStrFacts RefModel RefSpec.
Import ListNotations.

Lemma not_In_mem : forall c s, ~ In c s <-> mem c s = false.
Proof.
  intros c s. rewrite <- mem_In. destruct (mem c s); split; congruence.
Qed.

(** ** Construction from strings *)

Lemma cts_reference_empty : cts_reference (VStr []) = Ok None.
Proof. reflexivity. Qed.

Lemma cts_reference_string_single : forall s, ~ In c_dash s ->
  cts_reference_string s = Ok (MkRef s None s).
Proof.
  intros s H. apply not_In_mem in H. unfold cts_reference_string. rewrite H; reflexivity.
Qed.

Lemma cts_reference_string_range : forall a b, ~ In c_dash a -> ~ In c_dash b ->
  cts_reference_string (a ++ [c_dash] ++ b) = Ok (MkRef a (Some b) (a ++ [c_dash] ++ b)).
Proof.
  intros a b Ha Hb. apply not_In_mem in Ha, Hb. unfold cts_reference_string.
  rewrite mem_app. cbn [app mem]. rewrite N.eqb_refl, orb_true_r; cbn [negb].
  rewrite split_app_sep by assumption. rewrite split_no_sep by assumption. reflexivity.
Qed.

Lemma cts_reference_string_err : forall a b c,
  cts_reference_string (a ++ [c_dash] ++ b ++ [c_dash] ++ c) = Err ValueError.
Proof.
  intros a b c. unfold cts_reference_string.
  rewrite mem_app. cbn [app mem]. rewrite N.eqb_refl, orb_true_r; cbn [negb].
  pose proof (split_length c_dash (a ++ c_dash :: b ++ c_dash :: c)) as H.
  rewrite count_app in H. cbn [count] in H. rewrite N.eqb_refl, count_app in H.
  cbn [count] in H. rewrite N.eqb_refl in H.
  destruct (split c_dash (a ++ c_dash :: b ++ c_dash :: c)) as [|x [|y [|z l]]]; cbn in *;
    try reflexivity; lia.
Qed.

Lemma cts_reference_nonempty : forall s, s <> [] ->
  cts_reference (VStr s) = (r <- cts_reference_string s ;; Ok (Some r)).
Proof. intros [|x s] H; [congruence|reflexivity]. Qed.

(** Three-way classification of strings by their hyphens. *)
Lemma dash_cases : forall s,
  ~ In c_dash s \/
  (exists a b, s = a ++ [c_dash] ++ b /\ ~ In c_dash a /\ ~ In c_dash b) \/
  (exists a b c, s = a ++ [c_dash] ++ b ++ [c_dash] ++ c).
Proof.
  intros s. destruct (split_decomp c_dash s) as [[H _]|[a [t [H1 [H2 _]]]]].
  - left; apply not_In_mem; exact H.
  - right. destruct (split_decomp c_dash t) as [[H _]|[b [u [H3 [H4 _]]]]].
    + left. exists a, t. rewrite !not_In_mem. auto.
    + right. exists a, b, u. subst; reflexivity.
Qed.

Lemma cts_reference_str : forall s r, cts_reference (VStr s) = Ok (Some r) -> r_str r = s.
Proof.
  intros s r H. destruct s as [|x s]; [discriminate|].
  rewrite cts_reference_nonempty in H by discriminate.
  unfold cts_reference_string in H. destruct (negb (mem c_dash (x :: s))).
  - cbn in H. injection H as <-; reflexivity.
  - destruct (split c_dash (x :: s)) as [|a [|b [|c l]]]; cbn in H; try discriminate.
    injection H as <-; reflexivity.
Qed.

Lemma cts_reference_str_wf : forall s r, cts_reference (VStr s) = Ok (Some r) ->
  ~ In c_dash (r_start r) /\
  match r_end r with
  | None => r_start r = s
  | Some e => ~ In c_dash e /\ s = r_start r ++ [c_dash] ++ e
  end.
Proof.
  intros s r H. destruct s as [|x s]; [discriminate|].
  rewrite cts_reference_nonempty in H by discriminate.
  unfold cts_reference_string in H. destruct (mem c_dash (x :: s)) eqn:E; cbn [negb] in H.
  - destruct (split c_dash (x :: s)) as [|a [|b [|c l]]] eqn:E'; cbn in H; try discriminate.
    injection H as <-; cbn. apply split_two in E'. destruct E' as [H1 [H2 H3]].
    rewrite !not_In_mem; auto.
  - cbn in H. injection H as <-; cbn [r_start r_end]. split; [|reflexivity]. apply not_In_mem; exact E.
Qed.

Lemma ref_eqb_spec : forall a b,
  ref_eqb a b = true <-> r_start a = r_start b /\ r_end a = r_end b.
Proof.
  intros a b; unfold ref_eqb. rewrite andb_true_iff, str_eqb_eq.
  destruct (opt_eqb_spec _ str_eqb str_eqb_spec (r_end a) (r_end b)) as [H|H]; intuition congruence.
Qed.

Lemma ref_eqb_refl : forall r, ref_eqb r r = true.
Proof. intros r; apply ref_eqb_spec; auto. Qed.

Lemma cts_reference_eq : forall s t r q,
  cts_reference (VStr s) = Ok (Some r) -> cts_reference (VStr t) = Ok (Some q) ->
  (ref_eqb r q = true <-> s = t).
Proof.
  intros s t r q Hr Hq. rewrite ref_eqb_spec.
  pose proof (cts_reference_str_wf _ _ Hr) as [_ Wr].
  pose proof (cts_reference_str_wf _ _ Hq) as [_ Wq].
  split.
  - intros [E1 E2]. rewrite E1, E2 in Wr.
    destruct (r_end q) as [e|]; [|congruence].
    destruct Wr as [_ ->], Wq as [_ ->]; reflexivity.
  - intros <-. rewrite Hr in Hq. injection Hq as ->; auto.
Qed.

Lemma cts_reference_again_eq : forall r, exists r',
  cts_reference_again r = Ok r' /\ ref_eqb r' r = true /\
  r_str r' = r_start r ++ match r_end r with Some e => [c_dash] ++ e | None => [] end.
Proof.
  intros [a [b|] s]; unfold cts_reference_again, cts_reference_tuple; cbn.
  - exists (MkRef a (Some b) (a ++ c_dash :: b)); repeat split.
    apply ref_eqb_spec; auto.
  - exists (MkRef a None a); rewrite app_nil_r; repeat split.
    apply ref_eqb_spec; auto.
Qed.

(** ** Passage identifiers *)

Lemma write_levels_join : forall l, write_levels l = join [c_dot] l.
Proof.
  induction l as [|p l IH]; [reflexivity|].
  destruct l as [|q l]; [reflexivity|].
  rewrite join_cons by discriminate. rewrite <- IH. reflexivity.
Qed.

Lemma mem_write_levels_at : forall l,
  Forall (fun p => ~ In c_at p) l -> mem c_at (write_levels l) = false.
Proof.
  intros l H. rewrite write_levels_join. apply mem_join; [reflexivity|].
  eapply Forall_impl; [|exact H]. cbn; intros a Ha; apply not_In_mem; exact Ha.
Qed.

Lemma mem_write_levels_dash : forall l,
  Forall (fun p => ~ In c_dash p) l -> mem c_dash (write_levels l) = false.
Proof.
  intros l H. rewrite write_levels_join. apply mem_join; [reflexivity|].
  eapply Forall_impl; [|exact H]. cbn; intros a Ha; apply not_In_mem; exact Ha.
Qed.

Lemma count_dot_levels : forall l, l <> [] ->
  Forall (fun p => ~ In c_dot p) l -> S (count c_dot (write_levels l)) = length l.
Proof.
  intros l Hne H. rewrite write_levels_join, <- split_length.
  rewrite split_join; [reflexivity|exact Hne|].
  eapply Forall_impl; [|exact H]. cbn; intros a Ha; apply not_In_mem; exact Ha.
Qed.

Lemma split_at_passage : forall l w,
  Forall (fun p => ~ In c_at p) l ->
  match w with Some w => ~ In c_at w | None => True end ->
  split c_at (write_passage l w) =
    match w with Some w => [write_levels l; w] | None => [write_levels l] end.
Proof.
  intros l w Hl Hw. pose proof (mem_write_levels_at l Hl) as H.
  unfold write_passage. destruct w as [w|].
  - cbn [app]. rewrite split_app_sep by exact H.
    rewrite split_no_sep by (apply not_In_mem; exact Hw). reflexivity.
  - rewrite app_nil_r. apply split_no_sep; exact H.
Qed.

Lemma id_list_passage : forall l w, l <> [] ->
  Forall (fun p => ~ In c_dot p /\ ~ In c_at p) l ->
  match w with Some w => ~ In c_at w | None => True end ->
  id_list (write_passage l w) = l.
Proof.
  intros l w Hne Hl Hw. unfold id_list.
  rewrite split_at_passage; [|eapply Forall_impl; [|exact Hl]; cbn; tauto|exact Hw].
  assert (E : split c_dot (write_levels l) = l).
  { rewrite write_levels_join. apply split_join; [exact Hne|].
    eapply Forall_impl; [|exact Hl]. cbn; intros a [Ha _]; apply not_In_mem; exact Ha. }
  destruct w; exact E.
Qed.

Lemma id_subref_passage : forall l w,
  Forall (fun p => ~ In c_at p) l ->
  match w with Some w => ~ In c_at w | None => True end ->
  id_subref_text (write_passage l w) = w.
Proof.
  intros l w Hl Hw. unfold id_subref_text. rewrite split_at_passage by assumption.
  destruct w; reflexivity.
Qed.

Lemma id_depth_passage : forall l w, l <> [] ->
  Forall (fun p => ~ In c_dot p) l ->
  id_depth (write_passage l w) =
    length l + match w with Some w => count c_dot w | None => 0 end.
Proof.
  intros l w Hne Hl. unfold id_depth, write_passage.
  rewrite count_app, <- plus_Sn_m, count_dot_levels by assumption.
  destruct w; reflexivity.
Qed.

Lemma id_decompose : forall s, count c_at s <= 1 ->
  join [c_dot] (id_list s) ++ id_subref_or_empty s = s.
Proof.
  intros s H. unfold id_list, id_subref_or_empty, id_subref_text. rewrite join_split.
  pose proof (split_length c_at s) as HL.
  destruct (split c_at s) as [|a [|b [|c l]]] eqn:E; cbn in HL; try lia; cbn [hd].
  - apply split_one in E. rewrite app_nil_r. symmetry; apply E.
  - apply split_two in E. symmetry; apply E.
Qed.

Lemma id_list_nonnil : forall s, id_list s <> [].
Proof. intros s; apply split_nonnil. Qed.

Lemma id_list_length_le : forall s, length (id_list s) <= id_depth s.
Proof.
  intros s. unfold id_list, id_depth. rewrite split_length.
  destruct (split_decomp c_at s) as [[_ E]|[a [t [E1 [_ E2]]]]].
  - rewrite E; cbn; lia.
  - rewrite E2; cbn. subst s; rewrite count_app; lia.
Qed.

(** ** Parents *)

Lemma write_levels_nil : forall l, Forall (fun p => p <> []) l -> write_levels l = [] -> l = [].
Proof.
  intros [|p [|q l]] H E; [reflexivity|..]; inversion H; subst; cbn in E.
  - congruence.
  - destruct p; [congruence|discriminate].
Qed.

Lemma write_passage_nonnil : forall l w, plain_levels l -> write_passage l w <> [].
Proof.
  intros l w [Hne HF] E. apply app_eq_nil in E; destruct E as [E _].
  apply write_levels_nil in E; [exact (Hne E)|].
  eapply Forall_impl; [|exact HF]. intros a [Ha _]; exact Ha.
Qed.

Lemma plain_levels_parts : forall l, plain_levels l ->
  Forall (fun p => ~ In c_dot p /\ ~ In c_at p) l /\
  Forall (fun p => ~ In c_dot p) l /\ Forall (fun p => ~ In c_at p) l /\
  Forall (fun p => ~ In c_dash p) l.
Proof.
  intros l [_ H]. repeat split; (eapply Forall_impl; [|exact H]); unfold plain_level; tauto.
Qed.

Lemma plain_word_at : forall w, plain_word w ->
  match w with Some w => ~ In c_at w | None => True end.
Proof. intros [w|]; cbn; tauto. Qed.

Lemma plain_word_dots : forall w, plain_word w ->
  match w with Some w => count c_dot w | None => 0 end = 0.
Proof.
  intros [w|]; cbn; [|reflexivity]. intros [H _]. apply count_0_mem, not_In_mem; exact H.
Qed.

Lemma write_passage_no_dash : forall l w, plain_levels l -> plain_word w ->
  ~ In c_dash (write_passage l w).
Proof.
  intros l w Hl Hw. apply not_In_mem. unfold write_passage. rewrite mem_app.
  rewrite mem_write_levels_dash by (apply plain_levels_parts; exact Hl). cbn [orb].
  destruct w as [w|]; [|reflexivity]. cbn in Hw |- *. apply not_In_mem. tauto.
Qed.

(** The reference written for a passage. *)
Lemma cts_reference_passage : forall l w, plain_levels l -> plain_word w ->
  cts_reference (VStr (write_passage l w)) =
    Ok (Some (MkRef (write_passage l w) None (write_passage l w))).
Proof.
  intros l w Hl Hw. rewrite cts_reference_nonempty by (apply write_passage_nonnil; exact Hl).
  rewrite cts_reference_string_single by (apply write_passage_no_dash; assumption).
  reflexivity.
Qed.

Lemma id_depth_plain : forall l w, plain_levels l -> plain_word w ->
  id_depth (write_passage l w) = length l.
Proof.
  intros l w Hl Hw. rewrite id_depth_passage.
  - rewrite plain_word_dots by exact Hw. lia.
  - apply Hl.
  - apply plain_levels_parts; exact Hl.
Qed.

Lemma id_list_plain : forall l w, plain_levels l -> plain_word w ->
  id_list (write_passage l w) = l.
Proof.
  intros l w Hl Hw. apply id_list_passage.
  - apply Hl.
  - apply plain_levels_parts; exact Hl.
  - apply plain_word_at; exact Hw.
Qed.

Lemma id_subref_plain : forall l w, plain_levels l -> plain_word w ->
  id_subref_text (write_passage l w) = w.
Proof.
  intros l w Hl Hw. apply id_subref_passage.
  - apply plain_levels_parts; exact Hl.
  - apply plain_word_at; exact Hw.
Qed.

Lemma id_subref_or_empty_plain : forall l w, plain_levels l -> plain_word w ->
  id_subref_or_empty (write_passage l w) = match w with Some w => [c_at] ++ w | None => [] end.
Proof.
  intros l w Hl Hw. unfold id_subref_or_empty. rewrite id_subref_plain by assumption.
  destruct w; reflexivity.
Qed.

Lemma parent_top : forall x w s, plain_levels [x] -> plain_word w ->
  ref_parent (MkRef (write_passage [x] w) None s) = Ok None.
Proof.
  intros x w s Hl Hw. unfold ref_parent; cbn [r_start r_end].
  rewrite id_depth_plain by assumption. reflexivity.
Qed.

Lemma parent_step : forall l x w s, plain_levels l -> plain_level x -> plain_word w ->
  ref_parent (MkRef (write_passage (l ++ [x]) w) None s) =
    Ok (Some (MkRef (write_passage l w) None (write_passage l w))).
Proof.
  intros l x w s Hl Hx Hw.
  assert (Hlx : plain_levels (l ++ [x])).
  { split; [destruct l; discriminate|]. apply Forall_app; split; [apply Hl|].
    constructor; [exact Hx|constructor]. }
  unfold ref_parent; cbn [r_start r_end].
  rewrite id_depth_plain by assumption. rewrite app_length; cbn [length].
  assert (1 <= length l) by (destruct Hl as [Hne _]; destruct l; [congruence|cbn; lia]).
  destruct (Nat.eqb_spec (length l + 1) 1); [lia|]. cbn [andb].
  destruct (Nat.ltb_spec 1 (length l + 1)); [|lia]. cbn [andb].
  rewrite id_list_plain, id_subref_or_empty_plain by assumption.
  rewrite removelast_last, <- write_levels_join.
  change (cts_reference (VStr (write_passage l w)) =
          Ok (Some (MkRef (write_passage l w) None (write_passage l w)))).
  apply cts_reference_passage; assumption.
Qed.

(** Iterating [parent]. *)
Fixpoint parent_chain (n : nat) (o : option ref) : result (option ref) :=
  match n with
  | 0 => Ok o
  | S n' => match o with
            | None => Err AttributeError
            | Some r => p <- ref_parent r ;; parent_chain n' p
            end
  end.

Lemma plain_levels_app_l : forall l1 l2, l1 <> [] -> plain_levels (l1 ++ l2) -> plain_levels l1.
Proof.
  intros l1 l2 Hne [_ H]. split; [exact Hne|]. apply Forall_app in H; apply H.
Qed.

Lemma parent_chain_plain : forall l2 l1 w, l1 <> [] -> plain_levels (l1 ++ l2) -> plain_word w ->
  parent_chain (length l2) (Some (MkRef (write_passage (l1 ++ l2) w) None (write_passage (l1 ++ l2) w)))
  = Ok (Some (MkRef (write_passage l1 w) None (write_passage l1 w))).
Proof.
  induction l2 as [|x l2 IH] using rev_ind; intros l1 w Hne Hl Hw.
  - rewrite app_nil_r; reflexivity.
  - rewrite app_length, Nat.add_comm; cbn [length Nat.add parent_chain].
    rewrite app_assoc in Hl |- *.
    rewrite parent_step.
    + cbn [bind]. apply IH; [exact Hne| |exact Hw].
      eapply plain_levels_app_l; [|exact Hl]. destruct l1; [congruence|discriminate].
    + eapply plain_levels_app_l; [|exact Hl]. destruct l1; [congruence|discriminate].
    + destruct Hl as [_ Hl]. apply Forall_app in Hl. destruct Hl as [_ Hl].
      inversion Hl; assumption.
    + exact Hw.
Qed.

Lemma parent_chain_app : forall m n o, parent_chain (m + n) o =
  (p <- parent_chain m o ;; parent_chain n p).
Proof.
  induction m as [|m IH]; intros n o; [reflexivity|].
  cbn [Nat.add parent_chain]. destruct o as [r|]; [|reflexivity].
  destruct (ref_parent r) as [p|e]; [|reflexivity]. cbn [bind]; apply IH.
Qed.

Lemma parent_chain_end : forall l w, plain_levels l -> plain_word w ->
  parent_chain (length l) (Some (MkRef (write_passage l w) None (write_passage l w))) = Ok None.
Proof.
  intros l w Hl Hw. destruct l as [|x l]; [destruct Hl; congruence|].
  change (length (x :: l)) with (S (length l)). rewrite <- Nat.add_1_r, parent_chain_app.
  change (x :: l) with ([x] ++ l).
  rewrite parent_chain_plain; [|discriminate|exact Hl|exact Hw].
  cbn [bind parent_chain]. rewrite parent_top; [reflexivity| |exact Hw].
  apply (plain_levels_app_l [x] l); [discriminate|exact Hl].
Qed.

(** Ranges. *)
Lemma parent_range : forall l1 x1 w1 l2 x2 w2 s,
  plain_levels l1 -> plain_level x1 -> plain_word w1 ->
  plain_levels l2 -> plain_level x2 -> plain_word w2 ->
  ref_parent (MkRef (write_passage (l1 ++ [x1]) w1) (Some (write_passage (l2 ++ [x2]) w2)) s) =
  if list_eqb str_eqb l1 l2 && match w1, w2 with None, None => true | _, _ => false end
  then Ok (Some (MkRef (write_passage l1 None) None (write_passage l1 None)))
  else Ok (Some (MkRef (write_passage l1 w1) (Some (write_passage l2 w2))
                       (write_passage l1 w1 ++ [c_dash] ++ write_passage l2 w2))).
Proof.
  intros l1 x1 w1 l2 x2 w2 s Hl1 Hx1 Hw1 Hl2 Hx2 Hw2.
  assert (H1 : plain_levels (l1 ++ [x1])).
  { split; [destruct l1; discriminate|]. apply Forall_app; split; [apply Hl1|].
    constructor; [exact Hx1|constructor]. }
  assert (H2 : plain_levels (l2 ++ [x2])).
  { split; [destruct l2; discriminate|]. apply Forall_app; split; [apply Hl2|].
    constructor; [exact Hx2|constructor]. }
  assert (1 <= length l1) by (destruct Hl1 as [Hne _]; destruct l1; [congruence|cbn; lia]).
  assert (1 <= length l2) by (destruct Hl2 as [Hne _]; destruct l2; [congruence|cbn; lia]).
  unfold ref_parent; cbn [r_start r_end].
  rewrite !id_depth_plain by assumption. rewrite !app_length; cbn [length].
  destruct (Nat.eqb_spec (length l1 + 1) 1); [lia|].
  destruct (Nat.eqb_spec (length l2 + 1) 0); [lia|].
  destruct (Nat.ltb_spec 1 (length l1 + 1)); [|lia].
  destruct (Nat.ltb_spec 1 (length l2 + 1)); [|lia]. cbn [andb].
  rewrite !id_list_plain, !id_subref_or_empty_plain, !id_subref_plain by assumption.
  rewrite !removelast_last, <- !write_levels_join.
  assert (Hgo : cts_reference (VStr (write_levels l1 ++ match w1 with Some w => [c_at] ++ w | None => [] end
        ++ c_dash :: write_levels l2 ++ match w2 with Some w => [c_at] ++ w | None => [] end)) =
    Ok (Some (MkRef (write_passage l1 w1) (Some (write_passage l2 w2))
                       (write_passage l1 w1 ++ [c_dash] ++ write_passage l2 w2)))).
  { rewrite app_assoc.
    change (cts_reference (VStr (write_passage l1 w1 ++ [c_dash] ++ write_passage l2 w2)) =
            Ok (Some (MkRef (write_passage l1 w1) (Some (write_passage l2 w2))
                       (write_passage l1 w1 ++ [c_dash] ++ write_passage l2 w2)))).
    rewrite cts_reference_nonempty.
    - rewrite cts_reference_string_range by (apply write_passage_no_dash; assumption).
      reflexivity.
    - intros E. apply app_eq_nil in E. destruct E as [E _].
      revert E; apply write_passage_nonnil; exact Hl1. }
  destruct (list_eqb str_eqb l1 l2); cbn [andb]; [|exact Hgo].
  destruct w1 as [w1|]; cbn [andb]; [exact Hgo|].
  destruct w2 as [w2|]; cbn [andb]; [exact Hgo|].
  pose proof (cts_reference_passage l1 None Hl1 I) as HP. unfold write_passage in HP |- *.
  rewrite !app_nil_r in HP |- *. exact HP.
Qed.

Lemma parent_mixed : forall a b s,
  (id_depth a = 1 /\ 1 < id_depth b) \/ (1 < id_depth a /\ id_depth b = 1) ->
  ref_parent (MkRef a (Some b) s) = Ok None.
Proof.
  intros a b s H. unfold ref_parent; cbn [r_start r_end].
  destruct H as [[H1 H2]|[H1 H2]].
  - rewrite H1. destruct (Nat.leb_spec (id_depth b) 1); [lia|]. reflexivity.
  - rewrite H2. destruct (Nat.eqb_spec (id_depth a) 1); [lia|].
    destruct (Nat.ltb_spec 1 (id_depth a)); [|lia]. reflexivity.
Qed.

(** ** Word subreferences *)

Lemma take_while_app_stop : forall f s t, forallb f s = true ->
  match t with [] => True | c :: _ => f c = false end -> take_while f (s ++ t) = s.
Proof.
  intros f s t; induction s as [|x s IH]; cbn; intros H Ht.
  - destruct t as [|c t]; cbn; [reflexivity|rewrite Ht; reflexivity].
  - apply andb_true_iff in H; destruct H as [H1 H2]. rewrite H1, IH by assumption; reflexivity.
Qed.

Lemma drop_while_app_stop : forall f s t, forallb f s = true ->
  match t with [] => True | c :: _ => f c = false end -> drop_while f (s ++ t) = t.
Proof.
  intros f s t; induction s as [|x s IH]; cbn; intros H Ht.
  - destruct t as [|c t]; cbn; [reflexivity|rewrite Ht; reflexivity].
  - apply andb_true_iff in H; destruct H as [H1 H2]. rewrite H1, IH by assumption; reflexivity.
Qed.

Lemma word_counter : forall is_word w n, is_word c_lbracket = false -> forallb is_word w = true ->
  cts_word_reference is_word (w ++ [c_lbracket] ++ str_of_N n ++ [c_rbracket]) =
  MkWord (c_at :: w ++ [c_lbracket] ++ str_of_N n ++ [c_rbracket]) w n.
Proof.
  intros is_word w n Hb Hw. unfold cts_word_reference, subreference_match.
  rewrite take_while_app_stop, drop_while_app_stop by assumption.
  cbn [app]. rewrite N.eqb_refl.
  rewrite take_while_app_stop; [|apply str_of_N_digits|reflexivity].
  rewrite (proj2 (truthy_spec _) (str_of_N_nonnil n)), N_of_digits_str_of_N. reflexivity.
Qed.

Lemma word_no_counter : forall is_word w, forallb is_word w = true ->
  cts_word_reference is_word w = MkWord (c_at :: w) w 0%N.
Proof.
  intros is_word w Hw. unfold cts_word_reference, subreference_match.
  pose proof (take_while_app_stop is_word w [] Hw I) as H1.
  pose proof (drop_while_app_stop is_word w [] Hw I) as H2.
  rewrite app_nil_r in H1, H2. rewrite H1, H2. reflexivity.
Qed.

(** ** Reference sets *)

Lemma index_of_Some : forall r l i, index_of r l = Some i ->
  exists x, nth_error l i = Some x /\ ref_eqb x r = true /\
            forall j y, j < i -> nth_error l j = Some y -> ref_eqb y r = false.
Proof.
  intros r; induction l as [|x l IH]; cbn; intros i H; [discriminate|].
  destruct (ref_eqb x r) eqn:E.
  - injection H as <-. exists x; repeat split; [exact E|]. intros j y Hj; lia.
  - destruct (index_of r l) as [k|] eqn:Ek; [|discriminate]. injection H as <-.
    destruct (IH k eq_refl) as [y [H1 [H2 H3]]]. exists y; repeat split; [exact H1|exact H2|].
    intros [|j] z Hj Hz; cbn in Hz; [congruence|]. apply (H3 j z); [lia|exact Hz].
Qed.

Lemma index_of_None : forall r l, index_of r l = None <->
  existsb (fun x => ref_eqb x r) l = false.
Proof.
  intros r; induction l as [|x l IH]; cbn; [intuition|].
  destruct (ref_eqb x r); cbn; [split; discriminate|].
  destruct (index_of r l); [|tauto]. rewrite <- IH. split; discriminate.
Qed.

(** ** Statements assembled for the property file *)

Lemma parse_cases : forall s,
  (s = [] /\ cts_reference (VStr s) = Ok None) \/
  (s <> [] /\ ~ In c_dash s /\
     exists r, cts_reference (VStr s) = Ok (Some r) /\
       r_start r = s /\ r_end r = None /\ r_str r = s /\ is_range r = false) \/
  (exists a b, s = a ++ [c_dash] ++ b /\ ~ In c_dash a /\ ~ In c_dash b /\
     exists r, cts_reference (VStr s) = Ok (Some r) /\
       r_start r = a /\ r_end r = Some b /\ r_str r = s /\ is_range r = true) \/
  (exists a b c, s = a ++ [c_dash] ++ b ++ [c_dash] ++ c /\
     cts_reference (VStr s) = Err ValueError).
Proof.
  intros s. destruct (dash_cases s) as [H|[[a [b [E [Ha Hb]]]]|[a [b [c E]]]]].
  - destruct s as [|x s]; [left; auto|]. right; left.
    split; [discriminate|split; [exact H|]].
    exists (MkRef (x :: s) None (x :: s)). split; [|repeat split].
    rewrite cts_reference_nonempty by discriminate.
    rewrite cts_reference_string_single by exact H. reflexivity.
  - right; right; left. exists a, b. repeat split; try assumption.
    exists (MkRef a (Some b) s). split; [|repeat split].
    rewrite cts_reference_nonempty by (subst s; destruct a; discriminate).
    subst s. rewrite cts_reference_string_range by assumption. reflexivity.
  - right; right; right. exists a, b, c. split; [exact E|].
    rewrite cts_reference_nonempty by (subst s; destruct a; discriminate).
    subst s. rewrite cts_reference_string_err. reflexivity.
Qed.

Lemma constructors_agree : forall a b, a <> [] -> b <> [] -> ~ In c_dash a -> ~ In c_dash b ->
  cts_reference (VStr (a ++ [c_dash] ++ b)) = Ok (Some (cts_reference2 a b)) /\
  cts_reference_tuple (VStr a) (VStr b) = Ok (cts_reference2 a b) /\
  r_start (cts_reference2 a b) = a /\ r_end (cts_reference2 a b) = Some b.
Proof.
  intros a b Hna Hnb Ha Hb. repeat split.
  - rewrite cts_reference_nonempty by (destruct a; [congruence|discriminate]).
    rewrite cts_reference_string_range by assumption. reflexivity.
  - unfold cts_reference_tuple; cbn.
    destruct a; [congruence|]. destruct b; [congruence|]. reflexivity.
Qed.

Lemma tuple_roundtrip : forall s r, cts_reference (VStr s) = Ok (Some r) ->
  exists r', cts_reference_again r = Ok r' /\ ref_eqb r' r = true /\ r_str r' = s.
Proof.
  intros s r H. destruct (cts_reference_again_eq r) as [r' [H1 [H2 H3]]].
  exists r'; repeat split; try assumption. rewrite H3.
  destruct (cts_reference_str_wf _ _ H) as [_ W]. destruct (r_end r) as [e|].
  - destruct W as [_ ->]; reflexivity.
  - rewrite app_nil_r; exact W.
Qed.

Lemma passage_id_levels : forall l w, l <> [] ->
  Forall (fun p => ~ In c_dot p /\ ~ In c_at p) l ->
  match w with Some w => ~ In c_at w | None => True end ->
  id_list (write_passage l w) = l /\
  id_subref_text (write_passage l w) = w /\
  id_depth (write_passage l w) =
    length l + match w with Some w => count c_dot w | None => 0 end.
Proof.
  intros l w Hne Hl Hw. split; [apply id_list_passage; assumption|].
  split; [apply id_subref_passage; [|exact Hw]|apply id_depth_passage; [exact Hne|]];
    (eapply Forall_impl; [|exact Hl]); cbn; tauto.
Qed.

Lemma passage_id_lossless : forall s, count c_at s <= 1 ->
  write_levels (id_list s) ++
    match id_subref_text s with Some w => [c_at] ++ w | None => [] end = s /\
  1 <= length (id_list s) <= id_depth s.
Proof.
  intros s H. split.
  - rewrite write_levels_join. exact (id_decompose s H).
  - split; [|apply id_list_length_le].
    pose proof (id_list_nonnil s). destruct (id_list s); [congruence|cbn; lia].
Qed.

Lemma highest_spec : forall r,
  match r_end r with
  | None => ref_highest r = r_start r
  | Some e => (ref_highest r = r_start r /\ id_depth (r_start r) <= id_depth e) \/
              (ref_highest r = e /\ id_depth e < id_depth (r_start r))
  end.
Proof.
  intros [a [e|] s]; unfold ref_highest; cbn [r_end r_start]; [|reflexivity].
  destruct (Nat.ltb_spec (id_depth a) (id_depth e)); [left; split; [reflexivity|lia]|].
  destruct (Nat.ltb_spec (id_depth e) (id_depth a)); [right; auto|].
  left; split; [reflexivity|lia].
Qed.

Lemma depth_range_plain : forall l1 w1 l2 w2 s,
  plain_levels l1 -> plain_word w1 -> plain_levels l2 -> plain_word w2 ->
  ref_depth (MkRef (write_passage l1 w1) (Some (write_passage l2 w2)) s)
    = Nat.min (length l1) (length l2) /\
  ref_depth (MkRef (write_passage l1 w1) None s) = length l1.
Proof.
  intros l1 w1 l2 w2 s H1 W1 H2 W2. unfold ref_depth. split.
  - pose proof (highest_spec (MkRef (write_passage l1 w1) (Some (write_passage l2 w2)) s)) as H.
    cbn [r_end r_start] in H. rewrite !id_depth_plain in H by assumption.
    destruct H as [[-> H]|[-> H]]; rewrite id_list_plain by assumption; lia.
  - cbn [ref_highest r_end r_start]. rewrite id_list_plain by assumption. reflexivity.
Qed.

Lemma refset_membership : forall l s r, cts_reference (VStr s) = Ok (Some r) ->
  (refset_contains l (VStr s) = Ok true <-> exists x, In x l /\ r_start x = r_start r /\ r_end x = r_end r) /\
  (refset_contains l (VStr s) = Ok true \/ refset_contains l (VStr s) = Ok false) /\
  refset_contains_ref l r = refset_contains l (VStr s).
Proof.
  intros l s r H. unfold refset_contains. rewrite H; cbn [bind].
  split; [|split].
  - split.
    + intros E. injection E as E. apply existsb_exists in E. destruct E as [x [Hx E]].
      apply ref_eqb_spec in E. exists x; tauto.
    + intros [x [Hx E]]. f_equal. apply existsb_exists. exists x; split; [exact Hx|].
      apply ref_eqb_spec; exact E.
  - destruct (existsb _ l); auto.
  - unfold refset_contains_ref. destruct (existsb (fun x => ref_eqb x r) l) eqn:E; [reflexivity|].
    destruct (cts_reference_again_eq r) as [r' [E1 [E2 _]]]. rewrite E1; cbn [bind].
    f_equal. rewrite <- E. apply ref_eqb_spec in E2. destruct E2 as [E2 E3].
    unfold ref_eqb. rewrite E2, E3. reflexivity.
Qed.

Lemma refset_position : forall l s r i, cts_reference (VStr s) = Ok (Some r) ->
  (refset_index l (VStr s) = Ok i <->
     (exists x, nth_error l i = Some x /\ r_start x = r_start r /\ r_end x = r_end r) /\
     (forall j y, j < i -> nth_error l j = Some y ->
        ~ (r_start y = r_start r /\ r_end y = r_end r))) /\
  refset_index_ref l r = refset_index l (VStr s).
Proof.
  intros l s r i H. unfold refset_index, refset_index_ref. rewrite H; cbn [bind].
  split; [|reflexivity]. split.
  - intros E. destruct (index_of r l) as [k|] eqn:Ek; [|discriminate]. injection E as ->.
    destruct (index_of_Some r l i Ek) as [x [H1 [H2 H3]]]. split.
    + exists x; split; [exact H1|]. apply ref_eqb_spec; exact H2.
    + intros j y Hj Hy Hc. apply ref_eqb_spec in Hc. rewrite (H3 j y Hj Hy) in Hc; discriminate.
  - intros [[x [H1 H2]] H3]. apply ref_eqb_spec in H2.
    destruct (index_of r l) as [k|] eqn:Ek.
    + destruct (index_of_Some r l k Ek) as [y [G1 [G2 G3]]]. f_equal.
      destruct (lt_eq_lt_dec k i) as [[Hlt| ->]|Hgt]; [|reflexivity|].
      * exfalso. apply (H3 k y Hlt G1). apply ref_eqb_spec; exact G2.
      * rewrite (G3 i x Hgt H1) in H2; discriminate.
    + exfalso. apply index_of_None in Ek.
      assert (existsb (fun x => ref_eqb x r) l = true); [|congruence].
      apply existsb_exists. exists x; split; [apply nth_error_In in H1; exact H1|exact H2].
Qed.

Lemma refset_index_missing : forall l s r, cts_reference (VStr s) = Ok (Some r) ->
  (refset_index l (VStr s) = Err ValueError <-> refset_contains l (VStr s) = Ok false).
Proof.
  intros l s r H. unfold refset_index, refset_contains. rewrite H; cbn [bind].
  pose proof (index_of_None r l) as HN.
  destruct (index_of r l); split; intros E; try discriminate.
  - injection E as E. apply HN in E; discriminate.
  - f_equal; apply HN; reflexivity.
  - reflexivity.
Qed.

Lemma parent_range_cases : forall l1 x1 w1 l2 x2 w2 s,
  plain_levels l1 -> plain_level x1 -> plain_word w1 ->
  plain_levels l2 -> plain_level x2 -> plain_word w2 ->
  (l1 = l2 /\ w1 = None /\ w2 = None ->
   ref_parent (MkRef (write_passage (l1 ++ [x1]) w1) (Some (write_passage (l2 ++ [x2]) w2)) s)
   = Ok (Some (MkRef (write_passage l1 None) None (write_passage l1 None)))) /\
  (~ (l1 = l2 /\ w1 = None /\ w2 = None) ->
   ref_parent (MkRef (write_passage (l1 ++ [x1]) w1) (Some (write_passage (l2 ++ [x2]) w2)) s)
   = Ok (Some (MkRef (write_passage l1 w1) (Some (write_passage l2 w2))
                     (write_passage l1 w1 ++ [c_dash] ++ write_passage l2 w2)))).
Proof.
  intros l1 x1 w1 l2 x2 w2 s H1 X1 W1 H2 X2 W2.
  pose proof (parent_range l1 x1 w1 l2 x2 w2 s H1 X1 W1 H2 X2 W2) as H.
  destruct (list_eqb_spec _ str_eqb str_eqb_spec l1 l2) as [E|E]; cbn [andb] in H.
  - destruct w1 as [w1|], w2 as [w2|]; (split; [intros [_ [A B]]; try discriminate; exact H|]);
      intros HN; try exact H. exfalso; apply HN; auto.
  - split; [tauto|]. intros _; exact H.
Qed.

Lemma tuple_without_end : forall a, a <> [] ->
  cts_reference_tuple (VStr a) VNone = Ok (MkRef a None a) /\
  cts_reference_tuple (VStr a) (VStr []) = Ok (MkRef a None a) /\
  cts_reference_tuple VNone (VStr a) = Err AttributeError.
Proof. intros [|c a] H; [congruence|]. repeat split. Qed.

Lemma word_iff : forall s w,
  id_subref_text s = Some w <->
  exists a, s = a ++ [c_at] ++ w /\ ~ In c_at a /\ ~ In c_at w.
Proof.
  intros s w. unfold id_subref_text. split.
  - destruct (split c_at s) as [|a [|b [|x l]]] eqn:E; try discriminate.
    intros H; injection H as ->. apply split_two in E as (-> & A & B).
    exists a. repeat split; intros H; apply mem_In in H; congruence.
  - intros (a & -> & A & B). cbn [app].
    rewrite split_app_sep by (apply not_true_iff_false; rewrite mem_In; exact A).
    rewrite split_no_sep by (apply not_true_iff_false; rewrite mem_In; exact B). reflexivity.
Qed.
