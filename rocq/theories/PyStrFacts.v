(** Facts about the string operations of [PyStr]. *)

From Coq Require Import List NArith Arith Bool Lia.
From Coq Require Decimal DecimalN DecimalFacts DecimalPos.
From Verif Require Import PyStr.
Import ListNotations.

Lemma str_eqb_spec : forall a b, reflect (a = b) (str_eqb a b).
Proof.
  induction a as [|x a IH]; destruct b as [|y b]; cbn; try (constructor; congruence).
  destruct (N.eqb_spec x y) as [->|Hn]; cbn.
  - destruct (IH b) as [->|Hn]; constructor; congruence.
  - constructor; congruence.
Qed.

Lemma str_eqb_refl : forall a, str_eqb a a = true.
Proof. intros a; destruct (str_eqb_spec a a); congruence. Qed.

Lemma str_eqb_eq : forall a b, str_eqb a b = true <-> a = b.
Proof. intros a b; destruct (str_eqb_spec a b); split; congruence. Qed.

Lemma str_eqb_neq : forall a b, str_eqb a b = false <-> a <> b.
Proof. intros a b; destruct (str_eqb_spec a b); split; congruence. Qed.

Lemma str_eqb_sym : forall a b, str_eqb a b = str_eqb b a.
Proof.
  intros a b; destruct (str_eqb_spec a b), (str_eqb_spec b a); congruence.
Qed.

Lemma str_eq_dec : forall a b : str, {a = b} + {a <> b}.
Proof. intros a b; destruct (str_eqb_spec a b); [left|right]; assumption. Qed.

Lemma list_eqb_spec : forall A (eqb : A -> A -> bool),
  (forall a b, reflect (a = b) (eqb a b)) ->
  forall a b, reflect (a = b) (list_eqb eqb a b).
Proof.
  intros A eqb H; induction a as [|x a IH]; destruct b as [|y b]; cbn;
    try (constructor; congruence).
  destruct (H x y) as [->|Hn]; cbn.
  - destruct (IH b) as [->|Hn]; constructor; congruence.
  - constructor; congruence.
Qed.

Lemma opt_eqb_spec : forall A (eqb : A -> A -> bool),
  (forall a b, reflect (a = b) (eqb a b)) ->
  forall a b, reflect (a = b) (opt_eqb eqb a b).
Proof.
  intros A eqb H [a|] [b|]; cbn; try (constructor; congruence).
  destruct (H a b); constructor; congruence.
Qed.

(** ** [mem], [count] *)

Lemma mem_In : forall c s, mem c s = true <-> In c s.
Proof.
  intros c; induction s as [|x s IH]; cbn; [intuition discriminate|].
  rewrite orb_true_iff, N.eqb_eq, IH; reflexivity.
Qed.

Lemma mem_app : forall c s t, mem c (s ++ t) = mem c s || mem c t.
Proof.
  intros c s t; induction s as [|x s IH]; cbn; [reflexivity|].
  rewrite IH, orb_assoc; reflexivity.
Qed.

Lemma count_app : forall c s t, count c (s ++ t) = count c s + count c t.
Proof.
  intros c s t; induction s as [|x s IH]; cbn; [reflexivity|].
  destruct (N.eqb x c); rewrite IH; reflexivity.
Qed.

Lemma count_0_mem : forall c s, count c s = 0 <-> mem c s = false.
Proof.
  intros c; induction s as [|x s IH]; cbn; [intuition|].
  destruct (N.eqb x c); cbn; [split; discriminate|exact IH].
Qed.

Lemma count_pos_mem : forall c s, mem c s = true <-> 1 <= count c s.
Proof.
  intros c s. destruct (mem c s) eqn:E.
  - split; [|reflexivity]. intros _.
    destruct (count c s) eqn:E'; [|lia].
    apply count_0_mem in E'; congruence.
  - apply count_0_mem in E. split; [discriminate|lia].
Qed.

(** ** [split] and [join] *)

Lemma split_nonnil : forall c s, split c s <> [].
Proof.
  intros c [|x s]; cbn; [discriminate|].
  destruct (N.eqb x c); [discriminate|].
  destruct (split c s); discriminate.
Qed.

Lemma split_cons : forall c s, exists p ps, split c s = p :: ps.
Proof.
  intros c s; destruct (split c s) as [|p ps] eqn:E.
  - exfalso; exact (split_nonnil c s E).
  - eauto.
Qed.

Lemma split_length : forall c s, length (split c s) = S (count c s).
Proof.
  intros c; induction s as [|x s IH]; cbn; [reflexivity|].
  destruct (N.eqb x c); cbn; [rewrite IH; reflexivity|].
  destruct (split_cons c s) as [p [ps E]]; rewrite E in *; cbn in *; exact IH.
Qed.

Lemma join_cons : forall sep p ps, ps <> [] ->
  join sep (p :: ps) = p ++ sep ++ join sep ps.
Proof. intros sep p [|q ps] H; [congruence|reflexivity]. Qed.

Lemma join_cons_char : forall sep x p ps,
  join sep ((x :: p) :: ps) = x :: join sep (p :: ps).
Proof. intros sep x p [|q ps]; reflexivity. Qed.

Lemma join_split : forall c s, join [c] (split c s) = s.
Proof.
  intros c; induction s as [|x s IH]; cbn [split]; [reflexivity|].
  destruct (N.eqb_spec x c) as [->|Hn].
  - rewrite join_cons by apply split_nonnil. cbn. rewrite IH; reflexivity.
  - destruct (split_cons c s) as [p [ps E]]; rewrite E in IH |- *.
    rewrite join_cons_char. f_equal; exact IH.
Qed.

Lemma split_no_sep : forall c s, mem c s = false -> split c s = [s].
Proof.
  intros c; induction s as [|x s IH]; cbn; [reflexivity|].
  intros H; apply orb_false_iff in H; destruct H as [H1 H2].
  rewrite H1, (IH H2); reflexivity.
Qed.

Lemma split_app_sep : forall c a s, mem c a = false ->
  split c (a ++ c :: s) = a :: split c s.
Proof.
  intros c; induction a as [|x a IH]; cbn; intros s H.
  - rewrite N.eqb_refl; reflexivity.
  - apply orb_false_iff in H; destruct H as [H1 H2].
    rewrite H1, (IH s H2); reflexivity.
Qed.

Lemma split_join : forall c l, l <> [] ->
  Forall (fun p => mem c p = false) l -> split c (join [c] l) = l.
Proof.
  intros c; induction l as [|p l IH]; intros Hne HF; [congruence|].
  inversion HF as [|? ? Hp HF']; subst.
  destruct l as [|q l].
  - cbn; apply split_no_sep; exact Hp.
  - rewrite join_cons by discriminate.
    change (p ++ [c] ++ join [c] (q :: l)) with (p ++ c :: join [c] (q :: l)).
    rewrite split_app_sep by exact Hp.
    rewrite IH; [reflexivity|discriminate|exact HF'].
Qed.

Lemma split_parts_no_sep : forall c s, Forall (fun p => mem c p = false) (split c s).
Proof.
  intros c; induction s as [|x s IH]; cbn; [repeat constructor|].
  destruct (N.eqb x c) eqn:E; [constructor; [reflexivity|exact IH]|].
  destruct (split_cons c s) as [p [ps E']]; rewrite E' in *.
  inversion IH; subst; constructor; [cbn; rewrite E; assumption|assumption].
Qed.

Lemma split_inj : forall c s t, split c s = split c t -> s = t.
Proof.
  intros c s t H. rewrite <- (join_split c s), <- (join_split c t), H; reflexivity.
Qed.

Lemma split_one : forall c s p, split c s = [p] -> s = p /\ mem c s = false.
Proof.
  intros c s p H.
  assert (Hs : s = p) by (rewrite <- (join_split c s), H; reflexivity).
  split; [exact Hs|]. apply count_0_mem.
  pose proof (split_length c s) as HL; rewrite H in HL; cbn in HL; lia.
Qed.

Lemma split_two : forall c s p q, split c s = [p; q] ->
  s = p ++ c :: q /\ mem c p = false /\ mem c q = false.
Proof.
  intros c s p q H.
  assert (Hs : s = p ++ c :: q) by (rewrite <- (join_split c s), H; reflexivity).
  pose proof (split_parts_no_sep c s) as HF; rewrite H in HF.
  inversion HF as [|? ? H1 HF1]; inversion HF1; subst; auto.
Qed.

Lemma split_hd_app : forall c a s, mem c a = false ->
  hd [] (split c (a ++ c :: s)) = a.
Proof. intros; rewrite split_app_sep by assumption; reflexivity. Qed.

Lemma split_hd_no_sep : forall c s, mem c (hd [] (split c s)) = false.
Proof.
  intros c s. pose proof (split_parts_no_sep c s) as H.
  destruct (split_cons c s) as [p [ps E]]; rewrite E in *.
  inversion H; subst; assumption.
Qed.

Lemma split_decomp : forall c s,
  (mem c s = false /\ split c s = [s]) \/
  (exists a t, s = a ++ c :: t /\ mem c a = false /\ split c s = a :: split c t).
Proof.
  intros c; induction s as [|x s IH]; [left; split; reflexivity|].
  cbn. destruct (N.eqb_spec x c) as [->|Hn].
  - right; exists [], s; repeat split.
  - destruct IH as [[H1 H2]|[a [t [H1 [H2 H3]]]]].
    + left; rewrite H2; split; [exact H1|reflexivity].
    + right; exists (x :: a), t. rewrite H3; subst s; cbn.
      destruct (N.eqb_spec x c); [congruence|]. repeat split; exact H2.
Qed.

Lemma split_hd_mem : forall c d s, mem d (hd [] (split c s)) = true -> mem d s = true.
Proof.
  intros c d s H. destruct (split_decomp c s) as [[_ E]|[a [t [E1 [_ E2]]]]].
  - rewrite E in H; exact H.
  - rewrite E2 in H; cbn in H. subst s; rewrite mem_app, H; reflexivity.
Qed.

Lemma split_hd_count : forall c d s, d <> c ->
  count d (hd [] (split c s)) + count d (join [c] (tl (split c s))) = count d s.
Proof.
  intros c d s Hdc. destruct (split_decomp c s) as [[_ E]|[a [t [E1 [_ E2]]]]].
  - rewrite E; cbn; lia.
  - rewrite E2; cbn. subst s. rewrite join_split, count_app; cbn.
    destruct (N.eqb_spec c d); [congruence|lia].
Qed.

Lemma join_app : forall sep l1 l2, l1 <> [] -> l2 <> [] ->
  join sep (l1 ++ l2) = join sep l1 ++ sep ++ join sep l2.
Proof.
  induction l1 as [|p l1 IH]; intros l2 H1 H2; [congruence|].
  destruct l1 as [|q l1].
  - cbn [app]. rewrite join_cons by assumption. reflexivity.
  - cbn [app]. rewrite join_cons by discriminate.
    change (q :: l1 ++ l2) with ((q :: l1) ++ l2).
    rewrite IH by (assumption || discriminate).
    rewrite (join_cons sep p (q :: l1)) by discriminate.
    rewrite !app_assoc; reflexivity.
Qed.

Lemma mem_join : forall d sep l,
  mem d sep = false -> Forall (fun p => mem d p = false) l -> mem d (join sep l) = false.
Proof.
  intros d sep l Hs; induction l as [|p l IH]; intros HF; [reflexivity|].
  inversion HF; subst. destruct l as [|q l]; [cbn; assumption|].
  rewrite join_cons by discriminate. rewrite !mem_app, IH by assumption.
  rewrite Hs. destruct (mem d p); [discriminate|reflexivity].
Qed.

(** ** [startswith] *)

Lemma startswith_spec : forall s p, startswith s p = true <-> exists t, s = p ++ t.
Proof.
  intros s p; revert s; induction p as [|y p IH]; intros s.
  - split; [intros _; exists s; reflexivity|].
    intros _; destruct s; reflexivity.
  - destruct s as [|x s]; cbn.
    + split; [discriminate|intros [t H]; discriminate].
    + rewrite andb_true_iff, N.eqb_eq, IH. split.
      * intros [-> [t ->]]; exists t; reflexivity.
      * intros [t H]; inversion H; subst; split; [reflexivity|exists t; reflexivity].
Qed.

Lemma startswith_app : forall p t, startswith (p ++ t) p = true.
Proof. intros; apply startswith_spec; eauto. Qed.

(** ** Truthiness *)

Lemma truthy_spec : forall s, truthy s = true <-> s <> [].
Proof. intros [|x s]; cbn; split; congruence. Qed.

(** ** Decimal notation *)

Lemma str_of_uint_digits : forall u, forallb is_digit (str_of_uint u) = true.
Proof. induction u; cbn; auto. Qed.

Lemma N_of_digits_uint_acc : forall u acc,
  fold_left (fun acc c => (10 * acc + (c - 48))%N) (str_of_uint u) (Npos acc)
  = Npos (Pos.of_uint_acc u acc).
Proof.
  induction u; intros acc; cbn [str_of_uint fold_left Pos.of_uint_acc];
    [reflexivity|..];
    match goal with
    | |- fold_left _ _ ?x = Npos (Pos.of_uint_acc _ ?y) =>
        replace x with (Npos y) by (change (Npos y) with (Npos y); lia); apply IHu
    end.
Qed.

Lemma N_of_digits_uint : forall u, N_of_digits (str_of_uint u) = N.of_uint u.
Proof.
  unfold N_of_digits, N.of_uint.
  induction u; cbn [str_of_uint fold_left Pos.of_uint]; [reflexivity|..];
    cbn -[fold_left N.mul N.add];
    match goal with
    | |- fold_left _ _ ?x = Npos (Pos.of_uint_acc _ ?y) =>
        replace x with (Npos y) by reflexivity; apply N_of_digits_uint_acc
    | _ => idtac
    end.
  replace (10 * 0 + (48 - 48))%N with 0%N by reflexivity. exact IHu.
Qed.

Lemma N_of_digits_str_of_N : forall n, N_of_digits (str_of_N n) = n.
Proof.
  intros n; unfold str_of_N. rewrite N_of_digits_uint. apply DecimalN.Unsigned.of_to.
Qed.

Lemma str_of_N_digits : forall n, forallb is_digit (str_of_N n) = true.
Proof. intros; apply str_of_uint_digits. Qed.

Lemma str_of_N_nonnil : forall n, str_of_N n <> [].
Proof.
  intros [|p]; [discriminate|]. unfold str_of_N; cbn [N.to_uint].
  pose proof (DecimalPos.Unsigned.to_uint_nonnil p) as H.
  destruct (Pos.to_uint p); cbn; congruence.
Qed.

Lemma str_of_N_inj : forall a b, str_of_N a = str_of_N b -> a = b.
Proof.
  intros a b H. rewrite <- (N_of_digits_str_of_N a), <- (N_of_digits_str_of_N b), H.
  reflexivity.
Qed.

Lemma str_of_nat_inj : forall a b, str_of_nat a = str_of_nat b -> a = b.
Proof. intros a b H; apply Nnat.Nat2N.inj, str_of_N_inj; exact H. Qed.

Lemma digit_not : forall c s, is_digit c = false -> forallb is_digit s = true ->
  mem c s = false.
Proof.
  intros c s Hc; induction s as [|x s IH]; cbn; [reflexivity|].
  intros H; apply andb_true_iff in H; destruct H as [H1 H2].
  rewrite (IH H2), orb_false_r.
  destruct (N.eqb_spec x c); [congruence|reflexivity].
Qed.

(** ** Dictionaries *)

Lemma dget_dset_same : forall A k (v : A) d, dget k (dset k v d) = Some v.
Proof.
  intros A k v; induction d as [|[k' v'] d IH]; cbn.
  - rewrite str_eqb_refl; reflexivity.
  - destruct (str_eqb k' k) eqn:E; cbn; rewrite E; [reflexivity|exact IH].
Qed.

Lemma dget_dset_other : forall A k k' (v : A) d, k <> k' ->
  dget k (dset k' v d) = dget k d.
Proof.
  intros A k k' v d Hn; induction d as [|[k0 v0] d IH]; cbn.
  - destruct (str_eqb_spec k' k); [congruence|reflexivity].
  - destruct (str_eqb_spec k0 k') as [->|H0]; cbn.
    + destruct (str_eqb_spec k' k); [congruence|reflexivity].
    + destruct (str_eqb k0 k); [reflexivity|exact IH].
Qed.

Lemma dget_In : forall A k (v : A) d, dget k d = Some v -> In (k, v) d.
Proof.
  intros A k v; induction d as [|[k' v'] d IH]; cbn; [discriminate|].
  destruct (str_eqb_spec k' k) as [->|H].
  - intros E; injection E as ->; left; reflexivity.
  - intros E; right; exact (IH E).
Qed.

Lemma dget_None : forall A k (d : list (str * A)), dget k d = None <-> ~ In k (keys d).
Proof.
  intros A k; induction d as [|[k' v'] d IH]; cbn; [intuition|].
  destruct (str_eqb_spec k' k) as [->|H].
  - split; [discriminate|]. intros HN; exfalso; apply HN; left; reflexivity.
  - rewrite IH. unfold keys. intuition congruence.
Qed.

Lemma dget_Some_key : forall A k (d : list (str * A)),
  (exists v, dget k d = Some v) <-> In k (keys d).
Proof.
  intros A k d. destruct (dget k d) as [v|] eqn:E.
  - split; [|eauto]. intros _. apply (in_map fst) in E || idtac.
    apply dget_In in E. apply (in_map fst) in E. exact E.
  - apply dget_None in E. split; [intros [v H]; discriminate|contradiction].
Qed.

Lemma In_dget_NoDup : forall A k (v : A) d, NoDup (keys d) -> In (k, v) d -> dget k d = Some v.
Proof.
  intros A k v; induction d as [|[k' v'] d IH]; cbn; intros HN HI; [contradiction|].
  inversion HN as [|? ? Hni HN']; subst. destruct HI as [HI|HI].
  - injection HI as -> ->; rewrite str_eqb_refl; reflexivity.
  - destruct (str_eqb_spec k' k) as [->|H]; [|exact (IH HN' HI)].
    exfalso; apply Hni. apply (in_map fst) in HI; exact HI.
Qed.

Lemma keys_dset : forall A k (v : A) d,
  keys (dset k v d) = if existsb (fun k' => str_eqb k' k) (keys d) then keys d else keys d ++ [k].
Proof.
  intros A k v; induction d as [|[k' v'] d IH]; cbn; [reflexivity|].
  destruct (str_eqb k' k) eqn:E; cbn; [reflexivity|].
  unfold keys in *; rewrite IH. destruct (existsb _ _); reflexivity.
Qed.

Lemma In_keys_dset : forall A k k' (v : A) d,
  In k' (keys (dset k v d)) <-> k' = k \/ In k' (keys d).
Proof.
  intros A k k' v; induction d as [|[k0 v0] d IH]; cbn; [intuition|].
  destruct (str_eqb_spec k0 k) as [->|H]; cbn.
  - intuition.
  - unfold keys in *; rewrite IH; intuition.
Qed.

Lemma NoDup_keys_dset : forall A k (v : A) d, NoDup (keys d) -> NoDup (keys (dset k v d)).
Proof.
  intros A k v; induction d as [|[k0 v0] d IH]; cbn; intros HN.
  - repeat constructor; intuition.
  - inversion HN as [|? ? Hni HN']; subst.
    destruct (str_eqb_spec k0 k) as [->|H]; cbn.
    + constructor; assumption.
    + constructor; [|exact (IH HN')].
      intros HI; apply In_keys_dset in HI. destruct HI as [HI|HI]; [congruence|contradiction].
Qed.

Lemma dget_ddel_same : forall A k (d : list (str * A)), NoDup (keys d) -> dget k (ddel k d) = None.
Proof.
  intros A k; induction d as [|[k0 v0] d IH]; cbn; intros HN; [reflexivity|].
  inversion HN as [|? ? Hni HN']; subst.
  destruct (str_eqb_spec k0 k) as [->|H]; cbn.
  - apply dget_None; exact Hni.
  - destruct (str_eqb_spec k0 k); [congruence|exact (IH HN')].
Qed.

Lemma dget_ddel_other : forall A k k' (d : list (str * A)), k <> k' ->
  dget k (ddel k' d) = dget k d.
Proof.
  intros A k k' d Hn; induction d as [|[k0 v0] d IH]; cbn; [reflexivity|].
  destruct (str_eqb_spec k0 k') as [->|H0]; cbn.
  - destruct (str_eqb_spec k' k); [congruence|reflexivity].
  - destruct (str_eqb k0 k); [reflexivity|exact IH].
Qed.

Lemma In_keys_ddel : forall A k k' (d : list (str * A)), In k' (keys (ddel k d)) -> In k' (keys d).
Proof.
  intros A k k'; induction d as [|[k0 v0] d IH]; cbn; [contradiction|].
  destruct (str_eqb k0 k); cbn; intuition.
Qed.

Lemma NoDup_keys_ddel : forall A k (d : list (str * A)), NoDup (keys d) -> NoDup (keys (ddel k d)).
Proof.
  intros A k; induction d as [|[k0 v0] d IH]; cbn; intros HN; [constructor|].
  inversion HN as [|? ? Hni HN']; subst.
  destruct (str_eqb k0 k); cbn; [exact HN'|].
  constructor; [|exact (IH HN')]. intros HI; apply In_keys_ddel in HI; contradiction.
Qed.
