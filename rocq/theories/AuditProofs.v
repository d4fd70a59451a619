(** Checking a local text: proofs. *)

From Coq Require Import List NArith ZArith Arith Bool Lia Permutation.
From Verif Require Import PyStr PyStrFacts RefModel CiteModel CiteSpec CiteProofs SchemeModel UrnModel.
From Verif Require Import XmlModel XmlSpec XmlProofs XPathModel TemplateSpec TemplateProofs PassageModel PassageSpec PassageProofs PassageApi.
From Verif Require Import AuditModel AuditSpec.
From Verif Require Import PassageCheck.
Import ListNotations.

(** ** The same result *)

Lemma audited_same : forall scheme same order self level reference,
  snd (audited_reff scheme same order self level reference) = valid_reff scheme same self level reference.
Proof.
  intros scheme same order self level reference. unfold audited_reff, valid_reff, listed_references.
  destruct (reff_start scheme same self level reference) as [[[xml parts] lv]|e]; [|reflexivity]. cbn [bind].
  destruct (_ <? _)%Z; [reflexivity|]. destruct (extend_times _ _ _ _) as [ps|e]; [|reflexivity]. cbn [bind].
  destruct (mapM (join_opt c_dot) ps); reflexivity.
Qed.

(** ** Sets *)

Lemma existsb_In : forall s l, existsb (str_eqb s) l = true <-> In s l.
Proof.
  intros s l. rewrite existsb_exists. split.
  - intros (y & Hy & E). destruct (str_eqb_spec s y); [subst; exact Hy|discriminate].
  - intros H. exists s. split; [exact H|]. destruct (str_eqb_spec s s); congruence.
Qed.
Lemma In_set_add : forall s t l, In s (set_add t l) <-> s = t \/ In s l.
Proof.
  intros s t l. unfold set_add. destruct (existsb (str_eqb t) l) eqn:E; cbn.
  - apply existsb_In in E. split; [auto|]. intros [->|H]; auto.
  - split; intros [H|H]; auto.
Qed.
Lemma NoDup_set_add : forall t l, NoDup l -> NoDup (set_add t l).
Proof.
  intros t l H. unfold set_add. destruct (existsb (str_eqb t) l) eqn:E; [exact H|]. constructor; [|exact H].
  intros I. apply existsb_In in I. congruence.
Qed.

Lemma duplicates_spec : forall l seen dups s,
  In s (duplicates_of seen dups l) <-> In s dups \/ (In s seen /\ In s l) \/ 2 <= count_occ str_eq_dec l s.
Proof.
  induction l as [|n l IH]; intros seen dups s; cbn [duplicates_of count_occ].
  - split; [auto|]. intros [H|[[_ []]|H]]; [exact H|cbn in H; lia].
  - destruct (existsb (str_eqb n) seen) eqn:E.
    + apply existsb_In in E. rewrite IH, In_set_add. cbn [In]. destruct (str_eq_dec n s) as [->|N].
      * split; [auto|]. auto.
      * split; [intros [[H|H]|[H|H]]; [congruence|tauto|tauto|tauto]|]. intros [H|[[H [H'|H']]|H]]; [auto|congruence|auto|auto].
    + assert (Hn : ~ In n seen) by (intros I; apply existsb_In in I; congruence).
      rewrite IH, In_set_add. cbn [In]. destruct (str_eq_dec n s) as [->|N].
      * split.
        { intros [H|[[_ H]|H]]; [auto| |right; right; lia]. right; right. apply (count_occ_In str_eq_dec) in H. lia. }
        { intros [H|[[H _]|H]]; [auto|contradiction|]. right; left. split; [auto|]. apply (count_occ_In str_eq_dec). lia. }
      * split.
        { intros [H|[[[H|H] H']|H]]; [auto|congruence|auto|auto]. }
        { intros [H|[[H [H'|H']]|H]]; [auto|congruence|auto|auto]. }
Qed.
Lemma duplicates_once : forall l seen dups, NoDup dups -> NoDup (duplicates_of seen dups l).
Proof.
  induction l as [|n l IH]; intros seen dups H; cbn [duplicates_of]; [exact H|].
  destruct (existsb (str_eqb n) seen); apply IH; [apply NoDup_set_add|]; exact H.
Qed.

(** ** Empty references *)

Lemma rstrip_dot_last : forall s, rstrip_dot s <> s <-> exists t, s = t ++ [c_dot].
Proof.
  assert (A : forall s, exists t n, s = rstrip_dot s ++ repeat c_dot n /\ (n = 0 \/ t = 0)).
  { induction s as [|c s (t & n & E & _)]; [exists 0, 0; auto|]. cbn [rstrip_dot]. destruct (rstrip_dot s) as [|d r] eqn:R.
    - destruct (N.eqb_spec c c_dot) as [->|N].
      + exists 0, (S n). cbn. rewrite E at 1. auto.
      + exists 0, n. cbn. rewrite E at 1. auto.
    - exists 0, n. rewrite E at 1. auto. }
  intros s. split.
  - intros H. destruct (A s) as (_ & n & E & _). destruct n as [|n]; [cbn in E; rewrite app_nil_r in E; congruence|].
    exists (rstrip_dot s ++ repeat c_dot n). rewrite E at 1. rewrite <- app_assoc. f_equal.
    clear. induction n; [reflexivity|]. cbn. f_equal. exact IHn.
  - intros [t ->] E.
    assert (B : forall t, rstrip_dot (t ++ [c_dot]) = rstrip_dot t).
    { clear. induction t as [|c t IH]; [reflexivity|]. cbn [app rstrip_dot]. rewrite IH. reflexivity. }
    assert (C : forall t, length (rstrip_dot t) <= length t).
    { clear. induction t as [|c t IH]; [cbn; lia|]. cbn [rstrip_dot]. destruct (rstrip_dot t); [destruct (N.eqb c c_dot)|]; cbn in *; lia. }
    rewrite B in E. specialize (C t). apply (f_equal (@length _)) in E. rewrite app_length in E. cbn in E. lia.
Qed.

Lemma join_last : forall c v, c <> [] -> join [c_dot] (c ++ [v]) = join [c_dot] c ++ [c_dot] ++ v.
Proof.
  induction c as [|a c IH]; intros v H; [congruence|]. destruct c as [|b c].
  - reflexivity.
  - change ((a :: b :: c) ++ [v]) with (a :: ((b :: c) ++ [v])). rewrite (join_cons [c_dot] a ((b :: c) ++ [v])) by discriminate.
    rewrite (join_cons [c_dot] a (b :: c)) by discriminate. rewrite IH by discriminate. rewrite <- !app_assoc. reflexivity.
Qed.

Lemma counts_empty_spec : forall c, c <> [] -> Forall tidy c -> counts_empty (join [c_dot] c) = nothing (last c []).
Proof.
  intros c Hc Ht. destruct (exists_last Hc) as (d & v & ->). rewrite last_last. apply Forall_app in Ht. destruct Ht as [_ Ht].
  inversion Ht as [|? ? [Hv _] _]; subst. unfold counts_empty.
  assert (K : forall t, t <> [] -> (exists u, t ++ v = u ++ [c_dot]) -> v = [] \/ In c_dot v).
  { intros t _ [u E]. destruct v as [|a v'] using rev_ind; [auto|]. right. rewrite app_assoc in E. apply app_inj_tail in E.
    destruct E as [_ <-]. apply in_or_app. right. left. reflexivity. }
  destruct d as [|a d].
  - cbn [app join]. destruct v as [|b v]; [reflexivity|]. cbn [nothing].
    replace (str_eqb (b :: v) []) with false by (destruct (str_eqb_spec (b :: v) []); congruence). rewrite orb_false_r.
    apply negb_false_iff. destruct (str_eqb_spec (rstrip_dot (b :: v)) (b :: v)) as [E|E]; [reflexivity|]. exfalso.
    apply rstrip_dot_last in E. destruct E as [t E]. apply Hv. rewrite E. apply in_or_app. right. left. reflexivity.
  - rewrite join_last by discriminate. set (h := join [c_dot] (a :: d)).
    replace (str_eqb (h ++ [c_dot] ++ v) []) with false by (destruct (str_eqb_spec (h ++ [c_dot] ++ v) []) as [E|]; [destruct h; discriminate|reflexivity]).
    rewrite orb_false_r. destruct v as [|b v]; cbn [nothing].
    + apply negb_true_iff. destruct (str_eqb_spec (rstrip_dot (h ++ [c_dot] ++ [])) (h ++ [c_dot] ++ [])) as [E|E]; [|reflexivity]. exfalso.
      revert E. apply rstrip_dot_last. exists h. reflexivity.
    + apply negb_false_iff. destruct (str_eqb_spec (rstrip_dot (h ++ [c_dot] ++ b :: v)) (h ++ [c_dot] ++ b :: v)) as [E|E]; [reflexivity|]. exfalso.
      apply rstrip_dot_last in E. rewrite app_assoc in E. destruct (K (h ++ [c_dot])) as [X|X]; [destruct h; discriminate|exact E|discriminate|].
      exact (Hv X).
Qed.

(** ** The enumeration, for identifiers that may be empty *)

Section Level.
Variables (levels : list level) (x : node).
Hypothesis Hwf : Forall wf_level levels.
Hypothesis Htidy : tidy_units levels x.

Lemma cited_tidy : forall comps p, length comps <= length levels -> cites levels x comps p -> Forall tidy comps.
Proof using Hwf Htidy.
  induction comps as [|v comps IH] using rev_ind; intros p Hl H; [constructor|]. rewrite app_length in Hl. cbn in Hl.
  destruct (cites_prefix levels x _ _ _ H) as (a & b & -> & Ha). apply Forall_app. split; [apply (IH a); [lia|exact Ha]|].
  constructor; [|constructor]. destruct (nth_error levels (length comps)) as [lv|] eqn:E; [|apply nth_error_None in E; lia].
  destruct (selects_at _ _ _ H) as [n Hn]. apply (open_slot levels x Hwf comps lv (a ++ b) n v E Hn) in H. destruct H as [H Hv].
  apply (Htidy (length comps) lv (a ++ b) n v E); auto. apply open_unit. exact H.
Qed.

Lemma texts_spec : forall L, mapM (join_opt c_dot) (map (map Some) L) = Ok (map (join [c_dot]) L).
Proof.
  intros L. rewrite mapM_map. apply mapM_ok. intros c _. unfold join_opt. rewrite some_all_map. reflexivity.
Qed.

Section At.
Variables (parts : list str) (k : nat).
Hypothesis Hk : length parts < k <= length levels.
Definition all := enum levels x (k - length parts) parts.

Lemma all_checked : forall comps, In comps all <-> checked levels x parts k comps.
Proof using Hwf Hk.
  intros comps. unfold all, checked. rewrite In_enum by (exact Hwf || lia). split.
  - intros (H1 & H2 & H3). split; [lia|auto].
  - intros (H1 & H2 & H3). split; [exact H2|]. split; [lia|exact H3].
Qed.

Lemma all_tidy : forall comps, In comps all -> comps <> [] /\ Forall tidy comps.
Proof using Hwf Htidy Hk.
  intros comps H. apply all_checked in H. destruct H as (H1 & _ & p & H2). split; [intros ->; cbn in H1; lia|].
  apply (cited_tidy comps p); [lia|exact H2].
Qed.

Lemma cited_paths_spec : forall comps p, comps <> [] -> (In p (cited_paths levels x comps) <-> cites levels x comps p).
Proof using Hk.
  intros comps p H. apply In_xpath. apply mean_nonnil; [intros E; rewrite E in Hk; cbn in Hk; lia|]. destruct comps; [congruence|discriminate].
Qed.

Lemma all_count : forall dec rest, length (parts ++ rest) = k ->
  count_occ dec all (parts ++ rest) =
  product (map (fun j => length (cited_paths levels x (firstn j (parts ++ rest)))) (seq (S (length parts)) (k - length parts))).
Proof using Hwf Hk.
  intros dec rest H. rewrite app_length in H. pose proof (count_enum levels x Hwf (k - length parts) parts rest ltac:(lia) ltac:(lia)) as E.
  assert (D : count_occ dec all (parts ++ rest) = count_occ comps_dec all (parts ++ rest)).
  { clear. induction all as [|a l IH]; [reflexivity|]. cbn. destruct (dec a (parts ++ rest)), (comps_dec a (parts ++ rest)); try congruence. }
  rewrite D. unfold all. rewrite E.
  assert (G : forall m a, fold_right Nat.mul 1 (map (fun j => length (cited_paths levels x (parts ++ firstn j rest))) (seq a m)) =
    product (map (fun j => length (cited_paths levels x (firstn j (parts ++ rest)))) (seq (length parts + a) m))).
  { induction m as [|m IH]; intros a; [reflexivity|]. cbn [seq map fold_right product]. rewrite IH, firstn_app_2.
    replace (length parts + S a) with (S (length parts + a)) by lia. reflexivity. }
  rewrite G. replace (length parts + 1) with (S (length parts)) by lia. reflexivity.
Qed.

Lemma all_tallied : tallied levels x parts k all.
Proof using Hwf Hk.
  split; [exact all_checked|]. intros dec comps H1 [rest ->].
  exists (fun j => cited_paths levels x (firstn j (parts ++ rest))). split.
  - intros j Hj. split; [apply SSorted_before_NoDup, xpath_sorted|]. intros p. apply cited_paths_spec.
    intros E. apply (f_equal (@length _)) in E. rewrite firstn_length in E. cbn in E. lia.
  - apply all_count. exact H1.
Qed.

Lemma product_two : forall l, 2 <= product l <-> (forall n, In n l -> 1 <= n) /\ exists n, In n l /\ 2 <= n.
Proof.
  induction l as [|n l IH]; cbn [product].
  - split; [lia|]. intros (_ & n & [] & _).
  - assert (P : 1 <= product l <-> forall m, In m l -> 1 <= m).
    { clear. induction l as [|n l IH]; cbn [product]; [split; [intros _ m []|lia]|]. split.
      - intros H m [<-|Hm]; [destruct n; cbn in H; lia|]. apply IH; [|exact Hm]. destruct (product l); [rewrite Nat.mul_0_r in H; lia|lia].
      - intros H. assert (1 <= n) by (apply H; left; reflexivity). assert (1 <= product l) by (apply IH; intros m Hm; apply H; right; exact Hm). nia. }
    split.
    + intros H. assert (Hn : 1 <= n) by (destruct n; cbn in H; lia).
      assert (Hp : 1 <= product l) by (destruct (product l); [rewrite Nat.mul_0_r in H; lia|lia]). split.
      * intros m [<-|Hm]; [exact Hn|]. apply P; assumption.
      * destruct (Nat.le_gt_cases 2 n); [exists n; split; [left; reflexivity|assumption]|]. assert (n = 1) by lia. subst n.
        rewrite Nat.mul_1_l in H. apply IH in H. destruct H as (_ & m & Hm & H2). exists m. split; [right; exact Hm|exact H2].
    + intros (H1 & m & [<-|Hm] & H2).
      * assert (1 <= product l) by (apply P; intros m Hm; apply H1; right; exact Hm). nia.
      * assert (2 <= product l) by (apply IH; split; [intros m' Hm'; apply H1; right; exact Hm'|eauto]).
        assert (1 <= n) by (apply H1; left; reflexivity). nia.
Qed.

Lemma two_distinct : forall A (l : list A), NoDup l -> (2 <= length l <-> exists p q, p <> q /\ In p l /\ In q l).
Proof.
  intros A l H. split.
  - destruct l as [|p [|q l]]; cbn; try lia. intros _. exists p, q. inversion H as [|? ? N _]; subst. split; [|auto].
    intros ->. apply N. left. reflexivity.
  - intros (p & q & N & Hp & Hq). destruct l as [|a [|b l]]; cbn; [destruct Hp| |lia].
    destruct Hp as [<-|[]], Hq as [<-|[]]; congruence.
Qed.

Lemma count_repeated : forall dec comps, checked levels x parts k comps ->
  (2 <= count_occ dec all comps <-> repeated levels x (length parts) comps).
Proof using Hwf Hk.
  intros dec comps (H1 & [rest ->] & p0 & Hp0). rewrite all_count by exact H1. rewrite product_two.
  assert (Hne : forall j, 0 < j <= k -> firstn j (parts ++ rest) <> []).
  { intros j Hj E. apply (f_equal (@length _)) in E. rewrite firstn_length, H1 in E. cbn in E. lia. }
  assert (Hone : forall j, 0 < j <= k -> 1 <= length (cited_paths levels x (firstn j (parts ++ rest)))).
  { intros j Hj. pose proof Hp0 as Hc. rewrite <- (firstn_skipn j (parts ++ rest)) in Hc. apply cites_prefix in Hc.
    destruct Hc as (a & b & _ & Ha). apply (cited_paths_spec _ _ (Hne j Hj)) in Ha. destruct (cited_paths _ _ _); [destruct Ha|cbn; lia]. }
  split.
  - intros (_ & n & Hn & H2). apply in_map_iff in Hn. destruct Hn as (j & <- & Hj). apply in_seq in Hj.
    apply two_distinct in H2; [|apply SSorted_before_NoDup, xpath_sorted]. destruct H2 as (p & q & N & Hp & Hq).
    assert (Hj' : 0 < j <= k) by lia. exists j, p, q. split; [rewrite H1; lia|]. split; [exact N|].
    split; apply (cited_paths_spec _ _ (Hne j Hj')); assumption.
  - intros (j & p & q & Hj & N & Hp & Hq). rewrite H1 in Hj. assert (Hj' : 0 < j <= k) by lia. split.
    + intros n Hn. apply in_map_iff in Hn. destruct Hn as (i & <- & Hi). apply in_seq in Hi. apply Hone. lia.
    + exists (length (cited_paths levels x (firstn j (parts ++ rest)))). split.
      * apply in_map_iff. exists j. split; [reflexivity|]. apply in_seq. lia.
      * apply two_distinct; [apply SSorted_before_NoDup, xpath_sorted|]. exists p, q. split; [exact N|].
        split; apply (cited_paths_spec _ _ (Hne j Hj')); assumption.
Qed.

Lemma written_inj : forall c d, In c all -> In d all -> join [c_dot] c = join [c_dot] d -> c = d.
Proof using Hwf Htidy Hk.
  intros c d Hc Hd E. destruct (all_tidy c Hc) as [Nc Tc]. destruct (all_tidy d Hd) as [Nd Td]. apply (f_equal (split c_dot)) in E.
  assert (S : forall l, l <> [] -> Forall tidy l -> split c_dot (join [c_dot] l) = l).
  { intros l Hl Pl. apply split_join; [exact Hl|]. rewrite Forall_forall in *. intros v Hv. destruct (Pl v Hv) as (Hp & _).
    destruct (mem c_dot v) eqn:M; [|reflexivity]. apply mem_In in M. contradiction. }
  rewrite !S in E by assumption. exact E.
Qed.

Lemma count_written : forall s, 2 <= count_occ str_eq_dec (map (join [c_dot]) all) s <->
  exists comps, s = written comps /\ checked levels x parts k comps /\ repeated levels x (length parts) comps.
Proof using Hwf Htidy Hk.
  intros s. split.
  - intros H. assert (I : In s (map (join [c_dot]) all)) by (apply (count_occ_In str_eq_dec); lia).
    apply in_map_iff in I. destruct I as (c & <- & Hc). exists c. split; [reflexivity|]. split; [apply all_checked; exact Hc|].
    apply (count_repeated comps_dec); [apply all_checked; exact Hc|].
    rewrite (count_map_in _ _ comps_dec str_eq_dec) in H; [exact H|]. intros a Ha E. apply written_inj; assumption.
  - intros (c & -> & Hc & Hr). unfold written. rewrite (count_map_in _ _ comps_dec str_eq_dec).
    + apply (count_repeated comps_dec); assumption.
    + intros a Ha E. apply written_inj; [exact Ha|apply all_checked; exact Hc|exact E].
Qed.

Lemma complaints_spec : forall order, (forall l, Permutation (order l) l) ->
  exists d e, complaints order (map (join [c_dot]) all) (Z.of_nat k) = d ++ e /\
    tells_duplicates levels x parts k d /\ tells_empties k all e.
Proof using Hwf Htidy Hk.
  intros order Ho. unfold complaints. set (dups := duplicates_of [] [] (map (join [c_dot]) all)). eexists; eexists. split; [reflexivity|]. split.
  - assert (D : forall s, In s dups <-> exists comps, s = written comps /\ checked levels x parts k comps /\ repeated levels x (length parts) comps).
    { intros s. unfold dups. rewrite duplicates_spec, count_written. cbn. tauto. }
    unfold tells_duplicates. destruct dups as [|s0 l0] eqn:E; cbn [length Nat.ltb Nat.leb].
    + left. split; [reflexivity|]. intros comps Hc Hr. apply (proj2 (D (written comps))). eauto.
    + right. exists (order (s0 :: l0)). split; [reflexivity|]. split.
      { intros E'. pose proof (Permutation_length (Ho (s0 :: l0))) as HL. rewrite E' in HL. discriminate. }
      split.
      { apply (Permutation_NoDup (Permutation_sym (Ho _))). rewrite <- E. apply duplicates_once. constructor. }
      intros s. rewrite <- D. split; apply Permutation_in; [apply Ho|apply Permutation_sym, Ho].
  - unfold tells_empties.
    assert (F : length (filter counts_empty (map (join [c_dot]) all)) = length (filter (fun comps => nothing (last comps [])) all)).
    { assert (G : forall l, incl l all -> length (filter counts_empty (map (join [c_dot]) l)) = length (filter (fun comps => nothing (last comps [])) l)).
      { induction l as [|c l IH]; intros Hi; [reflexivity|]. cbn [map filter]. destruct (all_tidy c (Hi c (or_introl eq_refl))) as [Nc Tc].
        rewrite (counts_empty_spec c Nc Tc). assert (Hi' : incl l all) by (intros a Ha; apply Hi; right; exact Ha). specialize (IH Hi').
        destruct (nothing (last c [])); cbn [length]; congruence. }
      apply G. intros a Ha. exact Ha. }
    rewrite F. destruct (length (filter _ all)) as [|n]; [left; split; reflexivity|right]. split; [lia|]. reflexivity.
Qed.

End At.

Hypothesis Hsmall : length levels <= 999.

Lemma extend_times_tidy : forall n L, L <> [] ->
  (forall c, In c L -> length c + n <= length levels /\ Forall (fun v => ~ In c_quote v) c) ->
  extend_times (write_scheme levels) n x (map (map Some) L) =
  match flat_map (enum levels x n) L with [] => Err KeyError | l => Ok (map (map Some) l) end.
Proof using Hwf Hsmall Htidy.
  induction n as [|n IH]; intros L Hne HL; cbn [extend_times].
  - assert (E : flat_map (enum levels x 0) L = L) by (clear; induction L as [|c L IH]; [reflexivity|cbn; f_equal; exact IH]).
    rewrite E. destruct L; [congruence|reflexivity].
  - rewrite (extend_all_spec levels x Hwf Hsmall L) by (intros c Hc; destruct (HL c Hc) as [Hl Hq]; split; [lia|exact Hq]).
    assert (E : flat_map (enum levels x (S n)) L = flat_map (enum levels x n) (flat_map (enum_step levels x) L)).
    { clear. induction L as [|c L IH]; [reflexivity|]. cbn [flat_map]. rewrite IH, flat_map_app. reflexivity. }
    rewrite E. destruct (flat_map (enum_step levels x) L) as [|c0 L0] eqn:E0; [reflexivity|]. cbn [bind].
    rewrite IH; [reflexivity|discriminate|]. rewrite <- E0. intros c Hc. apply in_flat_map in Hc. destruct Hc as (c1 & H1 & Hc).
    destruct (HL c1 H1) as [Hl Hq]. apply In_enum_step in Hc; [|exact Hwf|lia]. destruct Hc as (v & p & -> & Hp). split.
    + rewrite app_length. cbn. lia.
    + eapply Forall_impl; [|apply (cited_tidy _ p); [rewrite app_length; cbn; lia|exact Hp]]. intros w Hw. apply Hw.
Qed.

(** Everything after the level has been fixed. *)
Lemma after_level : forall order first parts k, (forall l, Permutation (order l) l) -> length parts < k ->
  Forall (fun v => ~ In c_quote v) parts ->
  let '(w, r) :=
    (if (Z.of_nat (length (write_scheme levels)) <? Z.of_nat k)%Z then (first, Err CitationDepthError) else
      match (passages <- extend_times (write_scheme levels) (Z.to_nat (Z.of_nat k - Z.of_nat (length parts))) x [map Some parts] ;; mapM (join_opt c_dot) passages) with
      | Err e => (first, Err e)
      | Ok texts =>
          (first ++ complaints order texts (Z.of_nat k),
           refs <- mapM (fun s => cts_reference (VStr s)) texts ;;
           _ <- citation_at (write_scheme levels) (Z.of_nat k - 1) ;;
           Ok (refs, Z.of_nat k))
      end) in
  outcome levels x first w parts k r.
Proof using Hwf Hsmall Htidy.
  intros order first parts k Ho Hk Hq. rewrite scheme_length.
  replace (Z.of_nat (length levels) <? Z.of_nat k)%Z with (Nat.ltb (length levels) k).
  2:{ destruct (Nat.ltb_spec (length levels) k); symmetry; [apply Z.ltb_lt|apply Z.ltb_ge]; lia. }
  destruct (Nat.ltb_spec (length levels) k) as [H|H]; [left; auto|].
  replace (Z.to_nat (Z.of_nat k - Z.of_nat (length parts))) with (k - length parts) by lia.
  pose proof (extend_times_tidy (k - length parts) [parts] ltac:(discriminate)) as E. cbn [map flat_map] in E. rewrite app_nil_r in E.
  rewrite E by (intros c [<-|[]]; split; [lia|exact Hq]).
  assert (Hk' : length parts < k <= length levels) by lia.
  pose proof (all_checked parts k Hk') as Hall. pose proof (complaints_spec parts k Hk' order Ho) as Hcom. pose proof (all_tallied parts k Hk') as Htal.
  unfold all in Hall, Hcom, Htal. destruct (enum levels x (k - length parts) parts) as [|c0 L] eqn:El; cbn [bind].
  - right; left. split; [exact H|]. split; [|auto]. intros comps Hc. apply Hall in Hc. destruct Hc.
  - pose proof (texts_spec (c0 :: L)) as T. cbv zeta. cbn [bind] in T |- *.
    match goal with |- context [match ?m with Ok _ => _ | Err _ => _ end] => replace m with (@Ok (list str) (map (join [c_dot]) (c0 :: L))) by (symmetry; exact T) end.
    right; right. split; [exact H|]. destruct Hcom as (d & e & -> & Hd & He).
    exists (c0 :: L), d, e. split; [discriminate|]. auto.
Qed.

Lemma audited_whole : forall same order self level k, (forall l, Permutation (order l) l) -> o_xml (text_object self) = x -> 0 < k ->
  level = Some (Z.of_nat k) \/ level = None /\ k = 1 ->
  outcome levels x [] (fst (audited_reff (write_scheme levels) same order self level None)) [] k
    (snd (audited_reff (write_scheme levels) same order self level None)).
Proof using Hwf Hsmall Htidy.
  intros same order self level k Ho Hx Hk Hl. pose proof (after_level order [] [] k Ho Hk ltac:(constructor)) as A.
  unfold audited_reff, reff_start, level_complaint. rewrite Hx. cbn [length].
  replace (match level with Some l => l | None => 1%Z end) with (Z.of_nat k) by (destruct Hl as [->|[-> ->]]; reflexivity).
  rewrite andb_false_r. cbn [length] in A. destruct (if (_ <? _)%Z then _ else _) as [w r]. exact A.
Qed.

Lemma audited_below : forall same order self level parts k, (forall l, Permutation (order l) l) -> o_xml (text_object self) = x ->
  parts <> [] -> Forall plain parts ->
  Z.of_nat k = Z.max (match level with Some l => l | None => 1 end) (Z.of_nat (length parts) + 1) ->
  outcome levels x (match level with Some 0%Z => [WLevel] | _ => [] end)
    (fst (audited_reff (write_scheme levels) same order self level (Some (reference_to parts)))) parts k
    (snd (audited_reff (write_scheme levels) same order self level (Some (reference_to parts)))).
Proof using Hwf Hsmall Htidy.
  intros same order self level parts k Ho Hx Hn Hp Hk.
  assert (Hq : Forall (fun v => ~ In c_quote v) parts) by (eapply Forall_impl; [|exact Hp]; intros v Hv; apply Hv).
  pose proof (after_level order (match level with Some 0%Z => [WLevel] | _ => [] end) parts k Ho ltac:(lia) Hq) as A.
  unfold audited_reff, reff_start, level_complaint, is_range. cbn [r_end reference_to r_start]. rewrite Hx, id_list_join by assumption.
  rewrite andb_true_r.
  assert (Hlen : (0 < Z.of_nat (length parts))%Z) by (destruct parts; [congruence|cbn; lia]).
  set (len := Z.of_nat (length parts)) in *.
  replace (if (match match level with Some 0%Z => None | _ => level end with Some l => l | None => 1 end <=? len)%Z then (len + 1)%Z
           else match match level with Some 0%Z => None | _ => level end with Some l => l | None => 1%Z end) with (Z.of_nat k).
  - destruct (if (_ <? _)%Z then _ else _) as [w r]. exact A.
  - destruct level as [l|]; [|destruct (Z.leb_spec 1 len); lia].
    destruct (Z.eq_dec l 0) as [->|Hl0]; [destruct (Z.leb_spec 1 len); lia|].
    replace (match l with 0%Z => None | _ => Some l end) with (Some l) by (destruct l; congruence || reflexivity).
    destruct (Z.leb_spec l len); lia.
Qed.

End Level.

(** ** test *)

Definition pair_of (s : tstep) : nat * str := (if t_desc s then 2 else 1, body 1 s).
Lemma write_pairs : forall l, write_steps (map pair_of l) = write_tsteps 1 l.
Proof.
  induction l as [|s l IH]; [reflexivity|]. unfold write_steps, write_tsteps in *. cbn [map flat_map]. rewrite IH. f_equal.
  unfold write_step, pair_of, write_tstep, body. cbn [fst snd]. destruct (t_desc s); reflexivity.
Qed.

Lemma way_clear : forall s, wf_tstep s -> slots_of s = [] -> ~ In c_dollar (write_tstep 1 s).
Proof.
  intros s [Hn Hg] Hs I. unfold write_tstep in I. apply in_app_or in I. destruct I as [I|I]; [destruct (t_desc s); cbn in I; intuition discriminate|].
  apply in_app_or in I. destruct I as [I|I].
  - destruct Hn as [E|[_ Hq]]; [rewrite E in I; cbn in I; intuition discriminate|]. specialize (Hq _ I). vm_compute in Hq. discriminate.
  - apply in_flat_map in I. destruct I as (g & Ig & I). unfold write_group in I. rewrite Forall_forall in Hg. destruct (Hg g Ig) as [_ Ht].
    rewrite Forall_forall in Ht. apply in_app_or in I. destruct I as [I|I]; [cbn in I; intuition discriminate|].
    apply in_app_or in I. destruct I as [I|I]; [|cbn in I; intuition discriminate].
    assert (J : forall l, In c_dollar (join #" and " l) -> exists t, In t l /\ In c_dollar t).
    { clear. induction l as [|t l IH]; [intros []|]. intros I. destruct l as [|t' l].
      - exists t. split; [left; reflexivity|exact I].
      - rewrite join_cons in I by discriminate. apply in_app_or in I. destruct I as [I|I]; [exists t; split; [left; reflexivity|exact I]|].
        apply in_app_or in I. destruct I as [I|I]; [cbn in I; intuition discriminate|]. destruct (IH I) as (u & Hu & H). exists u. split; [right; exact Hu|exact H]. }
    apply J in I. destruct I as (t & It & I). apply in_map_iff in It. destruct It as (w & <- & Iw). specialize (Ht w Iw).
    assert (AT : forall a, attr_name a -> ~ In c_dollar a).
    { intros a (_ & _ & A) Ia. specialize (A _ Ia). vm_compute in A. discriminate. }
    destruct w as [a|a v|a]; cbn [write_test wf_test] in *.
    + apply in_app_or in I. destruct I as [I|I]; [cbn in I; intuition discriminate|]. exact (AT a Ht I).
    + destruct Ht as [Ha (_ & _ & Hv & _)]. repeat (apply in_app_or in I; destruct I as [I|I]; [solve [cbn in I; intuition discriminate|exact (AT a Ha I)|exact (Hv I)]|]).
      cbn in I; intuition discriminate.
    + assert (X : In a (slots_of s)); [|rewrite Hs in X; destruct X]. unfold slots_of. apply in_flat_map. exists (TSlot a).
      split; [apply in_concat; exists g; split; assumption|left; reflexivity].
Qed.

Lemma numbered_none : forall s i, ~ In c_qmark s -> numbered i s = s.
Proof.
  induction s as [|c s IH]; intros i H; [reflexivity|]. cbn [numbered]. destruct (N.eqb_spec c c_qmark) as [->|N]; [elim H; left; reflexivity|].
  f_equal. apply IH. intros I. apply H. right. exact I.
Qed.
Lemma unnumber_none : forall s, ~ In c_dollar s -> ~ In c_qmark s -> unnumber s = s.
Proof.
  intros s H1 H2. rewrite <- (numbered_none s 1 H2) at 1. apply unnumber_numbered; [exact H1|].
  clear H1. induction s as [|c s IH]; [exact I|]. cbn. split; [intros ->; elim H2; left; reflexivity|]. apply IH. intros J. apply H2. right. exact J.
Qed.

Lemma scope_way : forall lv, wf_level lv -> known_level lv ->
  exists y, parse_xpath_scope (Some (write_tsteps 1 (l_way lv ++ [l_unit lv]))) = Ok (write_tsteps 1 (l_way lv), y).
Proof.
  intros lv (Hw & Hu & Hs & _) Hk. unfold parse_xpath_scope.
  assert (W : Forall wf_tstep (l_way lv ++ [l_unit lv])) by (apply Forall_app; split; [exact Hw|constructor; [exact Hu|constructor]]).
  assert (F : Forall wf_numbered_step (map pair_of (l_way lv ++ [l_unit lv]))).
  { apply Forall_map. rewrite Forall_forall in *. intros s Is. unfold wf_numbered_step, pair_of. cbn [fst snd]. split; [destruct (t_desc s); lia|]. split.
    - intros E. destruct (W s Is) as [[N|[N _]] _]; unfold body in E; apply app_eq_nil in E; destruct E as [E _]; rewrite E in N; [discriminate|].
      apply N. vm_compute. reflexivity.
    - apply forallb_forall. intros c Ic. rewrite <- step_symbol_ok. exact (Hk s c Is Ic). }
  rewrite <- write_pairs, splitter_steps by exact F. rewrite concat_step_pieces, !map_app, rev_app_distr. cbn [map rev app].
  rewrite rev_involutive. eexists. f_equal. f_equal. rewrite <- flat_map_concat_map. fold (write_steps (map pair_of (l_way lv))). rewrite write_pairs.
  apply unnumber_none.
  - intros I. unfold write_tsteps in I. apply in_flat_map in I. destruct I as (s & Is & I). rewrite Forall_forall in Hw, Hs. exact (way_clear s (Hw s Is) (Hs s Is) I).
  - intros I. unfold write_tsteps in I. apply in_flat_map in I. destruct I as (s & Is & I). unfold write_tstep in I. apply in_app_or in I.
    destruct I as [I|I]; [destruct (t_desc s); cbn in I; intuition discriminate|]. specialize (Hk s c_qmark (in_or_app _ _ _ (or_introl Is)) I). vm_compute in Hk. discriminate.
Qed.

Lemma tested : forall lv levels x, wf_level lv -> known_level lv -> l_way lv <> [] ->
  (text_test (write_scheme (lv :: levels)) x = Ok tt <-> exists p, leads_to lv x p) /\
  (text_test (write_scheme (lv :: levels)) x = Err RefsDeclError <-> forall p, ~ leads_to lv x p).
Proof.
  intros lv levels x Hw Hk Hn. destruct (scope_way lv Hw Hk) as [y E]. unfold text_test.
  replace (match write_scheme (lv :: levels) with [] => None | rd :: _ => Some rd end) with (Some (write_tsteps 1 (l_way lv ++ [l_unit lv])))
    by (unfold write_scheme; cbn [length seq map firstn write_from]; rewrite app_nil_r; reflexivity).
  rewrite E. cbn [bind]. rewrite eval_abs_write.
  2:{ destruct Hw as (Hw & _ & Hs & _). rewrite Forall_forall in *. intros s Is. apply readable_wf; auto. }
  2:{ exact Hn. }
  cbn [bind]. assert (M : map (mean_tstep None) (l_way lv) <> []) by (destruct (l_way lv); [congruence|discriminate]).
  unfold leads_to. assert (P : forall p, In p (xpath_abs x (map (mean_tstep None) (l_way lv))) <-> selects (map (mean_tstep None) (l_way lv)) (document x) p) by (intros p; apply In_xpath; exact M).
  destruct (xpath_abs x (map (mean_tstep None) (l_way lv))) as [|p0 ps].
  - split; split; [discriminate|intros [p H]; apply P in H; destruct H|intros _ p H; apply P in H; destruct H|reflexivity].
  - split; split; [intros _; exists p0; apply P; left; reflexivity|reflexivity|discriminate|intros H; elim (H p0); apply P; left; reflexivity].
Qed.

(** ** A clear text *)

Lemma plain_tidy : forall levels x, plain_units levels x -> tidy_units levels x.
Proof. intros levels x H j lv p n v H1 H2 H3 H4. destruct (H j lv p n v H1 H2 H3 H4) as (_ & A & _ & _ & B). split; assumption. Qed.

Lemma outcome_clear : forall levels x first w parts k r, Forall wf_level levels -> plain_units levels x -> unambiguous levels x k ->
  0 < k -> outcome levels x first w parts k r -> w = first.
Proof.
  intros levels x first w parts k r Hwf Hp Hu Hk [(_ & H & _)|[(_ & _ & H & _)|(Hl & l & d & e & _ & -> & Hd & Ht & He)]]; try exact H.
  assert (D : d = []).
  { destruct Hd as [[D _]|(names & _ & Hn & _ & N)]; [exact D|]. destruct names as [|s names]; [congruence|].
    destruct (N s) as [(comps & _ & (Hc & _) & (j & p & q & Hj & Hpq & H1 & H2)) _]; [left; reflexivity|]. elim Hpq. apply (Hu (firstn j comps)); auto.
    rewrite firstn_length. lia. }
  assert (E : e = []).
  { destruct He as [[_ E]|[He _]]; [exact E|]. destruct (filter _ l) as [|c f] eqn:F; [cbn in He; lia|].
    assert (I : In c (filter (fun comps => nothing (last comps [])) l)) by (rewrite F; left; reflexivity). apply filter_In in I. destruct I as [I N].
    destruct Ht as [Ht _]. apply Ht in I. destruct I as (Hc & _ & p & Hcp).
    assert (P : Forall plain c) by (apply (cited_plain levels x Hwf Hp c p); [lia|exact Hcp]).
    destruct (exists_last (l := c)) as (c' & v & ->); [destruct c; [cbn in Hc; lia|discriminate]|]. rewrite last_last in N.
    apply Forall_app in P. destruct P as [_ P]. inversion P as [|? ? (Hv & _) _]; subst. destruct v; [congruence|discriminate]. }
  rewrite D, E, !app_nil_r. reflexivity.
Qed.

(** ** Deciding the hypotheses *)

Definition check_tidy_units (levels : list level) (x : node) : bool :=
  forallb (fun j => match nth_error levels j with
    | Some lv => forallb (fun p => match lookup (document x) p with
        | Some n => match get_attr (id_attr lv) (n_attrs n) with Some v => negb (mem c_dot v) && negb (mem c_quote v) | None => true end
        | None => true end) (unit_paths levels x (S j))
    | None => true end) (seq 0 (length levels)).
Lemma check_tidy_ok : forall levels x, check_tidy_units levels x = true -> tidy_units levels x.
Proof.
  intros levels x H j lv p n v Hlv Hu Hn Hv. unfold check_tidy_units in H. rewrite forallb_forall in H.
  assert (Hj : j < length levels) by (apply nth_error_Some; congruence).
  specialize (H j ltac:(apply in_seq; lia)). rewrite Hlv, forallb_forall in H.
  assert (Hne : levels <> []) by (intros ->; destruct j; discriminate).
  apply (In_units levels x (S j)) in Hu; [|exact Hne|lia]. specialize (H p Hu). apply at_position_lookup in Hn. rewrite Hn, Hv in H.
  apply andb_true_iff in H. destruct H as [H1 H2]. split; intros I; apply mem_In in I; rewrite I in *; discriminate.
Qed.
Definition check_known (lv : level) : bool :=
  forallb (fun s => forallb CiteSpec.step_symbol (t_name s ++ flat_map (write_group 1) (t_groups s))) (l_way lv ++ [l_unit lv]).
Lemma check_known_ok : forall lv, check_known lv = true -> known_level lv.
Proof.
  intros lv H s c Hs Hc. unfold check_known in H. rewrite forallb_forall in H. specialize (H s Hs). rewrite forallb_forall in H. exact (H c Hc).
Qed.
