(** Lemmas about URNs. *)

From Coq Require Import List NArith Arith Bool Lia.
From Verif Require Import PyStr PyStrFacts RefModel RefSpec RefProofs UrnModel UrnSpec.
Import ListNotations.

Lemma not_hash_split : forall s, mem c_hash s = false -> hd [] (split c_hash s) = s.
Proof. intros s H; rewrite split_no_sep by exact H; reflexivity. Qed.

(** ** Parsing *)

Lemma urn_parse_cache : forall s u, urn_parse s = Ok u -> u_cache u = Some (hd [] (split c_hash s)).
Proof.
  intros s u. unfold urn_parse.
  destruct (split c_colon (hd [] (split c_hash s))) as [|a [|ns [|cts rest]]]; try discriminate.
  destruct rest as [|mid rest]; [cbn; intros H; injection H as <-; reflexivity|].
  destruct rest as [|r rest]; [cbn; intros H; injection H as <-; reflexivity|].
  destruct rest as [|x rest].
  - destruct (cts_reference (VStr r)); cbn; [|discriminate].
    intros H; injection H as <-; reflexivity.
  - cbn; intros H; injection H as <-; reflexivity.
Qed.

Lemma urn_parse_str : forall s u, urn_parse s = Ok u -> to_str u = Ok (hd [] (split c_hash s)).
Proof.
  intros s u H. unfold to_str, urn_str. rewrite (urn_parse_cache s u H). reflexivity.
Qed.

Lemma hd_split_prefix : forall c s,
  (~ In c s /\ hd [] (split c s) = s) \/
  (exists t, s = hd [] (split c s) ++ [c] ++ t /\ ~ In c (hd [] (split c s))).
Proof.
  intros c s. destruct (split_decomp c s) as [[H E]|[a [t [E1 [E2 E3]]]]].
  - left. rewrite E. split; [apply not_In_mem; exact H|reflexivity].
  - right. exists t. rewrite E3; cbn. split; [exact E1|apply not_In_mem; exact E2].
Qed.

Lemma urn_parse_err : forall s e, urn_parse s = Err e ->
  e = ValueError.
Proof.
  intros s e. unfold urn_parse.
  destruct (split c_colon (hd [] (split c_hash s))) as [|a [|ns [|cts rest]]]; try congruence.
  destruct rest as [|mid [|r [|x rest]]]; cbn; try discriminate.
  destruct (cts_reference (VStr r)) eqn:E; cbn; [discriminate|]. intros H; injection H as <-.
  revert E. unfold cts_reference. cbn. destruct (negb (truthy r)); [discriminate|].
  unfold cts_reference_string. destruct (negb (mem c_dash r)); [discriminate|].
  destruct (split c_dash r) as [|a0 [|b [|c l]]]; cbn; congruence.
Qed.

Lemma cts_reference_err_iff : forall r,
  cts_reference (VStr r) = Err ValueError <-> exists a b c, r = a ++ [c_dash] ++ b ++ [c_dash] ++ c.
Proof.
  intros r. destruct (parse_cases r) as [[E0 H]|[[_ [Hn [x [H _]]]]|[[a [b [E [Ha [Hb [x [H _]]]]]]]|[a [b [c [E H]]]]]]].
  - rewrite H. split; [discriminate|]. intros [a [b [c E]]]. subst r. destruct a; discriminate.
  - rewrite H. split; [discriminate|]. intros [a [b [c E]]]. exfalso; apply Hn.
    subst r. apply in_or_app; right; left; reflexivity.
  - rewrite H. split; [discriminate|]. intros [a' [b' [c' E']]]. exfalso.
    assert (Hc : count c_dash r = 1).
    { subst r. rewrite count_app. cbn [app count]. rewrite N.eqb_refl.
      apply not_In_mem, count_0_mem in Ha. apply not_In_mem, count_0_mem in Hb. lia. }
    rewrite E' in Hc. rewrite count_app in Hc. cbn [app count] in Hc. rewrite N.eqb_refl in Hc.
    rewrite count_app in Hc. cbn [count] in Hc. rewrite N.eqb_refl in Hc. lia.
  - rewrite H. split; [|reflexivity]. intros _; eauto.
Qed.

Lemma urn_parse_accepts : forall s,
  (exists u, urn_parse s = Ok u) <->
  2 <= count c_colon (hd [] (split c_hash s)) /\
  ~ (exists p1 p2 p3 p4 a b c,
       hd [] (split c_hash s) =
         p1 ++ [c_colon] ++ p2 ++ [c_colon] ++ p3 ++ [c_colon] ++ p4 ++ [c_colon] ++
         (a ++ [c_dash] ++ b ++ [c_dash] ++ c) /\
       count c_colon (hd [] (split c_hash s)) = 4).
Proof.
  intros s. set (base := hd [] (split c_hash s)).
  pose proof (split_length c_colon base) as HL.
  pose proof (join_split c_colon base) as HJ.
  unfold urn_parse. fold base.
  destruct (split c_colon base) as [|p1 [|p2 [|p3 rest]]] eqn:E; cbn [length] in HL.
  - lia.
  - split; [intros [u H]; discriminate|]. intros [H _]; lia.
  - split; [intros [u H]; discriminate|]. intros [H _]; lia.
  - split.
    + intros [u H]. split; [lia|]. intros [q1 [q2 [q3 [q4 [a [b [c [HE Hc]]]]]]]].
      destruct rest as [|p4 [|r [|x rest]]]; cbn [length] in HL; try lia.
      assert (Hsplit : split c_colon base = [q1; q2; q3; q4; a ++ [c_dash] ++ b ++ [c_dash] ++ c]).
      { assert (HC : forall x y, count c_colon (x ++ c_colon :: y) = count c_colon x + S (count c_colon y)).
        { intros x y; rewrite count_app; cbn [count]; rewrite N.eqb_refl; reflexivity. }
        assert (HM : forall x, count c_colon x = 0 -> mem c_colon x = false)
          by (intros; apply count_0_mem; assumption).
        rewrite HE in Hc |- *. cbn [app] in Hc |- *. rewrite !HC in Hc.
        rewrite !split_app_sep by (apply HM; lia).
        rewrite split_no_sep by (apply HM; lia). reflexivity. }
      rewrite E in Hsplit. injection Hsplit as _ _ _ _ Hr.
      assert (Hx : cts_reference (VStr r) = Err ValueError)
        by (apply cts_reference_err_iff; exists a, b, c; exact Hr).
      rewrite Hx in H. discriminate.
    + intros [_ HN]. destruct rest as [|p4 [|r [|x rest]]]; cbn; eauto.
      destruct (cts_reference (VStr r)) as [o|e] eqn:Er; cbn; [eauto|].
      exfalso; apply HN.
      assert (e = ValueError).
      { revert Er; unfold cts_reference; cbn. destruct (negb (truthy r)); [discriminate|].
        unfold cts_reference_string. destruct (negb (mem c_dash r)); [discriminate|].
        destruct (split c_dash r) as [|? [|? [|? ?]]]; cbn; congruence. }
      subst e. apply cts_reference_err_iff in Er. destruct Er as [a [b [c ->]]].
      exists p1, p2, p3, p4, a, b, c. split; [symmetry; exact HJ|cbn [length] in HL; lia].
Qed.

(** ** Composition *)

Lemma mem_c : forall c s, ~ In c s -> mem c s = false.
Proof. intros; apply not_In_mem; assumption. Qed.

Lemma write_part_no_hash : forall p, plain_part p -> mem c_hash (write_part p) = false.
Proof.
  intros [|tg|tg wk|tg wk vs] H; cbn [write_part plain_part] in *; unfold plain_comp in *;
    rewrite ?mem_app; cbn [mem app]; rewrite ?mem_app; cbn [mem app];
    repeat rewrite mem_c by tauto; reflexivity.
Qed.

Lemma write_urn_no_hash : forall ns cts p r, plain_ns ns -> plain_ns cts -> plain_part p ->
  match r with Some r => plain_ref r | None => True end ->
  mem c_hash (write_urn ns cts p r) = false.
Proof.
  intros ns cts p r [_ [_ H1]] [_ [_ H2]] Hp Hr. unfold write_urn.
  rewrite !mem_app. cbn [lit mem]. rewrite write_part_no_hash by exact Hp.
  rewrite !mem_c by assumption. destruct r as [r|]; [|reflexivity].
  cbn. apply mem_c; apply Hr.
Qed.

Definition mid_str (p : work_part) : str :=
  match p with
  | NoWork => []
  | Group tg => tg
  | Work tg wk => tg ++ [c_dot] ++ wk
  | Version tg wk vs => tg ++ [c_dot] ++ wk ++ [c_dot] ++ vs
  end.

Lemma mid_no_colon : forall p, plain_part p -> mem c_colon (mid_str p) = false.
Proof.
  intros [|tg|tg wk|tg wk vs] H; cbn [mid_str plain_part] in *; unfold plain_comp in *;
    rewrite ?mem_app; cbn [mem app]; rewrite ?mem_app; cbn [mem app];
    repeat rewrite mem_c by tauto; reflexivity.
Qed.

Lemma write_part_mid : forall p, p <> NoWork -> write_part p = [c_colon] ++ mid_str p.
Proof. intros [| | |] H; [congruence|reflexivity..]. Qed.

Lemma split_mid : forall p, p <> NoWork -> plain_part p ->
  split c_dot (mid_str p) = match p with
                            | NoWork => []
                            | Group tg => [tg]
                            | Work tg wk => [tg; wk]
                            | Version tg wk vs => [tg; wk; vs]
                            end.
Proof.
  intros [|tg|tg wk|tg wk vs] H Hp; [congruence|..]; cbn [mid_str plain_part] in *; unfold plain_comp in *; cbn [app];
    repeat rewrite split_app_sep by (apply mem_c; tauto);
    rewrite split_no_sep by (apply mem_c; tauto); reflexivity.
Qed.

(** The object obtained by parsing a written URN. *)
Definition parsed_urn (ns cts : str) (p : work_part) (r : option str) (o : option ref) : urn :=
  MkUrn (Some (write_urn ns cts p r)) (Some ns) (Some cts) (part_tg p) (part_wk p) (part_vs p) o.

Lemma urn_parse_written : forall ns cts p r o,
  plain_ns ns -> plain_ns cts -> plain_part p ->
  match r with
  | None => o = None
  | Some r => p <> NoWork /\ plain_ref r /\ cts_reference (VStr r) = Ok o
  end ->
  urn_parse (write_urn ns cts p r) = Ok (parsed_urn ns cts p r o).
Proof.
  intros ns cts p r o Hns Hcts Hp Hr. unfold urn_parse.
  rewrite not_hash_split.
  2:{ apply write_urn_no_hash; try assumption. destruct r; [apply Hr|exact I]. }
  assert (Hs : split c_colon (write_urn ns cts p r) =
    #"urn" :: ns :: cts ::
      match p with NoWork => [] | _ => [mid_str p] end ++
      match r with Some r => [r] | None => [] end).
  { unfold write_urn. cbn [app].
    change (lit "urn" ++ c_colon :: ?x) with (lit "urn" ++ c_colon :: x).
    rewrite split_app_sep by reflexivity.
    rewrite split_app_sep by (apply mem_c; apply Hns).
    f_equal; f_equal.
    destruct p as [|tg|tg wk|tg wk vs].
    - destruct r as [r|]; [destruct Hr; congruence|]. cbn [write_part app].
      rewrite app_nil_r. rewrite split_no_sep by (apply mem_c; apply Hcts). reflexivity.
    - rewrite write_part_mid by discriminate.
      change (cts ++ ([c_colon] ++ mid_str (Group tg)) ++ ?x) with (cts ++ c_colon :: (mid_str (Group tg) ++ x)).
      rewrite split_app_sep by (apply mem_c; apply Hcts). f_equal.
      destruct r as [r|].
      + cbn [app]. rewrite split_app_sep by (apply mid_no_colon; exact Hp).
        rewrite split_no_sep by (apply mem_c; apply Hr). reflexivity.
      + rewrite app_nil_r, split_no_sep by (apply mid_no_colon; exact Hp). reflexivity.
    - rewrite write_part_mid by discriminate.
      change (cts ++ ([c_colon] ++ mid_str (Work tg wk)) ++ ?x) with (cts ++ c_colon :: (mid_str (Work tg wk) ++ x)).
      rewrite split_app_sep by (apply mem_c; apply Hcts). f_equal.
      destruct r as [r|].
      + cbn [app]. rewrite split_app_sep by (apply mid_no_colon; exact Hp).
        rewrite split_no_sep by (apply mem_c; apply Hr). reflexivity.
      + rewrite app_nil_r, split_no_sep by (apply mid_no_colon; exact Hp). reflexivity.
    - rewrite write_part_mid by discriminate.
      change (cts ++ ([c_colon] ++ mid_str (Version tg wk vs)) ++ ?x) with (cts ++ c_colon :: (mid_str (Version tg wk vs) ++ x)).
      rewrite split_app_sep by (apply mem_c; apply Hcts). f_equal.
      destruct r as [r|].
      + cbn [app]. rewrite split_app_sep by (apply mid_no_colon; exact Hp).
        rewrite split_no_sep by (apply mem_c; apply Hr). reflexivity.
      + rewrite app_nil_r, split_no_sep by (apply mid_no_colon; exact Hp). reflexivity. }
  rewrite Hs. unfold parsed_urn.
  destruct r as [r|].
  - destruct Hr as [Hnw [_ Hr]].
    destruct p as [|tg|tg wk|tg wk vs]; [congruence|..]; cbn [app]; rewrite Hr; cbn [bind];
      (rewrite split_mid; [|discriminate|exact Hp]); reflexivity.
  - subst o. destruct p as [|tg|tg wk|tg wk vs]; cbn [app bind]; [reflexivity|..];
      (rewrite split_mid; [|discriminate|exact Hp]); reflexivity.
Qed.

(** ** Truncation *)

Lemma nonnil_truthy : forall s, s <> [] -> truthy s = true.
Proof. intros s H; apply truthy_spec; exact H. Qed.

Lemma upto_namespace : forall ns cts p r o,
  urn_upto NAMESPACE (parsed_urn ns cts p r o) = Ok (write_urn ns cts NoWork None).
Proof.
  intros. unfold urn_upto, join_opt, write_urn; cbn -[lit]. rewrite app_nil_r. reflexivity.
Qed.

Ltac upto_tac :=
  intros; unfold plain_part, plain_comp in *;
  unfold urn_upto, join_opt, write_urn, parsed_urn; cbn -[lit];
  repeat rewrite nonnil_truthy by tauto; cbn -[lit]; rewrite ?app_nil_r;
  repeat rewrite <- app_assoc; reflexivity.

Lemma upto_textgroup : forall ns cts p r o, plain_part p -> p <> NoWork ->
  urn_upto TEXTGROUP (parsed_urn ns cts p r o) = Ok (write_urn ns cts (cut_part 1 p) None).
Proof. intros ns cts [|tg|tg wk|tg wk vs] r o Hp Hn; [congruence|upto_tac..]. Qed.

Lemma upto_textgroup_missing : forall ns cts r o,
  urn_upto TEXTGROUP (parsed_urn ns cts NoWork r o) = Err KeyError.
Proof. reflexivity. Qed.

Lemma upto_work : forall ns cts p r o, plain_part p -> 2 <= part_size p ->
  urn_upto WORK (parsed_urn ns cts p r o) = Ok (write_urn ns cts (cut_part 2 p) None).
Proof. intros ns cts [|tg|tg wk|tg wk vs] r o Hp Hn; [cbn in Hn; lia|cbn in Hn; lia|upto_tac..]. Qed.

Lemma upto_work_missing : forall ns cts p r o, part_size p < 2 ->
  urn_upto WORK (parsed_urn ns cts p r o) = Err KeyError /\
  urn_upto NO_PASSAGE (parsed_urn ns cts p r o) = Err KeyError.
Proof. intros ns cts [|tg|tg wk|tg wk vs] r o H; cbn in H; try lia; split; reflexivity. Qed.

Lemma upto_version : forall ns cts p r o, plain_part p -> part_size p = 3 ->
  urn_upto VERSION (parsed_urn ns cts p r o) = Ok (write_urn ns cts p None).
Proof. intros ns cts [|tg|tg wk|tg wk vs] r o Hp Hn; try discriminate Hn; upto_tac. Qed.

Lemma upto_version_missing : forall ns cts p r o, part_size p < 3 ->
  urn_upto VERSION (parsed_urn ns cts p r o) = Err KeyError.
Proof. intros ns cts [|tg|tg wk|tg wk vs] r o H; cbn in H; try lia; reflexivity. Qed.

Lemma upto_no_passage : forall ns cts p r o, plain_part p -> 2 <= part_size p ->
  urn_upto NO_PASSAGE (parsed_urn ns cts p r o) = Ok (write_urn ns cts p None).
Proof. intros ns cts [|tg|tg wk|tg wk vs] r o Hp Hn; [cbn in Hn; lia|cbn in Hn; lia|upto_tac..]. Qed.

Lemma upto_passage : forall ns cts p r o x, plain_part p -> p <> NoWork -> o = Some x ->
  urn_upto PASSAGE (parsed_urn ns cts p r o) = Ok (write_urn ns cts p (Some (r_str x))) /\
  urn_upto PASSAGE_START (parsed_urn ns cts p r o) = Ok (write_urn ns cts p (Some (r_start x))) /\
  urn_upto PASSAGE_END (parsed_urn ns cts p r o) =
    match r_end x with
    | Some e => Ok (write_urn ns cts p (Some e))
    | None => Err KeyError
    end.
Proof.
  intros ns cts p r o x Hp Hn ->.
  destruct p as [|tg|tg wk|tg wk vs]; [congruence|..]; (split; [|split]);
    try upto_tac; destruct x as [a [e|] t]; try upto_tac; reflexivity.
Qed.

Lemma upto_passage_missing : forall ns cts p r,
  urn_upto PASSAGE (parsed_urn ns cts p r None) = Err KeyError /\
  urn_upto PASSAGE_START (parsed_urn ns cts p r None) = Err KeyError /\
  urn_upto PASSAGE_END (parsed_urn ns cts p r None) = Err KeyError.
Proof. intros; repeat split. Qed.

Lemma upto_complete : forall ns cts p r o,
  urn_upto COMPLETE (parsed_urn ns cts p r o) = Ok (write_urn ns cts p r).
Proof. reflexivity. Qed.

(** Prefixes. *)
Lemma write_part_cut : forall n p, exists t, write_part p = write_part (cut_part n p) ++ t.
Proof.
  intros [|[|[|n]]] [|tg|tg wk|tg wk vs]; cbn [cut_part write_part];
    try (exists []; rewrite app_nil_r; reflexivity);
    try (eexists; cbn [app]; reflexivity);
    try (eexists; rewrite <- ?app_assoc; cbn [app]; reflexivity).
Qed.

Lemma write_urn_cut_prefix : forall n ns cts p r,
  exists t, write_urn ns cts p r = write_urn ns cts (cut_part n p) None ++ t.
Proof.
  intros n ns cts p r. destruct (write_part_cut n p) as [t E].
  exists (t ++ match r with Some r => [c_colon] ++ r | None => [] end).
  unfold write_urn. rewrite E, app_nil_r, <- !app_assoc. reflexivity.
Qed.

(** Parsing a truncation. *)
Lemma cut_part_plain : forall n p, plain_part p -> plain_part (cut_part n p).
Proof. intros [|[|[|n]]] [|tg|tg wk|tg wk vs]; cbn; tauto. Qed.

Lemma urn_parse_cut : forall n ns cts p, plain_ns ns -> plain_ns cts -> plain_part p ->
  urn_parse (write_urn ns cts (cut_part n p) None) = Ok (parsed_urn ns cts (cut_part n p) None None).
Proof.
  intros. apply urn_parse_written; try assumption; [apply cut_part_plain; assumption|reflexivity].
Qed.

(** ** Rendering *)

Lemma render_parsed : forall ns cts p r o,
  plain_ns cts -> plain_part p ->
  match r with
  | None => o = None
  | Some r => 2 <= part_size p /\ exists x, o = Some x /\ r_str x = r
  end ->
  urn_render (parsed_urn ns cts p r o) = Ok (write_urn ns cts p r).
Proof.
  intros ns cts p r o [Hc _] Hp Hr. unfold urn_render, parsed_urn, write_urn, plain_part, plain_comp in *.
  cbn [u_ns u_cts u_tg u_wk u_vs u_ref].
  change #"urn:" with (#"urn" ++ [c_colon]). generalize #"urn"; intros U.
  destruct cts as [|c0 cts]; [congruence|].
  destruct p as [|tg|tg wk|tg wk vs]; cbn [part_tg part_wk part_vs write_part part_size] in *;
    try (destruct tg as [|t0 tg]; [tauto|]); try (destruct wk as [|w0 wk]; [tauto|]);
    try (destruct vs as [|v0 vs]; [tauto|]);
    (destruct r as [r|]; [destruct Hr as [Hs [x [-> Hx]]]; try lia; rewrite Hx|subst o]);
    f_equal; repeat (rewrite <- ?app_assoc; cbn [app]); rewrite ?app_nil_r; reflexivity.
Qed.

(** ** Histories *)

Lemma urn_str_fields : forall u,
  u_ns (snd (urn_str u)) = u_ns u /\ u_cts (snd (urn_str u)) = u_cts u /\
  u_tg (snd (urn_str u)) = u_tg u /\ u_wk (snd (urn_str u)) = u_wk u /\
  u_vs (snd (urn_str u)) = u_vs u /\ u_ref (snd (urn_str u)) = u_ref u.
Proof.
  intros u; unfold urn_str. destruct (u_cache u); [repeat split|].
  destruct (urn_render u); repeat split.
Qed.

Lemma run_fields : forall h u,
  u_ns (urn_run u h) = last_ns h (u_ns u) /\ u_cts (urn_run u h) = last_cts h (u_cts u) /\
  u_tg (urn_run u h) = last_tg h (u_tg u) /\ u_wk (urn_run u h) = last_wk h (u_wk u) /\
  u_vs (urn_run u h) = last_vs h (u_vs u) /\ u_ref (urn_run u h) = last_ref h (u_ref u).
Proof.
  induction h as [|o h IH]; intros u; [repeat split|].
  unfold urn_run in *; cbn [fold_left].
  specialize (IH (urn_step u o)).
  destruct o; cbn [urn_step last_ns last_cts last_tg last_wk last_vs last_ref] in *;
    try (cbn in IH; exact IH).
  - unfold set_ref in *. destruct v as [r|v]; cbn in *; [exact IH|].
    destruct (cts_reference v); cbn in *; exact IH.
  - destruct (urn_str_fields u) as [E1 [E2 [E3 [E4 [E5 E6]]]]].
    rewrite E1, E2, E3, E4, E5, E6 in IH. exact IH.
Qed.

Lemma urn_render_ext : forall u v,
  u_ns u = u_ns v -> u_cts u = u_cts v -> u_tg u = u_tg v -> u_wk u = u_wk v ->
  u_vs u = u_vs v -> u_ref u = u_ref v -> urn_render u = urn_render v.
Proof. intros u v E1 E2 E3 E4 E5 E6. unfold urn_render. rewrite E1, E2, E3, E4, E5, E6. reflexivity. Qed.

(** The invariant: a cached text is the rendering of the components. *)
Definition cache_ok (u : urn) : Prop :=
  match u_cache u with None => True | Some s => urn_render u = Ok s end.

Lemma cache_ok_str : forall u, cache_ok u -> cache_ok (snd (urn_str u)).
Proof.
  intros u H. unfold urn_str. destruct (u_cache u) as [s|] eqn:E; [exact H|].
  destruct (urn_render u) as [s|e] eqn:E2; [|exact H].
  unfold cache_ok; cbn [u_cache snd]. rewrite <- E2. apply urn_render_ext; reflexivity.
Qed.

Lemma cache_ok_step : forall u o, cache_ok u \/ is_set_op o = true -> cache_ok (urn_step u o).
Proof.
  intros u o H. destruct o; cbn [urn_step]; try exact I.
  - unfold set_ref. destruct v as [r|v]; [exact I|]. destruct (cts_reference v); exact I.
  - destruct H as [H|H]; [apply cache_ok_str; exact H|discriminate].
Qed.

Lemma cache_ok_run : forall h u, cache_ok u \/ existsb is_set_op h = true -> cache_ok (urn_run u h).
Proof.
  induction h as [|o h IH]; intros u H; unfold urn_run in *; cbn [fold_left existsb] in *.
  - destruct H as [H|H]; [exact H|discriminate].
  - apply IH. destruct H as [H|H].
    + left; apply cache_ok_step; auto.
    + apply orb_true_iff in H. destruct H as [H|H]; [left; apply cache_ok_step; auto|right; exact H].
Qed.

Lemma cache_ok_to_str : forall u, cache_ok u -> to_str u = urn_render u.
Proof.
  intros u H. unfold to_str, urn_str. unfold cache_ok in H.
  destruct (u_cache u) as [s|]; [symmetry; exact H|]. destruct (urn_render u); reflexivity.
Qed.

Lemma run_no_set : forall h u s, existsb is_set_op h = false -> u_cache u = Some s ->
  urn_run u h = u.
Proof.
  induction h as [|o h IH]; intros u s H Hc; [reflexivity|].
  unfold urn_run in *; cbn [fold_left existsb] in *. apply orb_false_iff in H. destruct H as [H1 H2].
  destruct o; try discriminate. cbn [urn_step].
  assert (E : snd (urn_str u) = u) by (unfold urn_str; rewrite Hc; reflexivity).
  rewrite E. apply (IH u s); assumption.
Qed.

Lemma history_str : forall s u h, urn_parse s = Ok u ->
  to_str (urn_run u h) =
    if existsb is_set_op h then urn_render (urn_run u h) else Ok (hd [] (split c_hash s)).
Proof.
  intros s u h H. destruct (existsb is_set_op h) eqn:E.
  - apply cache_ok_to_str, cache_ok_run. right; exact E.
  - rewrite (run_no_set h u (hd [] (split c_hash s)) E (urn_parse_cache s u H)).
    apply urn_parse_str; exact H.
Qed.

Lemma reassign_fields : forall h u, Forall (reassign_op u) h ->
  u_ns (urn_run u h) = u_ns u /\ u_cts (urn_run u h) = u_cts u /\
  u_tg (urn_run u h) = u_tg u /\ u_wk (urn_run u h) = u_wk u /\
  u_vs (urn_run u h) = u_vs u /\ u_ref (urn_run u h) = u_ref u.
Proof.
  intros h u H. pose proof (run_fields h u) as [-> [-> [-> [-> [-> ->]]]]].
  induction h as [|o h IH]; [repeat split|].
  inversion H as [|? ? Ho Hh]; subst. specialize (IH Hh).
  destruct o as [v|v|v|v|v|[r|v]|]; cbn [reassign_op last_ns last_cts last_tg last_wk last_vs last_ref ref_effect] in *;
    try subst v; try exact IH.
  - rewrite <- Ho. exact IH.
  - rewrite Ho. exact IH.
Qed.

Lemma reassign_str : forall ns cts p r o h,
  plain_ns ns -> plain_ns cts -> plain_part p ->
  match r with
  | None => o = None
  | Some r => 2 <= part_size p /\ exists x, o = Some x /\ r_str x = r
  end ->
  Forall (reassign_op (parsed_urn ns cts p r o)) h ->
  to_str (urn_run (parsed_urn ns cts p r o) h) = Ok (write_urn ns cts p r).
Proof.
  intros ns cts p r o h Hns Hcts Hp Hr Hh.
  set (u := parsed_urn ns cts p r o) in *.
  assert (Hren : urn_render u = Ok (write_urn ns cts p r)) by (apply render_parsed; assumption).
  assert (Hc : cache_ok u) by (unfold cache_ok; cbn; exact Hren).
  rewrite cache_ok_to_str by (apply cache_ok_run; left; exact Hc).
  destruct (reassign_fields h u Hh) as [E1 [E2 [E3 [E4 [E5 E6]]]]].
  rewrite <- Hren. apply urn_render_ext; assumption.
Qed.

(** ** Comparison *)

Lemma urn_eq_spec : forall a b x y, to_str a = Ok x -> to_str b = Ok y ->
  (urn_eq a b = Ok true <-> x = y) /\ (urn_eq a b = Ok false <-> x <> y).
Proof.
  intros a b x y Ha Hb. unfold urn_eq. rewrite Ha, Hb; cbn [bind].
  destruct (str_eqb_spec x y); split; split; congruence.
Qed.

Lemma urn_order : forall a b c,
  urn_lt a a = false /\ urn_gt a b = urn_lt b a /\
  (urn_lt a b = true -> urn_lt b c = true -> urn_lt a c = true).
Proof.
  intros a b c; unfold urn_lt, urn_gt. repeat split.
  - apply Nat.ltb_irrefl.
  - rewrite !Nat.ltb_lt. lia.
Qed.

Lemma urn_len_written : forall ns cts p r o, urn_len (parsed_urn ns cts p r o) = 2 + part_size p.
Proof. intros ns cts [| | |] r o; reflexivity. Qed.

Lemma render_canonical : forall u,
  urn_render u = match u_ns u with
                 | Some ns => Ok (canonical ns (u_cts u) (u_tg u) (u_wk u) (u_vs u) (u_ref u))
                 | None => Err TypeError
                 end.
Proof.
  intros [ca [ns|] cts tg wk vs r]; [|reflexivity]. unfold urn_render, canonical; cbn [u_ns u_cts u_tg u_wk u_vs u_ref].
  change #"urn:" with (#"urn" ++ [c_colon]). generalize #"urn"; intros U.
  destruct cts as [[|c0 cts]|], tg as [[|t0 tg]|], wk as [[|w0 wk]|], vs as [[|v0 vs]|], r as [r|];
    cbn [present_prefix firstn skipn app length Nat.leb join]; f_equal;
    repeat (rewrite <- ?app_assoc; cbn [app]); rewrite ?app_nil_r; reflexivity.
Qed.

Lemma history_canonical : forall s u h, urn_parse s = Ok u ->
  to_str (urn_run u h) =
    if existsb is_set_op h
    then match last_ns h (u_ns u) with
         | Some ns => Ok (canonical ns (last_cts h (u_cts u)) (last_tg h (u_tg u)) (last_wk h (u_wk u))
                            (last_vs h (u_vs u)) (last_ref h (u_ref u)))
         | None => Err TypeError
         end
    else Ok (hd [] (split c_hash s)).
Proof.
  intros s u h H. rewrite (history_str s u h H). destruct (existsb is_set_op h); [|reflexivity].
  rewrite render_canonical. destruct (run_fields h u) as [-> [-> [-> [-> [-> ->]]]]]. reflexivity.
Qed.

(** Truncation and re-parsing in one statement. *)
Lemma upto_cut : forall k n ns cts p r o s, cut_of k = Some n -> plain_part p ->
  urn_upto k (parsed_urn ns cts p r o) = Ok s -> s = write_urn ns cts (cut_part n p) None.
Proof.
  intros k n ns cts p r o s Hk Hp H.
  assert (p = NoWork \/ p <> NoWork) as Hd by (destruct p; (left; congruence) || (right; congruence)).
  destruct k; try discriminate Hk; injection Hk as <-.
  - rewrite upto_namespace in H. destruct p; injection H as <-; reflexivity.
  - destruct Hd as [->|Hd]; [rewrite upto_textgroup_missing in H; discriminate|].
    rewrite upto_textgroup in H by assumption. injection H as <-; reflexivity.
  - destruct (le_lt_dec 2 (part_size p)).
    + rewrite upto_work in H by assumption. injection H as <-; reflexivity.
    + destruct (upto_work_missing ns cts p r o l) as [E _]. rewrite E in H; discriminate.
  - destruct (le_lt_dec 3 (part_size p)).
    + rewrite upto_version in H by (destruct p; cbn in *; try assumption; lia). injection H as <-.
      destruct p; reflexivity.
    + rewrite upto_version_missing in H by assumption; discriminate.
  - destruct (le_lt_dec 2 (part_size p)).
    + rewrite upto_no_passage in H by assumption. injection H as <-; destruct p; reflexivity.
    + destruct (upto_work_missing ns cts p r o l) as [_ E]. rewrite E in H; discriminate.
Qed.

Lemma upto_again : forall k n ns cts p r o s, cut_of k = Some n -> plain_part p ->
  urn_upto k (parsed_urn ns cts p r o) = Ok s ->
  urn_upto k (parsed_urn ns cts (cut_part n p) None None) = Ok s.
Proof.
  intros k n ns cts p r o s Hk Hp H. rewrite (upto_cut k n ns cts p r o s Hk Hp H).
  destruct k; try discriminate Hk; injection Hk as <-; revert H;
  destruct p as [|tg|tg wk|tg wk vs]; unfold plain_part, plain_comp in *;
  unfold urn_upto, join_opt, write_urn, parsed_urn; cbn -[lit];
    repeat rewrite nonnil_truthy by tauto; cbn -[lit]; try discriminate; intros _;
    rewrite ?app_nil_r; repeat rewrite <- app_assoc; reflexivity.
Qed.

Lemma upto_reparse : forall k n ns cts p r o s, cut_of k = Some n ->
  plain_ns ns -> plain_ns cts -> plain_part p ->
  urn_upto k (parsed_urn ns cts p r o) = Ok s ->
  (exists t, write_urn ns cts p r = s ++ t) /\
  exists u', urn_parse s = Ok u' /\
    u_ns u' = Some ns /\ u_cts u' = Some cts /\
    u_tg u' = (if Nat.leb 1 n then part_tg p else None) /\
    u_wk u' = (if Nat.leb 2 n then part_wk p else None) /\
    u_vs u' = (if Nat.leb 3 n then part_vs p else None) /\
    u_ref u' = None /\ to_str u' = Ok s /\ urn_upto k u' = Ok s.
Proof.
  intros k n ns cts p r o s Hk Hns Hcts Hp H. pose proof (upto_cut _ _ _ _ _ _ _ _ Hk Hp H) as E. split.
  - rewrite E. apply write_urn_cut_prefix.
  - exists (parsed_urn ns cts (cut_part n p) None None). split; [rewrite E; apply urn_parse_cut; assumption|].
    assert (Hn : n <= 3) by (destruct k; try discriminate Hk; injection Hk as <-; auto).
    split; [reflexivity|]. split; [reflexivity|].
    split; [destruct n as [|[|[|[|n]]]], p; try lia; reflexivity|].
    split; [destruct n as [|[|[|[|n]]]], p; try lia; reflexivity|].
    split; [destruct n as [|[|[|[|n]]]], p; try lia; reflexivity|].
    split; [reflexivity|]. split; [rewrite E; reflexivity|].
    eapply upto_again; eassumption.
Qed.

(** Statements over the parsed object. *)

Lemma parsed_form : forall ns cts p r u,
  plain_ns ns -> plain_ns cts -> plain_part p -> written_ref p r ->
  urn_parse (write_urn ns cts p r) = Ok u ->
  exists o, u = parsed_urn ns cts p r o /\
    match r with
    | None => o = None
    | Some r => exists x, o = Some x /\ r_str x = r /\ cts_reference (VStr r) = Ok (Some x)
    end.
Proof.
  intros ns cts p r u Hns Hcts Hp Hr H. destruct r as [r|].
  - destruct Hr as [Hn Hr]. destruct (cts_reference (VStr r)) as [o|e] eqn:E.
    + rewrite (urn_parse_written ns cts p (Some r) o) in H by auto.
      injection H as <-. exists o. split; [reflexivity|].
      destruct (parse_cases r) as [[E0 H]|[[_ [_ [x [H [_ [_ [H1 _]]]]]]]|[[a [b [_ [_ [_ [x [H [_ [_ [H1 _]]]]]]]]]]|[a [b [c [_ H]]]]]]].
      * destruct Hr as [Hr _]; congruence.
      * rewrite H in E; injection E as <-. eauto.
      * rewrite H in E; injection E as <-. eauto.
      * rewrite H in E; discriminate.
    + exfalso. assert (exists q1 q2 q3 q4 a b c,
       hd [] (split c_hash (write_urn ns cts p (Some r))) =
         q1 ++ [c_colon] ++ q2 ++ [c_colon] ++ q3 ++ [c_colon] ++ q4 ++ [c_colon] ++
         (a ++ [c_dash] ++ b ++ [c_dash] ++ c) /\
       count c_colon (hd [] (split c_hash (write_urn ns cts p (Some r)))) = 4) as HX.
      { rewrite not_hash_split by (apply write_urn_no_hash; assumption).
        assert (e = ValueError).
        { revert E; unfold cts_reference; cbn. destruct (negb (truthy r)); [discriminate|].
          unfold cts_reference_string. destruct (negb (mem c_dash r)); [discriminate|].
          destruct (split c_dash r) as [|? [|? [|? ?]]]; cbn; congruence. }
        subst e. apply cts_reference_err_iff in E. destruct E as [a [b [c E]]].
        exists #"urn", ns, cts, (mid_str p), a, b, c. unfold write_urn.
        rewrite write_part_mid by assumption. rewrite E. split.
        - rewrite <- !app_assoc. reflexivity.
        - rewrite <- E. rewrite !count_app.
          assert (C0 : forall s, ~ In c_colon s -> count c_colon s = 0)
            by (intros; apply count_0_mem, not_In_mem; assumption).
          rewrite (C0 ns) by apply Hns. rewrite (C0 cts) by apply Hcts. rewrite (C0 r) by apply Hr.
          rewrite (proj2 (count_0_mem _ _) (mid_no_colon p Hp)). reflexivity. }
      pose proof (proj1 (urn_parse_accepts (write_urn ns cts p (Some r))) (ex_intro _ u H)) as [_ HN].
      apply HN; exact HX.
  - rewrite (urn_parse_written ns cts p None None) in H by (auto). injection H as <-.
    exists None; auto.
Qed.

Lemma components_read_back : forall ns cts p r u,
  plain_ns ns -> plain_ns cts -> plain_part p -> written_ref p r ->
  urn_parse (write_urn ns cts p r) = Ok u ->
  u_ns u = Some ns /\ u_cts u = Some cts /\ u_tg u = part_tg p /\ u_wk u = part_wk p /\
  u_vs u = part_vs p /\ option_map r_str (u_ref u) = r /\ urn_len u = 2 + part_size p.
Proof.
  intros ns cts p r u H1 H2 H3 H4 H. destruct (parsed_form ns cts p r u H1 H2 H3 H4 H) as [o [-> Ho]].
  repeat split; [|apply urn_len_written].
  destruct r as [r|]; [destruct Ho as [x [-> [E _]]]; cbn; congruence|subst o; reflexivity].
Qed.

Lemma components_accepted : forall ns cts p r,
  plain_ns ns -> plain_ns cts -> plain_part p -> written_ref p r ->
  match r with Some r => count c_dash r <= 1 | None => True end ->
  exists u, urn_parse (write_urn ns cts p r) = Ok u.
Proof.
  intros ns cts p [r|] H1 H2 H3 H4 H5.
  - destruct H4 as [Hn Hr]. destruct (cts_reference (VStr r)) as [o|e] eqn:E.
    + rewrite (urn_parse_written ns cts p (Some r) o) by auto. eauto.
    + exfalso. assert (e = ValueError).
      { revert E; unfold cts_reference; cbn. destruct (negb (truthy r)); [discriminate|].
        unfold cts_reference_string. destruct (negb (mem c_dash r)); [discriminate|].
        destruct (split c_dash r) as [|? [|? [|? ?]]]; cbn; congruence. }
      subst e. apply cts_reference_err_iff in E. destruct E as [a [b [c ->]]].
      rewrite count_app in H5. cbn [app count] in H5. rewrite N.eqb_refl in H5.
      rewrite count_app in H5. cbn [count] in H5. rewrite N.eqb_refl in H5. lia.
  - rewrite (urn_parse_written ns cts p None None) by auto. eauto.
Qed.

Lemma upto_truncates : forall ns cts p r u k n s,
  plain_ns ns -> plain_ns cts -> plain_part p -> written_ref p r ->
  urn_parse (write_urn ns cts p r) = Ok u -> cut_of k = Some n ->
  urn_upto k u = Ok s ->
  s = write_urn ns cts (cut_part n p) None /\
  (exists t, write_urn ns cts p r = s ++ t) /\
  exists u', urn_parse s = Ok u' /\
    u_ns u' = Some ns /\ u_cts u' = Some cts /\
    u_tg u' = (if Nat.leb 1 n then part_tg p else None) /\
    u_wk u' = (if Nat.leb 2 n then part_wk p else None) /\
    u_vs u' = (if Nat.leb 3 n then part_vs p else None) /\
    u_ref u' = None /\ to_str u' = Ok s /\ urn_upto k u' = Ok s.
Proof.
  intros ns cts p r u k n s H1 H2 H3 H4 H Hk Hs.
  destruct (parsed_form ns cts p r u H1 H2 H3 H4 H) as [o [-> Ho]]. split.
  - eapply upto_cut; eassumption.
  - eapply upto_reparse; eassumption.
Qed.

Lemma upto_needs : forall ns cts p r u,
  plain_ns ns -> plain_ns cts -> plain_part p -> written_ref p r ->
  urn_parse (write_urn ns cts p r) = Ok u ->
  (exists s, urn_upto NAMESPACE u = Ok s) /\ (exists s, urn_upto COMPLETE u = Ok s) /\
  (if Nat.leb 1 (part_size p) then exists s, urn_upto TEXTGROUP u = Ok s else urn_upto TEXTGROUP u = Err KeyError) /\
  (if Nat.leb 2 (part_size p) then exists s, urn_upto WORK u = Ok s else urn_upto WORK u = Err KeyError) /\
  (if Nat.leb 2 (part_size p) then exists s, urn_upto NO_PASSAGE u = Ok s else urn_upto NO_PASSAGE u = Err KeyError) /\
  (if Nat.leb 3 (part_size p) then exists s, urn_upto VERSION u = Ok s else urn_upto VERSION u = Err KeyError).
Proof.
  intros ns cts p r u H1 H2 H3 H4 H. destruct (parsed_form ns cts p r u H1 H2 H3 H4 H) as [o [-> Ho]].
  split; [rewrite upto_namespace; eauto|]. split; [rewrite upto_complete; eauto|].
  destruct p as [|tg|tg wk|tg wk vs]; cbn [part_size Nat.leb];
  (split; [|split; [|split]]);
  try reflexivity;
  first [ rewrite upto_textgroup by (assumption || discriminate); eauto; fail
        | rewrite upto_work by (assumption || (cbn; auto)); eauto; fail
        | rewrite upto_no_passage by (assumption || (cbn; auto)); eauto; fail
        | rewrite upto_version by (assumption || (cbn; auto)); eauto; fail ].
Qed.

Lemma upto_passages : forall ns cts p r u,
  plain_ns ns -> plain_ns cts -> plain_part p -> written_ref p r ->
  urn_parse (write_urn ns cts p r) = Ok u ->
  match r with
  | None => urn_upto PASSAGE u = Err KeyError /\ urn_upto PASSAGE_START u = Err KeyError /\
            urn_upto PASSAGE_END u = Err KeyError
  | Some r =>
      urn_upto PASSAGE u = Ok (write_urn ns cts p (Some r)) /\
      (forall a b, r = a ++ [c_dash] ++ b -> ~ In c_dash a -> ~ In c_dash b ->
         urn_upto PASSAGE_START u = Ok (write_urn ns cts p (Some a)) /\
         (exists t, write_urn ns cts p (Some r) = write_urn ns cts p (Some a) ++ t) /\
         urn_upto PASSAGE_END u = Ok (write_urn ns cts p (Some b))) /\
      (~ In c_dash r ->
         urn_upto PASSAGE_START u = Ok (write_urn ns cts p (Some r)) /\
         urn_upto PASSAGE_END u = Err KeyError)
  end.
Proof.
  intros ns cts p r u H1 H2 H3 H4 H. destruct (parsed_form ns cts p r u H1 H2 H3 H4 H) as [o [-> Ho]].
  destruct r as [r|]; [|subst o; apply upto_passage_missing].
  destruct Ho as [x [-> [Hx Hp]]]. destruct H4 as [Hn Hr].
  destruct (upto_passage ns cts p (Some r) (Some x) x H3 Hn eq_refl) as [E1 [E2 E3]].
  split; [rewrite E1, Hx; reflexivity|]. split.
  - intros a b E Ha Hb. rewrite E2, E3.
    destruct (parse_cases r) as [[E0 _]|[[_ [Hd _]]|[[a' [b' [E' [Ha' [Hb' [y [Hy [Hs [He _]]]]]]]]]|[a' [b' [c' [_ Hy]]]]]]].
    + destruct Hr; congruence.
    + exfalso; apply Hd; rewrite E. apply in_or_app; right; left; reflexivity.
    + rewrite Hy in Hp; injection Hp as <-.
      assert (Hab : a' = a /\ b' = b).
      { rewrite E in E'. clear - E' Ha Hb Ha' Hb'. revert a' E' Ha'.
        induction a as [|c a IH]; intros [|c' a'] E' Ha'; cbn in E'.
        - injection E' as ->; auto.
        - exfalso. injection E' as Ec E'. apply Ha'; left; congruence.
        - exfalso. injection E' as Ec E'. apply Ha; left; congruence.
        - injection E' as Ec E'. rewrite Ec. destruct (IH (fun h => Ha (or_intror h)) a' E' (fun h => Ha' (or_intror h))) as [-> ->]; auto. }
      destruct Hab as [<- <-]. rewrite Hs, He. repeat split.
      exists ([c_dash] ++ b'). rewrite E'. unfold write_urn. rewrite <- !app_assoc. reflexivity.
    + rewrite Hy in Hp; discriminate.
  - intros Hd. rewrite E2, E3.
    destruct (parse_cases r) as [[E0 _]|[[_ [_ [y [Hy [Hs [He _]]]]]]|[[a' [b' [E' _]]]|[a' [b' [c' [E' Hy]]]]]]].
    + destruct Hr; congruence.
    + rewrite Hy in Hp; injection Hp as <-. rewrite Hs, He. auto.
    + exfalso; apply Hd; rewrite E'. apply in_or_app; right; left; reflexivity.
    + exfalso; apply Hd; rewrite E'. apply in_or_app; right; left; reflexivity.
Qed.

Lemma reassign_unchanged : forall ns cts p r u h,
  plain_ns ns -> plain_ns cts -> plain_part p -> written_ref p r ->
  (r <> None -> 2 <= part_size p) ->
  urn_parse (write_urn ns cts p r) = Ok u ->
  Forall (reassign_op u) h ->
  to_str (urn_run u h) = Ok (write_urn ns cts p r) /\ urn_eq (urn_run u h) u = Ok true.
Proof.
  intros ns cts p r u h H1 H2 H3 H4 H5 H Hh.
  destruct (parsed_form ns cts p r u H1 H2 H3 H4 H) as [o [-> Ho]].
  assert (E : to_str (urn_run (parsed_urn ns cts p r o) h) = Ok (write_urn ns cts p r)).
  { apply reassign_str; try assumption. destruct r as [r|]; [|exact Ho].
    destruct Ho as [x [-> [Hx _]]]. split; [apply H5; discriminate|eauto]. }
  split; [exact E|]. apply (urn_eq_spec _ (parsed_urn ns cts p r o) _ (write_urn ns cts p r) E eq_refl). reflexivity.
Qed.

Lemma urn_eq_equiv : forall a b c x y z,
  to_str a = Ok x -> to_str b = Ok y -> to_str c = Ok z ->
  urn_eq a a = Ok true /\ urn_eq a b = urn_eq b a /\
  (urn_eq a b = Ok true -> urn_eq b c = Ok true -> urn_eq a c = Ok true) /\
  (urn_eq a b = Ok true <-> x = y) /\ (urn_eq a b = Ok false <-> x <> y).
Proof.
  intros a b c x y z Ha Hb Hc.
  pose proof (urn_eq_spec a a x x Ha Ha) as [Haa _].
  pose proof (urn_eq_spec a b x y Ha Hb) as [Hab Hab'].
  pose proof (urn_eq_spec b c y z Hb Hc) as [Hbc _].
  pose proof (urn_eq_spec a c x z Ha Hc) as [Hac _].
  pose proof (urn_eq_spec b a y x Hb Ha) as [Hba Hba'].
  split; [tauto|]. split.
  - destruct (str_eqb_spec x y) as [E|E].
    + rewrite (proj2 Hab E), (proj2 Hba (eq_sym E)); reflexivity.
    + rewrite (proj2 Hab' E), (proj2 Hba' (fun e => E (eq_sym e))); reflexivity.
  - split; [|tauto]. intros P Q. apply Hac. apply Hab in P; apply Hbc in Q. congruence.
Qed.

Lemma urn_order_laws : forall a b c,
  urn_lt a a = false /\ urn_gt a b = urn_lt b a /\
  (urn_lt a b = true -> urn_lt b c = true -> urn_lt a c = true) /\
  (urn_lt a b = true <-> urn_len a < urn_len b).
Proof.
  intros a b c. destruct (urn_order a b c) as [H1 [H2 H3]]. repeat split; try assumption;
  unfold urn_lt; apply Nat.ltb_lt.
Qed.

Lemma hd_split_base : forall s, ~ In c_hash (hd [] (split c_hash s)) /\
  (s = hd [] (split c_hash s) \/ exists t, s = hd [] (split c_hash s) ++ [c_hash] ++ t).
Proof.
  intros s. destruct (hd_split_prefix c_hash s) as [[H E]|[t [E H]]].
  - rewrite E. auto.
  - split; [exact H|right; exists t; exact E].
Qed.
