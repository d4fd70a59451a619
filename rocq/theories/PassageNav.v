(** Reading passages and moving between them. *)

From Coq Require Import List NArith ZArith Arith Bool Lia Sorted.
From Verif Require Import PyStr PyStrFacts RefModel RefProofs CiteModel SchemeModel UrnModel UrnSpec UrnProofs.
From Verif Require Import XmlModel XmlSpec XmlProofs XPathModel TemplateSpec TemplateProofs.
From Verif Require Import PassageModel PassageSpec PassageProofs PassageTree.
Import ListNotations.

(** ** The steps given to passageLoop *)

Lemma no_slash_subst : forall c s, (forall g a v, In g (t_groups s) -> In (TValue a v) g -> ~ In c_slash v) -> slash_free c ->
  no_slash (subst_tstep c s).
Proof.
  intros c s Hs Hc. unfold no_slash. cbn [subst_tstep t_groups]. apply Forall_map. rewrite Forall_forall. intros g Hg.
  apply Forall_map. rewrite Forall_forall. intros t Ht. destruct t as [a|a v|a]; cbn; [exact I|exact (Hs g a v Hg Ht)|].
  destruct c as [v|]; [exact Hc|exact I].
Qed.

Lemma filled_no_slash : forall levels comps, Forall wf_level levels -> slashless levels -> Forall slash_free comps ->
  Forall no_slash (filled_steps levels comps).
Proof.
  induction levels as [|lv levels IH]; intros comps H Hs Hc; [constructor|]. destruct Hc as [|c comps Hc Hcs]; [constructor|].
  cbn [filled_steps]. inversion H as [|? ? (Hw & Hu & Hsl & _) Hl]; subst. apply Forall_app. split; [|constructor].
  - rewrite Forall_forall in *. intros s Hi. rewrite <- (subst_none_step None s (Hsl s Hi)). apply no_slash_subst; [|exact I].
    intros g a v Hg Hv. apply (Hs lv s g a v); auto; [left; reflexivity|apply in_or_app; left; exact Hi].
  - apply no_slash_subst; [|exact Hc]. intros g a v Hg Hv. apply (Hs lv (l_unit lv) g a v); auto; [left; reflexivity|].
    apply in_or_app; right; left; reflexivity.
  - apply IH; [assumption| |assumption]. intros lv' s g a v Hlv'. apply Hs. right; exact Hlv'.
Qed.

Lemma path_safe_some : forall comps, Forall path_safe comps -> Forall quote_free (map Some comps) /\ Forall slash_free (map Some comps).
Proof.
  intros comps H. split; apply Forall_map; eapply Forall_impl; try exact H; intros v [H1 H2]; assumption.
Qed.

Lemma mapM_step_text : forall k l, Forall readable l -> mapM step_of_text (map (step_text k) l) = Ok (map (mean_tstep None) l).
Proof.
  intros k l H. rewrite mapM_map. apply mapM_ok. intros s Hs. rewrite Forall_forall in H. apply step_of_step_text. auto.
Qed.

Lemma passage_steps_spec : forall levels comps, usable_scheme levels -> comps <> [] -> Forall path_safe comps ->
  passage_steps (write_tsteps 0 (filled_steps levels (map Some comps))) = Ok (tl (mean levels (map Some comps))).
Proof.
  intros levels comps (Hwf & _ & Hr & Hs) Hne Hp. destruct (path_safe_some _ Hp) as [Hq Hsl].
  rewrite <- (mean_filled levels (map Some comps) Hwf).
  pose proof (filled_readable levels (map Some comps) Hwf Hq) as Hread.
  pose proof (filled_no_slash levels (map Some comps) Hwf Hs Hsl) as Hns.
  destruct Hr as (lv & rest & s & way & -> & Hway & Hd). destruct comps as [|c comps]; [congruence|].
  cbn [map filled_steps] in *. rewrite Hway in *. cbn [app] in *.
  rewrite Forall_cons_iff in Hread, Hns. destruct Hread as [R1 R2], Hns as [N1 N2].
  unfold passage_steps. rewrite normalize_write by assumption. cbn [map tl]. apply mapM_step_text. exact R2.
Qed.

(** ** Citing in the document and selecting from its root *)

Lemma mean_rooted : forall levels comps, rooted levels -> comps <> [] ->
  exists s rest, mean levels comps = s :: rest /\ s_desc s = false.
Proof.
  intros levels comps (lv & rest & s & way & -> & Hway & Hd) Hne. destruct comps as [|c comps]; [congruence|].
  cbn [mean]. unfold mean_level. rewrite Hway. cbn [map app]. eexists; eexists. split; [reflexivity|exact Hd].
Qed.

Lemma cites_tail : forall levels x comps, rooted levels -> comps <> [] -> forall p,
  (cites levels x comps p <-> exists p', p = 0 :: p' /\ selects (tl (mean levels (map Some comps))) x p' /\ step_holds (hd (MkStep false None []) (mean levels (map Some comps))) x).
Proof.
  intros levels x comps Hr Hne p. unfold cites. destruct (mean_rooted levels (map Some comps) Hr) as (s & rest & E & Hd).
  { destruct comps; [congruence|discriminate]. }
  rewrite E. cbn [tl hd]. split.
  - intros H. apply selects_inv in H. destruct H as (a & i & p' & m & -> & Hm & Hs & Hd' & H). rewrite (Hd' Hd) in *. cbn [app] in *.
    apply at_position_cons in Hm. destruct Hm as (k & Hk & Hm). apply at_position_nil in Hm. subst k.
    destruct i as [|i]; [|destruct i; discriminate]. cbn in Hk. injection Hk as <-. eauto.
  - intros (p' & -> & H & Hs). change (0 :: p') with ([] ++ 0 :: p'). econstructor; [|exact Hs|reflexivity|exact H].
    apply at_position_cons. exists x. split; [reflexivity|constructor].
Qed.

Lemma cites_only_tail : forall levels x comps p, rooted levels -> comps <> [] -> cites_only levels x comps p ->
  exists p', p = 0 :: p' /\ selects_only (tl (mean levels (map Some comps))) x p'.
Proof.
  intros levels x comps p Hr Hne [H Hu]. pose proof H as H'. apply (cites_tail levels x comps Hr Hne) in H'.
  destruct H' as (p' & -> & Hp' & Hs). exists p'. split; [reflexivity|]. split; [exact Hp'|]. intros q Hq.
  assert (E : 0 :: q = 0 :: p') by (apply Hu, (cites_tail levels x comps Hr Hne); eauto). injection E as ->. reflexivity.
Qed.

(** The steps are not empty: the first level has a way and a unit. *)
Lemma tail_nonnil : forall levels comps, rooted levels -> comps <> [] -> tl (mean levels (map Some comps)) <> [].
Proof.
  intros levels comps (lv & rest & s & way & -> & Hway & Hd) Hne. destruct comps as [|c comps]; [congruence|].
  cbn [map mean]. unfold mean_level. rewrite Hway. cbn [map app tl]. intros E. apply app_eq_nil in E. destruct E as [E _].
  apply app_eq_nil in E. destruct E as [_ E]. discriminate.
Qed.

(** ** getTextualNode *)

Lemma citation_at_level : forall levels k, 0 < k <= length levels ->
  citation_at (write_scheme levels) (Z.of_nat k - 1) = Ok (write_from 1 (firstn k levels)).
Proof.
  intros levels k Hk. unfold citation_at. rewrite scheme_length.
  replace (Z.of_nat (length levels) - 1 <? Z.of_nat k - 1)%Z with false by (symmetry; apply Z.ltb_ge; lia).
  destruct k as [|k]; [lia|]. unfold list_index. rewrite scheme_length.
  replace (Z.of_nat (S k) - 1)%Z with (Z.of_nat k) by lia.
  rewrite (proj2 (Z.ltb_ge (Z.of_nat k) 0)) by lia. rewrite (proj2 (Z.ltb_ge (Z.of_nat k) 0)) by lia.
  rewrite Nat2Z.id, nth_scheme by lia. reflexivity.
Qed.

(** The URN handed to the constructor (lines 100-103). *)
Definition node_urn (u : option urn) (r : ref) : result (option urn) :=
  match u with
  | Some u => if Nat.eqb (urn_len u) 0 then Ok None
              else t <- to_str u ;; u' <- urn_parse (t ++ #":" ++ r_str r) ;; Ok (Some u')
  | None => Ok None
  end.

Section Text.
Variables (levels : list level) (same : node -> node -> bool).
Hypothesis Hu : usable_scheme levels.

Lemma shared_node_steps : forall self r, id_depth (r_start r) <= length levels -> length (id_list (last_id r)) <= length levels ->
  Forall path_safe (id_list (r_start r)) -> Forall path_safe (id_list (last_id r)) ->
  shared_node (write_scheme levels) same self r =
  (root <- extract same (o_xml (text_object self)) (tl (mean levels (map Some (id_list (r_start r)))))
             (tl (mean levels (map Some (id_list (last_id r))))) ;;
   u <- node_urn (o_urn self) r ;; passage_init r u root self).
Proof.
  intros self r Hd Hd2 Hs He. unfold shared_node. rewrite scheme_length.
  replace (length levels <? id_depth (r_start r))%nat with false by (symmetry; apply Nat.ltb_ge; exact Hd).
  replace (match r_end r with None => id_list (r_start r) | Some e => id_list e end) with (id_list (last_id r))
    by (unfold last_id; destruct (r_end r); reflexivity).
  assert (Hl : forall s, 0 < length (id_list s)) by (intros s; unfold id_list; rewrite split_length; lia).
  assert (Hl1 : length (id_list (r_start r)) <= length levels).
  { unfold id_list, id_depth in *. rewrite split_length. pose proof (split_hd_count c_at c_dot (r_start r) ltac:(discriminate)). lia. }
  rewrite !citation_at_level by (split; [apply Hl|assumption]). cbn [bind].
  destruct Hu as (Hwf & Hsm & _).
  assert (Hf : forall c, 0 < length c <= length levels -> fill (Some (write_from 1 (firstn (length c) levels))) (FList (map Some c)) = Ok (write_tsteps 0 (filled_steps levels (map Some c)))).
  { intros c Hc. pose proof (fill_level levels Hwf Hsm (map Some c)) as H. rewrite map_length in H. apply H. exact Hc. }
  rewrite !Hf by (split; [apply Hl|assumption]). cbn [bind].
  assert (Hne : forall s, id_list s <> []) by (intros s E; specialize (Hl s); rewrite E in Hl; cbn in Hl; lia).
  rewrite !passage_steps_spec by (try exact Hu; try apply Hne; assumption). cbn [bind].
  destruct (extract same _ _ _) as [root|e]; [|reflexivity]. reflexivity.
Qed.

End Text.

(** ** URNs of passages *)

Section Urns.
Variables (ns cts tg wk vs : str).
Hypothesis Hns : plain_ns ns.
Hypothesis Hcts : plain_ns cts.
Hypothesis Hpart : plain_part (Version tg wk vs).

Definition base_urn : str := write_urn ns cts (Version tg wk vs) None.

Lemma write_urn_ref : forall q, write_urn ns cts (Version tg wk vs) (Some q) = base_urn ++ #":" ++ q.
Proof. intros q. unfold base_urn, write_urn. rewrite app_nil_r, <- !app_assoc. reflexivity. Qed.

Lemma base_split : forall t, split c_colon (base_urn ++ #":" ++ t) =
  #"urn" :: ns :: cts :: mid_str (Version tg wk vs) :: split c_colon t.
Proof.
  intros t. unfold base_urn, write_urn. rewrite write_part_mid by discriminate. rewrite app_nil_r, <- !app_assoc.
  change (#"urn" ++ [c_colon] ++ ?x) with (#"urn" ++ c_colon :: x). rewrite split_app_sep by reflexivity.
  change (ns ++ [c_colon] ++ ?x) with (ns ++ c_colon :: x). rewrite split_app_sep by (apply mem_c; apply Hns).
  change (cts ++ [c_colon] ++ ?x) with (cts ++ c_colon :: x). rewrite split_app_sep by (apply mem_c; apply Hcts).
  change (mid_str (Version tg wk vs) ++ #":" ++ t) with (mid_str (Version tg wk vs) ++ c_colon :: t).
  rewrite split_app_sep by (apply mid_no_colon; exact Hpart). reflexivity.
Qed.

Lemma base_no_hash : mem c_hash base_urn = false.
Proof. apply write_urn_no_hash; auto. Qed.

Lemma parse_two_refs : forall q s, plain_ref q -> ~ In c_hash s -> ~ In c_colon s ->
  urn_parse (write_urn ns cts (Version tg wk vs) (Some q) ++ #":" ++ s) =
  Ok (MkUrn (Some (base_urn ++ #":" ++ q ++ #":" ++ s)) (Some ns) (Some cts) (Some tg) (Some wk) (Some vs) None).
Proof.
  intros q s Hq Hs Hc. rewrite write_urn_ref, <- !app_assoc. unfold urn_parse. rewrite not_hash_split.
  2:{ rewrite !mem_app, base_no_hash, (mem_c _ q), (mem_c _ s) by (assumption || apply Hq). reflexivity. }
  rewrite base_split. change (q ++ #":" ++ s) with (q ++ c_colon :: s). rewrite split_app_sep by (apply mem_c; apply Hq).
  rewrite split_no_sep by (apply mem_c; exact Hc). cbn [bind]. rewrite split_mid by (discriminate || exact Hpart). reflexivity.
Qed.

Lemma parse_ref : forall s o, plain_ref s -> cts_reference (VStr s) = Ok o ->
  urn_parse (base_urn ++ #":" ++ s) = Ok (parsed_urn ns cts (Version tg wk vs) (Some s) o).
Proof. intros s o Hs Ho. rewrite <- write_urn_ref. apply urn_parse_written; auto. split; [discriminate|]. auto. Qed.

Lemma upto_fields : forall u, u_ns u = Some ns -> u_cts u = Some cts -> u_tg u = Some tg -> u_wk u = Some wk -> u_vs u = Some vs ->
  urn_upto VERSION u = Ok base_urn.
Proof.
  intros u H1 H2 H3 H4 H5. pose proof (upto_version ns cts (Version tg wk vs) None None Hpart eq_refl) as H.
  unfold urn_upto, parsed_urn in *. cbn [u_ns u_cts u_tg u_wk u_vs part_tg part_wk part_vs] in H. rewrite H1, H2, H3, H4, H5. exact H.
Qed.

Lemma make_urn_ok : forall u r, u_ns u = Some ns -> u_cts u = Some cts -> u_tg u = Some tg -> u_wk u = Some wk -> u_vs u = Some vs ->
  writable r -> make_urn (Some u) (Some r) = Ok (Some (parsed_urn ns cts (Version tg wk vs) (Some (r_str r)) (Some r))).
Proof.
  intros u r H1 H2 H3 H4 H5 (Hr1 & Hr2 & Hr3 & Hr4). unfold make_urn. rewrite (upto_fields u) by assumption. cbn [bind].
  rewrite (parse_ref (r_str r) (Some r)); [reflexivity|repeat split; assumption|exact Hr4].
Qed.

Lemma passage_urn : forall u r root txt, of_version ns cts tg wk vs u -> writable r ->
  (u' <- node_urn (Some u) r ;; passage_init r u' root txt) =
  Ok (OPass r root txt (Some (parsed_urn ns cts (Version tg wk vs) (Some (r_str r)) (Some r)))).
Proof.
  intros u r root txt (q & Hq & Hu) Hr. pose proof Hr as (Hr1 & Hr2 & Hr3 & Hr4).
  assert (Hpr : plain_ref (r_str r)) by (repeat split; assumption).
  destruct (parsed_form ns cts (Version tg wk vs) q u Hns Hcts Hpart) as (o & -> & Ho); [destruct q; cbn; [split; [discriminate|exact Hq]|exact I]|exact Hu|].
  unfold node_urn. cbn [urn_len parsed_urn u_ns u_cts u_tg u_wk u_vs present part_tg part_wk part_vs Nat.add Nat.eqb].
  change (to_str (parsed_urn ns cts (Version tg wk vs) q o)) with (Ok (write_urn ns cts (Version tg wk vs) q)).
  cbn [bind]. destruct q as [q|].
  - rewrite parse_two_refs by assumption. cbn [bind]. unfold passage_init. rewrite make_urn_ok by (reflexivity || exact Hr). reflexivity.
  - fold base_urn. rewrite (parse_ref (r_str r) (Some r)) by assumption. cbn [bind]. unfold passage_init.
    rewrite make_urn_ok by (reflexivity || exact Hr). reflexivity.
Qed.

Lemma of_version_ref : forall r, writable r -> of_version ns cts tg wk vs (parsed_urn ns cts (Version tg wk vs) (Some (r_str r)) (Some r)).
Proof.
  intros r (H1 & H2 & H3 & H4). assert (Hp : plain_ref (r_str r)) by (repeat split; assumption).
  exists (Some (r_str r)). split; [exact Hp|]. rewrite write_urn_ref. apply parse_ref; assumption.
Qed.
End Urns.

Lemma passage_made : forall u r root txt, good_urn u -> writable r ->
  exists u', (u' <- node_urn u r ;; passage_init r u' root txt) = Ok (OPass r root txt u') /\ good_urn u'.
Proof.
  intros [u|] r root txt Hu Hr.
  - destruct Hu as (ns & cts & tg & wk & vs & H1 & H2 & H3 & H4). eexists. rewrite (passage_urn ns cts tg wk vs) by assumption.
    split; [reflexivity|]. exists ns, cts, tg, wk, vs. repeat (split; [assumption|]). apply of_version_ref; assumption.
  - exists None. split; [reflexivity|exact I].
Qed.

(** ** What getTextualNode returns *)

Section Node.
Variables (levels : list level).
Hypothesis Hu : usable_scheme levels.

Lemma get_node_steps : forall same self r, id_depth (r_start r) <= length levels -> length (id_list (last_id r)) <= length levels ->
  Forall path_safe (id_list (r_start r)) -> Forall path_safe (id_list (last_id r)) ->
  get_node (write_scheme levels) same self r =
  (root <- extract same (o_xml (text_object self)) (tl (mean levels (map Some (id_list (r_start r)))))
             (tl (mean levels (map Some (id_list (last_id r))))) ;;
   u <- node_urn (o_urn self) r ;; passage_init r u root (text_object self)).
Proof.
  intros same self r H1 H2 H3 H4. unfold get_node. rewrite shared_node_steps by assumption. destruct self as [x u|r0 x t u].
  - reflexivity.
  - cbn [text_object]. destruct (extract same (o_xml t) _ _) as [root|e]; [|reflexivity]. cbn [bind].
    destruct (node_urn (o_urn (OPass r0 x t u)) r) as [u'|e]; [|reflexivity]. cbn [bind]. unfold passage_init.
    destruct (make_urn u' (Some r)); reflexivity.
Qed.

Lemma id_list_nonnil : forall s, id_list s <> [].
Proof. intros s E. pose proof (f_equal (@length _) E) as H. unfold id_list in H. rewrite split_length in H. discriminate. Qed.

(** The passage between two cited elements. *)
Lemma get_node_range : forall self x r P1 P2, o_xml (text_object self) = x -> good_urn (o_urn self) -> writable r ->
  id_depth (r_start r) <= length levels -> length (id_list (last_id r)) <= length levels ->
  Forall path_safe (id_list (r_start r)) -> Forall path_safe (id_list (last_id r)) ->
  cites_only levels x (id_list (r_start r)) P1 -> cites_only levels x (id_list (last_id r)) P2 ->
  is_prefix P1 P2 = true \/ precedes P1 P2 = true ->
  exists R u', get_node (write_scheme levels) identity_only self r = Ok (OPass r R (text_object self) u') /\
    lines 0 R = passage_lines (part_of (tl P1) (tl (if is_prefix P1 P2 then P1 else P2))) x /\
    shared_node (write_scheme levels) identity_only self r = Ok (OPass r R self u') /\ good_urn u'.
Proof.
  intros self x r P1 P2 Hx Hgu Hr H1 H2 H3 H4 C1 C2 Ho. pose proof Hu as (_ & _ & Hrt & _).
  destruct (cites_only_tail _ _ _ _ Hrt (id_list_nonnil _) C1) as (p1 & -> & S1).
  destruct (cites_only_tail _ _ _ _ Hrt (id_list_nonnil _) C2) as (p2 & -> & S2).
  assert (Ho' : is_prefix p1 p2 = true \/ precedes p1 p2 = true) by exact Ho.
  destruct (extract_lines identity_only x _ _ p1 p2 (tail_nonnil _ _ Hrt (id_list_nonnil (r_start r))) (tail_nonnil _ _ Hrt (id_list_nonnil (last_id r))) S1 S2
    (alone_identity _ _) (alone_identity _ _) Ho') as (R & HR & HL).
  rewrite get_node_steps, shared_node_steps by assumption. rewrite Hx, HR. cbn [bind].
  destruct (passage_made (o_urn self) r R (text_object self) Hgu Hr) as (u' & E & Hg). rewrite E. exists R, u'. split; [reflexivity|].
  split; [|split; [|exact Hg]].
  - rewrite HL. unfold range_end. change (is_prefix (0 :: p1) (0 :: p2)) with (is_prefix p1 p2). destruct (is_prefix p1 p2); reflexivity.
  - revert E. unfold passage_init. destruct (node_urn (o_urn self) r) as [v|e]; [|discriminate]. cbn [bind].
    destruct (make_urn v (Some r)) as [w|e]; [|discriminate]. cbn [bind]. intros [= E1 E2]. rewrite E1, E2. reflexivity.
Qed.

(** A single reference that cites something. *)
Lemma get_node_single : forall same self x r p, o_xml (text_object self) = x -> good_urn (o_urn self) -> writable r ->
  id_depth (r_start r) <= length levels -> r_end r = None -> Forall path_safe (id_list (r_start r)) ->
  cites levels x (id_list (r_start r)) p ->
  exists R u' P e, get_node (write_scheme levels) same self r = Ok (OPass r R (text_object self) u') /\
    cites levels x (id_list (r_start r)) P /\ at_position (document x) P e /\ text_of R = text_of e /\
    lines 0 R = passage_lines (part_of (tl P) (tl P)) x.
Proof.
  intros same self x r p Hx Hgu Hr H1 He H3 C. pose proof Hu as (_ & _ & Hrt & _).
  assert (El : last_id r = r_start r) by (unfold last_id; rewrite He; reflexivity).
  pose proof (proj1 (cites_tail levels x _ Hrt (id_list_nonnil (r_start r)) p) C) as (p' & -> & Hp' & Hs).
  destruct (extract_single same x _ (tail_nonnil _ _ Hrt (id_list_nonnil (r_start r))) (ex_intro _ p' Hp')) as (R & P & e & HR & HP & He' & Ht & HL).
  rewrite get_node_steps; try assumption; rewrite ?El; try assumption.
  2:{ unfold id_depth in H1. unfold id_list. rewrite split_length. pose proof (split_hd_count c_at c_dot (r_start r) ltac:(discriminate)). lia. }
  rewrite Hx, HR. cbn [bind]. destruct (passage_made (o_urn self) r R (text_object self) Hgu Hr) as (u' & E & _). rewrite E.
  exists R, u', (0 :: P), e. split; [reflexivity|]. split; [apply (cites_tail levels x _ Hrt (id_list_nonnil (r_start r))); eauto|].
  split; [apply at_position_cons; exists x; split; [reflexivity|exact He']|]. split; [exact Ht|exact HL].
Qed.

(** simple=True. *)
Lemma simple_node_found : forall self x r, o_xml self = x -> r_end r = None ->
  id_depth (r_start r) <= length levels -> Forall path_safe (id_list (r_start r)) ->
  exists ps, NoDup ps /\ (forall p, In p ps <-> cites levels x (id_list (r_start r)) p) /\
  simple_node (write_scheme levels) self r =
    match ps with
    | [p] => u <- make_urn (o_urn self) (Some r) ;; Ok (MkSimple (Some r) x p (text_object self) u)
    | _ => Err InvalidURN
    end.
Proof.
  intros self x r Hx He Hd Hs. exists (xpath_abs x (mean levels (map Some (id_list (r_start r))))).
  destruct Hu as (Hwf & Hsm & Hrt & _).
  assert (Hm : mean levels (map Some (id_list (r_start r))) <> []).
  { destruct (mean_rooted levels (map Some (id_list (r_start r))) Hrt) as (s & rest & E & _); [|rewrite E; discriminate].
    intros E. apply map_eq_nil in E. destruct (id_list_nonnil _ E). }
  split; [exact (SSorted_before_NoDup _ (xpath_sorted (document x) (mean levels (map Some (id_list (r_start r))))))|].
  split; [intros p; apply In_xpath; exact Hm|].
  unfold simple_node. rewrite scheme_length.
  replace (length levels <? id_depth (r_start r))%nat with false by (symmetry; apply Nat.ltb_ge; exact Hd).
  assert (Hl : 0 < length (id_list (r_start r)) <= length levels).
  { unfold id_depth in Hd. unfold id_list. rewrite split_length. pose proof (split_hd_count c_at c_dot (r_start r) ltac:(discriminate)). lia. }
  assert (Hdep : ref_depth r = length (id_list (r_start r))) by (unfold ref_depth, ref_highest; rewrite He; reflexivity).
  rewrite Hdep, citation_at_level by exact Hl. cbn [bind].
  change (fill (Some (write_from 1 (firstn (length (id_list (r_start r))) levels))) (FRef r)) with
    (fill (Some (write_from 1 (firstn (length (id_list (r_start r))) levels))) (FList (map Some (id_list (r_start r))))).
  pose proof (fill_level levels Hwf Hsm (map Some (id_list (r_start r)))) as Hf. rewrite map_length in Hf. rewrite Hf by exact Hl. cbn [bind].
  rewrite Hx. rewrite (eval_level levels x Hwf Hsm).
  2:{ rewrite map_length; exact Hl. }
  2:{ apply Forall_map. eapply Forall_impl; [|exact Hs]. intros a Ha. apply Ha. }
  cbn [bind]. reflexivity.
Qed.

Lemma simple_node_spec : forall self x r P, o_xml self = x -> r_end r = None -> good_urn (o_urn self) -> writable r ->
  id_depth (r_start r) <= length levels -> Forall path_safe (id_list (r_start r)) ->
  cites_only levels x (id_list (r_start r)) P ->
  exists u', simple_node (write_scheme levels) self r = Ok (MkSimple (Some r) x P (text_object self) u').
Proof.
  intros self x r P Hx He Hgu Hr Hd Hs [C Cu]. destruct (simple_node_found self x r Hx He Hd Hs) as (ps & Hn & Hin & ->).
  assert (Hp : ps = [P]).
  { destruct ps as [|p [|q l]].
    - destruct (proj2 (Hin P) C).
    - f_equal. apply Cu, Hin. left; reflexivity.
    - exfalso. assert (E1 : p = P) by (apply Cu, Hin; left; reflexivity). assert (E2 : q = P) by (apply Cu, Hin; right; left; reflexivity).
      subst. inversion Hn as [|? ? Hn1 _]; subst. apply Hn1. left; reflexivity. }
  rewrite Hp. destruct (o_urn self) as [u|] eqn:Eu.
  - destruct Hgu as (ns & cts & tg & wk & vs & G1 & G2 & G3 & (q & Gq & G4)).
    destruct (parsed_form ns cts (Version tg wk vs) q u G1 G2 G3) as (o & -> & _); [destruct q; cbn; [split; [discriminate|exact Gq]|exact I]|exact G4|].
    rewrite (make_urn_ok ns cts tg wk vs) by (assumption || reflexivity). cbn [bind]. eauto.
  - cbn [make_urn bind]. eauto.
Qed.

Lemma simple_node_refused : forall self x r, o_xml self = x -> r_end r = None ->
  id_depth (r_start r) <= length levels -> Forall path_safe (id_list (r_start r)) ->
  (forall P, ~ cites_only levels x (id_list (r_start r)) P) ->
  simple_node (write_scheme levels) self r = Err InvalidURN.
Proof.
  intros self x r Hx He Hd Hs Hno. destruct (simple_node_found self x r Hx He Hd Hs) as (ps & Hn & Hin & ->).
  destruct ps as [|p [|q l]]; [reflexivity| |reflexivity]. exfalso. apply (Hno p). split; [apply Hin; left; reflexivity|].
  intros q Hq. apply Hin in Hq. destruct Hq as [<-|[]]. reflexivity.
Qed.

End Node.
