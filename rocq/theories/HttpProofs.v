(** Proofs about requests and links. *)

From Coq Require Import List NArith ZArith Bool Lia Arith.
From Verif Require Import PyStr PyStrFacts RefModel RefSpec RefProofs MetaModel HttpModel HttpSpec.
Import ListNotations.

(** ** Dictionaries *)

Lemma NoDup_dset_In : forall A k (v : A) d k' v', NoDup (keys d) ->
  In (k', v') (dset k v d) <-> (k' = k /\ v' = v) \/ (k' <> k /\ In (k', v') d).
Proof.
  intros A k v d k' v' HN. pose proof (NoDup_keys_dset A k v d HN) as HN'. split.
  - intros H. apply In_dget_NoDup in H; [|exact HN']. destruct (str_eq_dec k' k) as [->|Hk].
    + rewrite dget_dset_same in H. left. split; congruence.
    + rewrite dget_dset_other in H by congruence. right. split; [exact Hk|]. apply dget_In. exact H.
  - intros [[-> ->]|[Hk H]].
    + apply dget_In. apply dget_dset_same.
    + apply dget_In. rewrite dget_dset_other by congruence. apply In_dget_NoDup; assumption.
Qed.

(** ** Query strings *)

Lemma cut_absent : forall c s, mem c s = false -> cut c s = (s, None).
Proof.
  induction s as [|x s IH]; cbn; [reflexivity|]. rewrite N.eqb_sym. destruct (c =? x)%N; [discriminate|]. intros H. rewrite IH by exact H. reflexivity.
Qed.
Lemma cut_app : forall c a b, mem c a = false -> cut c (a ++ c :: b) = (a, Some b).
Proof.
  induction a as [|x a IH]; cbn; intros b.
  - rewrite N.eqb_refl. reflexivity.
  - rewrite (N.eqb_sym x c). destruct (c =? x)%N; [discriminate|]. intros H. rewrite IH by exact H. reflexivity.
Qed.

Lemma not_mem : forall c s, ~ In c s -> mem c s = false.
Proof. intros c s H. destruct (mem c s) eqn:E; [|reflexivity]. apply mem_In in E. contradiction. Qed.

Lemma plain_no : forall s c, plain_text s -> In c [c_amp; c_equal; c_hash; c_qmark; 37%N; 43%N] -> ~ In c s.
Proof.
  intros s c H Hc Hs. destruct (H c Hs) as (A & B & C & D & E & F). cbn in Hc.
  repeat (destruct Hc as [<-|Hc]; [congruence|]). destruct Hc.
Qed.

Lemma dget_qs_add : forall ps d k, dget k (fold_left qs_add ps d) =
  match dget k d, map snd (filter (fun p => str_eqb k (fst p)) ps) with
  | Some vs, ws => Some (vs ++ ws)
  | None, [] => None
  | None, ws => Some ws
  end.
Proof.
  induction ps as [|[n v] ps IH]; intros d k; cbn [fold_left].
  - cbn. destruct (dget k d); [rewrite app_nil_r|]; reflexivity.
  - rewrite IH. cbn [filter fst]. unfold qs_add. cbn [fst snd]. destruct (str_eqb k n) eqn:E.
    + apply str_eqb_eq in E. subst n. destruct (dget k d) as [vs|] eqn:Ed; rewrite dget_dset_same; cbn; [rewrite <- app_assoc|]; reflexivity.
    + apply str_eqb_neq in E. destruct (dget n d); rewrite dget_dset_other by congruence; destruct (dget k d); reflexivity.
Qed.

Lemma NoDup_qs_add : forall ps d, NoDup (keys d) -> NoDup (keys (fold_left qs_add ps d)).
Proof.
  induction ps as [|[n v] ps IH]; intros d H; cbn [fold_left]; [exact H|]. apply IH.
  unfold qs_add. cbn [fst]. destruct (dget n d); apply NoDup_keys_dset; exact H.
Qed.
Lemma NoDup_parse_qs : forall dec s, NoDup (keys (parse_qs dec s)).
Proof. intros. apply NoDup_qs_add. constructor. Qed.

(** A field name may hold anything but & = % and +. *)
Definition field_ok (kv : str * str) : Prop :=
  (forall c, In c [c_amp; c_equal; 37%N; 43%N] -> ~ In c (fst kv)) /\
  (forall c, In c [c_amp; 37%N; 43%N] -> ~ In c (snd kv)).

Lemma plain_field_ok : forall kv, plain_text (fst kv) /\ plain_text (snd kv) -> field_ok kv.
Proof.
  intros kv [H1 H2]. split; intros c Hc; apply plain_no; try assumption; cbn in *; tauto.
Qed.

Lemma qs_field_write : forall dec kv, decodes dec -> field_ok kv ->
  qs_field dec (write_field kv) = if truthy (snd kv) then Some kv else None.
Proof.
  intros dec [k v] Hd [H1 H2]. unfold qs_field, write_field. cbn [fst snd] in *.
  change (#"=" ++ v) with (c_equal :: v). rewrite cut_app by (apply not_mem; apply H1; cbn; tauto).
  destruct (truthy v); [|reflexivity]. rewrite !Hd; try reflexivity; try (apply H1; cbn; tauto); apply H2; cbn; tauto.
Qed.

Lemma split_fields : forall ps, ps <> [] -> Forall field_ok ps ->
  split c_amp (join #"&" (map write_field ps)) = map write_field ps.
Proof.
  intros ps Hn H. change #"&" with [c_amp]. apply split_join.
  - destruct ps; [congruence|discriminate].
  - apply Forall_map. eapply Forall_impl; [|exact H]. intros [k v] [H1 H2]. unfold write_field. cbn [fst snd] in *.
    rewrite !mem_app. rewrite (not_mem c_amp k) by (apply H1; cbn; tauto). rewrite (not_mem c_amp v) by (apply H2; cbn; tauto). reflexivity.
Qed.

Lemma qs_fields_write : forall dec ps, decodes dec -> Forall field_ok ps ->
  qs_fields dec (map write_field ps) = filter (fun kv => truthy (snd kv)) ps.
Proof.
  intros dec ps Hd. induction ps as [|kv ps IH]; intros H; cbn [map qs_fields filter]; [reflexivity|].
  inversion H; subst. rewrite qs_field_write by assumption. rewrite IH by assumption. destruct (truthy (snd kv)); reflexivity.
Qed.

Lemma values_filter : forall k ps,
  map snd (filter (fun p => str_eqb k (fst p)) (filter (fun kv : str * str => truthy (snd kv)) ps)) = values k ps.
Proof.
  intros k. induction ps as [|[n v] ps IH]; cbn; [reflexivity|]. destruct v as [|c v]; cbn.
  - rewrite andb_false_r. exact IH.
  - rewrite andb_true_r. destruct (str_eqb k n); cbn; rewrite IH; reflexivity.
Qed.

(** What is read back from a written query. *)
Definition opt_list {A} (l : list A) : option (list A) := match l with [] => None | _ => Some l end.

Lemma parse_qs_fields : forall dec ps k, decodes dec -> Forall field_ok ps ->
  dget k (parse_qs dec (join #"&" (map write_field ps))) = opt_list (values k ps).
Proof.
  intros dec ps k Hd H. unfold parse_qs. destruct ps as [|p ps].
  - reflexivity.
  - rewrite split_fields by (assumption || discriminate). rewrite qs_fields_write by assumption.
    rewrite dget_qs_add. cbn [dget]. rewrite values_filter. destruct (values k (p :: ps)); reflexivity.
Qed.

Definition plain_base (base : str) : Prop := plain_text base.
Lemma qs_whole_url : forall dec base ps, decodes dec -> plain_base base -> plain_fields ps ->
  dget #"page" (parse_qs dec (write_url base ps)) = opt_list (values #"page" (tl ps)).
Proof.
  intros dec base ps Hd Hb Hp. destruct ps as [|[k v] ps].
  - cbn [write_url tl values opt_list]. unfold parse_qs.
    rewrite split_no_sep by (apply not_mem, plain_no; [exact Hb|cbn; tauto]). cbn [qs_fields]. unfold qs_field.
    rewrite cut_absent by (apply not_mem, plain_no; [exact Hb|cbn; tauto]). reflexivity.
  - cbn [write_url tl].
    replace (base ++ #"?" ++ join #"&" (map write_field ((k, v) :: ps)))
      with (join #"&" (map write_field ((base ++ #"?" ++ k, v) :: ps))).
    + inversion Hp; subst. cbn [fst snd] in *.
      rewrite parse_qs_fields; [|exact Hd|constructor].
      * cbn [values]. replace (str_eqb #"page" (base ++ #"?" ++ k)) with false; [reflexivity|].
        symmetry. apply str_eqb_neq. intros E. assert (X : In c_qmark #"page") by (rewrite E; apply in_or_app; right; left; reflexivity).
        cbn in X. repeat (destruct X as [X|X]; [discriminate|]). destruct X.
      * destruct (plain_field_ok (k, v)) as [A B]; [assumption|]. split; cbn [fst snd] in *; [|exact B].
        intros c Hc. rewrite !in_app_iff. intros [X|[[X|[]]|X]].
        -- revert X. apply plain_no; [exact Hb|]. cbn in *. tauto.
        -- subst c. cbn in Hc. repeat (destruct Hc as [Hc|Hc]; [discriminate|]). destruct Hc.
        -- revert X. apply A. exact Hc.
      * eapply Forall_impl; [|eassumption]. apply plain_field_ok.
    + cbn [map]. destruct ps as [|p ps]; cbn [map join]; unfold write_field; cbn [fst snd]; rewrite <- ?app_assoc; reflexivity.
Qed.

(** The query of an address, whatever comes after #. *)
Lemma query_of_url : forall base ps frag, plain_text base -> plain_fields ps ->
  (frag = [] \/ exists f, frag = c_hash :: f) ->
  url_query (write_url base ps ++ frag) = join #"&" (map write_field ps) /\ url_before (write_url base ps ++ frag) = base.
Proof.
  intros base ps frag Hb Hp Hf. unfold url_query, url_before.
  assert (Hq : mem c_hash (write_url base ps) = false).
  { apply not_mem. destruct ps as [|p ps].
    - apply plain_no; [exact Hb|cbn; tauto].
    - cbn [write_url]. rewrite !in_app_iff. intros [X|[[X|[]]|X]].
      + revert X. apply plain_no; [exact Hb|cbn; tauto].
      + discriminate.
      + apply mem_In in X. rewrite mem_join in X; [discriminate|reflexivity|].
        apply Forall_map. eapply Forall_impl; [|exact Hp]. intros [k v] [A B]. cbn [fst snd] in *.
        apply not_mem. unfold write_field. cbn [fst snd]. rewrite !in_app_iff.
        intros [Y|[[Y|[]]|Y]]; [|discriminate|]; revert Y; apply plain_no; try assumption; cbn; tauto. }
  assert (Hc : cut c_hash (write_url base ps ++ frag) = (write_url base ps, match frag with [] => None | _ :: f => Some f end)).
  { destruct Hf as [->|[f ->]].
    - rewrite app_nil_r. apply cut_absent. exact Hq.
    - apply cut_app. exact Hq. }
  rewrite Hc. cbn [fst]. assert (Hn : mem c_qmark base = false) by (apply not_mem, plain_no; [exact Hb|cbn; tauto]).
  destruct ps as [|p ps]; cbn [write_url].
  - rewrite cut_absent by exact Hn. split; reflexivity.
  - change (base ++ #"?" ++ join #"&" (map write_field (p :: ps))) with (base ++ c_qmark :: join #"&" (map write_field (p :: ps))).
    rewrite cut_app by exact Hn. split; reflexivity.
Qed.

(** ** Links of a header *)

Lemma dget_links : forall A B (f : str -> B) (w : A -> str) links rel,
  match dget rel (link_dict f (map (fun l => (fst l, w (snd l))) links)) with
  | Some y => exists x, announces links rel x /\ y = f (w x)
  | None => forall x, ~ announces links rel x
  end.
Proof.
  intros A B f w links. unfold link_dict. induction links as [|[r x] links IH] using rev_ind; intros rel.
  - cbn. intros x (a & b & E & _). destruct a; discriminate.
  - rewrite map_app, fold_left_app. cbn [map fold_left fst snd]. destruct (str_eq_dec rel r) as [->|Hr].
    + rewrite dget_dset_same. exists x. split; [|reflexivity]. exists links, []. split; [reflexivity|]. intros [].
    + rewrite dget_dset_other by congruence. specialize (IH rel).
      destruct (dget rel _) as [y|].
      * destruct IH as (x' & (a & b & E & Hn) & ->). exists x'. split; [|reflexivity]. exists a, (b ++ [(r, x)]). split.
        -- rewrite E, <- app_assoc. reflexivity.
        -- rewrite map_app, in_app_iff. cbn. intros [X|[X|[]]]; [contradiction|congruence].
      * intros x' (a & b & E & Hn). apply (IH x'). destruct b as [|z b _] using rev_ind.
        -- apply app_inj_tail in E. destruct E as [_ E]. congruence.
        -- rewrite app_comm_cons, app_assoc in E. apply app_inj_tail in E. destruct E as [E _]. exists a, b. split; [exact E|].
           intros X. apply Hn. rewrite map_app, in_app_iff. auto.
Qed.

Lemma announces_unique : forall A (links : list (str * A)) rel x y, announces links rel x -> announces links rel y -> x = y.
Proof.
  intros A links. induction links as [|[r z] links IH]; intros rel x y (a & b & E & Hn) (a' & b' & E' & Hn').
  - destruct a; discriminate.
  - destruct a as [|p a], a' as [|p' a']; cbn in E, E'.
    + congruence.
    + exfalso. injection E as -> -> ->. apply Hn. injection E' as <- E'. rewrite E', map_app, in_app_iff. right. left. reflexivity.
    + exfalso. injection E' as -> -> ->. apply Hn'. injection E as <- E. rewrite E, map_app, in_app_iff. right. left. reflexivity.
    + injection E as _ E. injection E' as _ E'. apply (IH rel); [exists a, b|exists a', b']; auto.
Qed.

(** ** parse_pagination *)

Lemma first_page_link : forall dec links rel, decodes dec ->
  Forall (fun l => plain_text (fst (snd l)) /\ plain_fields (snd (snd l))) links ->
  match first_page rel (link_dict (fun href => dget #"page" (parse_qs dec href)) (map written_link links)) with
  | Ok field => reads links rel field
  | Err e => e = TypeError /\ pageless links rel
  end.
Proof.
  intros dec links rel Hd H. unfold first_page.
  pose proof (dget_links _ _ (fun href => dget #"page" (parse_qs dec href)) (fun x : str * list (str * str) => write_url (fst x) (snd x)) links rel) as D.
  change (map (fun l => (fst l, write_url (fst (snd l)) (snd (snd l)))) links) with (map written_link links) in D.
  destruct (dget rel _) as [y|]; [|exact D]. destruct D as ([base ps] & Ha & ->). cbn [fst snd].
  assert (X : plain_text base /\ plain_fields ps).
  { destruct Ha as (a & b & E & _). rewrite Forall_forall in H. apply (H (rel, (base, ps))). rewrite E, in_app_iff. right. left. reflexivity. }
  rewrite qs_whole_url by (assumption || apply X). destruct (values #"page" (tl ps)) as [|v vs] eqn:E; cbn [opt_list].
  - split; [reflexivity|]. exists base, ps. auto.
  - exists base, ps, vs. auto.
Qed.

Lemma pagination_spec : forall dec links, decodes dec ->
  Forall (fun l => plain_text (fst (snd l)) /\ plain_fields (snd (snd l))) links ->
  match parse_pagination dec (map written_link links) with
  | Ok nav => reads links #"previous" (nav_prev nav) /\ reads links #"next" (nav_next nav) /\ reads links #"last" (nav_last nav) /\
              reads links #"current" (nav_current nav) /\ reads links #"first" (nav_first nav)
  | Err e => e = TypeError /\ exists rel, In rel five /\ pageless links rel
  end.
Proof.
  intros dec links Hd H. unfold parse_pagination. cbv zeta.
  pose proof (fun rel => first_page_link dec links rel Hd H) as F.
  set (d := link_dict _ _) in *.
  assert (E : forall rel, In rel five -> match first_page rel d with Ok f => reads links rel f | Err e => e = TypeError /\ exists rel, In rel five /\ pageless links rel end).
  { intros rel Hr. specialize (F rel). destruct (first_page rel d); [exact F|]. destruct F as [? ?]. split; [assumption|]. exists rel. auto. }
  pose proof (E #"previous" ltac:(cbn; tauto)) as E1. destruct (first_page #"previous" d); cbn [bind]; [|exact E1].
  pose proof (E #"next" ltac:(cbn; tauto)) as E2. destruct (first_page #"next" d); cbn [bind]; [|exact E2].
  pose proof (E #"last" ltac:(cbn; tauto)) as E3. destruct (first_page #"last" d); cbn [bind]; [|exact E3].
  pose proof (E #"current" ltac:(cbn; tauto)) as E4. destruct (first_page #"current" d); cbn [bind]; [|exact E4].
  pose proof (E #"first" ltac:(cbn; tauto)) as E5. destruct (first_page #"first" d); cbn [bind]; [|exact E5].
  cbn. auto.
Qed.

(** ** Documents *)

Lemma values_nonempty : forall k ps v, In v (values k ps) -> v <> [].
Proof.
  intros k. induction ps as [|[n w] ps IH]; cbn; [tauto|]. intros v. destruct (str_eqb k n && negb (str_eqb w [])) eqn:E; [|apply IH].
  cbn. intros [<-|X]; [|apply IH; exact X]. apply andb_true_iff in E. destruct E as [_ E]. intros ->. discriminate.
Qed.

Lemma dict_to_ref_fields : forall dec ps, decodes dec -> plain_fields ps ->
  exists o, dict_to_ref (Some (parse_qs dec (join #"&" (map write_field ps)))) = Ok o /\ points_to ps o.
Proof.
  intros dec ps Hd Hp. assert (Hf : Forall field_ok ps) by (eapply Forall_impl; [apply plain_field_ok|exact Hp]).
  cbn [dict_to_ref]. unfold first_value. rewrite !parse_qs_fields by assumption.
  destruct (values #"ref" ps) as [|v vs] eqn:Er.
  - cbn [opt_list bind truthy_opt]. destruct (values #"start" ps) as [|s ss] eqn:Es; cbn [opt_list bind].
    + destruct (values #"end" ps) as [|e es]; cbn [opt_list bind]; (eexists; split; [reflexivity|apply pt_nothing; auto]).
    + destruct (values #"end" ps) as [|e es] eqn:Ee; cbn [opt_list bind]; [eexists; split; [reflexivity|apply pt_nothing; auto]|].
      assert (Hs : s <> []) by (apply (values_nonempty #"start" ps); rewrite Es; left; reflexivity).
      assert (He : e <> []) by (apply (values_nonempty #"end" ps); rewrite Ee; left; reflexivity).
      destruct s; [congruence|]. destruct e; [congruence|]. cbn [truthy andb]. eexists. split; [reflexivity|]. eapply pt_range; eassumption.
  - cbn [opt_list bind]. assert (Hv : v <> []) by (apply (values_nonempty #"ref" ps); rewrite Er; left; reflexivity).
    destruct v; [congruence|]. cbn [truthy_opt truthy]. eexists. split; [reflexivity|]. eapply pt_ref. eassumption.
Qed.

Lemma values_In : forall ps k v, In (k, v) ps -> v <> [] -> values k ps <> [].
Proof.
  induction ps as [|[n w] ps IH]; cbn; [tauto|]. intros k v [E|H] Hv.
  - injection E as -> ->. rewrite str_eqb_refl. destruct v; [congruence|]. cbn. discriminate.
  - destruct (str_eqb k n && negb (str_eqb w [])); [discriminate|]. apply (IH k v); assumption.
Qed.
Lemma In_values : forall ps k v, In v (values k ps) -> In (k, v) ps /\ v <> [].
Proof.
  intros ps k v H. split; [|eapply values_nonempty; exact H]. revert H. induction ps as [|[n w] ps IH]; cbn; [tauto|].
  destruct (str_eqb k n) eqn:E; cbn; [|auto]. apply str_eqb_eq in E. subst n. destruct (negb (str_eqb w [])); cbn; [|auto].
  intros [<-|X]; auto.
Qed.

Lemma nonempty_filled : forall dec ps, decodes dec -> plain_fields ps ->
  (nonempty (Some (parse_qs dec (join #"&" (map write_field ps)))) = true <-> filled ps).
Proof.
  intros dec ps Hd Hp. assert (Hf : Forall field_ok ps) by (eapply Forall_impl; [apply plain_field_ok|exact Hp]).
  set (d := parse_qs dec (join #"&" (map write_field ps))). assert (D : forall k, dget k d = opt_list (values k ps)) by (intros; apply parse_qs_fields; assumption).
  split.
  - intros H. destruct d as [|[k vs] d'] eqn:Ed; [discriminate|]. specialize (D k). cbn [dget] in D. rewrite str_eqb_refl in D.
    destruct (values k ps) as [|v ws] eqn:E; [discriminate|]. exists k, v. apply In_values. rewrite E. left. reflexivity.
  - intros (k & v & Hk & Hv). destruct d as [|e d'] eqn:Ed; [|reflexivity]. specialize (D k). cbn [dget] in D.
    pose proof (values_In ps k v Hk Hv) as X. destruct (values k ps); [congruence|discriminate].
Qed.

Lemma points_filled : forall ps o, points_to ps o -> ~ filled ps -> o = None.
Proof.
  intros ps o H Hn. destruct H as [v vs E|s ss e es E1 E2 E3|]; [| |reflexivity]; exfalso; apply Hn.
  - exists #"ref", v. apply In_values. rewrite E. left. reflexivity.
  - exists #"start", s. apply In_values. rewrite E2. left. reflexivity.
Qed.

Section Document.
  Variable dec : str -> str.
  Variable links : list doc_link.
  Hypothesis Hd : decodes dec.
  Hypothesis Hl : Forall (fun l => plain_link (snd l)) links.
  Let d := link_dict (fun href => parse_qs dec (url_query href)) (map (fun l => (fst l, write_doc_link (snd l))) links).

  Lemma dget_doc : forall rel,
    (exists ps, dget rel d = Some (parse_qs dec (join #"&" (map write_field ps))) /\ gives links rel ps /\ plain_fields ps) \/
    (dget rel d = None /\ forall ps, ~ gives links rel ps).
  Proof using Hd Hl.
    intros rel. pose proof (dget_links _ _ (fun href => parse_qs dec (url_query href)) write_doc_link links rel) as D. fold d in D.
    destruct (dget rel d) as [y|].
    - left. destruct D as ([[base ps] frag] & Ha & ->). exists ps.
      assert (X : plain_link (base, ps, frag)).
      { destruct Ha as (a & b & E & _). rewrite Forall_forall in Hl. apply (Hl (rel, (base, ps, frag))). rewrite E, in_app_iff. right. left. reflexivity. }
      destruct X as (X1 & X2 & X3). cbn [fst snd] in *. unfold write_doc_link. cbn [fst snd].
      destruct (query_of_url base ps frag X1 X2 X3) as [-> _]. split; [reflexivity|]. split; [|exact X2]. exists base, frag. exact Ha.
    - right. split; [reflexivity|]. intros ps (base & frag & Ha). exact (D _ Ha).
  Qed.

  Lemma ref_if_same : forall rel, exists o, ref_if (dget rel d) (dget rel d) = Ok o /\ leads links rel o.
  Proof using Hd Hl.
    intros rel. destruct (dget_doc rel) as [(ps & E & G & Hp)|[E G]]; rewrite E; unfold ref_if.
    - destruct (dict_to_ref_fields dec ps Hd Hp) as (o & Eo & Ho). destruct (nonempty _) eqn:En.
      + exists o. split; [exact Eo|]. left. exists ps. auto.
      + exists None. split; [reflexivity|]. left. exists ps. split; [exact G|].
        assert (Hn : ~ filled ps) by (intros X; apply (nonempty_filled dec ps Hd Hp) in X; congruence).
        rewrite <- (points_filled ps o Ho Hn). exact Ho.
    - exists None. split; [reflexivity|]. right. auto.
  Qed.

  Lemma ref_if_gate : forall gate rel,
    match ref_if (dget gate d) (dget rel d) with
    | Ok o => ((exists ps, gives links gate ps /\ filled ps) -> leads links rel o /\ exists ps, gives links rel ps) /\
              ((forall ps, gives links gate ps -> ~ filled ps) -> o = None)
    | Err e => e = AttributeError /\ (exists ps, gives links gate ps /\ filled ps) /\ forall ps, ~ gives links rel ps
    end.
  Proof using Hd Hl.
    intros gate rel. unfold ref_if. destruct (dget_doc gate) as [(ps & E & G & Hp)|[E G]]; rewrite E.
    - destruct (nonempty _) eqn:En.
      + assert (Hf : filled ps) by (apply (nonempty_filled dec ps Hd Hp); exact En).
        destruct (dget_doc rel) as [(qs & E' & G' & Hp')|[E' G']]; rewrite E'.
        * destruct (dict_to_ref_fields dec qs Hd Hp') as (o & Eo & Ho). rewrite Eo. split; [|intros X; destruct (X ps G Hf)].
          intros _. split; [|exists qs; exact G']. left. exists qs. auto.
        * cbn. split; [reflexivity|]. split; [exists ps; auto|exact G'].
      + assert (Hn : ~ filled ps) by (intros X; apply (nonempty_filled dec ps Hd Hp) in X; congruence).
        split; [|reflexivity]. intros (qs & G' & Hf). exfalso. destruct G as (b & f & A), G' as (b' & f' & A').
        pose proof (announces_unique _ _ _ _ _ A A') as X. injection X as -> -> ->. contradiction.
    - split; [|reflexivity]. intros (qs & G' & _). exfalso. exact (G _ G').
  Qed.

  Lemma document_spec :
    match parse_document dec (map (fun l => (fst l, write_doc_link (snd l))) links) with
    | Ok doc =>
        leads links #"next" (doc_next doc) /\ leads links #"prev" (doc_prev doc) /\
        leads links #"first" (doc_first doc) /\ leads links #"collection" (doc_collection doc) /\
        ((exists ps, gives links #"parent" ps /\ filled ps) ->
          leads links #"up" (doc_parent doc) /\ leads links #"last" (doc_last doc)) /\
        ((forall ps, gives links #"parent" ps -> ~ filled ps) -> doc_parent doc = None /\ doc_last doc = None)
    | Err e => e = AttributeError /\ (exists ps, gives links #"parent" ps /\ filled ps) /\
        ((forall ps, ~ gives links #"up" ps) \/ (forall ps, ~ gives links #"last" ps))
    end /\
    ((exists ps, gives links #"parent" ps /\ filled ps) ->
     (forall ps, ~ gives links #"up" ps) \/ (forall ps, ~ gives links #"last" ps) ->
     parse_document dec (map (fun l => (fst l, write_doc_link (snd l))) links) = Err AttributeError).
  Proof using Hd Hl.
    unfold parse_document. cbv zeta. fold d.
    destruct (ref_if_same #"next") as (n & -> & Hn). destruct (ref_if_same #"prev") as (p & -> & Hp).
    destruct (ref_if_same #"first") as (f & -> & Hf). destruct (ref_if_same #"collection") as (c & -> & Hc). cbn [bind].
    pose proof (ref_if_gate #"parent" #"up") as U. pose proof (ref_if_gate #"parent" #"last") as L.
    destruct (ref_if (dget #"parent" d) (dget #"up" d)) as [u|e]; cbn [bind].
    - destruct (ref_if (dget #"parent" d) (dget #"last" d)) as [l|e]; cbn [bind].
      + cbn. split.
        * repeat (split; [assumption|]). split; [intros X; split; [apply U|apply L]; exact X|]. intros X. split; [apply U|apply L]; exact X.
        * intros X [Y|Y]; exfalso; [destruct (proj1 U X) as [_ [ps Z]]|destruct (proj1 L X) as [_ [ps Z]]]; exact (Y ps Z).
      + destruct L as (-> & L1 & L2). split; [|reflexivity]. auto.
    - destruct U as (-> & U1 & U2). split; [|reflexivity]. auto.
  Qed.
End Document.

(** ** Requests *)

Lemma numeral_str : forall z, numeral z (str_of_Z z).
Proof.
  intros [|p|p].
  - exists #"0". repeat split; discriminate.
  - exists (str_of_N (N.pos p)). split; [apply str_of_N_nonnil|]. split; [apply str_of_N_digits|]. split; [apply N_of_digits_str_of_N|reflexivity].
  - exists (str_of_N (N.pos p)). split; [apply str_of_N_nonnil|]. split; [apply str_of_N_digits|]. split; [apply N_of_digits_str_of_N|reflexivity].
Qed.

Lemma says_param : forall p, p <> NoParam -> exists v, param_str p = Some v /\ says p v.
Proof. intros [|s|z] H; [congruence| |]; cbn; eexists; split; try reflexivity. apply numeral_str. Qed.
Lemma param_says : forall p v, param_str p = Some v -> says p v.
Proof. intros [|s|z] v; cbn; [discriminate| |]; intros [= <-]; [reflexivity|apply numeral_str]. Qed.

Lemma given_In : forall ps k v, In (k, v) (given ps) <-> exists p, In (k, p) ps /\ param_str p = Some v.
Proof.
  induction ps as [|[n q] ps IH]; cbn [given].
  - intros k v. split; [intros []|intros (p & [] & _)].
  - intros k v. destruct (param_str q) as [w|] eqn:E.
    + cbn. rewrite IH. split.
      * intros [X|(p & Hp & Ep)]; [injection X as -> ->; exists q; auto|exists p; auto].
      * intros (p & [X|X] & Ep); [injection X as -> ->; left; congruence|right; exists p; auto].
    + rewrite IH. split; intros (p & Hp & Ep); exists p; [split; [right; exact Hp|exact Ep]|].
      destruct Hp as [X|X]; [injection X as -> ->; congruence|auto].
Qed.

Lemma given_keys : forall ps, NoDup (map fst ps) -> NoDup (map fst (given ps)).
Proof.
  induction ps as [|[n q] ps IH]; cbn [given map fst]; [constructor|]. intros H. inversion H; subst.
  destruct (param_str q); [|auto]. cbn. constructor; [|auto]. intros X. apply in_map_iff in X. destruct X as ([k v] & E & X). cbn in E. subst k.
  apply given_In in X. destruct X as (p & Hp & _). apply H2. apply (in_map fst) in Hp. exact Hp.
Qed.

Lemma cts_call_spec : forall i name ps, NoDup (map fst (ps ++ [(#"request", StrParam name)])) ->
  In #"inv" (map fst ps) -> requests (cts_call i (ps ++ [(#"request", StrParam name)])) i name ps.
Proof.
  intros i name ps HN Hinv. set (qs := ps ++ [(#"request", StrParam name)]) in *.
  assert (G : forall k v, In (k, v) (given qs) <-> (k = #"request" /\ v = name) \/ exists p, In (k, p) ps /\ param_str p = Some v).
  { intros k v. rewrite given_In. unfold qs. split.
    - intros (p & Hp & E). apply in_app_iff in Hp. destruct Hp as [Hp|[Hp|[]]]; [right; exists p; auto|]. inversion Hp; subst. cbn in E. left. split; [reflexivity|congruence].
    - intros [[-> ->]|(p & Hp & E)]; [exists (StrParam name)|exists p]; rewrite in_app_iff; cbn; auto. }
  pose proof (given_keys qs HN) as HK.
  assert (HNps : NoDup (map fst ps)). { unfold qs in HN. rewrite map_app in HN. apply NoDup_remove_1 in HN. rewrite app_nil_r in HN. exact HN. }
  assert (One : forall p q, In (#"inv", p) ps -> In (#"inv", q) ps -> p = q).
  { intros p q A B. apply In_dget_NoDup in A; [|exact HNps]. apply In_dget_NoDup in B; [|exact HNps]. congruence. }
  assert (Easy : forall sent, NoDup (map fst sent) -> (forall kv, In kv (given qs) -> In kv sent) ->
                 (forall k v, In (k, v) sent -> In (k, v) (given qs) \/ (k = #"inv" /\ i = Some v /\ In (#"inv", NoParam) ps)) ->
                 (forall j, i = Some j -> In (#"inv", NoParam) ps -> In (#"inv", j) sent) ->
                 requests sent i name ps).
  { intros sent A B C D. split; [exact A|]. split; [apply B, G; auto|]. split; [|split; [exact D|]].
    - intros k p Hp Hn. destruct (says_param p Hn) as (v & E & S). exists v. split; [exact S|]. apply B, G. right. exists p. auto.
    - intros k v H. destruct (C _ _ H) as [X|X]; [|auto]. apply G in X. destruct X as [X|(p & Hp & E)]; [auto|]. right. left. exists p. split; [exact Hp|]. apply param_says. exact E. }
  unfold cts_call. destruct i as [j|].
  - destruct (dget #"inv" (given qs)) as [w|] eqn:Ed.
    + apply Easy; auto. intros j' [= <-] X. apply dget_In in Ed. apply G in Ed. destruct Ed as [[E _]|(p & Hp & E)]; [discriminate|].
      rewrite (One _ _ Hp X) in E. discriminate.
    + assert (X : In (#"inv", NoParam) ps).
      { apply in_map_iff in Hinv. destruct Hinv as ([k p] & E & Hp). cbn in E. subst k. destruct (param_str p) as [v|] eqn:E.
        - exfalso. apply dget_None in Ed. apply Ed. apply (in_map fst (given qs) (#"inv", v)). apply G. right. exists p. auto.
        - destruct p; [exact Hp|discriminate|discriminate]. }
      apply Easy.
      * apply (NoDup_keys_dset _ #"inv" j). exact HK.
      * intros [k v] H. apply NoDup_dset_In; [exact HK|]. right. split; [|exact H]. intros ->.
        apply dget_None in Ed. apply Ed. exact (in_map fst (given qs) (#"inv", v) H).
      * intros k v H. apply NoDup_dset_In in H; [|exact HK]. destruct H as [[-> ->]|[_ H]]; auto.
      * intros j' [= <-] _. apply NoDup_dset_In; [exact HK|]. auto.
  - apply Easy; auto. intros j E. discriminate.
Qed.

Ltac nodup_names := cbn; repeat constructor; cbn; intros X; repeat (destruct X as [X|X]; [discriminate|]); exact X.

Lemma sub_urn_address : forall text sub u, address text sub u -> sub_urn text sub = u.
Proof.
  intros text sub u [| |s Hs|r]; cbn; try reflexivity. destruct s; [congruence|reflexivity].
Qed.

Lemma deep_depth : forall sub n, deep sub n ->
  sub_truthy (Some sub) = true /\
  match sub with SubRef r => Ok (ref_depth r) | SubText s => r <- cts_reference_string s ;; Ok (ref_depth r) end = Ok n.
Proof.
  intros sub n [l w Hl Hw|l w l' w' Hl Hw Hl' Hw'|l w s Hl Hw|l w l' w' s Hl Hw Hl' Hw'].
  - split; [cbn; pose proof (write_passage_nonnil l w Hl) as X; destruct (write_passage l w); [congruence|reflexivity]|].
    rewrite cts_reference_string_single by (apply write_passage_no_dash; assumption). cbn [bind].
    rewrite (proj2 (depth_range_plain l w l w _ Hl Hw Hl Hw)). reflexivity.
  - split; [cbn; pose proof (write_passage_nonnil l w Hl) as X; destruct (write_passage l w); [congruence|reflexivity]|].
    change #"-" with [c_dash]. rewrite cts_reference_string_range by (apply write_passage_no_dash; assumption). cbn [bind].
    rewrite (proj1 (depth_range_plain l w l' w' _ Hl Hw Hl' Hw')). reflexivity.
  - split; [reflexivity|]. rewrite (proj2 (depth_range_plain l w l w _ Hl Hw Hl Hw)). reflexivity.
  - split; [reflexivity|]. rewrite (proj1 (depth_range_plain l w l' w' _ Hl Hw Hl' Hw')). reflexivity.
Qed.

(** DTS *)

Lemma param_eqb_eq : forall a b, param_eqb a b = true <-> a = b.
Proof.
  intros [|s|z] [|t|w]; cbn; split; try congruence; intros H; try discriminate.
  - apply str_eqb_eq in H. congruence.
  - injection H as ->. apply str_eqb_refl.
  - apply Z.eqb_eq in H. congruence.
  - injection H as ->. apply Z.eqb_refl.
Qed.

Lemma kept_In : forall defaults ps k p, In (k, p) (kept defaults ps) <-> In (k, p) ps /\ p <> NoParam /\ p <> default_of k defaults.
Proof.
  intros defaults. induction ps as [|[n q] ps IH]; intros k p; cbn [kept].
  - cbn. tauto.
  - assert (X : In (k, p) ((n, q) :: ps) <-> (n = k /\ q = p) \/ In (k, p) ps).
    { cbn. split; [intros [[= -> ->]|X]; auto|intros [[-> ->]|X]; auto]. }
    rewrite X.
    assert (Y : match q with NoParam => kept defaults ps | _ => if param_eqb q (default_of n defaults) then kept defaults ps else (n, q) :: kept defaults ps end =
                if param_eqb q NoParam then kept defaults ps else if param_eqb q (default_of n defaults) then kept defaults ps else (n, q) :: kept defaults ps) by (destruct q; reflexivity).
    rewrite Y. destruct (param_eqb q NoParam) eqn:E1.
    + apply param_eqb_eq in E1. subst q. rewrite IH. split; [tauto|]. intros [[[_ A]|A] [B C]]; [congruence|auto].
    + assert (N1 : q <> NoParam) by (intros A; apply param_eqb_eq in A; congruence).
      destruct (param_eqb q (default_of n defaults)) eqn:E2.
      * apply param_eqb_eq in E2. rewrite IH. split; [tauto|]. intros [[[A B]|A] [C D]]; [subst; congruence|auto].
      * assert (N2 : q <> default_of n defaults) by (intros A; apply param_eqb_eq in A; congruence).
        cbn. rewrite IH. split.
        -- intros [[= -> ->]|Z]; [auto|tauto].
        -- intros [[[-> ->]|A] [B C]]; auto.
Qed.
Lemma kept_keys : forall defaults ps, NoDup (map fst ps) -> NoDup (map fst (kept defaults ps)).
Proof.
  intros defaults. induction ps as [|[n q] ps IH]; cbn [kept map fst]; [constructor|]. intros H. inversion H; subst.
  assert (K : NoDup (map fst ((n, q) :: kept defaults ps))).
  { cbn. constructor; [|auto]. intros X. apply in_map_iff in X. destruct X as ([k p] & E & X). cbn in E. subst k. apply kept_In in X.
    apply H2. exact (in_map fst ps (n, p) (proj1 X)). }
  destruct q; [auto| |]; (destruct (param_eqb _ _); [auto|exact K]).
Qed.

Lemma dupdate_In : forall A (e d : list (str * A)), NoDup (map fst d) -> NoDup (map fst e) ->
  NoDup (map fst (dupdate d e)) /\
  forall k v, In (k, v) (dupdate d e) <-> In (k, v) e \/ (~ In k (map fst e) /\ In (k, v) d).
Proof.
  intros A e. unfold dupdate. induction e as [|[n w] e IH]; intros d Hd He.
  - cbn. split; [exact Hd|]. tauto.
  - cbn [fold_left fst snd]. cbn [map fst] in He. inversion He; subst.
    destruct (IH (dset n w d) (NoDup_keys_dset _ n w d Hd) H2) as [I1 I2]. split; [exact I1|].
    intros k v. rewrite I2. rewrite NoDup_dset_In by exact Hd. cbn. split.
    + intros [X|[X [[-> ->]|[Y Z]]]]; [auto|auto|]. right. split; [intros [U|U]; [congruence|contradiction]|exact Z].
    + intros [[[= -> ->]|X]|[X Y]]; [right; split; [assumption|auto]|auto|]. right. split; [tauto|]. right. split; [|exact Y].
      intros ->. apply X. auto.
Qed.

Lemma dts_call_spec : forall r ps defaults omitted, NoDup (map fst ps) -> NoDup (map fst (rt_query r)) ->
  (forall k p, p <> NoParam -> (In (k, p) ps -> (p = default_of k defaults <-> In (k, p) omitted))) ->
  asks (dts_call r ps defaults) r ps omitted.
Proof.
  intros r ps defaults omitted HP HR HO. unfold dts_call. split; [reflexivity|]. cbn [snd].
  set (d := map (fun kv => (fst kv, [snd kv])) (given (kept defaults ps))).
  assert (HD : NoDup (map fst d)).
  { unfold d. rewrite map_map. cbn. apply given_keys, kept_keys, HP. }
  assert (D : forall k vs, In (k, vs) d <-> exists p v, In (k, p) ps /\ p <> NoParam /\ ~ In (k, p) omitted /\ param_str p = Some v /\ vs = [v]).
  { intros k vs. unfold d. rewrite in_map_iff. split.
    - intros ([k' v] & E & H). cbn in E. injection E as -> <-. apply given_In in H. destruct H as (p & Hp & E). apply kept_In in Hp.
      destruct Hp as (A & B & C). exists p, v. repeat (split; [assumption|]). split; [|auto]. intros X. apply C. apply HO; assumption.
    - intros (p & v & A & B & C & E & ->). exists (k, v). split; [reflexivity|]. apply given_In. exists p. split; [|exact E]. apply kept_In.
      split; [exact A|]. split; [exact B|]. intros X. apply C. apply HO; assumption. }
  destruct (dupdate_In _ (rt_query r) d HD HR) as [U1 U2]. split; [exact U1|]. split; [|split].
  - intros k p Hp Hn Ho. destruct (says_param p Hn) as (v & E & S).
    destruct (in_dec str_eq_dec k (map fst (rt_query r))) as [X|X].
    + apply in_map_iff in X. destruct X as ([k' vs] & E' & X). cbn in E'. subst k'. apply (in_map fst _ (k, vs)). apply U2. auto.
    + apply (in_map fst _ (k, [v])). apply U2. right. split; [exact X|]. apply D. exists p, v. auto 6.
  - intros k vs H. apply U2. auto.
  - intros k vs H. apply U2 in H. destruct H as [H|[H1 H2]]; [auto|]. right. split; [exact H1|]. apply D in H2.
    destruct H2 as (p & v & A & B & C & E & ->). exists p, v. split; [exact A|]. split; [exact C|]. split; [apply param_says; exact E|reflexivity].
Qed.

Lemma ref_parameters_fields : forall ps r fs, ref_fields r fs ->
  (forall k, In k [#"ref"; #"start"; #"end"] -> ~ In k (map fst ps)) -> ref_parameters ps r = ps ++ fs.
Proof.
  assert (A : forall k (p : param) ps, ~ In k (map fst ps) -> dset k p ps = ps ++ [(k, p)]).
  { intros k p. induction ps as [|[n q] ps IH]; cbn; [reflexivity|]. intros H. destruct (str_eqb n k) eqn:E.
    - apply str_eqb_eq in E. subst n. destruct H. auto.
    - rewrite IH; tauto. }
  intros ps r fs H Hk. destruct H as [| |s Hs|s|s|s e He]; cbn [ref_parameters].
  - rewrite app_nil_r. reflexivity.
  - cbn. rewrite app_nil_r. reflexivity.
  - destruct s; [congruence|]. cbn [truthy]. apply A, Hk. cbn. auto.
  - apply A, Hk. cbn. auto.
  - apply A, Hk. cbn. auto.
  - destruct e as [|c e]; [congruence|]. rewrite (A #"start") by (apply Hk; cbn; auto).
    rewrite A; [rewrite <- app_assoc; reflexivity|]. rewrite map_app, in_app_iff. intros [X|[X|[]]]; [|discriminate].
    revert X. apply Hk. cbn. auto.
Qed.

(** Deciding that a text is plain, for examples. *)
Lemma plain_check : forall s, forallb (fun c => negb (mem c [c_amp; c_equal; c_hash; c_qmark; 37%N; 43%N])) s = true -> plain_text s.
Proof.
  intros s H c Hc. rewrite forallb_forall in H. specialize (H c Hc). apply negb_true_iff in H.
  repeat split; intros ->; discriminate.
Qed.
Ltac plain := unfold plain_link, plain_fields; cbn [fst snd]; repeat (first [apply Forall_cons | apply Forall_nil | apply conj | apply plain_check; reflexivity]; cbn [fst snd]).
