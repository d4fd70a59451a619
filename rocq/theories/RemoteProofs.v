(** Proofs about remote texts. *)

From Coq Require Import List NArith ZArith Arith Bool Lia.
From Verif Require Import PyStr PyStrFacts RefModel RefSpec RefProofs UrnModel UrnSpec UrnProofs XmlModel XmlSpec XmlProofs.
From Verif Require Import PassageModel TeiModel TeiSpec TeiProofs HttpModel HttpSpec HttpProofs RemoteModel RemoteSpec.
Import ListNotations.

(** ** Addresses *)

Lemma write_colon : forall ns cts p s, write_urn ns cts p None ++ #":" ++ s = write_urn ns cts p (Some s).
Proof. intros. unfold write_urn. rewrite app_nil_r, <- !app_assoc. reflexivity. Qed.

Section Address.
  Variables (ns cts : str) (p : work_part) (r : option str) (u : urn).
  Hypothesis Hns : plain_ns ns.
  Hypothesis Hcts : plain_ns cts.
  Hypothesis Hp : plain_part p.
  Hypothesis Hsize : 2 <= part_size p.
  Hypothesis Hr : written_ref p r.
  Hypothesis Hu : urn_parse (write_urn ns cts p r) = Ok u.

  Lemma addr_str : to_str u = Ok (write_urn ns cts p r).
  Proof using Hns Hcts Hp Hr Hu.
    destruct (parsed_form ns cts p r u Hns Hcts Hp Hr Hu) as (o & -> & _). reflexivity.
  Qed.
  Lemma addr_no_passage : urn_upto NO_PASSAGE u = Ok (write_urn ns cts p None).
  Proof using Hns Hcts Hp Hr Hu Hsize.
    destruct (parsed_form ns cts p r u Hns Hcts Hp Hr Hu) as (o & -> & _).
    rewrite upto_no_passage by assumption. destruct p; cbn in *; reflexivity || lia.
  Qed.
  Lemma addr_below : forall s, urn_colon u s = Ok (write_urn ns cts p r ++ #":" ++ s).
  Proof using Hns Hcts Hp Hr Hu. intros s. unfold urn_colon. rewrite addr_str. reflexivity. Qed.
  Lemma addr_sibling : forall s, asked_sibling u s = Ok (write_urn ns cts p (Some s)).
  Proof using Hns Hcts Hp Hr Hu Hsize.
    intros s. unfold asked_sibling. rewrite addr_str. cbn [bind]. rewrite Hu. cbn [bind]. rewrite addr_no_passage. cbn [bind].
    unfold colon. rewrite <- write_colon. reflexivity.
  Qed.
  Lemma addr_text : forall s, ~ In c_colon s -> asked_node u (ByText s) = Ok (write_urn ns cts p (Some s)).
  Proof using Hns Hcts Hp Hr Hu Hsize.
    intros s Hs. cbn [asked_node]. rewrite (not_mem _ _ Hs). rewrite addr_no_passage. cbn [bind]. unfold colon. rewrite <- write_colon. reflexivity.
  Qed.
  Lemma addr_first_text : forall s, ~ In c_colon s -> asked_first u (Some (SubText s)) = Ok (write_urn ns cts p (Some s)).
  Proof using Hns Hcts Hp Hr Hu Hsize. intros s Hs. cbn [asked_first]. rewrite (not_mem _ _ Hs). apply addr_sibling. Qed.
  Lemma addr_first_ref : forall q, r_start q <> #":" -> r_end q <> Some #":" ->
    asked_first u (Some (SubRef q)) = Ok (write_urn ns cts p (Some (r_str q))).
  Proof using Hns Hcts Hp Hr Hu Hsize.
    intros q H1 H2. cbn [asked_first]. assert (E1 : str_eqb (r_start q) [c_colon] = false) by (apply str_eqb_neq; exact H1).
    assert (E2 : opt_eqb str_eqb (r_end q) (Some [c_colon]) = false).
    { destruct (r_end q) as [e|]; [|reflexivity]. cbn. apply str_eqb_neq. intros ->. apply H2. reflexivity. }
    rewrite E1, E2. apply addr_sibling.
  Qed.
  Lemma addr_valid : forall s, asked_below u (Some (SubText s)) =
    Ok (match s with [] => write_urn ns cts p r | _ => write_urn ns cts p r ++ #":" ++ s end).
  Proof using Hns Hcts Hp Hr Hu. intros s. cbn. destruct s; [apply addr_str|]. cbn [truthy]. apply addr_below. Qed.
  Lemma addr_valid_ref : forall q, asked_below u (Some (SubRef q)) = Ok (write_urn ns cts p r ++ #":" ++ r_str q).
  Proof using Hns Hcts Hp Hr Hu. intros q. cbn. apply addr_below. Qed.

  Lemma addr_level : forall level, reffs_level u level =
    match r with
    | None => level
    | Some _ => match u_ref u with Some q => (level + Z.of_nat (ref_depth q))%Z | None => level end
    end.
  Proof using Hns Hcts Hp Hr Hu.
    intros level. unfold reffs_level. destruct (parsed_form ns cts p r u Hns Hcts Hp Hr Hu) as (o & -> & Ho). cbn.
    destruct r as [t|]; [reflexivity|]. subst o. reflexivity.
  Qed.
End Address.

(** ** Replies *)

Lemma trail_tags : forall n p m, at_position n p m -> trail n p (tags_to n p).
Proof.
  intros n p m H. induction H as [n|n i p k m Hk Hp IH]; cbn [tags_to].
  - constructor.
  - rewrite Hk. econstructor; eassumption.
Qed.
Lemma trail_unique : forall n p ts, trail n p ts -> ts = tags_to n p.
Proof.
  intros n p ts H. induction H as [n|n i k p ts Hk Hp IH]; cbn [tags_to]; [reflexivity|]. rewrite Hk, <- IH. reflexivity.
Qed.

Lemma last_part_spec : forall s, after_colon s (last_part s).
Proof.
  intros s. unfold last_part. pose proof (split_parts_no_sep c_colon s) as HF. pose proof (join_split c_colon s) as HJ.
  pose proof (split_nonnil c_colon s) as HN. split.
  - intros X. apply mem_In in X. destruct (exists_last HN) as (l & a & E). rewrite E in *. rewrite last_last in X.
    apply Forall_app in HF. destruct HF as [_ HF]. inversion HF; subst. congruence.
  - destruct (exists_last HN) as (l & a & E). rewrite E in *. rewrite last_last. rewrite <- HJ. destruct l as [|b l].
    + left. reflexivity.
    + right. exists (join [c_colon] (b :: l)). rewrite join_app by discriminate. reflexivity.
Qed.

Lemma text_nodes_picked : forall (test : list str -> bool) (kind : list str -> Prop) x,
  (forall ts, test (rev ts) = true <-> kind ts) ->
  identifiers kind x (map (fun t => last_part (snd t)) (filter (fun t => test (fst t)) (text_nodes [] x))).
Proof.
  intros test kind x HT. rewrite text_nodes_texts.
  set (keep := fun ps : path * str => match snd ps with [] => false | _ => test (rev (tags_to x (fst ps))) end).
  exists (filter keep (texts x)). split.
  - assert (K : forall ps, In ps (texts x) -> (keep ps = true <-> snd ps <> [] /\ exists ts, trail x (fst ps) ts /\ kind ts)).
    { intros [p s] Hin. unfold keep. cbn [fst snd]. destruct s as [|c s]; [split; [discriminate|intros [H _]; congruence]|].
      destruct (texts_at x p _ Hin) as [m Hm]. rewrite HT. split.
      - intros H. split; [discriminate|]. exists (tags_to x p). split; [eapply trail_tags; exact Hm|exact H].
      - intros [_ (ts & Ht & Hk)]. rewrite <- (trail_unique _ _ _ Ht). exact Hk. }
    induction (texts x) as [|ps l IH]; [constructor|]. cbn [filter].
    specialize (IH (fun ps' H => K ps' (or_intror H))). specialize (K ps (or_introl eq_refl)).
    destruct (keep ps); [apply pk_take|apply pk_drop]; try exact IH; [apply K; reflexivity|]. intros H. apply K in H. discriminate.
  - induction (texts x) as [|[p s] l IH]; [constructor|]. cbn [flat_map fst snd filter]. rewrite filter_app, map_app.
    unfold keep at 1. cbn [fst snd]. destruct s as [|c s]; [exact IH|]. unfold text_node. cbn [filter fst]. rewrite app_nil_r.
    destruct (test (rev (tags_to x p))); [|exact IH]. cbn [map app snd]. constructor; [apply last_part_spec|exact IH].
Qed.

Lemma hd_error_filter : forall (test : list str -> bool) x,
  match filter (fun t : list str * str => test (fst t)) (text_nodes [] x) with t :: _ => Some (last_part (snd t)) | [] => None end =
  hd_error (map (fun t => last_part (snd t)) (filter (fun t => test (fst t)) (text_nodes [] x))).
Proof. intros. destruct (filter _ _); reflexivity. Qed.

(** Elements are positions. *)
Lemma elements_positions : forall n above,
  elements above n = map (fun pn => (rev (tags_to n (fst pn)) ++ above, snd pn)) (positions n).
Proof.
  induction n as [t a x y kids IH] using node_ind'. intros above. rewrite positions_unfold. cbn [elements map fst snd tags_to n_tag rev app n_kids]. f_equal.
  assert (G : forall l i, (forall m, nth_error l m = nth_error kids (i + m)) ->
    Forall (fun n => forall above, elements above n = map (fun pn => (rev (tags_to n (fst pn)) ++ above, snd pn)) (positions n)) l ->
    flat_map (elements (t :: above)) l = map (fun pn => (rev (tags_to (Elem t a x y kids) (fst pn)) ++ above, snd pn)) (positions_from i l)).
  { induction l as [|k l IHl]; intros i Hn HF; [reflexivity|]. inversion HF as [|? ? Hk HF']; subst. cbn [flat_map positions_from]. rewrite map_app. f_equal.
    - rewrite Hk, map_map. apply map_ext. intros [p m]. cbn [fst snd tags_to n_tag n_kids].
      specialize (Hn 0). cbn in Hn. rewrite Nat.add_0_r in Hn. rewrite <- Hn. cbn [rev]. rewrite <- app_assoc. reflexivity.
    - apply IHl; [|exact HF']. intros m. specialize (Hn (S m)). cbn in Hn. rewrite Hn. f_equal. lia. }
  apply (G kids 0); [reflexivity|exact IH].
Qed.

Lemma elements_tag : forall n above ts m, In (ts, m) (elements above n) -> exists l, ts = n_tag m :: l.
Proof.
  induction n as [t a x y kids IH] using node_ind'. intros above ts m. cbn [elements]. intros [H|H].
  - injection H as <- <-. exists above. reflexivity.
  - apply in_flat_map in H. destruct H as (k & Hk & H). rewrite Forall_forall in IH. exact (IH k Hk _ _ _ H).
Qed.

Lemma positions_at : forall n p m, In (p, m) (positions n) <-> at_position n p m.
Proof.
  induction n as [t a x y kids IH] using node_ind'. intros p m. rewrite positions_unfold. cbn [n_kids].
  assert (G : forall l i, Forall (fun n => forall p m, In (p, m) (positions n) <-> at_position n p m) l ->
    (In (p, m) (positions_from i l) <-> exists j q k, p = (i + j) :: q /\ nth_error l j = Some k /\ at_position k q m)).
  { induction l as [|k l IHl]; intros i HF.
    - cbn. split; [intros []|intros (j & q & k & _ & H & _); destruct j; discriminate].
    - inversion HF as [|? ? Hk HF']; subst. cbn [positions_from]. rewrite in_app_iff, in_map_iff. split.
      + intros [([q m'] & E & H)|H].
        * cbn in E. injection E as <- <-. exists 0, q, k. rewrite Nat.add_0_r. split; [reflexivity|]. split; [reflexivity|]. apply Hk. exact H.
        * apply (IHl (S i) HF') in H. destruct H as (j & q & k' & -> & H1 & H2). exists (S j), q, k'. split; [f_equal; lia|]. auto.
      + intros (j & q & k' & -> & H1 & H2). destruct j as [|j].
        * left. cbn in H1. injection H1 as <-. exists (q, m). rewrite Nat.add_0_r. split; [reflexivity|]. apply Hk. exact H2.
        * right. apply (IHl (S i) HF'). exists j, q, k'. split; [f_equal; lia|]. auto. }
  cbn [In]. rewrite (G kids 0 IH). split.
  - intros [H|(j & q & k & -> & H1 & H2)]; [injection H as <- <-; constructor|]. econstructor; eassumption.
  - intros H. inversion H as [|? i q k ? Hk Hq]; subst; [left; reflexivity|]. right. exists i, q, k. auto.
Qed.

Lemma tag_is_elements : forall t x e, In e (elements [] x) -> (tag_is t (fst e) = true <-> n_tag (snd e) = t).
Proof.
  intros t x [ts m] H. destruct (elements_tag _ _ _ _ H) as [l ->]. cbn. apply str_eqb_eq.
Qed.

Lemma existsb_tag : forall t x, existsb (fun e => tag_is t (fst e)) (elements [] x) = true <-> has_tag x t.
Proof.
  intros t x. rewrite existsb_exists. split.
  - intros ([ts m] & H & Ht). apply (tag_is_elements t x) in Ht; [|exact H]. rewrite elements_positions in H. apply in_map_iff in H.
    destruct H as ([p m'] & E & H). cbn in E. injection E as <- <-. apply positions_at in H. exists p, m'. auto.
  - intros (P & e & H & Ht). apply positions_at in H. pose proof (in_map (fun pn => (rev (tags_to x (fst pn)) ++ [], snd pn)) _ _ H) as H'.
    rewrite <- elements_positions in H'. eexists. split; [exact H'|]. apply (tag_is_elements t x); [exact H'|exact Ht].
Qed.

Lemma filter_first : forall t x,
  match filter (fun e => tag_is t (fst e)) (elements [] x) with
  | [] => ~ has_tag x t
  | e :: _ => first_tagged x t (snd e)
  end.
Proof.
  intros t x. destruct (filter _ _) as [|e l] eqn:E.
  - intros H. apply existsb_tag in H. apply existsb_exists in H. destruct H as (e & H1 & H2).
    assert (X : In e (filter (fun e => tag_is t (fst e)) (elements [] x))) by (apply filter_In; auto). rewrite E in X. destruct X.
  - pose proof (fun e => tag_is_elements t x e) as HT. rewrite elements_positions in E, HT. unfold first_tagged.
    induction (positions x) as [|[p m] ps IH]; [discriminate|]. cbn [map filter fst snd] in E.
    pose proof (HT _ (or_introl eq_refl)) as H0. cbn [fst snd] in H0.
    destruct (tag_is t (rev (tags_to x p) ++ [])) eqn:Et.
    + injection E as <- <-. cbn [snd]. exists [], p, ps. split; [reflexivity|]. split; [apply H0; reflexivity|constructor].
    + destruct (IH E (fun e H => HT e (or_intror H))) as (b & P & a & -> & H1 & H2). exists ((p, m) :: b), P, a. split; [reflexivity|]. split; [exact H1|].
      constructor; [|exact H2]. cbn. intros X. apply H0 in X. congruence.
Qed.

Lemma rev_two : forall (l : list str) a b c, rev l = a :: b :: c -> l = rev c ++ [b; a].
Proof. intros l a b c H. apply (f_equal (@rev str)) in H. rewrite rev_involutive in H. rewrite H. cbn. rewrite <- app_assoc. reflexivity. Qed.

Lemma read_reffs_spec : forall x,
  (has_tag x (cts_tag #"request") -> exists l, read_reffs x = Ok l /\
    identifiers (fun ts => exists a b, ts = a ++ [cts_tag #"reply"] ++ b ++ [cts_tag #"urn"]) x l) /\
  (~ has_tag x (cts_tag #"request") -> read_reffs x = Err IndexError).
Proof.
  intros x. unfold read_reffs. pose proof (existsb_tag (ti #"request") x) as E. destruct (existsb _ _).
  - split; [|intros H; destruct H; apply E; reflexivity]. intros _. eexists. split; [reflexivity|]. apply text_nodes_picked.
    intros ts. destruct (rev ts) as [|a l] eqn:R.
    + cbn. apply (f_equal (@rev str)) in R. rewrite rev_involutive in R. subst ts. split; [discriminate|].
      intros (a & b & H). destruct a; discriminate.
    + apply (f_equal (@rev str)) in R. rewrite rev_involutive in R. cbn in R. subst ts. cbn [tag_under]. rewrite andb_true_iff, str_eqb_eq, existsb_exists. split.
      * intros [-> (z & Hz & Ez)]. apply str_eqb_eq in Ez. subst z. apply in_rev in Hz. apply in_split in Hz. destruct Hz as (c & d & Hz).
        exists c, d. rewrite Hz. rewrite <- app_assoc. reflexivity.
      * intros (c & d & H). rewrite !app_assoc in H. apply app_inj_tail in H. destruct H as [H ->]. split; [reflexivity|].
        exists (ti #"reply"). split; [|apply str_eqb_refl]. apply in_rev. rewrite H. apply in_or_app. left. apply in_or_app. right. left. reflexivity.
  - split; [intros H; apply E in H; discriminate|reflexivity].
Qed.

Lemma read_first_spec : forall x, identifier (fun ts => exists a, ts = a ++ [cts_tag #"reply"; cts_tag #"urn"]) x (read_first x).
Proof.
  intros x. unfold read_first. eexists. split; [|apply hd_error_filter]. apply text_nodes_picked. intros ts. split.
  - destruct (rev ts) as [|a [|b l]] eqn:R; cbn; try discriminate. rewrite andb_true_iff, !str_eqb_eq. intros [-> ->].
    apply rev_two in R. exists (rev l). exact R.
  - intros (a & ->). rewrite rev_app_distr. cbn. reflexivity.
Qed.

Lemma sibling_text_spec : forall name e, identifier (fun ts => exists a, ts = [a; cts_tag name; cts_tag #"urn"]) e (sibling_text name e).
Proof.
  intros name e. unfold sibling_text.
  pose proof (hd_error_filter (fun ts => match ts with [a; b; _] => str_eqb a (ti #"urn") && str_eqb b (ti name) | _ => false end) e) as H.
  cbv beta in H. eexists. split; [|exact H].
  apply (text_nodes_picked (fun ts => match ts with [a; b; _] => str_eqb a (ti #"urn") && str_eqb b (ti name) | _ => false end)). intros ts. split.
  - destruct (rev ts) as [|a [|b [|c [|d l]]]] eqn:R; try discriminate. rewrite andb_true_iff, !str_eqb_eq. intros [-> ->].
    apply rev_two in R. exists c. exact R.
  - intros (a & ->). cbn. rewrite !str_eqb_refl. reflexivity.
Qed.

Lemma read_prevnext_spec : forall x,
  (exists prev next, read_prevnext x = (Known prev, Known next) /\ siblings_of x prev next) \/
  (~ has_tag x (cts_tag #"prevnext") /\ read_prevnext x = (Unknown, Unknown)).
Proof.
  intros x. unfold read_prevnext. pose proof (filter_first (ti #"prevnext") x) as F. destruct (filter _ _) as [|e l].
  - right. auto.
  - left. eexists _, _. split; [reflexivity|]. exists (snd e). split; [exact F|]. split; apply sibling_text_spec.
Qed.

Lemma first_has : forall x t e, first_tagged x t e -> has_tag x t.
Proof.
  intros x t e (b & P & a & H & Ht & _). exists P, e. split; [|exact Ht]. apply positions_at. rewrite H, in_app_iff. right. left. reflexivity.
Qed.

(** ** Histories *)

Lemma accesses_known : forall reply h p n k,
  accesses reply (MkPassage (Known p) (Known n) k) h = (MkPassage (Known p) (Known n) k, map (answer p n) h).
Proof.
  intros reply h p n k. induction h as [|a h IH]; [reflexivity|]. cbn [accesses].
  assert (E : step_access reply (MkPassage (Known p) (Known n) k) a = (MkPassage (Known p) (Known n) k, answer p n a)) by (destruct a; reflexivity).
  rewrite E, IH. reflexivity.
Qed.

Lemma step_unknown : forall reply a k,
  step_access reply (MkPassage Unknown Unknown k) a =
  (let '(p, n) := read_prevnext (reply k) in
   (MkPassage p n (S k), match a with GetPrev => [p] | GetNext => [n] | GetSiblings => [p; n] end)).
Proof. intros reply a k. destruct a; cbn; unfold ask; cbn; destruct (read_prevnext (reply k)); reflexivity. Qed.

(** The siblings are asked until a reply tells them, and then no more: of a history
    of accesses, the first [k] get no answer. *)
Lemma accesses_unknown : forall reply h j,
  exists h1 h2, h = h1 ++ h2 /\
  (forall m, m < length h1 -> ~ has_tag (reply (j + m)) (cts_tag #"prevnext")) /\
  match h2 with
  | [] => accesses reply (MkPassage Unknown Unknown j) h = (MkPassage Unknown Unknown (j + length h1), map no_answer h1)
  | _ => exists p n, siblings_of (reply (j + length h1)) p n /\
      accesses reply (MkPassage Unknown Unknown j) h = (MkPassage (Known p) (Known n) (S (j + length h1)), map no_answer h1 ++ map (answer p n) h2)
  end.
Proof.
  intros reply h. induction h as [|a h IH]; intros j.
  - exists [], []. split; [reflexivity|]. split; [cbn; lia|]. cbn. rewrite Nat.add_0_r. reflexivity.
  - destruct (read_prevnext_spec (reply j)) as [(p & n & E & HS)|[N E]].
    + exists [], (a :: h). split; [reflexivity|]. split; [cbn; lia|]. exists p, n. cbn [length]. rewrite Nat.add_0_r. split; [exact HS|].
      cbn [accesses]. rewrite step_unknown, E. rewrite accesses_known. destruct a; reflexivity.
    + destruct (IH (S j)) as (h1 & h2 & -> & H1 & H2). exists (a :: h1), h2. split; [reflexivity|]. split.
      * intros [|m] Hm; [rewrite Nat.add_0_r; exact N|]. cbn in Hm. replace (j + S m) with (S j + m) by lia. apply H1. lia.
      * cbn [accesses app]. rewrite step_unknown, E. destruct h2 as [|b h2].
        -- rewrite H2. cbn [length map]. replace (j + S (length h1)) with (S j + length h1) by lia. destruct a; reflexivity.
        -- destruct H2 as (p & n & HS & H2). exists p, n. cbn [length map app]. replace (j + S (length h1)) with (S j + length h1) by lia. split; [exact HS|].
           rewrite H2. destruct a; reflexivity.
Qed.
