(** Proofs about plain text and nested dictionaries. *)

From Coq Require Import List NArith ZArith Arith Bool Lia Sorted.
From Verif Require Import PyStr PyStrFacts RefModel UrnModel UrnSpec XmlModel XmlSpec XmlProofs XPathModel CiteSpec TemplateSpec TemplateProofs.
From Verif Require Import PassageModel PassageSpec PassageWords PassageProofs PassageTree PassageNav PassageRange PassageApi PassageFinal.
From Verif Require Import UtilModel UtilSpec UtilProofs TeiModel TeiSpec.
Import ListNotations.

(** ** The exclusion predicate *)

Lemma local_qname : forall l, local_name l -> forall c, In c l -> qname_char c = true /\ c <> c_colon.
Proof.
  intros l [_ H] c Hc. unfold qname_char. destruct (H c Hc) as [E|[E|[-> |[-> | ->]]]].
  - rewrite E. cbn. split; [reflexivity|]. intros ->. discriminate.
  - rewrite E. rewrite orb_true_r. split; [reflexivity|]. intros ->. discriminate.
  - split; [reflexivity|discriminate].
  - split; [reflexivity|discriminate].
  - split; [reflexivity|discriminate].
Qed.

Lemma local_truthy : forall l, local_name l -> truthy l = true.
Proof. intros [|c l] [H _]; [congruence|reflexivity]. Qed.

Lemma prefix_chars : forall p ns, In (p, ns) known_prefixes -> dget p xpath_namespaces = Some ns /\ local_name p.
Proof.
  intros p ns H. cbn in H.
  assert (L : forall s, s <> [] -> forallb is_alpha s = true -> local_name s).
  { intros s Hs Ha. split; [exact Hs|]. intros c Hc. left. rewrite forallb_forall in Ha. auto. }
  repeat (destruct H as [H|H]; [injection H as <- <-; split; [vm_compute; reflexivity|apply L; [discriminate|vm_compute; reflexivity]]|]).
  destruct H.
Qed.

Lemma local_mem : forall l, local_name l -> mem c_colon l = false.
Proof.
  intros l H. apply not_true_iff_false. intros Hc. apply mem_In in Hc. apply (proj2 (local_qname l H _ Hc)). reflexivity.
Qed.

Lemma split_local : forall l, local_name l -> split c_colon l = [l].
Proof. intros l H. apply split_no_sep, local_mem, H. Qed.

Lemma split_prefixed : forall p l, local_name p -> local_name l -> split c_colon (p ++ #":" ++ l) = [p; l].
Proof.
  intros p l Hp Hl. change (p ++ #":" ++ l) with (p ++ c_colon :: l). rewrite split_app_sep by (apply local_mem; exact Hp).
  rewrite (split_local l Hl). reflexivity.
Qed.

Lemma names_resolve : forall e t, names e t -> resolve e = Some t.
Proof.
  intros e t [l H|p ns l Hp H]; unfold resolve.
  - rewrite (split_local l H), (local_truthy l H). reflexivity.
  - destruct (prefix_chars p ns Hp) as [Hd Hl]. rewrite (split_prefixed p l Hl H), (local_truthy l H), Hd. reflexivity.
Qed.

Lemma names_chars : forall e t, names e t -> forall c, In c e -> qname_char c = true.
Proof.
  intros e t [l H|p ns l Hp H] c Hc; [apply (local_qname l H c Hc)|]. destruct (prefix_chars p ns Hp) as [_ Hl].
  apply in_app_iff in Hc as [Hc|Hc]; [apply (local_qname p Hl c Hc)|]. destruct Hc as [<-|Hc]; [reflexivity|apply (local_qname l H c Hc)].
Qed.

Lemma names_full : forall e t, names e t -> t <> [].
Proof. intros e t [l [H _]|p ns l _ _]; [exact H|discriminate]. Qed.

Lemma unknown_resolve : forall e, unknown_prefix e -> resolve e = None /\ forall c, In c e -> qname_char c = true.
Proof.
  intros e (p & l & -> & Hp & Hl & Hn). split.
  - unfold resolve. rewrite (split_prefixed p l Hp Hl), (local_truthy l Hl).
    destruct (dget p xpath_namespaces) as [ns|] eqn:E; [|reflexivity]. exfalso. apply Hn.
    apply dget_In in E. apply (in_map fst) in E. exact E.
  - intros c Hc. apply in_app_iff in Hc as [Hc|Hc]; [apply (local_qname p Hp c Hc)|].
    destruct Hc as [<-|Hc]; [reflexivity|apply (local_qname l Hl c Hc)].
Qed.

Lemma read_one_test : forall e r, (forall c, In c e -> qname_char c = true) ->
  read_exclude_test (exclude_test e ++ r) = match resolve e with Some t => Some (t, r) | None => None end.
Proof.
  intros e r He. unfold exclude_test, read_exclude_test. rewrite <- !app_assoc, starts_with_app.
  rewrite take_while_stop, drop_while_stop by (exact He || reflexivity). rewrite starts_with_app. reflexivity.
Qed.

Definition well_named (e : str) : Prop := (exists t, names e t) \/ unknown_prefix e.
Lemma well_named_chars : forall e, well_named e -> forall c, In c e -> qname_char c = true.
Proof. intros e [[t H]|H]; [apply (names_chars e t H)|apply (unknown_resolve e H)]. Qed.

Fixpoint resolve_all (l : list str) : option (list str) :=
  match l with
  | [] => Some []
  | e :: l' => match resolve e, resolve_all l' with Some t, Some ts => Some (t :: ts) | _, _ => None end
  end.

Lemma read_all_tests : forall l fuel, l <> [] -> Forall well_named l -> length l <= fuel ->
  read_exclude_tests fuel (join #" and " (map exclude_test l) ++ #"]") = resolve_all l.
Proof.
  induction l as [|e l IH]; intros fuel Hn Hw Hf; [congruence|]. inversion Hw as [|? ? He Hl]; subst.
  destruct fuel as [|fuel]; [cbn in Hf; lia|]. cbn [read_exclude_tests resolve_all].
  destruct l as [|e2 l].
  - cbn [map join]. rewrite read_one_test by (apply well_named_chars; exact He).
    destruct (resolve e); reflexivity.
  - cbn [map]. rewrite join_cons by discriminate. rewrite <- !app_assoc.
    rewrite read_one_test by (apply well_named_chars; exact He). destruct (resolve e) as [t|]; [|reflexivity].
    match goal with |- context [starts_with #"]" (#" and " ++ ?r)] => replace (starts_with #"]" (#" and " ++ r)) with (@None str) by reflexivity end.
    rewrite starts_with_app. change (exclude_test e2 :: map exclude_test l) with (map exclude_test (e2 :: l)).
    rewrite IH; [reflexivity|discriminate|exact Hl|cbn in *; lia].
Qed.

Lemma join_long : forall (f : str -> str) sep l, (forall e, In e l -> f e <> []) -> length l <= length (join sep (map f l)).
Proof.
  intros f sep l. induction l as [|e l IH]; intros H; [cbn; lia|].
  assert (He : 0 < length (f e)). { specialize (H e (or_introl eq_refl)). destruct (f e); [congruence|cbn; lia]. }
  specialize (IH (fun e' He' => H e' (or_intror He'))). destruct l as [|e2 l]; [cbn; lia|].
  change (map f (e :: e2 :: l)) with (f e :: map f (e2 :: l)). rewrite join_cons by discriminate. rewrite !app_length.
  change (length (e :: e2 :: l)) with (S (length (e2 :: l))). lia.
Qed.

Lemma read_format : forall l, Forall well_named l -> read_exclude (format_exclude l) = resolve_all l.
Proof.
  intros [|e l] H; [reflexivity|]. unfold format_exclude, read_exclude.
  pose proof (join_long exclude_test #" and " (e :: l) ltac:(intros; discriminate)) as L.
  set (J := join #" and " (map exclude_test (e :: l))) in *.
  change (#"[" ++ J ++ #"]") with (c_lbracket :: J ++ #"]") at 1. cbv iota.
  rewrite starts_with_app. apply read_all_tests; [discriminate|exact H|]. rewrite !app_length. lia.
Qed.

Lemma resolve_names : forall l tags, Forall2 names l tags -> resolve_all l = Some tags /\ Forall well_named l.
Proof.
  induction 1 as [|e t l ts H _ [IH1 IH2]]; [split; [reflexivity|constructor]|]. cbn. rewrite (names_resolve e t H), IH1.
  split; [reflexivity|]. constructor; [left; exists t; exact H|exact IH2].
Qed.

Lemma resolve_unknown : forall l, Exists unknown_prefix l -> resolve_all l = None.
Proof.
  induction 1 as [e l H|e l _ IH]; cbn.
  - rewrite (proj1 (unknown_resolve e H)). reflexivity.
  - rewrite IH. destruct (resolve e); reflexivity.
Qed.

(** ** Text nodes *)

Definition go_texts := fix go (i : nat) (l : list node) : list (path * str) :=
  match l with
  | [] => []
  | k :: l' => map (fun ps => (i :: fst ps, snd ps)) (texts k) ++ ([], n_tail k) :: go (S i) l'
  end.

(** Tags above and at a position. *)
Fixpoint tags_to (n : node) (p : path) : list str :=
  n_tag n :: match p with
             | [] => []
             | i :: p' => match nth_error (n_kids n) i with Some k => tags_to k p' | None => [] end
             end.

Lemma tags_to_spec : forall p n t, (exists m, at_position n p m) ->
  (In t (tags_to n p) <-> exists q m, is_prefix q p = true /\ at_position n q m /\ n_tag m = t).
Proof.
  induction p as [|i p IH]; intros n t [m Hm].
  - cbn. split.
    + intros [H|[]]. exists [], n. split; [reflexivity|]. split; [constructor|exact H].
    + intros (q & m' & Hq & Ha & Ht). destruct q; [|discriminate]. inversion Ha; subst. auto.
  - inversion Hm as [|? ? ? k ? Hk Hp]; subst. cbn [tags_to]. rewrite Hk. cbn [In]. rewrite (IH k t (ex_intro _ m Hp)). split.
    + intros [H|(q & m' & Hq & Ha & Ht)].
      * exists [], n. split; [reflexivity|]. split; [constructor|exact H].
      * exists (i :: q), m'. cbn. rewrite Nat.eqb_refl. split; [exact Hq|]. split; [econstructor; eassumption|exact Ht].
    + intros (q & m' & Hq & Ha & Ht). inversion Ha as [|? j q' k' ? Hk' Ha']; subst; [left; reflexivity|].
      cbn in Hq. apply andb_true_iff in Hq as [Hij Hq]. apply Nat.eqb_eq in Hij. subst j. right.
      exists q', m'. split; [exact Hq|]. split; [|reflexivity]. congruence.
Qed.

(** Text nodes are the texts that are not empty, with the tags above them. *)
Lemma text_nodes_texts : forall n above,
  text_nodes above n =
  flat_map (fun ps => text_node (rev (tags_to n (fst ps)) ++ above) (snd ps)) (texts n).
Proof.
  induction n as [t a x y kids IH] using node_ind'. intros above. cbn [text_nodes texts flat_map fst snd tags_to n_tag rev app].
  f_equal. fold go_texts.
  assert (G : forall l i, (forall m, nth_error l m = nth_error kids (i + m)) ->
    Forall (fun n => forall above, text_nodes above n = flat_map (fun ps => text_node (rev (tags_to n (fst ps)) ++ above) (snd ps)) (texts n)) l ->
    flat_map (fun k => text_nodes (t :: above) k ++ text_node (t :: above) (n_tail k)) l =
    flat_map (fun ps => text_node (rev (tags_to (Elem t a x y kids) (fst ps)) ++ above) (snd ps)) (go_texts i l)).
  { induction l as [|k l IHl]; intros i Hn HF; [reflexivity|]. inversion HF as [|? ? Hk HF']; subst.
    cbn [flat_map go_texts]. rewrite flat_map_app. cbn [flat_map fst snd tags_to n_tag rev app]. rewrite <- app_assoc. f_equal; [|f_equal].
    - rewrite Hk, flat_map_concat_map, flat_map_concat_map, map_map. f_equal. apply map_ext. intros [p s]. cbn [fst snd tags_to n_kids n_tag].
      specialize (Hn 0). cbn in Hn. rewrite Nat.add_0_r in Hn. rewrite <- Hn. cbn [rev]. rewrite <- app_assoc. reflexivity.
    - apply IHl; [|exact HF']. intros m. specialize (Hn (S m)). cbn in Hn. rewrite Hn. f_equal. lia. }
  apply (G kids 0); [reflexivity|exact IH].
Qed.

Lemma texts_at : forall n p s, In (p, s) (texts n) -> exists m, at_position n p m.
Proof.
  induction n as [t a x y kids IH] using node_ind'. intros p s H. cbn [texts] in H. fold go_texts in H.
  destruct H as [H|H]; [injection H as <- <-; eexists; constructor|].
  assert (G : forall l i, (forall m, nth_error l m = nth_error kids (i + m)) ->
    Forall (fun n => forall p s, In (p, s) (texts n) -> exists m, at_position n p m) l ->
    In (p, s) (go_texts i l) -> exists m, at_position (Elem t a x y kids) p m).
  { induction l as [|k l IHl]; intros i Hn HF Hi; [destruct Hi|]. inversion HF as [|? ? Hk HF']; subst.
    cbn [go_texts] in Hi. apply in_app_iff in Hi as [Hi|Hi].
    - apply in_map_iff in Hi as ([p' s'] & E & Hi). cbn in E. injection E as <- <-. destruct (Hk p' s' Hi) as [m Hm].
      exists m. specialize (Hn 0). cbn in Hn. rewrite Nat.add_0_r in Hn. econstructor; [cbn; symmetry; exact Hn|exact Hm].
    - destruct Hi as [Hi|Hi]; [injection Hi as <- <-; eexists; constructor|].
      apply (IHl (S i)); [|exact HF'|exact Hi]. intros m. specialize (Hn (S m)). cbn in Hn. rewrite Hn. f_equal. lia. }
  apply (G kids 0); [reflexivity|exact IH|exact H].
Qed.

(** The tags on the way to an element. *)
Fixpoint tags_above (n : node) (P : path) : list str :=
  match P with
  | [] => []
  | i :: P' => n_tag n :: match nth_error (n_kids n) i with Some k => tags_above k P' | None => [] end
  end.

Lemma tags_to_app : forall P n e q, at_position n P e -> tags_to n (P ++ q) = tags_above n P ++ tags_to e q.
Proof.
  induction P as [|i P IH]; intros n e q H; inversion H as [|? ? ? k ? Hk Hp]; subst; [reflexivity|].
  cbn [app tags_to tags_above]. rewrite Hk. cbn [app]. f_equal. apply IH. exact Hp.
Qed.

Lemma select_readable : forall tags x P e, at_position x P e ->
  readable tags x P (map snd (filter (fun piece => forallb (fun t => negb (existsb (str_eqb t) (fst piece))) tags)
                          (text_nodes (rev (tags_above x P)) e))).
Proof.
  intros tags x P e He. rewrite text_nodes_texts.
  set (keep := fun ps : path * str => match snd ps with [] => false | _ => forallb (fun t => negb (existsb (str_eqb t) (tags_to x (P ++ fst ps)))) tags end).
  exists e, (filter keep (texts e)). split; [exact He|]. split.
  - induction (texts e) as [|[p s] l IH]; [reflexivity|]. cbn [flat_map filter fst snd]. rewrite filter_app, map_app, IH.
    unfold keep at 2. cbn [fst snd]. destruct s as [|c s]; [reflexivity|]. unfold text_node. cbn [filter map fst].
    rewrite <- rev_app_distr, <- (tags_to_app P x e p He).
    assert (E : forall L, forallb (fun t => negb (existsb (str_eqb t) (rev L))) tags = forallb (fun t => negb (existsb (str_eqb t) L)) tags).
    { intros L. apply eq_true_iff_eq. rewrite !forallb_forall. split; intros H t Ht; specialize (H t Ht); apply negb_true_iff in H; apply negb_true_iff;
        apply not_true_iff_false; intros X; apply not_true_iff_false in H; apply H; apply existsb_exists in X as (z & Hz & Ez);
        apply existsb_exists; exists z; (split; [|exact Ez]); [apply -> in_rev; exact Hz|apply in_rev; exact Hz]. }
    rewrite E. destruct (forallb _ tags); reflexivity.
  - assert (K : forall ps, In ps (texts e) -> (keep ps = true <-> snd ps <> [] /\ ~ inside tags x (P ++ fst ps))).
    { intros [p s] Hin. unfold keep. cbn [fst snd]. destruct s as [|c s]; [split; [discriminate|intros [H _]; congruence]|].
      destruct (texts_at e p _ Hin) as [m Hm].
      assert (Hx : exists m', at_position x (P ++ p) m').
      { exists m. clear - He Hm. induction He; [exact Hm|]. cbn. econstructor; [eassumption|auto]. }
      rewrite forallb_forall. split.
      - intros H. split; [discriminate|]. intros (q & m' & Hq & Ha & Ht). specialize (H (n_tag m') Ht). apply negb_true_iff in H.
        apply not_true_iff_false in H. apply H. apply existsb_exists. exists (n_tag m'). split; [|apply str_eqb_refl].
        apply tags_to_spec; [exact Hx|]. eauto.
      - intros [_ H] t Ht. apply negb_true_iff, not_true_iff_false. intros X. apply existsb_exists in X as (z & Hz & Ez).
        apply str_eqb_eq in Ez. subst z. apply tags_to_spec in Hz as (q & m' & Hq & Ha & Et); [|exact Hx]. apply H. exists q, m'. subst t. auto. }
    induction (texts e) as [|ps l IH]; [constructor|]. cbn [filter].
    specialize (IH (fun ps' H => K ps' (or_intror H))). specialize (K ps (or_introl eq_refl)).
    destruct (keep ps); [apply pk_take|apply pk_drop]; try exact IH; [apply K; reflexivity|]. intros H. apply K in H. discriminate.
Qed.

(** ** export(PLAINTEXT) *)

Lemma export_plain_spec : forall sep root exclude tags, Forall2 names exclude tags ->
  exists l out, export_plain sep root (Some exclude) = Ok out /\ readable tags root [] l /\ squeezed (join sep l) out.
Proof.
  intros sep root exclude tags H. destruct (resolve_names _ _ H) as [H1 H2].
  unfold export_plain, plain_text, select_texts, chosen_exclude. rewrite (read_format exclude H2), H1. cbn [bind].
  eexists _, _. split; [reflexivity|]. split; [apply (select_readable tags root [] root (at_here root))|apply normalize_spec].
Qed.

Lemma export_plain_unknown : forall sep root exclude, Forall well_named exclude -> Exists unknown_prefix exclude ->
  export_plain sep root (Some exclude) = Err XPathEvalError.
Proof.
  intros sep root exclude H2 H. unfold export_plain, plain_text, select_texts, chosen_exclude.
  rewrite (read_format exclude H2), (resolve_unknown exclude H). reflexivity.
Qed.

Lemma texts_concat : forall n, flat_map snd (texts n) = text_of n.
Proof.
  induction n as [t a x y kids IH] using node_ind'. cbn [texts text_of flat_map snd]. f_equal. fold go_texts. generalize 0.
  induction IH as [|k l Hk Hl IHl]; intros i; [reflexivity|]. cbn [go_texts flat_map]. rewrite flat_map_app. cbn [flat_map snd].
  rewrite IHl, <- app_assoc. f_equal. rewrite <- Hk. rewrite !flat_map_concat_map, map_map. reflexivity.
Qed.

Lemma readable_all : forall x P e l, at_position x P e -> readable [] x P l -> concat l = text_of e.
Proof.
  intros x P e l He (e' & kept & He' & -> & H).
  assert (e' = e) by (apply at_position_lookup in He, He'; congruence). subst e'.
  rewrite <- texts_concat. rewrite flat_map_concat_map. clear - H. induction H as [|ps l l' _ _ IH|ps l l' Hn _ IH]; cbn; [reflexivity|f_equal; exact IH|].
  rewrite IH. destruct ps as [p [|c s]]; [reflexivity|]. exfalso. apply Hn. split; [discriminate|]. intros (q & m & _ & _ & []).
Qed.

(** ** The text of a passage *)

Fixpoint spine (n : node) (P : path) : node :=
  match P with
  | [] => copy_full n
  | i :: P' => match nth_error (n_kids n) i with
               | Some k => Elem (n_tag n) (n_attrs n) [] [] [spine k P']
               | None => n
               end
  end.

Lemma spine_lines : forall P n e d, at_position n P e -> lines d (spine n P) = render d (part_of P P) n.
Proof.
  induction P as [|i P IH]; intros n e d H.
  - cbn [spine]. symmetry. apply render_whole. intros p. apply part_of_here.
  - inversion H as [|? ? ? k ? Hk Hp]; subst. cbn [spine]. rewrite Hk. cbn [lines flat_map]. rewrite app_nil_r.
    rewrite render_tag by reflexivity. f_equal. rewrite (from_only _ (n_kids n) i k).
    + rewrite (IH k e (S d) Hp). apply render_ext. intros p. rewrite part_of_cons_eq, Nat.eqb_refl. reflexivity.
    + exact Hk.
    + intros m k' Hm. apply render_absent. intros p. rewrite part_of_cons_eq. destruct (Nat.eqb_spec m i); [congruence|reflexivity].
Qed.

Lemma spine_tail : forall P n e, at_position n P e -> n_tail (spine n P) = [].
Proof.
  intros P n e H. destruct P as [|i P]; [destruct n; reflexivity|].
  inversion H as [|? ? ? k ? Hk Hp]; subst. cbn [spine]. rewrite Hk. reflexivity.
Qed.

Lemma spine_texts : forall P n e above, at_position n P e -> text_nodes above (spine n P) = text_nodes (rev (tags_above n P) ++ above) e.
Proof.
  induction P as [|i P IH]; intros n e above H; inversion H as [|? ? ? k ? Hk Hp]; subst.
  - destruct e. reflexivity.
  - cbn [spine tags_above]. rewrite Hk. cbn [text_nodes text_node flat_map app]. rewrite (spine_tail P k e Hp). cbn [text_node]. rewrite !app_nil_r.
    rewrite (IH k e _ Hp). cbn [rev]. rewrite <- app_assoc. reflexivity.
Qed.

Lemma passage_readable : forall x P e R tags sep pred, at_position x P e -> lines 0 R = passage_lines (part_of P P) x ->
  read_exclude pred = Some tags ->
  exists l out, plain_text sep R pred = Ok out /\ readable tags x P l /\ squeezed (join sep l) out.
Proof.
  intros x P e R tags sep pred He HL Hr. rewrite render_0, <- (spine_lines P x e 0 He) in HL. apply lines_inj in HL. subst R.
  unfold plain_text, select_texts. rewrite Hr. cbn [bind]. eexists _, _. split; [reflexivity|]. split; [|apply normalize_spec].
  rewrite (spine_texts P x e [] He), app_nil_r. apply select_readable. exact He.
Qed.

(** ** The nested dictionary *)

Lemma prefix_trans : forall p q r, path_prefix p q -> path_prefix q r -> path_prefix p r.
Proof. intros p q r [a ->] [b ->]. exists (a ++ b). symmetry. apply app_assoc. Qed.

Lemma prefix_shorter : forall p q r, path_prefix p r -> path_prefix q r -> length p <= length q -> path_prefix p q.
Proof.
  induction p as [|a p IH]; intros q r [s Hs] [t Ht] L; [exists q; reflexivity|]. destruct q as [|b q]; [cbn in L; lia|].
  rewrite Hs in Ht. cbn in Ht. injection Ht as <- Ht. cbn in L.
  destruct (IH q (p ++ s)) as [w Hw]; [exists s; reflexivity|exists t; exact Ht|lia|]. exists w. rewrite Hw. reflexivity.
Qed.

Lemma grouped_nil : grouped [].
Proof. intros a x b y c z E. destruct a; discriminate. Qed.

Lemma grouped_app : forall A B, grouped A -> grouped B ->
  (forall x y p, In x A -> In y B -> path_prefix p x -> path_prefix p y -> forall z, In z (A ++ B) -> path_prefix p z) ->
  grouped (A ++ B).
Proof.
  intros A B GA GB H a x b y c z E Hz p Px Py.
  destruct (in_dec (list_eq_dec str_eq_dec) z (A ++ B)) as [Hin|Hin].
  2:{ exfalso. apply Hin. rewrite E. apply in_or_app. right. right. apply in_or_app. left. exact Hz. }
  apply app_eq_app in E as (l & [[E1 E2]|[E1 E2]]).
  - (* A = a ++ l *)
    destruct l as [|x' l].
    + cbn in E2. subst B. apply (GB [] x b y c z eq_refl Hz p Px Py).
    + cbn in E2. injection E2 as <- E2. symmetry in E2. apply app_eq_app in E2 as (m & [[E3 E4]|[E3 E4]]).
      * destruct m as [|y' m].
        -- cbn in E4. subst B. apply (H x y p); auto; [subst A; apply in_or_app; right; left; reflexivity|left; reflexivity].
        -- cbn in E4. injection E4 as <- E4. subst l. apply (GA a x b y m z E1 Hz p Px Py).
      * apply (H x y p); auto; [subst A; apply in_or_app; right; left; reflexivity|]. rewrite E4. apply in_or_app. right. left. reflexivity.
  - (* a = A ++ l *) apply (GB l x b y c z E2 Hz p Px Py).
Qed.

Lemma grouped_flat_map : forall comps L f,
  (forall u, In u L -> path_prefix comps u /\ length u = S (length comps)) -> NoDup L ->
  (forall u, In u L -> grouped (f u)) -> (forall u z, In u L -> In z (f u) -> path_prefix u z) ->
  grouped (flat_map f L).
Proof.
  intros comps L f. induction L as [|u L IH]; intros HL HN HG HP; [apply grouped_nil|]. cbn [flat_map].
  inversion HN as [|? ? Hu HN']; subst.
  apply grouped_app; [apply HG; left; reflexivity|apply IH; auto; intros; [apply HL|apply HG|apply HP]; try right; auto|].
  intros x y p Hx Hy Px Py z Hz. apply in_flat_map in Hy as (u' & Hu' & Hy).
  destruct (HL u (or_introl eq_refl)) as [C1 L1]. destruct (HL u' (or_intror Hu')) as [C2 L2].
  pose proof (HP u x (or_introl eq_refl) Hx) as P1. pose proof (HP u' y (or_intror Hu') Hy) as P2.
  assert (Hlen : length p <= length comps).
  { destruct (Nat.le_gt_cases (length p) (length comps)) as [Hle|Hgt]; [exact Hle|]. exfalso.
    assert (Q1 : path_prefix u p) by (apply (prefix_shorter u p x P1 Px); lia).
    assert (Q2 : path_prefix u' p) by (apply (prefix_shorter u' p y P2 Py); lia).
    destruct (prefix_shorter u u' p Q1 Q2 ltac:(lia)) as [w Hw]. assert (w = []) by (apply length_zero_iff_nil; apply (f_equal (@length _)) in Hw; rewrite app_length in Hw; lia).
    subst w. rewrite app_nil_r in Hw. subst u'. contradiction. }
  assert (Pc : path_prefix p comps) by (apply (prefix_shorter p comps x Px); [apply (prefix_trans _ u); assumption|exact Hlen]).
  apply (prefix_trans p comps z Pc). apply in_app_iff in Hz as [Hz|Hz].
  - apply (prefix_trans comps u z C1). apply HP; [left; reflexivity|exact Hz].
  - apply in_flat_map in Hz as (v & Hv & Hz). apply (prefix_trans comps v z); [apply HL; right; exact Hv|]. apply HP; [right; exact Hv|exact Hz].
Qed.

Section Clear.
Variables (levels : list level) (x : node) (k : nat).
Hypothesis Hclear : clear_text levels x k.
Hypothesis Hk : 0 < k <= length levels.

Let Hwf : Forall wf_level levels := proj1 (proj1 Hclear).
Let Hun : unambiguous levels x k := proj1 (proj2 (proj2 Hclear)).

Lemma enum_begins : forall n comps z, length comps + n <= length levels -> In z (enum levels x n comps) -> path_prefix comps z.
Proof.
  intros n comps z Hl Hz. destruct n as [|n]; [destruct Hz as [<-|[]]; exists []; symmetry; apply app_nil_r|].
  apply In_enum in Hz; [|exact Hwf|exact Hl|lia]. destruct Hz as ([r Hr] & _). exists r. exact Hr.
Qed.

Lemma enum_grouped : forall n comps, length comps + n <= k -> grouped (enum levels x n comps).
Proof.
  induction n as [|n IH]; intros comps Hl.
  - intros a u b y c z E. destruct a as [|? [|]]; [destruct b; discriminate|discriminate|discriminate].
  - cbn [enum]. apply (grouped_flat_map comps).
    + intros u Hu. apply in_map_iff in Hu as (p & <- & _). split; [eexists; reflexivity|rewrite app_length; cbn; lia].
    + pose proof (enum_NoDup levels x Hwf 1 comps ltac:(lia)) as N. cbn [enum] in N.
      assert (E : forall l, flat_map (fun c => [c]) l = l :> list (list str)) by (induction l as [|c l IHl]; [reflexivity|cbn; f_equal; exact IHl]).
      rewrite E in N. apply N. intros c p q Hc. apply Hun. lia.
    + intros u Hu. apply in_map_iff in Hu as (p & <- & _). apply IH. rewrite app_length. cbn. lia.
    + intros u z Hu. apply in_map_iff in Hu as (p & <- & _). apply enum_begins. rewrite app_length. cbn. lia.
Qed.

Lemma split_join_plain : forall c, c <> [] -> Forall plain c -> split c_dot (join [c_dot] c) = c.
Proof.
  intros c Hc H. apply split_join; [exact Hc|]. eapply Forall_impl; [|exact H]. intros v (_ & Hd & _).
  apply not_true_iff_false. intros X. apply mem_In in X. contradiction.
Qed.

(** The texts of some references, and the loop that collects them. *)
Definition holds_text (tags : list str) (ct : list str * str) : Prop :=
  exists P l, cites levels x (fst ct) (0 :: P) /\ readable tags x P l /\ squeezed (join #" " l) (snd ct).

Lemma fill_runs : forall same self pred tags L, o_xml (text_object self) = x -> good_urn (o_urn self) ->
  (forall c, In c L -> In c (units levels x k)) -> read_exclude pred = Some tags ->
  exists h, map fst h = L /\ Forall (holds_text tags) h /\
    forall d, fill_nested (write_scheme levels) same self pred (refs_of L) d = run_sets d h.
Proof.
  intros same self pred tags L Hx Hu HL Hr. induction L as [|c L IH].
  - exists []. split; [reflexivity|]. split; [constructor|]. reflexivity.
  - destruct IH as (h & E & F & Hrun); [intros c' Hc'; apply HL; right; exact Hc'|].
    pose proof (HL c (or_introl eq_refl)) as Hc. destruct (units_plain levels x k Hclear Hk c Hc) as [Nc Pc].
    destruct (read_unit levels x k Hclear Hk same self c Hx Hu Hc) as (R & u' & P & e & HG & HC & HP & _ & HLn).
    assert (HP' : exists P', P = 0 :: P').
    { inversion HP as [|? i P' kk ? Hn]; subst; [|destruct i as [|i]; [eauto|destruct i; discriminate]].
      exfalso. destruct HC as [HC _]. unfold cites in HC. destruct (mean levels (map Some c)) as [|s q] eqn:Em.
      - exact (mean_nonnil levels (map Some c) ltac:(intros El; rewrite El in Hk; cbn in Hk; lia) ltac:(destruct c; [congruence|discriminate]) Em).
      - destruct (selects_nonnil _ _ _ _ HC eq_refl). }
    destruct HP' as [P' ->]. cbn [tl] in HLn.
    assert (He : at_position x P' e) by (inversion HP as [|? ? ? kk ? Hn Hat]; subst; injection Hn as <-; exact Hat).
    destruct (passage_readable x P' e R tags PLAINTEXT_STRING_JOIN pred He HLn Hr) as (l & out & Ho & Hrd & Hsq).
    exists ((c, out) :: h). split; [cbn; f_equal; exact E|]. split.
    + constructor; [|exact F]. exists P', l. split; [apply HC|]. split; [exact Hrd|exact Hsq].
    + intros d. cbn [refs_of map fill_nested item_str r_str reference_to]. rewrite split_join_plain by assumption.
      rewrite parse_single by assumption. cbn [bind]. rewrite HG. cbn [bind o_xml]. rewrite Ho. cbn [bind run_sets].
      destruct (nested_set d c (Leaf out)) as [d'|er]; [cbn [bind]; apply Hrun|reflexivity].
Qed.

Lemma fill_spec : forall same self pred tags parts n, o_xml (text_object self) = x -> good_urn (o_urn self) ->
  length parts + S n = k -> read_exclude pred = Some tags ->
  let L := enum levels x (S n) parts in
  exists d, fill_nested (write_scheme levels) same self pred (refs_of L) nested_ordered_dictionary = Ok d /\
    map fst (leaves d) = L /\ Forall (holds_text tags) (leaves d).
Proof.
  intros same self pred tags parts n Hx Hu Hn Hr L.
  destruct (fill_runs same self pred tags L Hx Hu) as (h & E & F & Hrun); [|exact Hr|].
  - intros c Hc. apply (units_spec levels x k Hclear Hk). apply (In_enum levels x Hwf (S n) parts) in Hc; [|lia|lia].
    destruct Hc as (_ & Hl & Hp). split; [lia|exact Hp].
  - destruct (sets_in_order _ (k - 1) h) as (d & Hd & _ & Hlv).
    + intros p v Hpv. apply (in_map fst) in Hpv. rewrite E in Hpv. cbn [fst] in Hpv.
      apply (In_enum levels x Hwf (S n) parts) in Hpv; [|lia|lia]. destruct Hpv as (_ & Hl & _). lia.
    + rewrite E. apply enum_NoDup; [exact Hwf|lia|]. rewrite Hn. exact Hun.
    + rewrite E. apply enum_grouped. lia.
    + exists d. rewrite Hrun. split; [exact Hd|]. rewrite Hlv. split; [exact E|exact F].
Qed.
End Clear.

Lemma clear_less : forall levels x k j, clear_text levels x k -> j <= k -> clear_text levels x j.
Proof.
  intros levels x k j (H1 & H2 & H3 & H4) Hj. split; [exact H1|]. split; [exact H2|]. split.
  - intros c p q Hc. apply H3. lia.
  - intros m p q Hm. apply H4. lia.
Qed.

Lemma fill_table : forall levels x k tags pred same self parts n, clear_text levels x k -> 0 < k <= length levels ->
  o_xml (text_object self) = x -> good_urn (o_urn self) -> length parts + S n = k -> read_exclude pred = Some tags ->
  exists d, fill_nested (write_scheme levels) same self pred (refs_of (enum levels x (S n) parts)) nested_ordered_dictionary = Ok d /\
    table_of levels x tags parts k d.
Proof.
  intros levels x k tags pred same self parts n Hc Hk Hx Hu Hn Hr. pose proof (proj1 (proj1 Hc)) as Hwf.
  destruct (fill_spec levels x k Hc Hk same self pred tags parts n Hx Hu Hn Hr) as (d & E & L & F).
  exists d. split; [exact E|]. unfold table_of. rewrite L. split; [|split; [|split]].
  - intros c. rewrite (In_enum levels x Hwf (S n) parts c) by lia. rewrite Hn. unfold begins. split; intros (A & B & C); auto.
  - apply enum_NoDup; [exact Hwf|lia|]. rewrite Hn. apply Hc.
  - assert (S1 : StronglySorted (ordered levels x) (enum levels x (S n) parts)).
    { apply enum_order; [exact Hwf|lia|lia|rewrite Hn; apply Hc|]. rewrite Hn. intros j p q Hj. destruct Hc as (_ & _ & _ & Hnn). apply Hnn. lia. }
    exact S1.
  - intros c t Hct. rewrite Forall_forall in F. exact (F (c, t) Hct).
Qed.

Lemma nested_text : forall levels x same u exclude tags, clear_text levels x (length levels) -> 0 < length levels ->
  good_urn u -> Forall2 names exclude tags ->
  match export_nested (write_scheme levels) same (OText x u) (Some exclude) with
  | Ok d => table_of levels x tags [] (length levels) d
  | Err KeyError => forall c p, length c = length levels -> ~ cites levels x c p
  | Err _ => False
  end.
Proof.
  intros levels x same u exclude tags Hc Hl Hu He. destruct (resolve_names _ _ He) as [H1 H2].
  unfold export_nested, chosen_exclude, citation_len. rewrite scheme_length.
  rewrite (whole_reffs levels x (length levels) Hc ltac:(lia) same u).
  destruct (units levels x (length levels)) as [|c l] eqn:E; cbn [bind].
  - intros c p Hcl Hp. assert (Hin : In c (units levels x (length levels))) by (apply (units_spec levels x (length levels) Hc ltac:(lia)); eauto).
    rewrite E in Hin. destruct Hin.
  - rewrite <- E. unfold units. destruct (length levels) as [|n] eqn:El; [lia|].
    destruct (fill_table levels x (S n) tags (format_exclude exclude) same (OText x u) [] n Hc ltac:(lia) eq_refl Hu eq_refl) as (d & Ed & T).
    { rewrite (read_format exclude H2). exact H1. }
    rewrite Ed. exact T.
Qed.

Lemma nested_passage : forall levels x same ut R u parts k exclude tags, clear_text levels x (length levels) ->
  parts <> [] -> Forall plain parts -> length parts <= length levels -> good_urn u -> Forall2 names exclude tags ->
  k = Nat.max (length levels - length parts + 1) (length parts + 1) ->
  match export_nested (write_scheme levels) same (OPass (reference_to parts) R (OText x ut) u) (Some exclude) with
  | Ok d => k <= length levels /\ table_of levels x tags parts k d
  | Err KeyError => k <= length levels /\ forall c p, length c = k -> begins parts c -> ~ cites levels x c p
  | Err CitationDepthError => length levels < k
  | Err _ => False
  end.
Proof.
  intros levels x same ut R u parts k exclude tags Hc Hp Hpl Hlp Hu He Hk. destruct (resolve_names _ _ He) as [H1 H2].
  pose proof Hc as ((Hwf & Hsm & _) & Hg & _).
  unfold export_nested, chosen_exclude, citation_len. rewrite scheme_length. cbn [r_start reference_to]. rewrite id_list_join by assumption.
  set (self := OPass (reference_to parts) R (OText x ut) u).
  assert (Eg : forall l, get_reffs (write_scheme levels) same self l None = get_reffs (write_scheme levels) same self l (Some (reference_to parts))) by reflexivity.
  rewrite Eg. rewrite (reffs_single levels x same self _ parts k Hwf Hsm (good_units_plain _ _ Hg) eq_refl Hp Hpl) by lia.
  destruct (Nat.ltb_spec (length levels) k) as [L|L]; [exact L|]. unfold listed.
  assert (Hlen : 0 < length parts) by (destruct parts; [congruence|cbn; lia]).
  destruct (enum levels x (k - length parts) parts) as [|c l] eqn:E; cbn [bind].
  - split; [exact L|]. intros c p Hcl Hb Hcp.
    assert (Hin : In c (enum levels x (k - length parts) parts)).
    { apply (In_enum levels x Hwf); [lia|lia|]. split; [exact Hb|]. split; [lia|eauto]. }
    rewrite E in Hin. destruct Hin.
  - match goal with |- match fill_nested _ _ _ _ ?z _ with _ => _ end => change z with (refs_of (c :: l)) end. rewrite <- E.
    destruct (k - length parts) as [|n] eqn:En; [lia|].
    destruct (fill_table levels x k tags (format_exclude exclude) same self parts n (clear_less _ _ _ _ Hc L) ltac:(lia) eq_refl Hu ltac:(lia)) as (d & Ed & T).
    { rewrite (read_format exclude H2). exact H1. }
    rewrite Ed. split; [exact L|exact T].
Qed.

Lemma nested_leaf : forall levels x same ut R u parts exclude, clear_text levels x (length levels) ->
  parts <> [] -> Forall plain parts -> length parts = length levels ->
  export_nested (write_scheme levels) same (OPass (reference_to parts) R (OText x ut) u) exclude = Err CitationDepthError.
Proof.
  intros levels x same ut R u parts exclude Hc Hp Hpl Hl. pose proof Hc as ((Hwf & Hsm & _) & Hg & _).
  unfold export_nested, citation_len. rewrite scheme_length. cbn [r_start reference_to]. rewrite id_list_join by assumption.
  set (self := OPass (reference_to parts) R (OText x ut) u).
  assert (Eg : forall l, get_reffs (write_scheme levels) same self l None = get_reffs (write_scheme levels) same self l (Some (reference_to parts))) by reflexivity.
  rewrite Eg. assert (Hlen : 0 < length parts) by (destruct parts; [congruence|cbn; lia]).
  rewrite (reffs_single levels x same self _ parts (length parts + 1) Hwf Hsm (good_units_plain _ _ Hg) eq_refl Hp Hpl) by lia.
  replace (length levels <? length parts + 1) with true by (symmetry; apply Nat.ltb_lt; lia). reflexivity.
Qed.
