(** Reading texts through the local resolver. *)

From Coq Require Import List NArith ZArith Arith Bool Lia.
From Verif Require Import PyStr PyStrFacts RefModel UrnModel UrnSpec UrnProofs CiteModel SchemeModel SchemeProofs XmlModel XmlSpec XPathModel TemplateSpec
  MetaModel CollModel CollSpec InvModel InvSpec InvProofs LocalModel LocalSpec LocalProofs LoadModel LoadSpec LoadBridge LoadMore
  PassageModel PassageSpec PassageApi PassageWords PassageFinal ServeModel ServeSpec.
Import ListNotations.

(** ** Declarations *)
Lemma everywhere_is : forall e, everywhere e = document_order e.
Proof. reflexivity. Qed.

Lemma for_cts_test : forall e, str_eqb (n_tag e) (tei #"refsDecl") && (match get_attr #"n" (n_attrs e) with Some v => str_eqb v #"CTS" | None => false end) = true <-> for_cts e.
Proof.
  intros e. unfold for_cts, in_tei, attr, tei. rewrite andb_true_iff, str_eqb_eq.
  destruct (get_attr #"n" (n_attrs e)) as [v|]; [rewrite str_eqb_eq; split; intros [A B]; split; congruence|].
  split; [intros [_ X]; discriminate|intros [_ X]; discriminate].
Qed.

Lemma filter_filter : forall {A} (p q : A -> bool) l, filter q (filter p l) = filter (fun x => p x && q x) l.
Proof.
  intros A p q l. induction l as [|a l IH]; [reflexivity|]. cbn [filter]. destruct (p a) eqn:P; cbn [filter andb]; rewrite <- IH; [destruct (q a)|]; reflexivity.
Qed.

Lemma declarations_first : forall x d, declaration x d -> exists r, declarations x = d :: r.
Proof.
  intros x d (before & after & E & D & N). unfold declarations, all_named. rewrite filter_filter, everywhere_is, E.
  match goal with |- context [filter ?f _] => set (t := f) end. rewrite filter_app. cbn [filter].
  assert (B : filter t before = []).
  { clear E. induction N as [|e before H N IH]; [reflexivity|]. cbn [filter].
    destruct (t e) eqn:T; [apply for_cts_test in T; contradiction|exact IH]. }
  rewrite B. cbn [app]. assert (T : t d = true) by (apply for_cts_test; exact D). rewrite T. eauto.
Qed.

Lemma declarations_none : forall x, (forall d, ~ declaration x d) -> declarations x = [].
Proof.
  intros x H. unfold declarations, all_named. rewrite filter_filter, everywhere_is.
  match goal with |- context [filter ?f _] => set (t := f) end.
  assert (G : forall l, (forall before d after, l = before ++ d :: after -> for_cts d -> Forall (fun e => ~ for_cts e) before -> False) -> filter t l = []).
  { induction l as [|e l IH]; intros F; [reflexivity|]. cbn [filter]. destruct (t e) eqn:T.
    - apply for_cts_test in T. destruct (F [] e l eq_refl T (Forall_nil _)).
    - apply IH. intros before d after -> D N. apply (F (e :: before) d after eq_refl D). constructor; [|exact N].
      intros X. apply for_cts_test in X. unfold t in T. congruence. }
  apply G. intros before d after E D N. apply (H d). exists before, after. auto.
Qed.

Lemma tl_order : forall d, flat_map everywhere (n_kids d) = tl (document_order d).
Proof. intros [t a x y k]. reflexivity. Qed.

Lemma slice_written : forall p, firstn (length (#"#xpath(" ++ p ++ #")") - 8) (skipn 7 (#"#xpath(" ++ p ++ #")")) = p.
Proof.
  intros p. rewrite !app_length. change (skipn 7 (#"#xpath(" ++ p ++ #")")) with (p ++ #")").
  replace (length #"#xpath(" + (length p + length #")") - 8) with (length p) by (cbn; lia).
  rewrite firstn_app, Nat.sub_diag, firstn_O, app_nil_r. apply firstn_all.
Qed.

Lemma nth_rev : forall {A} (l : list A) k, k < length l -> nth_error (rev l) k = nth_error l (length l - S k).
Proof.
  intros A l. induction l as [|a l IH]; intros k K; [cbn in K; lia|]. cbn [rev length] in *.
  destruct (Nat.eq_dec k (length l)) as [->|N].
  - rewrite nth_error_app2 by (rewrite rev_length; lia). rewrite rev_length, Nat.sub_diag.
    replace (S (length l) - S (length l)) with 0 by lia. reflexivity.
  - rewrite nth_error_app1 by (rewrite rev_length; lia). rewrite IH by lia.
    replace (S (length l) - S k) with (S (length l - S k)) by lia. reflexivity.
Qed.

Lemma levels_declared : forall x scheme, declares x scheme -> scheme <> [] ->
  citation_levels x = Ok (map (fun np => (fst np, Some (snd np))) scheme).
Proof.
  intros x scheme (d & D & F) NE. unfold citation_levels. destruct (declarations_first x d D) as (r & ->).
  set (pats := patterns_in d).
  assert (PE : pats = map (fun np => (fst np, Some (#"#xpath(" ++ snd np ++ #")"))) (rev scheme)).
  { unfold pats, patterns_in. rewrite tl_order. change (fun e => str_eqb (n_tag e) (tei #"cRefPattern")) with (in_teib #"cRefPattern").
    revert F. generalize (filter (in_teib #"cRefPattern") (tl (document_order d))) (rev scheme). intros cs l F.
    induction F as [|c np cs l [A B] F IH]; [reflexivity|]. cbn [map]. unfold attr in *. rewrite A, B, IH. reflexivity. }
  assert (LP : length pats = length scheme) by (rewrite PE, map_length, rev_length; reflexivity).
  destruct (ingest_scheme [] pats) as (h & top & E & _ & IT & _ & NM & _).
  { intros X. rewrite X in LP. destruct scheme; [contradiction|discriminate]. }
  { rewrite PE. apply Forall_forall. intros np I. apply in_map_iff in I. destruct I as (y & <- & _). discriminate. }
  rewrite E. cbn [bind]. rewrite IT. cbn [bind length]. f_equal. cbn [length] in NM. rewrite LP.
  rewrite <- (rev_involutive scheme) at 2. rewrite (map_rev (fun np => (fst np, Some (snd np)))), map_rev. f_equal.
  assert (N : forall k np, nth_error (rev scheme) k = Some np -> level_of h k = (fst np, Some (snd np))).
  { intros k np H. destruct (NM k (fst np) (#"#xpath(" ++ snd np ++ #")")) as (o & O & O1 & O2).
    - rewrite PE, nth_error_map, H. reflexivity.
    - unfold level_of. cbn [Nat.add] in O. rewrite O, O1, O2, slice_written. reflexivity. }
  rewrite <- (rev_length scheme). revert N. generalize (rev scheme). clear. intros l N.
  enough (G : forall b, (forall k np, nth_error l k = Some np -> level_of h (b + k) = (fst np, Some (snd np))) ->
    map (level_of h) (seq b (length l)) = map (fun np => (fst np, Some (snd np))) l) by (apply G; exact N).
  clear N. induction l as [|np l IH]; intros b N; [reflexivity|]. cbn [length seq map].
  rewrite <- (N 0 np eq_refl), Nat.add_0_r. f_equal. apply IH. intros k y H.
  replace (S b + k) with (b + S k) by lia. apply N. exact H.
Qed.

(** ** Opening *)
Lemma expected_once : forall dir e p q, expected_at dir e p -> expected_at dir e q -> p = q.
Proof.
  intros dir e p q (ns & cts & tg & wk & vs & A1 & A2 & A3 & A4 & ->) (ns' & cts' & tg' & wk' & vs' & B1 & B2 & B3 & B4 & ->).
  rewrite A4 in B4. assert (E : write_urn ns cts (Version tg wk vs) None = write_urn ns' cts' (Version tg' wk' vs') None) by congruence.
  apply write_urn_inj in E; try assumption. destruct E as (_ & _ & E).
  assert (tg = tg' /\ wk = wk' /\ vs = vs') as (-> & -> & ->) by (inversion E; auto). reflexivity.
Qed.

Lemma path_attr_is : forall s t p, path_of s t = Some p -> path_attr s t = Ok p.
Proof. intros s t p H. unfold path_of, path_attr in *. destruct (find _ _) as [e|]; [|discriminate]. cbn in H. congruence. Qed.

Definition version_urn (u : str) (v : urn) : Prop :=
  exists ns cts tg wk vs, plain_ns ns /\ plain_ns cts /\ plain_part (Version tg wk vs) /\ u = write_urn ns cts (Version tg wk vs) None /\ urn_parse u = Ok v.
Lemma version_parsed : forall u v, version_urn u v -> urn_parse u = Ok v.
Proof. intros u v (ns & cts & tg & wk & vs & _ & _ & _ & _ & P). exact P. Qed.
Lemma version_good : forall u v, version_urn u v -> good_urn (Some v).
Proof.
  intros u v (ns & cts & tg & wk & vs & A1 & A2 & A3 & -> & P). exists ns, cts, tg, wk, vs. split; [exact A1|]. split; [exact A2|]. split; [exact A3|].
  exists None. auto.
Qed.

Lemma version_read : forall limit st root ns cts tg wk vs, plain_ns ns -> plain_ns cts -> plain_part (Version tg wk vs) ->
  let u := write_urn ns cts (Version tg wk vs) None in
  exists v, urn_parse u = Ok v /\ read_urn limit st root u = Ok v /\ to_str v = Ok u.
Proof.
  intros limit st root ns cts tg wk vs A1 A2 A3 u.
  pose proof (parse_read ns cts (Version tg wk vs) None None A1 A2 A3 ltac:(cbn; lia) eq_refl) as P. fold u in P.
  exists (parsed_urn ns cts (Version tg wk vs) None None). split; [exact P|]. split.
  - unfold read_urn. rewrite P. cbn [bind]. rewrite part_urn by (cbn; lia). reflexivity.
  - rewrite (urn_parse_str _ _ P). f_equal. apply not_hash_split. apply write_urn_no_hash; auto.
Qed.

Lemma opening : forall texts s root u path limit, expects texts s root u path ->
  exists v t, version_urn u v /\ getitem (5 + limit) (s_state s) root u = Ok t /\
    forall docs, open_text (5 + limit) docs s root u =
      match docs path with
      | None => Ok (None, t)
      | Some doc => x <- doc ;; ls <- citation_levels x ;;
          Ok (Some (MkOpened (OText x (Some v)) (map (fun l => match snd l with Some rd => rd | None => [] end) ls)), t)
      end.
Proof.
  intros texts s root u path limit (L & x & dir & RS & H & FO & XA).
  destruct (found texts s root L u x limit RS H) as (t & G & _ & ID & _ & U & _ & K). unfold kept_at in K. rewrite FO in K.
  destruct K as (p & XP & PP). assert (p = path) by (eapply expected_once; eassumption). subst p.
  pose proof XA as (ns & cts & tg & wk & vs & A1 & A2 & A3 & A4 & _). rewrite ID, A4 in U. injection U as U.
  destruct (version_read (5 + limit) (s_state s) root ns cts tg wk vs A1 A2 A3) as (v & P & R & S). cbv zeta in *. rewrite U in P, R, S.
  exists v, t. split; [exists ns, cts, tg, wk, vs; rewrite <- U in *; auto 10|]. split; [exact G|].
  intros docs. unfold open_text. rewrite R. cbn [bind]. rewrite S. cbn [bind]. rewrite G. cbn [bind].
  rewrite (path_attr_is _ _ _ PP). cbn [bind]. reflexivity.
Qed.

Lemma opening_cited : forall texts s root u path limit levels doc docs, expects texts s root u path ->
  docs path = Some (Ok doc) -> cited_by levels doc ->
  exists v t, version_urn u v /\ open_text (5 + limit) docs s root u = Ok (Some (MkOpened (OText doc (Some v)) (write_scheme levels)), t).
Proof.
  intros texts s root u path limit levels doc docs E D (scheme & C & M & NE).
  destruct (opening texts s root u path limit E) as (v & t & V & _ & O). exists v, t. split; [exact V|].
  rewrite O, D. cbn [bind]. rewrite (levels_declared doc scheme C).
  - cbn [bind]. do 3 f_equal. rewrite map_map. cbn [snd]. f_equal. exact M.
  - intros ->. destruct levels; [contradiction|discriminate].
Qed.

Lemma gives_reference : forall g r, gives g r -> writable r -> as_reference g = Ok (Some r).
Proof. intros g r [->| ->] (_ & _ & _ & W); [reflexivity|exact W]. Qed.

Lemma reffs_given : forall limit docs same s root u x t level g r, open_text limit docs s root u = Ok (Some x, t) -> gives g r -> writable r ->
  resolver_reffs limit docs same s root u level (Some g) =
  (p <- get_node (op_scheme x) same (op_text x) r ;; get_reffs (op_scheme x) same p (Some level) (Some r)).
Proof.
  intros limit docs same s root u x t level g r O G W. unfold resolver_reffs. rewrite O. cbn [bind].
  pose proof (gives_reference g r G W) as A.
  assert (Q : match g with GivenStr [] => False | _ => True end).
  { destruct G as [->| ->]; [exact I|]. destruct W as (N & _). destruct (r_str r); [contradiction|exact I]. }
  destruct g as [q|[|c v]]; [|contradiction|]; unfold the_text; cbn [fst bind]; rewrite A; cbn [bind node_of];
    destruct (get_node (op_scheme x) same (op_text x) r); reflexivity.
Qed.

Lemma served : forall docs s root u levels doc limit, serves docs s root u levels doc ->
  exists v t, version_urn u v /\ open_text (5 + limit) docs s root u = Ok (Some (MkOpened (OText doc (Some v)) (write_scheme levels)), t).
Proof. intros docs s root u levels doc limit (texts & path & E & D & C). eapply opening_cited; eassumption. Qed.

Lemma listing : forall docs s root u levels doc limit same v t k,
  open_text (5 + limit) docs s root u = Ok (Some (MkOpened (OText doc (Some v)) (write_scheme levels)), t) ->
  resolver_reffs (5 + limit) docs same s root u k None = get_reffs (write_scheme levels) same (OText doc (Some v)) (Some k) None.
Proof. intros docs s root u levels doc limit same v t k O. unfold resolver_reffs. rewrite O. reflexivity. Qed.

Lemma node_given : forall limit docs same s root u x t g r, open_text limit docs s root u = Ok (Some x, t) -> gives g r -> writable r ->
  resolver_node limit docs same s root u (Some g) = (p <- get_node (op_scheme x) same (op_text x) r ;; Ok (Passage p)).
Proof.
  intros limit docs same s root u x t g r O G W. unfold resolver_node. rewrite O. cbn [bind]. rewrite (gives_reference g r G W). reflexivity.
Qed.
Lemma siblings_given : forall limit docs same s root u x t g r, open_text limit docs s root u = Ok (Some x, t) -> gives g r -> writable r ->
  resolver_siblings limit docs same s root u g = (p <- get_node (op_scheme x) same (op_text x) r ;; siblings (op_scheme x) same p).
Proof.
  intros limit docs same s root u x t g r O G W. unfold resolver_siblings. rewrite O. cbn [bind]. rewrite (gives_reference g r G W).
  cbn [bind the_text fst node_of]. destruct (get_node (op_scheme x) same (op_text x) r); reflexivity.
Qed.

Lemma listed_writable : forall levels x d same u l r, clear_text levels x d -> 0 < d ->
  get_reffs (write_scheme levels) same (OText x u) (Some (Z.of_nat d)) None = Ok l -> In (Some r) l -> writable r.
Proof.
  intros levels x d same u l r Hcl Hd H Hr. destruct (clear_listed levels x d same u l Hcl Hd H) as [Hl ->].
  apply In_nth_error in Hr. destruct Hr as [i Hi]. apply nth_refs_inv in Hi. destruct Hi as (c & Hi & ->).
  apply nth_error_In in Hi. destruct (units_good levels x d Hcl (conj Hd Hl) c Hi). apply writable_single; assumption.
Qed.

(** ** The URN of a work *)
Lemma work_read : forall limit s root ns cts tg wk q o t, library (s_state s) root ->
  plain_ns ns -> plain_ns cts -> plain_part (Work tg wk) -> ref_read q o ->
  get_text (5 + limit) (s_state s) root (write_urn ns cts (Work tg wk) q) = Ok t ->
  read_urn (5 + limit) (s_state s) root (write_urn ns cts (Work tg wk) q) = read_urn (5 + limit) (s_state s) root (c_id (obj (s_state s) t)).
Proof.
  intros limit s root ns cts tg wk q o t L H1 H2 H3 H4 G. unfold get_text in G.
  destruct (read_urn (5 + limit) (s_state s) root (write_urn ns cts (Work tg wk) q)) as [v|] eqn:R; [|discriminate]. cbn [bind] in G.
  unfold read_urn in R. rewrite (parse_read ns cts _ q o H1 H2 H3 ltac:(cbn; lia) H4) in R. cbn [bind] in R.
  rewrite part_urn in R by (cbn; lia). cbn [part_size] in R. change (2 + 2) with 4 in R. cbv iota in R.
  rewrite upto_work in R by (exact H3 || (cbn; lia)). cbn [bind] in R.
  destruct (readable_descendants (5 + limit) (s_state s) root) as [l|] eqn:D; [|discriminate]. cbn [bind] in R.
  destruct (filter _ l) as [|t0 r] eqn:F; [discriminate|].
  assert (I : In t0 l) by (assert (X : In t0 (t0 :: r)) by (left; reflexivity); rewrite <- F in X; apply filter_In in X; apply X).
  destruct (get_text_work limit (s_state s) root ns cts tg wk q o L H1 H2 H3 H4) as (l' & D' & PX & _). rewrite D in D'. injection D' as <-.
  apply PX in I. destruct I as [B T]. destruct (library_placed _ _ _ L B T) as (w & g & i & P & _).
  destruct (lib_names _ _ L t0 w g P) as (ns' & cts' & tg' & wk' & vs' & X1 & X2 & X3 & _ & _ & Ex & Eid). rewrite Ex in Eid.
  destruct (version_read (5 + limit) (s_state s) root ns' cts' tg' wk' vs' X1 X2 X3) as (v' & P' & R' & S'). cbv zeta in *. rewrite <- Eid in P', R', S'.
  rewrite P' in R. assert (v' = v) by congruence. subst v'. rewrite S' in G. cbn [bind] in G.
  destruct (library_getitem limit (s_state s) root (c_id (obj (s_state s) t0)) L) as [(y & G' & Y & Ey)|[G' N]]; rewrite G' in G; [|discriminate].
  injection G as ->. rewrite Ey. symmetry. exact R'.
Qed.
Lemma work_opened : forall limit docs s root w u, read_urn limit (s_state s) root w = read_urn limit (s_state s) root u ->
  open_text limit docs s root w = open_text limit docs s root u.
Proof. intros limit docs s root w u H. unfold open_text. rewrite H. reflexivity. Qed.
