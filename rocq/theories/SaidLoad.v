(** Loading: the statements and the languages of the files. *)

From Coq Require Import List NArith ZArith Arith Bool Lia Permutation.
From Verif Require Import PyStr PyStrFacts UrnModel UrnSpec UrnProofs XmlModel MetaModel MetaSpec MetaProofs CollModel CollSpec CollProofs CollHist CollLang
  UtilModel InvModel InvSpec InvProofs InvTrace InvTree InvDone Props_Inv LocalModel LocalSpec LocalProofs LoadModel LoadSpec LoadRead LoadAll
  AnswerSpec AnswerGraph SaidSpec SaidProofs.
Import ListNotations.

Definition work_item (w : XmlModel.node) (k : kind) (e : XmlModel.node) : Prop :=
  (k = KWork /\ e = w) \/ exists b, k = KText b /\ In (b, e) (texts_in w).
Definition group_item (g : XmlModel.node) (k : kind) (e : XmlModel.node) : Prop :=
  (k = KTextgroup /\ e = g) \/ exists w, In w (named #"work" g) /\ work_item w k e.

Section Phase.
Variable order : list term -> list term.
Hypothesis Ho : arranges order.
Variable leaf : XmlModel.node -> guess.
Variable nsmap : XmlModel.node -> list (str * str).
Variable files : list located_group.
Hypothesis NF : forall f, In f files -> named_file (snd f).
Variable F : str -> str.

Lemma parent_plain : forall u up n p o, plain_predicate p -> ~ parent_told u up (n, p, o).
Proof using Type. intros u [v|] n p o [_ N] H; [|exact H]. cbn in H. injection H as _ H _. apply N. exact H. Qed.

Lemma work_told_plain : forall up w n p o, plain_predicate p ->
  (work_told leaf nsmap up w (n, p, o) <-> exists k e, work_item w k e /\ n = URI (the_urn e) /\ described leaf nsmap k e p o).
Proof using Type.
  intros up w n p o HP. unfold work_told, texts_told, text_told, own_told. split.
  - intros [H|[(p' & o' & D & E)|([k e] & I & [H|(p' & o' & D & E)])]].
    + destruct (parent_plain _ _ _ _ _ HP H).
    + injection E as -> -> ->. exists KWork, w. split; [left; auto|]. auto.
    + destruct (parent_plain _ _ _ _ _ HP H).
    + injection E as -> -> ->. cbn [fst snd] in *. exists (KText k), e. split; [right; eauto|]. auto.
  - intros (k & e & [[-> ->]|(b & -> & I)] & -> & D).
    + right. left. eauto.
    + right. right. exists (b, e). split; [exact I|]. right. cbn [fst snd]. eauto.
Qed.

Lemma group_told_plain : forall up g n p o, plain_predicate p ->
  (group_told leaf nsmap up g (n, p, o) <-> exists k e, group_item g k e /\ n = URI (the_urn e) /\ described leaf nsmap k e p o).
Proof using Type.
  intros up g n p o HP. unfold group_told, own_told. split.
  - intros [H|[(p' & o' & D & E)|(w & I & H)]].
    + destruct (parent_plain _ _ _ _ _ HP H).
    + injection E as -> -> ->. exists KTextgroup, g. split; [left; auto|]. auto.
    + apply work_told_plain in H; [|exact HP]. destruct H as (k & e & W & R). exists k, e. split; [right; eauto|exact R].
  - intros (k & e & [[-> ->]|(w & I & W)] & -> & D).
    + right. left. eauto.
    + right. right. exists w. split; [exact I|]. apply work_told_plain; [exact HP|]. eauto.
Qed.

(** URNs of works and texts are not those of textgroups. *)
Lemma file_urns : forall f, In f files ->
  exists ns cts tg, plain_ns ns /\ plain_ns cts /\ plain_part (Group tg) /\ urn_of (fst (snd f)) = Some (write_urn ns cts (Group tg) None) /\
    forall fw, In fw (works_in (snd f)) -> named_work ns cts tg (snd fw).
Proof using NF. intros f I. destruct (NF f I) as (_ & _ & H). exact H. Qed.

Lemma low_work : forall f fo w, In f files -> In (fo, w) (works_in (snd f)) -> forall u, In u (work_urns w) -> work_or_text u.
Proof using NF.
  intros f fo w I J u U. destruct (file_urns f I) as (ns & cts & tg & P1 & P2 & P3 & _ & H). destruct (H _ J) as (wk & Q1 & Q2 & Q3). cbn [snd] in *.
  unfold work_urns, urn_list in U. cbn [map] in U. destruct U as [<-|U].
  - rewrite Q2. exists ns, cts, (Work tg wk). repeat (split; [assumption|]). split; [cbn; lia|reflexivity].
  - rewrite map_map in U. apply in_map_iff in U. destruct U as ([k e] & <- & U). destruct (Q3 k e U) as ((vs & V1 & V2) & _). cbn [snd]. rewrite V2.
    exists ns, cts, (Version tg wk vs). repeat (split; [assumption|]). split; [cbn; lia|reflexivity].
Qed.

Lemma low_group : forall f, In f files -> ~ work_or_text (the_urn (fst (snd f))).
Proof using NF.
  intros f I (ns & cts & p & P1 & P2 & P3 & P4 & E). destruct (file_urns f I) as (ns' & cts' & tg & Q1 & Q2 & Q3 & Q4 & _).
  unfold the_urn in E. rewrite Q4 in E. destruct (write_urn_inj _ _ _ _ _ _ Q1 Q2 Q3 P1 P2 P3 E) as (_ & _ & <-). cbn in P4. lia.
Qed.

Lemma nested_in : forall f w, In w (named #"work" (fst f)) -> In (None, w) (works_in f).
Proof using Type. intros f w I. unfold works_in. apply in_or_app. left. apply in_map_iff. eauto. Qed.
Lemma folder_in : forall (f : described_group) dw, In dw (snd f) -> In (Some (fst dw), snd dw) (works_in f).
Proof using Type. intros f dw I. unfold works_in. apply in_or_app. right. apply in_map_iff. eauto. Qed.

(** ** What every step does *)
Definition told_here (n p o : term) : Prop := exists u, n = URI u /\ says_of leaf nsmap files u p o.
Definition all_urns (k : kind) (u : str) : Prop := exists f e, In f files /\ in_file (snd f) k e /\ u = own_urn e.
Definition orderly : Prop := languages_said leaf nsmap F files /\ forall f, In f files -> no_repeats (snd f).
Definition speak (s : store) (u : str) : Prop := speaks s u (F u).

Lemma speaks_objects : forall s u l, speaks s u l <->
  forall o, In o (objects0 (fun l => l) (URI u) dc_language (s_state s)) <-> o = Literal l None None.
Proof using Type.
  intros s u l. unfold speaks, speaks_in, says, objects0, g_objects.
  assert (A : forall o, In (URI u, language, o) (nth 0 (graphs (s_state s)) []) <->
    In o (map snd (filter (matches (Some (URI u)) (Some dc_language) None) (nth 0 (graphs (s_state s)) [])))).
  { intros o. rewrite in_map_iff. split.
    - intros I. exists (URI u, dc_language, o). split; [reflexivity|]. apply filter_In. split; [exact I|]. apply matches_spec. rewrite !covers_some. auto using covers_none.
    - intros ([[a b] d] & <- & I). apply filter_In in I. destruct I as [I M]. apply matches_spec in M. rewrite !covers_some in M. destruct M as (M1 & M2 & _). subst a b. exact I. }
  split; intros H o; [rewrite <- A|rewrite A]; apply H.
Qed.

Lemma lang_speaks : forall s u l, lang_is s u [Literal l None None] -> speaks s u l.
Proof using Type.
  intros s u l H. apply speaks_objects. intros o. rewrite (H (fun l => l) (fun l => Permutation_refl l)). cbn. split; [intros [<-|[]]; reflexivity|intros ->; left; reflexivity].
Qed.

Lemma speaks_other : forall told ids s s' u l, speaks s u l ->
  InvProofs.grows told ids (graphs (s_state s)) (graphs (s_state s')) -> ~ In u ids -> speaks s' u l.
Proof using Type.
  intros told ids s s' u l H G N. apply speaks_objects. rewrite speaks_objects in H. intros o. rewrite <- (H o).
  replace (objects0 (fun l => l) (URI u) dc_language (s_state s')) with (objects0 (fun l => l) (URI u) dc_language (s_state s)); [reflexivity|]. symmetry. eapply grows_other; [exact G|].
  intros X. apply in_map_iff in X as [v [E Hv]]. injection E as ->. exact (N Hv).
Qed.

Record goes (s s' : store) : Prop := {
  go_length : length (graphs (s_state s')) = length (graphs (s_state s));
  go_others : forall g, g <> 0 -> nth g (graphs (s_state s')) [] = nth g (graphs (s_state s)) [];
  go_more : forall n p o, plain_predicate p -> In (n, p, o) (nth 0 (graphs (s_state s)) []) -> In (n, p, o) (nth 0 (graphs (s_state s')) []);
  go_sound : forall n p o, plain_predicate p -> In (n, p, o) (nth 0 (graphs (s_state s')) []) ->
    In (n, p, o) (nth 0 (graphs (s_state s)) []) \/ told_here n p o;
  go_news : news all_urns s s';
  go_lang : orderly -> graphs (s_state s) <> [] -> forall u, work_or_text u -> speak s u -> speak s' u }.

Lemma goes_refl : forall s, goes s s.
Proof using Type. intros s. constructor; auto. apply news_shape, shape_refl. Qed.

Lemma nonempty_length : forall {A} (l l' : list A), length l = length l' -> l <> [] -> l' <> [].
Proof using Type. intros A [|a l] [|b l'] E H; [congruence|congruence|discriminate|discriminate]. Qed.

Lemma goes_trans : forall a b c, goes a b -> goes b c -> goes a c.
Proof using Type.
  intros a b c [A1 A2 A3 A4 A5 A6] [B1 B2 B3 B4 B5 B6]. constructor.
  - congruence.
  - intros g G. rewrite (B2 g G). apply A2. exact G.
  - auto.
  - intros n p o P I. destruct (B4 n p o P I) as [H|H]; [apply A4; assumption|right; exact H].
  - eapply news_trans; eassumption.
  - intros O G u U S. apply B6; [exact O| |exact U|apply A6; assumption]. eapply nonempty_length; [|exact G]. congruence.
Qed.

Lemma goes_step : forall told ids s s', InvProofs.grows told ids (graphs (s_state s)) (graphs (s_state s')) ->
  (forall n p o, plain_predicate p -> told (n, p, o) -> told_here n p o) -> news all_urns s s' ->
  (orderly -> graphs (s_state s) <> [] -> forall u, In u ids -> work_or_text u -> speak s' u) -> goes s s'.
Proof using Type.
  intros told ids s s' G T N L.
  assert (X : length (graphs (s_state s')) = length (graphs (s_state s)) /\
    (forall g, g <> 0 -> nth g (graphs (s_state s')) [] = nth g (graphs (s_state s)) []) /\
    forall n p o, plain_predicate p -> In (n, p, o) (nth 0 (graphs (s_state s)) []) -> In (n, p, o) (nth 0 (graphs (s_state s')) [])).
  { unfold InvProofs.grows in G. destruct (graphs (s_state s)) as [|g r].
    - rewrite G. auto.
    - destruct G as (g' & -> & E & _). split; [reflexivity|]. split; [intros [|k] K; [congruence|reflexivity]|].
      intros n p o P H. cbn [nth] in *. apply E; [apply P|]. left. exact H. }
  destruct X as (X1 & X2 & X3). constructor; try assumption.
  - unfold InvProofs.grows in G. destruct (graphs (s_state s)) as [|g r]; [rewrite G; auto|]. destruct G as (g' & -> & E & _). cbn [nth].
    intros n p o P H. apply E in H; [|apply P]. destruct H as [H|H]; [left; exact H|right; apply T; assumption].
  - intros O NE u U S. destruct (in_dec (list_eq_dec N.eq_dec) u ids) as [H|H]; [apply L; assumption|]. eapply speaks_other; eassumption.
Qed.

Lemma grows_has : forall told ids gs gs' n p o, InvProofs.grows told ids gs gs' -> gs <> [] -> plain_predicate p -> told (n, p, o) -> In (n, p, o) (nth 0 gs' []).
Proof using Type.
  intros told ids [|g r] gs' n p o G NE P T; [congruence|]. destruct G as (g' & -> & E & _). cbn [nth]. apply E; [apply P|]. right. exact T.
Qed.

(** What a step leaves behind. *)
Definition left_behind (items : kind -> XmlModel.node -> Prop) (s : store) : Prop := graphs (s_state s) <> [] ->
  (forall k e p o, items k e -> plain_predicate p -> described leaf nsmap k e p o -> In (URI (the_urn e), p, o) (nth 0 (graphs (s_state s)) [])) /\
  (orderly -> forall k e, items k e -> has_language k -> speak s (the_urn e)).

Lemma left_goes : forall (items : kind -> XmlModel.node -> Prop) s s', (forall k e, items k e -> has_language k -> work_or_text (the_urn e)) ->
  goes s s' -> left_behind items s -> left_behind items s'.
Proof using Type.
  intros items s s' LU G B NE. assert (NE' : graphs (s_state s) <> []) by (eapply nonempty_length; [apply (go_length _ _ G)|exact NE]).
  destruct (B NE') as [B1 B2]. split.
  - intros k e p o I P D. apply (go_more _ _ G); [exact P|]. eapply B1; eassumption.
  - intros O k e I K. apply (go_lang _ _ G); [exact O|exact NE'|eapply LU; eassumption|]. eapply B2; eassumption.
Qed.

(** ** Works *)
Definition work_orderly (w : XmlModel.node) : Prop :=
  lang_of w = Some (F (own_urn w)) /\ repeats_language leaf nsmap w (F (own_urn w)) /\
  forall k e, In (k, e) (texts_in w) -> text_language w k e = F (own_urn e) /\ repeats_language leaf nsmap e (F (own_urn e)).

Lemma orderly_calm : forall w, work_orderly w -> calm_work leaf nsmap w.
Proof using Type.
  intros w (L & R & T). split.
  - intros m ns name o I Q E V. unfold work_terms. rewrite L. left. symmetry. eapply R; try eassumption. unfold dc_language in E. injection E as E. exact E.
  - intros k e J m ns name o I Q E V. destruct (T k e J) as [T1 T2]. rewrite T1. left. symmetry. eapply T2; try eassumption.
    unfold dc_language in E. injection E as E. exact E.
Qed.

Lemma orderly_langs : forall w s, work_orderly w -> work_langs s w -> forall u, In u (work_urns w) -> speak s u.
Proof using Type.
  intros w s (L & R & T) [A B] u U. unfold work_urns, urn_list in U. cbn [map] in U. destruct U as [<-|U].
  - unfold speak. rewrite L in A. apply lang_speaks. exact A.
  - rewrite map_map in U. apply in_map_iff in U. destruct U as ([k e] & <- & U). cbn [snd]. specialize (B k e U). destruct (T k e U) as [T1 _].
    rewrite T1 in B. apply lang_speaks. exact B.
Qed.

(** No URN twice in what belongs to a work, or a textgroup. *)
Lemma nodup_work : forall f fo w, In f files -> In (fo, w) (works_in (snd f)) -> no_repeats (snd f) -> NoDup (work_urns w).
Proof using NF.
  intros f fo w I J [_ N]. specialize (N _ J). cbn [snd] in N. destruct (file_urns f I) as (ns & cts & tg & P1 & P2 & P3 & _ & H).
  destruct (H _ J) as (wk & Q1 & Q2 & Q3). cbn [snd] in *. unfold work_urns, urn_list. cbn [map]. rewrite map_map. constructor.
  - intros U. apply in_map_iff in U. destruct U as ([k e] & E & U). destruct (Q3 k e U) as ((vs & V1 & V2) & _). cbn [snd] in E. rewrite V2, Q2 in E.
    destruct (write_urn_inj _ _ _ _ _ _ P1 P2 V1 P1 P2 Q1 E) as (_ & _ & X). discriminate.
  - clear - N Q3. induction (texts_in w) as [|[k e] l IH]; cbn [map] in *; [constructor|]. apply NoDup_cons_iff in N. destruct N as [N1 N2].
    constructor; [|apply IH; [exact N2|intros k' e' H; apply (Q3 k' e'); right; exact H]].
    intros U. apply N1. apply in_map_iff in U. destruct U as ([k' e'] & E & U). apply in_map_iff. exists (k', e'). split; [|exact U]. cbn [snd] in *.
    destruct (Q3 k e (or_introl eq_refl)) as ((v1 & _ & V1) & _). destruct (Q3 k' e' (or_intror U)) as ((v2 & _ & V2) & _).
    rewrite V1, V2 in *. congruence.
Qed.

Lemma work_same_urn : forall f fo w fo' w' u, In f files -> In (fo, w) (works_in (snd f)) -> In (fo', w') (works_in (snd f)) ->
  In u (work_urns w) -> In u (work_urns w') -> urn_of w = urn_of w'.
Proof using NF.
  intros f fo w fo' w' u I J J' U U'. destruct (file_urns f I) as (ns & cts & tg & P1 & P2 & P3 & _ & H).
  assert (X : forall fo0 w0, In (fo0, w0) (works_in (snd f)) -> In u (work_urns w0) ->
    exists wk p, plain_part (Work tg wk) /\ urn_of w0 = Some (write_urn ns cts (Work tg wk) None) /\ plain_part p /\ u = write_urn ns cts p None /\ cut_part 2 p = Work tg wk).
  { intros fo0 w0 J0 U0. destruct (H _ J0) as (wk & Q1 & Q2 & Q3). cbn [snd] in *. exists wk. unfold work_urns, urn_list in U0. cbn [map] in U0. destruct U0 as [<-|U0].
    - exists (Work tg wk). rewrite Q2. auto.
    - rewrite map_map in U0. apply in_map_iff in U0. destruct U0 as ([k e] & <- & U0). destruct (Q3 k e U0) as ((vs & V1 & V2) & _). cbn [snd]. rewrite V2.
      exists (Version tg wk vs). auto. }
  destruct (X _ _ J U) as (wk & p & A1 & A2 & A3 & A4 & A5). destruct (X _ _ J' U') as (wk' & p' & B1 & B2 & B3 & B4 & B5).
  rewrite A4 in B4. destruct (write_urn_inj _ _ _ _ _ _ P1 P2 A3 P1 P2 B3 B4) as (_ & _ & <-). congruence.
Qed.

Lemma nodup_flat : forall {A B} (g : A -> list B) (key : A -> option str) l, (forall a, In a l -> NoDup (g a)) -> NoDup (map key l) ->
  (forall a b x, In a l -> In b l -> In x (g a) -> In x (g b) -> key a = key b) -> NoDup (flat_map g l).
Proof using Type.
  intros A B g key l. induction l as [|a l IH]; intros G K D; cbn [flat_map map] in *; [constructor|]. apply NoDup_cons_iff in K. destruct K as [K1 K2].
  assert (R : NoDup (flat_map g l)) by (apply IH; [intros b H; apply G; right; exact H|exact K2|intros b c x H1 H2; apply D; right; assumption]).
  assert (X : forall x, In x (g a) -> ~ In x (flat_map g l)).
  { intros x H1 H2. apply in_flat_map in H2. destruct H2 as (b & H2 & H3). apply K1. rewrite (D a b x (or_introl eq_refl) (or_intror H2) H1 H3). apply in_map. exact H2. }
  specialize (G a (or_introl eq_refl)). clear - G R X. induction (g a) as [|y r IH]; [exact R|]. cbn [app]. apply NoDup_cons_iff in G. destruct G as [G1 G2].
  constructor.
  - intros I. apply in_app_or in I. destruct I as [I|I]; [exact (G1 I)|exact (X y (or_introl eq_refl) I)].
  - apply IH; [exact G2|]. intros x H. apply X. right. exact H.
Qed.

Lemma NoDup_app_l : forall {A} (l l' : list A), NoDup (l ++ l') -> NoDup l.
Proof using Type.
  intros A l l'. induction l as [|a l IH]; intros H; [constructor|]. cbn [app] in H. apply NoDup_cons_iff in H. destruct H as [H1 H2].
  constructor; [intros I; apply H1; apply in_or_app; left; exact I|apply IH; exact H2].
Qed.

Lemma nodup_group : forall f, In f files -> no_repeats (snd f) -> NoDup (group_urns (fst (snd f))).
Proof using NF.
  intros f I N. unfold group_urns, urn_list. cbn [map app]. constructor.
  - intros U. apply in_flat_map in U. destruct U as (w & W & U). apply (low_group f I). unfold the_urn. eapply low_work; [exact I|apply nested_in; exact W|exact U].
  - apply (nodup_flat _ urn_of).
    + intros w W. eapply nodup_work; [exact I|apply nested_in; exact W|exact N].
    + destruct N as [N _]. unfold works_in in N. rewrite map_app in N. apply NoDup_app_l in N. rewrite map_map in N. exact N.
    + intros w w' u W W' U U'. eapply work_same_urn; [exact I|apply nested_in; exact W|apply nested_in; exact W'|exact U|exact U'].
Qed.

Lemma urn_some : forall f k e, In f files -> in_file (snd f) k e -> urn_of e = Some (the_urn e).
Proof using NF.
  intros f k e I J. destruct (file_urns f I) as (ns & cts & tg & P1 & P2 & P3 & U & H). unfold the_urn. destruct J as [|fo w J|fo w b e J T].
  - rewrite U. reflexivity.
  - destruct (H _ J) as (wk & _ & E & _). cbn [snd] in E. rewrite E. reflexivity.
  - destruct (H _ J) as (wk & _ & _ & E). destruct (E b e T) as ((vs & _ & E') & _). rewrite E'. reflexivity.
Qed.

Lemma item_in : forall (f : located_group) fo w k e, In (fo, w) (works_in (snd f)) -> work_item w k e -> in_file (snd f) k e.
Proof using Type. intros f fo w k e J [[-> ->]|(b & -> & T)]; [eapply if_work; exact J|eapply if_text; eassumption]. Qed.

Lemma item_urn : forall w k e, work_item w k e -> In (the_urn e) (work_urns w).
Proof using Type. intros w k e [[-> ->]|(b & -> & T)]; [apply urns_work|eapply urns_text; exact T]. Qed.

Lemma work_goes : forall f fo w o s s' r, In f files -> In (fo, w) (works_in (snd f)) -> fine_work w -> o < length (objs (s_state s)) ->
  parse_work order leaf nsmap w (Some o) s = (s', Ok r) -> goes s s' /\ left_behind (work_item w) s'.
Proof using Ho NF.
  intros f fo w o s s' r I J FI LO E. pose proof (parse_work_yields order Ho leaf nsmap w (Some o) s (conj LO Logic.I) FI) as Y. unfold yields in Y. rewrite E in Y.
  destruct Y as (_ & _ & u & U & _ & _ & G & L). assert (N : news all_urns s s').
  { pose proof (makes_work order leaf nsmap all_urns w (Some o)) as N. cbv beta delta [makes] in N.
    specialize (N ltac:(exists f, w; split; [exact I|]; split; [eapply if_work; exact J|reflexivity])
      ltac:(intros k c H; exists f, c; split; [exact I|]; split; [eapply if_text; eassumption|reflexivity]) s). rewrite E in N. exact N. }
  assert (LANG : orderly -> graphs (s_state s) <> [] -> forall v, In v (work_urns w) -> speak s' v).
  { intros [O1 O2] NE. assert (WO : work_orderly w) by exact (O1 f fo w I J). apply (orderly_langs w s' WO).
    apply L; [exact (orderly_calm w WO)|exact NE|destruct WO as (X & _); congruence|]. eapply nodup_work; [exact I|exact J|apply O2; exact I]. }
  split.
  - eapply goes_step; [exact G| |exact N|].
    + intros n p o' P T. apply work_told_plain in T; [|exact P]. destruct T as (k & e & W & -> & D). exists (the_urn e). split; [reflexivity|].
      exists f, k, e. split; [exact I|]. pose proof (item_in f fo w k e J W) as IF. split; [exact IF|]. split; [exact (urn_some f k e I IF)|exact D].
    + intros O NE v V _. apply LANG; assumption.
  - intros NE. assert (NE' : graphs (s_state s) <> []).
    { intros Z. apply NE. rewrite Z in G. exact G. }
    split.
    + intros k e p o' W P D. eapply grows_has; [exact G|exact NE'|exact P|]. apply work_told_plain; [exact P|]. eauto.
    + intros O k e W _. apply LANG; [exact O|exact NE'|]. eapply item_urn. exact W.
Qed.

Lemma group_goes : forall f s s' i, In f files -> fine_group (fst (snd f)) ->
  parse_textgroup order leaf nsmap (fst (snd f)) None s = (s', Ok i) -> goes s s' /\ left_behind (group_item (fst (snd f))) s' /\ i < length (objs (s_state s')).
Proof using Ho NF.
  intros f s s' i I FI E. pose proof (parse_textgroup_yields order Ho leaf nsmap (fst (snd f)) None s Logic.I FI) as Y. unfold yields in Y. rewrite E in Y.
  destruct Y as (_ & _ & u & U & _ & ((LI & _) & _) & G & L).
  assert (N : news all_urns s s').
  { pose proof (makes_textgroup order leaf nsmap all_urns (fst (snd f)) None) as N. cbv beta delta [makes] in N.
    specialize (N ltac:(exists f, (fst (snd f)); split; [exact I|]; split; [constructor|reflexivity])
      ltac:(intros w W; apply nested_in in W; split; [exists f, w; split; [exact I|]; split; [eapply if_work; exact W|reflexivity]|];
        intros k c H; exists f, c; split; [exact I|]; split; [eapply if_text; eassumption|reflexivity]) s). rewrite E in N. exact N. }
  assert (LANG : orderly -> graphs (s_state s) <> [] -> forall w v, In w (named #"work" (fst (snd f))) -> In v (work_urns w) -> speak s' v).
  { intros [O1 O2] NE w v W V. assert (WO : forall w', In w' (named #"work" (fst (snd f))) -> work_orderly w') by (intros w' W'; exact (O1 f None w' I (nested_in _ _ W'))).
    apply (orderly_langs w s' (WO w W)); [|exact V].
    apply (L (fun w' W' => orderly_calm w' (WO w' W')) NE (fun _ => False)); [| |eapply nodup_group; [exact I|apply O2; exact I]|exact W].
    - intros w' W' X. destruct (WO w' W') as (Y & _). congruence.
    - intros v' _ []. }
  assert (URNS : forall v, In v (group_urns (fst (snd f))) -> v = the_urn (fst (snd f)) \/ exists w, In w (named #"work" (fst (snd f))) /\ In v (work_urns w)).
  { intros v V. unfold group_urns, urn_list in V. cbn [map app] in V. destruct V as [<-|V]; [left; reflexivity|]. apply in_flat_map in V. right. exact V. }
  split; [|split; [|exact LI]].
  - eapply goes_step; [exact G| |exact N|].
    + intros n p o' P T. apply group_told_plain in T; [|exact P]. destruct T as (k & e & W & -> & D). exists (the_urn e). split; [reflexivity|].
      assert (IF : in_file (snd f) k e).
      { destruct W as [[-> ->]|(w & W & X)]; [constructor|]. eapply item_in; [apply nested_in; exact W|exact X]. }
      exists f, k, e. split; [exact I|]. split; [exact IF|]. split; [exact (urn_some f k e I IF)|exact D].
    + intros O NE v V LV. destruct (URNS v V) as [->|(w & W & X)]; [destruct (low_group f I LV)|]. eapply LANG; eassumption.
  - intros NE. assert (NE' : graphs (s_state s) <> []).
    { intros Z. apply NE. rewrite Z in G. exact G. }
    split.
    + intros k e p o' W P D. eapply grows_has; [exact G|exact NE'|exact P|]. apply group_told_plain; [exact P|]. eauto.
    + intros O k e W K. destruct W as [[-> ->]|(w & W & X)]; [destruct K as [K|(b & K)]; discriminate|].
      eapply LANG; [exact O|exact NE'|exact W|]. eapply item_urn. exact X.
Qed.

(** ** All files *)
Lemma item_low : forall f fo w k e, In f files -> In (fo, w) (works_in (snd f)) -> work_item w k e -> work_or_text (the_urn e).
Proof using NF. intros f fo w k e I J W. eapply low_work; [exact I|exact J|]. eapply item_urn. exact W. Qed.

Lemma group_low : forall f k e, In f files -> group_item (fst (snd f)) k e -> has_language k -> work_or_text (the_urn e).
Proof using NF.
  intros f k e I [[-> ->]|(w & W & X)] K; [destruct K as [K|(b & K)]; discriminate|]. eapply item_low; [exact I|apply nested_in; exact W|exact X].
Qed.

Lemma wrapped_ok : forall {A} rp x (p : XmlModel.node -> act A) s s' a, wrapped rp (Ok x) p s = (s', Ok a) -> p x s = (s', Ok a).
Proof using Type. intros A rp x p s s' a E. unfold wrapped in E. destruct (p x s) as [s1 [b|e]]; [exact E|discriminate]. Qed.

Lemma goes_size : forall s s', goes s s' -> length (objs (s_state s)) <= length (objs (s_state s')).
Proof using Type. intros s s' G. destruct (go_news _ _ G) as (L & _). exact L. Qed.

Lemma groups_go : forall rp l s s' gs, incl l files -> read_groups order leaf nsmap rp (map as_file l) s = (s', Ok gs) ->
  goes s s' /\ (forall f, In f l -> left_behind (group_item (fst (snd f))) s') /\
  map snd gs = map as_file l /\ forall g, In g gs -> fst g < length (objs (s_state s')).
Proof using Ho NF.
  intros rp l. induction l as [|f l IH]; intros s s' gs IN E; unfold read_groups in *; cbn [map collect] in E.
  - injection E as <- <-. split; [apply goes_refl|]. split; [intros f []|]. split; [reflexivity|]. intros g [].
  - unfold andthen at 1 2 in E. destruct (wrapped rp (gf_doc (as_file f)) _ s) as [s1 [i|e]] eqn:W; [|discriminate]. cbn [ret] in E.
    unfold andthen at 1 in E. destruct (collect (map as_file l) _ s1) as [s2 [r|e]] eqn:C; [|discriminate]. injection E as <- <-.
    apply wrapped_ok in W. assert (I : In f files) by (apply IN; left; reflexivity). destruct (NF f I) as (CL & _).
    destruct (group_goes f s s1 i I (clark_group _ _ CL (order_refl _)) W) as (G1 & B1 & L1).
    destruct (IH s1 s2 r (fun x H => IN x (or_intror H)) C) as (G2 & B2 & M & L2). pose proof (goes_size _ _ G2) as SZ.
    split; [eapply goes_trans; eassumption|]. split; [|split].
    + intros f' [<-|H]; [|apply B2; exact H]. eapply left_goes; [|exact G2|exact B1]. intros k e. apply group_low. exact I.
    + cbn [map fst snd]. rewrite M. reflexivity.
    + intros g [<-|H]; [cbn [fst]; lia|apply L2; exact H].
Qed.

Lemma folder_goes : forall rp f l o s s' v, In f files -> incl l (snd (snd f)) -> o < length (objs (s_state s)) ->
  collect (map (fun dw => (fst dw, @Ok XmlModel.node (snd dw))) l) (fun dw =>
    r <-- wrapped rp (snd dw) (fun x => parse_work order leaf nsmap x (Some o)) ;; ret (map (fun t => (t, fst dw)) (snd r))) s = (s', Ok v) ->
  goes s s' /\ forall dw, In dw l -> left_behind (work_item (snd dw)) s'.
Proof using Ho NF.
  intros rp f l o. induction l as [|dw l IH]; intros s s' v I IN LO E; cbn [map collect] in E.
  - injection E as <- <-. split; [apply goes_refl|]. intros dw [].
  - cbn [fst snd] in E. unfold andthen at 1 2 in E. destruct (wrapped rp (Ok (snd dw)) _ s) as [s1 [r|e]] eqn:W; [|discriminate]. cbn [ret] in E.
    unfold andthen at 1 in E. destruct (collect (map (fun dw => (fst dw, @Ok XmlModel.node (snd dw))) l) _ s1) as [s2 [r'|e]] eqn:C; [|discriminate]. injection E as <- <-.
    apply wrapped_ok in W. destruct (NF f I) as (_ & CL & _). assert (D : In dw (snd (snd f))) by (apply IN; left; reflexivity).
    destruct (work_goes f _ (snd dw) o s s1 r I (folder_in _ _ D) (clark_work _ _ (CL _ D) (order_refl _)) LO W) as (G1 & B1). pose proof (goes_size _ _ G1) as SZ.
    destruct (IH s1 s2 r' I (fun x H => IN x (or_intror H)) ltac:(lia) C) as (G2 & B2).
    split; [eapply goes_trans; eassumption|]. intros dw' [<-|H]; [|apply B2; exact H].
    eapply left_goes; [|exact G2|exact B1]. intros k e K _. eapply item_low; [exact I|apply folder_in; exact D|exact K].
Qed.

Lemma works_go : forall rp l (gs : list (nat * group_file)) s s' v, incl l files -> map snd gs = map as_file l ->
  (forall g, In g gs -> fst g < length (objs (s_state s))) -> read_works order leaf nsmap rp gs s = (s', Ok v) ->
  goes s s' /\ forall f dw, In f l -> In dw (snd (snd f)) -> left_behind (work_item (snd dw)) s'.
Proof using Ho NF.
  intros rp l gs s s' v IN M LG E. unfold read_works, andthen at 1 in E.
  destruct (collect gs _ s) as [s1 [r|e]] eqn:C; [|discriminate]. injection E as <- _. revert l s s1 r IN M LG C.
  induction gs as [|g gs IH]; intros [|f l] s s2 r IN M LG C; try discriminate; cbn [collect] in C.
  - injection C as <- _. split; [apply goes_refl|]. intros f dw [].
  - cbn [map] in M. injection M as M1 M2. unfold andthen at 1 in C.
    assert (I : In f files) by (apply IN; left; reflexivity).
    destruct (collect (gf_works (snd g)) _ s) as [s1 [r1|e]] eqn:W; [|discriminate]. unfold andthen at 1 in C.
    destruct (collect gs _ s1) as [s3 [r2|e]] eqn:C2; [|discriminate]. injection C as <- _.
    rewrite M1 in W. cbn [gf_works as_file] in W.
    destruct (folder_goes rp f (snd (snd f)) (fst g) s s1 r1 I (fun x H => H) (LG g (or_introl eq_refl)) W) as (G1 & B1). pose proof (goes_size _ _ G1) as SZ.
    destruct (IH l s1 s3 r2 (fun x H => IN x (or_intror H)) M2) as (G2 & B2); [|exact C2|].
    + intros g' H. specialize (LG g' (or_intror H)). lia.
    + split; [eapply goes_trans; eassumption|]. intros f' dw [<-|H] D; [|eapply B2; eassumption].
      eapply left_goes; [|exact G2|apply B1; exact D]. intros k e K _. eapply item_low; [exact I|apply folder_in; exact D|exact K].
Qed.

Lemma texts_state : forall texts (ts : list (nat * str)) s s' u,
  for_each ts (fun td => _ <-- read_text texts (fst td) (snd td) ;; ret tt) s = (s', Ok u) -> s_state s' = s_state s.
Proof using Type.
  intros texts ts. induction ts as [|td ts IH]; intros s s' u E; cbn [for_each] in E; [injection E as <-; reflexivity|].
  unfold andthen at 1 2 in E. assert (R : s_state (fst (read_text texts (fst td) (snd td) s)) = s_state s).
  { unfold read_text. destruct (urn_parse _); [|reflexivity]. destruct (texts _) as [lv|]; [|reflexivity].
    destruct (ls <- lv ;; mapM copy_level ls) as [[|[nm rf] ls]|e]; reflexivity. }
  destruct (read_text texts (fst td) (snd td) s) as [s1 [b|e]]; [|discriminate]. cbn [ret fst] in *. apply IH in E. congruence.
Qed.

(** The whole loading: reading, then entering. *)
Lemma load_parts : forall rp ru limit d texts s s', load order leaf nsmap rp ru limit d (map as_file files) texts s = (s', Ok tt) ->
  exists s2, goes s s2 /\
    (forall f k e, In f files -> in_file (snd f) k e -> left_behind (fun k' e' => k' = k /\ e' = e) s2) /\
    forall q, q <> cap_parent -> settles q (s_state s2) (s_state s').
Proof using Ho NF.
  intros rp ru limit d texts s s' E. unfold load, andthen at 1 in E.
  destruct (read_groups order leaf nsmap rp (map as_file files) s) as [s1 [gs|e]] eqn:E1; [|discriminate]. unfold andthen at 1 in E.
  destruct (read_works order leaf nsmap rp gs s1) as [s2 [v|e]] eqn:E2; [|discriminate]. unfold andthen at 1 in E.
  destruct (for_each v _ s2) as [s3 [u|e]] eqn:E3; [|discriminate]. apply texts_state in E3.
  destruct (groups_go rp files s s1 gs (fun x H => H) E1) as (G1 & B1 & M & LG).
  destruct (works_go rp files gs s1 s2 v (fun x H => H) M LG E2) as (G2 & B2).
  exists s2. split; [eapply goes_trans; eassumption|]. split.
  - intros f k e I J.
    assert (C : (group_item (fst (snd f)) k e) \/ exists dw, In dw (snd (snd f)) /\ work_item (snd dw) k e).
    { assert (WI : forall fo w, In (fo, w) (works_in (snd f)) -> In w (named #"work" (fst (snd f))) \/ exists dw, In dw (snd (snd f)) /\ snd dw = w).
      { intros fo w H. unfold works_in in H. apply in_app_or in H. destruct H as [H|H]; apply in_map_iff in H; destruct H as (x & X & H).
        - injection X as _ <-. left. exact H.
        - injection X as _ <-. right. eauto. }
      destruct J as [|fo w J|fo w b e J T]; [left; left; auto| |]; destruct (WI fo w J) as [H|(dw & H & <-)].
      - left. right. exists w. split; [exact H|left; auto].
      - right. exists dw. split; [exact H|left; auto].
      - left. right. exists w. split; [exact H|right; eauto].
      - right. exists dw. split; [exact H|right; eauto]. }
    destruct C as [C|(dw & D & C)].
    + assert (B : left_behind (group_item (fst (snd f))) s2) by (eapply left_goes; [intros k' e'; apply group_low; exact I|exact G2|apply B1; exact I]).
      intros NE. destruct (B NE) as [X Y]. split; [intros k' e' p o [-> ->] P D; eapply X; eassumption|intros O k' e' [-> ->] K; eapply Y; eassumption].
    + intros NE. destruct (B2 f dw I D NE) as [X Y]. split; [intros k' e' p o [-> ->] P D'; eapply X; eassumption|intros O k' e' [-> ->] K; eapply Y; eassumption].
  - intros q Q. rewrite <- E3. eapply settles_containers; eassumption.
Qed.
End Phase.
