(** Reading inventories: works, textgroups and inventories as a whole. *)

From Coq Require Import List NArith ZArith Arith Bool Lia Permutation.
From Verif Require Import PyStr PyStrFacts CiteModel XmlModel UrnModel MetaModel MetaSpec MetaProofs
  CollModel CollSpec CollProofs CollHist CollLang UtilModel InvModel InvSpec InvProofs InvTrace InvTree.
Import ListNotations.

Section Done.
Variable order : list term -> list term.
Hypothesis Ho : arranges order.
Variable leaf : XmlModel.node -> guess.
Variable nsmap : XmlModel.node -> list (str * str).

Notation own_told := (own_told leaf nsmap).
Notation text_told := (text_told leaf nsmap).
Notation text_done := (text_done order leaf nsmap).

Definition the_urn (e : XmlModel.node) : str := match urn_of e with Some u => u | None => [] end.

Lemma quiet_extends : forall told u p es s s1 s2, extends p es s s1 -> quiet told u s1 s2 -> extends p es s s2.
Proof. intros told u p es s s1 s2 H (O & C & _). eapply extends_same; eassumption. Qed.

Lemma extends_len : forall p es s s', extends p es s s' -> length (objs (s_state s)) <= length (objs (s_state s')).
Proof. intros p es s s' [L _]. exact L. Qed.

Lemma grows_nonempty : forall told ids gs gs', grows told ids gs gs' -> gs <> [] -> gs' <> [].
Proof. intros told ids [|g r] gs' G H; [ congruence | ]. destruct G as [g' [-> _]]. discriminate. Qed.

Lemma text_done_step : forall k e q s s' i, q < length (objs (s_state s)) -> text_done k e (Some q) s s' i ->
  exists u, urn_of e = Some u /\ extends (Some q) [(u, i)] s s' /\ i = length (objs (s_state s)) /\
    shows_text s' k e (Some q) i /\
    grows (text_told k u (id_up s (Some q)) e) [u] (graphs (s_state s)) (graphs (s_state s')).
Proof.
  intros k e q s s' i Hq (Ei & u & t & Hu & Ht & O & C & G & _). exists u.
  split; [ exact Hu | ]. subst i.
  destruct (made_extends (Some q) u t (KText k) s s') as (E & L & N).
  - intros q' X. injection X as <-. exact Hq.
  - exact O.
  - intros j Hj. unfold citation_of. rewrite C. cbn [find fst].
    destruct (Nat.eqb (length (objs (s_state s))) j) eqn:X; [ apply Nat.eqb_eq in X; lia | reflexivity ].
  - split; [ exact E | ]. split; [ reflexivity | ]. split; [ | exact G ].
    unfold shows_text, made_for. rewrite N. cbn [c_kind c_id c_urn c_parent c_graph c_children].
    split; [ | split; [ reflexivity | ] ].
    + split; [ lia | ]. repeat (split; [ first [ reflexivity | assumption ] | ]). reflexivity.
    + exists (ingest e). split; [ | apply ingest_says ].
      unfold citation_of. rewrite C. cbn [find fst]. rewrite Nat.eqb_refl. reflexivity.
Qed.

(** ** The texts of a work *)
Definition work_pre (i : nat) (u : str) (s : store) : Prop :=
  let x := obj (s_state s) i in
  i < length (objs (s_state s)) /\ c_id x = u /\ c_kind x = KWork /\ c_graph x = 0.

Lemma pre_keeps : forall i es s s', extends (Some i) es s s' -> i < length (objs (s_state s)) ->
  i < length (objs (s_state s')) /\ c_id (obj (s_state s') i) = c_id (obj (s_state s) i) /\
  c_kind (obj (s_state s') i) = c_kind (obj (s_state s) i) /\
  c_graph (obj (s_state s') i) = c_graph (obj (s_state s) i) /\
  c_parent (obj (s_state s') i) = c_parent (obj (s_state s) i).
Proof.
  intros i es s s' [L H] Hi. destruct (H i Hi) as (_ & B & _). rewrite (B eq_refl). cbn. split; [ lia | auto ].
Qed.

Lemma work_pre_keeps : forall i u k e s s' j, work_pre i u s -> text_done k e (Some i) s s' j -> work_pre i u s'.
Proof.
  intros i u k e s s' j (A & B & C & D) H.
  destruct (text_done_step k e i s s' j A H) as (v & _ & E & _).
  destruct (pre_keeps _ _ _ _ E A) as (A' & B' & C' & D' & _).
  unfold work_pre. rewrite B', C', D'. auto.
Qed.

Definition texts_trace (w : XmlModel.node) (i : nat) (s s' : store) (ts : list nat) : Prop :=
  trace (fun ke s s' j => text_done (fst ke) (snd ke) (Some i) s s' j) (texts_in w) s s' ts.

Lemma texts_yields : forall k name w i u s, work_pre i u s ->
  (forall c, In c (named name w) -> fine c) ->
  yields (collect (kids_named (ti name) w) (fun c => parse_text order leaf nsmap k c (Some i))) s
    (forall c, In c (named name w) -> good_text c)
    (fun s' l => trace (fun ke s s' j => text_done (fst ke) (snd ke) (Some i) s s' j)
                   (map (pair k) (named name w)) s s' l /\ work_pre i u s').
Proof using Ho.
  intros k name w i u s Hs Hf. change (kids_named (ti name) w) with (named name w).
  eapply yields_weaken.
  - apply (collect_trace (fun c => parse_text order leaf nsmap k c (Some i)) good_text
      (fun c s s' j => text_done k c (Some i) s s' j) (work_pre i u)); [ | | exact Hs ].
    + intros c s0 Hc (A & B & C & D). apply (parse_text_yields order Ho); [ | apply Hf; exact Hc ].
      cbn. split; [ exact A | ]. rewrite C. auto.
    + intros c s0 s1 j Hc H0 H1. eapply work_pre_keeps; eassumption.
  - reflexivity.
  - cbn beta. intros s' l [T P]. split; [ | exact P ]. apply trace_map. exact T.
Qed.

(** What the elements in a work say. *)
Definition texts_told (w : XmlModel.node) (t : triple) : Prop :=
  exists ke, In ke (texts_in w) /\ text_told (fst ke) (the_urn (snd ke)) (Some (the_urn w)) (snd ke) t.
Definition work_told (up : option str) (w : XmlModel.node) (t : triple) : Prop :=
  parent_told (the_urn w) up t \/ own_told KWork (the_urn w) w t \/ texts_told w t.

Definition work_terms (w : XmlModel.node) : list term :=
  match lang_of w with Some l => [Literal l None None] | None => [] end.
Definition work_langs (s : store) (w : XmlModel.node) : Prop :=
  lang_is s (the_urn w) (match lang_of w with Some l => [Literal l None None] | None => [] end) /\
  forall k e, In (k, e) (texts_in w) -> lang_is s (the_urn e) [Literal (text_language w k e) None None].

Definition calm_work (w : XmlModel.node) : Prop :=
  calm leaf nsmap w (work_terms w) /\
  forall k e, In (k, e) (texts_in w) -> calm leaf nsmap e [Literal (text_language w k e) None None].
Definition fine_work (w : XmlModel.node) : Prop :=
  fine w /\ forall k e, In (k, e) (texts_in w) -> fine e.

Lemma lang_is_other : forall told ids s s' u l, lang_is s u l ->
  grows told ids (graphs (s_state s)) (graphs (s_state s')) -> ~ In u ids -> lang_is s' u l.
Proof.
  intros told ids s s' u l H G N o Hoo. rewrite <- (H o Hoo). eapply grows_other; [ exact G | ].
  intros X. apply in_map_iff in X as [v [E Hv]]. injection E as ->. tauto.
Qed.

Lemma lang_is_mute : forall s s' u l, lang_is s u l -> mute s s' -> lang_is s' u l.
Proof. intros s s' u l H M o Hoo. rewrite M. apply H. exact Hoo. Qed.

Lemma trace_impl_in : forall {X Y} (P P' : X -> store -> store -> Y -> Prop) l s s' bs, trace P l s s' bs ->
  (forall a s s' b, In a l -> P a s s' b -> P' a s s' b) -> trace P' l s s' bs.
Proof.
  intros X Y P P' l s s' bs T. induction T as [|a l s s1 s' b bs Ha T IH]; intros K; econstructor.
  - apply K; [ left; reflexivity | exact Ha ].
  - apply IH. intros. apply K; [ right; assumption | assumption ].
Qed.

Lemma texts_structure : forall w i u s s' ts, work_pre i u s -> texts_trace w i s s' ts ->
  (urn_of w = Some u) ->
  extends (Some i) (combine (urn_list (map snd (texts_in w))) ts) s s' /\
  Forall2 (fun ke j => shows_text s' (fst ke) (snd ke) (Some i) j) (texts_in w) ts /\
  (forall j, In j ts -> length (objs (s_state s)) <= j) /\
  grows (texts_told w) (urn_list (map snd (texts_in w))) (graphs (s_state s)) (graphs (s_state s')).
Proof.
  intros w i u s s' ts Hs T Hu.
  destruct (loop_structure _ i (work_pre i u) (fun ke => snd ke) (fun j => j)
    (fun s ke j => shows_text s (fst ke) (snd ke) (Some i) j)
    (fun ke => text_told (fst ke) (the_urn (snd ke)) (Some u) (snd ke))
    (fun ke => [the_urn (snd ke)])
    (fun ke s s' j H H' => work_pre_keeps i u (fst ke) (snd ke) s s' j H H')
    (fun s H => proj1 H)) with (l := texts_in w) (s := s) (s' := s') (bs := ts)
    as (A & B & C & D).
  - intros [k e] s0 s1 j H0 H1. cbn [fst snd] in *.
    destruct (text_done_step k e i s0 s1 j (proj1 H0) H1) as (v & Hv & E & Ej & S1 & G1).
    exists v. unfold the_urn. rewrite Hv. split; [ reflexivity | ]. repeat (split; [ assumption | ]).
    unfold id_up in G1. cbn [option_map] in G1. rewrite (proj1 (proj2 H0)) in G1. exact G1.
  - intros s0 s1 [k e] j H F. cbn [fst snd] in *. eapply shows_text_stable; eassumption.
  - exact T.
  - exact Hs.
  - rewrite map_id in A. split; [ exact A | ]. split; [ exact B | ]. split; [ exact C | ].
    eapply grows_ext; [ exact D | | ].
    + intros x y z _. unfold texts_told. unfold the_urn at 3. rewrite Hu. reflexivity.
    + unfold urn_list. rewrite map_map. rewrite flat_map_concat_map.
      intros v Hv. apply in_concat in Hv as (l & Hl & Hv). apply in_map_iff in Hl as (ke & <- & Hke).
      destruct Hv as [<-|[]]. apply in_map_iff. exists ke. auto.
Qed.

Lemma flat_map_single : forall {X Y} (f : X -> Y) l, flat_map (fun x => [f x]) l = map f l.
Proof. intros X Y f l. induction l as [|x l IH]; [ reflexivity | ]. cbn. rewrite IH. reflexivity. Qed.

Lemma texts_langs : forall w i u wl s s' ts, work_pre i u s -> texts_trace w i s s' ts ->
  urn_of w = Some u -> graphs (s_state s) <> [] ->
  lang_is s u wl -> (match hd_error wl with Some t => text_of t | None => #"None" end) = work_language w ->
  (forall k e, In (k, e) (texts_in w) -> calm leaf nsmap e [Literal (text_language w k e) None None]) ->
  NoDup (u :: urn_list (map snd (texts_in w))) ->
  forall k e, In (k, e) (texts_in w) -> lang_is s' (the_urn e) [Literal (text_language w k e) None None].
Proof using Ho.
  intros w i u wl s s' ts Hs T Hu Hg Hl Ew Hc N k e Hke.
  inversion N as [|? ? N1 N2]; subst.
  assert (Hids : forall a, In a (texts_in w) -> the_urn (snd a) <> u).
  { intros [k' e'] H X. apply N1. rewrite <- X. unfold urn_list. rewrite map_map.
    apply in_map_iff. exists (k', e'). auto. }
  pose proof (trace_impl_in _ (fun ke s s' j => text_done (fst ke) (snd ke) (Some i) s s' j /\ In ke (texts_in w))
    _ _ _ _ T (fun a s s' b Ha H => conj H Ha)) as T'.
  change (In (k, e) (texts_in w)) with (In (k, e) (texts_in w)) in Hke.
  refine (loop_facts _ i (work_pre i u) (fun ke => snd ke) (fun j => j)
    (fun s ke j => shows_text s (fst ke) (snd ke) (Some i) j)
    (fun ke => text_told (fst ke) (the_urn (snd ke)) (Some u) (snd ke))
    (fun ke => [the_urn (snd ke)]) _ (fun s H => proj1 H) _ _
    (fun s ke => lang_is s (the_urn (snd ke)) [Literal (text_language w (fst ke) (snd ke)) None None])
    (fun _ _ => True) (fun s => graphs (s_state s) <> [] /\ lang_is s u wl) _ _ _ _ _ _ _ _ _ T' Hs (conj Hg Hl) I _ (k, e) Hke).
  - intros ke s0 s1 j H0 [H1 _]. eapply work_pre_keeps; eassumption.
  - intros [k' e'] s0 s1 j H0 [H1 _]. cbn [fst snd] in *.
    destruct (text_done_step k' e' i s0 s1 j (proj1 H0) H1) as (v & Hv & E & Ej & S1 & G1).
    exists v. unfold the_urn. rewrite Hv. split; [ reflexivity | ]. repeat (split; [ assumption | ]).
    unfold id_up in G1. cbn [option_map] in G1. rewrite (proj1 (proj2 H0)) in G1. exact G1.
  - intros s0 s1 [k' e'] j H F. cbn [fst snd] in *. eapply shows_text_stable; eassumption.
  - intros s0 s1 [k' e'] told' ids' H G D. cbn [fst snd] in *. eapply lang_is_other; [ exact H | exact G | ].
    apply D. left. reflexivity.
  - intros. exact I.
  - intros. split; exact I.
  - intros [k' e'] s0 s1 j H0 [M1 M2] [H1 Hin]. cbn [fst snd] in *.
    destruct (text_done_step k' e' i s0 s1 j (proj1 H0) H1) as (v & Hv & E & Ej & S1 & G1).
    split; [ eapply grows_nonempty; eassumption | ]. eapply lang_is_other; [ exact M2 | exact G1 | ].
    intros [X|[]]. apply (Hids _ Hin). cbn [snd]. unfold the_urn. rewrite Hv. exact X.
  - intros [k' e'] s0 s1 j H0 [M1 M2] [H1 Hin] _ _ o Hoo. cbn [fst snd] in *.
    destruct H1 as (_ & v & t & Hv & _ & _ & _ & _ & L).
    assert (El : text_lang (inherited order s0 i) k' e' = text_language w k' e').
    { unfold inherited. rewrite (proj1 (proj2 H0)). rewrite (M2 order Ho). rewrite Ew.
      unfold text_language, text_lang. reflexivity. }
    specialize (L i eq_refl). rewrite El in L.
    unfold the_urn. rewrite Hv. apply (L (Hc _ _ Hin) M1 o Hoo).
  - unfold urn_list in N2. rewrite map_map in N2. rewrite (flat_map_single (fun ke => the_urn (snd ke))). exact N2.
Qed.

(** ** Works *)
Definition work_done (e : XmlModel.node) (p : option nat) (s s' : store) (r : nat * list nat) : Prop :=
  fst r = length (objs (s_state s)) /\
  exists u, urn_of e = Some u /\ extends p [(u, fst r)] s s' /\
    shows_work s' e p (fst r) (snd r) /\
    grows (work_told (id_up s p) e) (work_urns e) (graphs (s_state s)) (graphs (s_state s')) /\
    (calm_work e -> graphs (s_state s) <> [] -> (lang_of e = None -> lang_is s u []) -> NoDup (work_urns e) -> work_langs s' e).

Lemma shows_objs : forall s s' e p i ts, shows_work s e p i ts ->
  objs (s_state s') = objs (s_state s) -> s_cites s' = s_cites s -> shows_work s' e p i ts.
Proof.
  intros s s' e p i ts H O C. eapply shows_work_stable; [ exact H | ]. split; [ rewrite O; lia | ].
  intros j _. unfold obj, citation_of. rewrite O, C. auto.
Qed.

Lemma work_parts : forall A B C D : Prop, (A \/ False \/ B \/ C \/ D) <-> (A \/ (B \/ D) \/ C).
Proof. tauto. Qed.

Lemma good_texts : forall e, (forall k c, In (k, c) (texts_in e) -> good_text c) <->
  (forall c, In c (named #"edition" e) -> good_text c) /\
  (forall c, In c (named #"translation" e) -> good_text c) /\
  (forall c, In c (named #"commentary" e) -> good_text c).
Proof.
  intros e. unfold texts_in. split.
  - intros H. split; [ | split ]; intros c Hc.
    + apply (H Edition). apply in_or_app. left. apply in_map. exact Hc.
    + apply (H Translation). apply in_or_app. right. apply in_or_app. left. apply in_map. exact Hc.
    + apply (H Commentary). apply in_or_app. right. apply in_or_app. right. apply in_map. exact Hc.
  - intros (A & B & C) k c H. apply in_app_iff in H as [H|H]; [ | apply in_app_iff in H as [H|H] ];
      apply in_map_iff in H as (x & E & Hx); injection E as _ <-; auto.
Qed.

Lemma parse_work_yields : forall e p s, parent_fits KWork p s -> fine_work e ->
  yields (parse_work order leaf nsmap e p) s (good_work e) (fun s' r => work_done e p s s' r).
Proof using Ho.
  intros e p s Hp [Hf Hft]. unfold parse_work.
  assert (Fe : forall c, In c (named #"edition" e) -> fine c).
  { intros c Hc. apply (Hft Edition). unfold texts_in. apply in_or_app. left. apply in_map. exact Hc. }
  assert (Ft : forall c, In c (named #"translation" e) -> fine c).
  { intros c Hc. apply (Hft Translation). unfold texts_in. apply in_or_app. right. apply in_or_app. left. apply in_map. exact Hc. }
  assert (Fc : forall c, In c (named #"commentary" e) -> fine c).
  { intros c Hc. apply (Hft Commentary). unfold texts_in. apply in_or_app. right. apply in_or_app. right. apply in_map. exact Hc. }
  eapply yields_weaken.
  - eapply yields_bind; [ apply (make_yields order Ho); exact Hp | ].
    intros s1 i (Ei & u & t & Hu & Ht & O1 & C1 & G1 & L1). cbn beta iota in L1.
    assert (A1 : at0 i u s1) by (eapply made_at0; eassumption).
    eapply yields_bind; [ apply assign_lang_yields; exact A1 | ].
    intros s2 [] [Q2 L2].
    assert (A2 : at0 i u s2) by (eapply at0_objs; [ apply Q2 | exact A1 ]).
    eapply yields_bind; [ apply (parse_labels_yields i u KWork #"title" e); [ discriminate | exact A2 ] | ].
    intros s3 [] [Q3 M3].
    destruct (made_extends p u t KWork s s1) as (X1 & N1 & B1).
    { intros q ->. apply Hp. } { rewrite <- Ei. exact O1. } { intros j _. unfold citation_of. rewrite C1. reflexivity. }
    rewrite <- Ei in X1, N1, B1.
    assert (O3 : objs (s_state s3) = objs (s_state s1)) by (rewrite (proj1 Q3); apply Q2).
    assert (C3 : s_cites s3 = s_cites s1) by (rewrite (proj1 (proj2 Q3)); apply Q2).
    assert (B3 : obj (s_state s3) i = MkColl KWork u t p [] 0) by (unfold obj; rewrite O3; exact B1).
    assert (P3 : work_pre i u s3).
    { unfold work_pre. rewrite B3, O3, N1. cbn. auto. }
    eapply yields_bind; [ apply (texts_yields Edition #"edition" e i u s3 P3 Fe) | ].
    intros s4 l1 [T1 P4].
    eapply yields_bind; [ apply (texts_yields Translation #"translation" e i u s4 P4 Ft) | ].
    intros s5 l2 [T2 P5].
    eapply yields_bind; [ apply (texts_yields Commentary #"commentary" e i u s5 P5 Fc) | ].
    intros s6 l3 [T3 P6].
    assert (T : texts_trace e i s3 s6 (l1 ++ l2 ++ l3)).
    { unfold texts_trace, texts_in. eapply trace_app; [ exact T1 | ]. eapply trace_app; eassumption. }
    assert (A6 : at0 i u s6) by (destruct P6 as (_ & X & _ & Y); split; assumption).
    eapply yields_bind; [ apply (parse_structured_yields leaf nsmap i u e s6 Hf A6) | ].
    intros s7 [] [Q7 M7].
    apply (yields_ret (i, l1 ++ l2 ++ l3) s7 True); [ exact I | ].
    instantiate (1 := fun s' r => work_done e p s s' r). cbn beta.
    destruct (texts_structure e i u s3 s6 (l1 ++ l2 ++ l3) P3 T Hu) as (XT & ST & LT & GT).
    set (ts := l1 ++ l2 ++ l3) in *. clearbody ts. clear T1 T2 T3 l1 l2 l3.
    unfold work_done. cbn [fst snd]. split; [ exact Ei | ]. exists u.
    split; [ exact Hu | ].
    assert (X6 : extends p [(u, i)] s s6).
    { eapply extends_inner; [ | exact XT | lia ]. eapply extends_same; eassumption. }
    split; [ eapply quiet_extends; [ exact X6 | exact Q7 ] | ].
    assert (B6 : obj (s_state s6) i = put_children (first_of_each (combine (urn_list (map snd (texts_in e))) ts)) (MkColl KWork u t p [] 0)).
    { destruct XT as [_ XT]. destruct (XT i (proj1 P3)) as (_ & XT' & _). rewrite (XT' eq_refl), B3.
      cbn [c_children]. rewrite add_all_empty. reflexivity. }
    split; [ | split ].
    + eapply shows_objs; [ | apply Q7 | apply Q7 ]. split; [ | split ].
      * unfold made_for. rewrite B6. split; [ apply P6 | ]. cbn. auto.
      * split; [ | rewrite B6; reflexivity ]. intros j Hj. apply LT in Hj. rewrite O3, N1 in Hj. lia.
      * exact ST.
    + destruct Q2 as (_ & _ & G2), Q3 as (_ & _ & G3), Q7 as (_ & _ & G7).
      eapply grows_ext.
      * eapply grows_trans; [ exact G1 | ]. eapply grows_trans; [ exact G2 | ].
        eapply grows_trans; [ exact G3 | ]. eapply grows_trans; [ exact GT | exact G7 ].
      * intros x y z _. unfold work_told. unfold the_urn at 1 2. rewrite Hu.
        rewrite (described_other leaf nsmap KWork #"title" u e (x, y, z)); [ apply work_parts | constructor | intros sub X; discriminate | reflexivity ].
      * intros x. unfold work_urns. cbn [urn_list map]. rewrite Hu. rewrite !in_app_iff. cbn [In]. tauto.
    + intros [Hc Hct] Hg Hl N.
      unfold work_urns in N. cbn [urn_list map] in N. rewrite Hu in N.
      assert (G1n : graphs (s_state s1) <> []) by (eapply grows_nonempty; eassumption).
      assert (G2n : graphs (s_state s2) <> []) by (eapply quiet_graphs; eassumption).
      assert (G3n : graphs (s_state s3) <> []) by (eapply quiet_graphs; eassumption).
      assert (L3 : lang_is s3 u (match lang_of e with Some l => [Literal l None None] | None => [] end)).
      { intros o Hoo. rewrite M3. destruct (lang_of e) as [l|].
        - apply L2; assumption.
        - subst s2. rewrite L1. apply (Hl eq_refl). exact Hoo. }
      split.
      * unfold the_urn. rewrite Hu. apply (M7 _ Hc).
        eapply lang_is_other; [ exact L3 | exact GT | ].
        inversion N. assumption.
      * intros k c Hk. eapply lang_is_other; [ | apply Q7 | intros [X|[]]; apply NoDup_cons_iff in N as [N1' _];
          apply N1'; rewrite X; unfold urn_list; rewrite map_map; apply in_map_iff; exists (k, c); split; [ reflexivity | exact Hk ] ].
        eapply texts_langs with (wl := match lang_of e with Some l => [Literal l None None] | None => [] end);
          [ exact P3 | exact T | exact Hu | exact G3n | exact L3 | | exact Hct | exact N | exact Hk ].
        unfold work_language. destruct (lang_of e); reflexivity.
  - unfold good_work. rewrite good_texts. tauto.
  - cbn beta. auto.
Qed.

(** ** Textgroups *)
Definition all_fresh (sp : str -> Prop) (s : store) (us : list str) : Prop :=
  forall u, In u us -> sp u -> lang_is s u [].

Lemma all_fresh_stable : forall sp s s' us told ids, all_fresh sp s us ->
  grows told ids (graphs (s_state s)) (graphs (s_state s')) ->
  (forall u, In u us -> ~ In u ids) -> all_fresh sp s' us.
Proof. intros sp s s' us told ids H G D u Hu Hsp. eapply lang_is_other; [ apply H; assumption | exact G | apply D; exact Hu ]. Qed.

Lemma all_fresh_app : forall sp s us vs, all_fresh sp s (us ++ vs) -> all_fresh sp s us /\ all_fresh sp s vs.
Proof. intros sp s us vs H. split; intros u Hu; apply H; apply in_or_app; auto. Qed.

Lemma urns_work : forall w, In (the_urn w) (work_urns w).
Proof. intros w. left. reflexivity. Qed.
Lemma urns_text : forall w k e, In (k, e) (texts_in w) -> In (the_urn e) (work_urns w).
Proof.
  intros w k e H. right. change (the_urn e) with ((fun e => match urn_of e with Some u => u | None => [] end) e).
  apply in_map. change e with (snd (k, e)). apply in_map. exact H.
Qed.

Lemma work_langs_stable : forall s s' w told ids, work_langs s w ->
  grows told ids (graphs (s_state s)) (graphs (s_state s')) ->
  (forall u, In u (work_urns w) -> ~ In u ids) -> work_langs s' w.
Proof.
  intros s s' w told ids [A B] G D. split.
  - eapply lang_is_other; [ exact A | exact G | apply D; apply urns_work ].
  - intros k e H. eapply lang_is_other; [ apply B; exact H | exact G | ]. apply D. eapply urns_text. exact H.
Qed.


Definition group_pre (i : nat) (u : str) (s : store) : Prop :=
  let x := obj (s_state s) i in i < length (objs (s_state s)) /\ c_id x = u /\ c_graph x = 0.

Definition group_told (up : option str) (g : XmlModel.node) (t : triple) : Prop :=
  parent_told (the_urn g) up t \/ own_told KTextgroup (the_urn g) g t
  \/ exists w, In w (named #"work" g) /\ work_told (Some (the_urn g)) w t.
Definition group_langs (s : store) (g : XmlModel.node) : Prop :=
  forall w, In w (named #"work" g) -> work_langs s w.
Definition calm_group (g : XmlModel.node) : Prop := forall w, In w (named #"work" g) -> calm_work w.
Definition fine_group (g : XmlModel.node) : Prop :=
  fine g /\ forall w, In w (named #"work" g) -> fine_work w.

Lemma group_pre_keeps : forall i u es s s', group_pre i u s -> extends (Some i) es s s' -> group_pre i u s'.
Proof.
  intros i u es s s' (A & B & D) H. destruct (pre_keeps _ _ _ _ H A) as (A' & B' & _ & D' & _).
  unfold group_pre. rewrite B', D'. auto.
Qed.

Lemma works_keep : forall i u w s s' r, group_pre i u s -> work_done w (Some i) s s' r -> group_pre i u s'.
Proof. intros i u w s s' r P (_ & v & _ & E & _). eapply group_pre_keeps; eassumption. Qed.

Lemma works_step : forall i u w s s' r, group_pre i u s -> work_done w (Some i) s s' r ->
  exists v, urn_of w = Some v /\ extends (Some i) [(v, fst r)] s s' /\
    fst r = length (objs (s_state s)) /\ shows_work s' w (Some i) (fst r) (snd r) /\
    grows (work_told (Some u) w) (work_urns w) (graphs (s_state s)) (graphs (s_state s')).
Proof.
  intros i u w s s' r P (Ei & v & Hv & E & S1 & G & _). exists v.
  split; [ exact Hv | ]. split; [ exact E | ]. split; [ exact Ei | ]. split; [ exact S1 | ].
  unfold id_up in G. cbn [option_map] in G. rewrite (proj1 (proj2 P)) in G. exact G.
Qed.

Lemma works_structure : forall l i u s s' rs, group_pre i u s ->
  trace (fun w s s' r => work_done w (Some i) s s' r) l s s' rs ->
  extends (Some i) (combine (urn_list l) (map fst rs)) s s' /\
  Forall2 (fun w r => shows_work s' w (Some i) (fst r) (snd r)) l rs /\
  (forall r, In r rs -> length (objs (s_state s)) <= fst r) /\
  grows (fun t => exists w, In w l /\ work_told (Some u) w t) (flat_map work_urns l)
    (graphs (s_state s)) (graphs (s_state s')).
Proof.
  intros l i u s s' rs Hs T.
  destruct (loop_structure _ i (group_pre i u) (fun w => w) fst
    (fun s w r => shows_work s w (Some i) (fst r) (snd r)) (work_told (Some u)) work_urns
    (works_keep i u) (fun s H => proj1 H) (works_step i u)) with (l := l) (s := s) (s' := s') (bs := rs)
    as (A & B & C & D); [ | exact T | exact Hs | ].
  - intros s0 s1 w r H F. eapply shows_work_stable; eassumption.
  - rewrite map_id in A. auto.
Qed.

Lemma works_langs : forall (sp : str -> Prop) l i u s s' rs, group_pre i u s ->
  trace (fun w s s' r => work_done w (Some i) s s' r) l s s' rs ->
  (forall w, In w l -> calm_work w) -> (forall w, In w l -> lang_of w = None -> sp (the_urn w)) ->
  graphs (s_state s) <> [] ->
  all_fresh sp s (flat_map work_urns l) -> NoDup (flat_map work_urns l) ->
  forall w, In w l -> work_langs s' w.
Proof.
  intros sp l i u s s' rs Hs T Hc Hsp Hg Hfr N w Hw.
  pose proof (trace_impl_in _ (fun w s s' r => work_done w (Some i) s s' r /\ In w l)
    _ _ _ _ T (fun a s s' b Ha H => conj H Ha)) as T'.
  refine (loop_facts _ i (group_pre i u) (fun w => w) fst
    (fun s w r => shows_work s w (Some i) (fst r) (snd r)) (work_told (Some u)) work_urns
    _ (fun s H => proj1 H) _ _ work_langs (all_fresh sp) (fun s => graphs (s_state s) <> [])
    work_langs_stable (all_fresh_stable sp) (all_fresh_app sp) _ _ _ _ _ _ T' Hs Hg Hfr N w Hw).
  - intros a s0 s1 r H0 [H1 _]. eapply works_keep; eassumption.
  - intros a s0 s1 r H0 [H1 _]. eapply works_step; eassumption.
  - intros s0 s1 a r H F. eapply shows_work_stable; eassumption.
  - intros a s0 s1 r H0 M [H1 _]. destruct (works_step i u a s0 s1 r H0 H1) as (v & _ & _ & _ & _ & G).
    eapply grows_nonempty; eassumption.
  - intros a s0 s1 r H0 M [(_ & v & Hv & _ & _ & _ & L) Hin] Hfa Na.
    apply L; [ apply Hc; exact Hin | exact M | | exact Na ].
    intros Hla. replace v with (the_urn a) by (unfold the_urn; rewrite Hv; reflexivity).
    apply Hfa; [ apply urns_work | apply Hsp; assumption ].
Qed.

Definition group_done (e : XmlModel.node) (p : option nat) (s s' : store) (i : nat) : Prop :=
  i = length (objs (s_state s)) /\
  exists u, urn_of e = Some u /\ extends p [(u, i)] s s' /\
    shows_group s' e p i /\
    grows (group_told (id_up s p) e) (group_urns e) (graphs (s_state s)) (graphs (s_state s')) /\
    (calm_group e -> graphs (s_state s) <> [] -> forall sp : str -> Prop,
     (forall w, In w (named #"work" e) -> lang_of w = None -> sp (the_urn w)) ->
     all_fresh sp s (group_urns e) -> NoDup (group_urns e) -> group_langs s' e).

Lemma shows_group_objs : forall s s' e p i, shows_group s e p i ->
  objs (s_state s') = objs (s_state s) -> s_cites s' = s_cites s -> shows_group s' e p i.
Proof.
  intros s s' e p i H O C. eapply shows_group_stable; [ exact H | ]. split; [ rewrite O; lia | ].
  intros j _. unfold obj, citation_of. rewrite O, C. auto.
Qed.

Lemma group_parts : forall A B C D : Prop, (A \/ B \/ C \/ D) <-> (A \/ (B \/ D) \/ C).
Proof. tauto. Qed.

Lemma all_fresh_mute : forall sp s s' us, all_fresh sp s us -> mute s s' -> all_fresh sp s' us.
Proof. intros sp s s' us H M u Hu Hsp. eapply lang_is_mute; [ apply H; assumption | exact M ]. Qed.

Lemma Forall2_map_r : forall {X Y Z} (R : X -> Z -> Prop) (f : Y -> Z) l l',
  Forall2 (fun x y => R x (f y)) l l' -> Forall2 R l (map f l').
Proof. intros X Y Z R f l l' H. induction H; cbn; constructor; assumption. Qed.

Lemma parse_textgroup_yields : forall e p s, parent_fits KTextgroup p s -> fine_group e ->
  yields (parse_textgroup order leaf nsmap e p) s (good_group e) (fun s' i => group_done e p s s' i).
Proof using Ho.
  intros e p s Hp [Hf Hft]. unfold parse_textgroup.
  eapply yields_weaken.
  - eapply yields_bind; [ apply (make_yields order Ho); exact Hp | ].
    intros s1 i (Ei & u & t & Hu & Ht & O1 & C1 & G1 & L1). cbn beta iota in L1.
    assert (A1 : at0 i u s1) by (eapply made_at0; eassumption).
    eapply yields_bind; [ apply (parse_labels_yields i u KTextgroup #"groupname" e); [ discriminate | exact A1 ] | ].
    intros s3 [] [Q3 M3].
    destruct (made_extends p u t KTextgroup s s1) as (X1 & N1 & B1).
    { intros q ->. apply Hp. } { rewrite <- Ei. exact O1. } { intros j _. unfold citation_of. rewrite C1. reflexivity. }
    rewrite <- Ei in X1, N1, B1.
    assert (O3 : objs (s_state s3) = objs (s_state s1)) by apply Q3.
    assert (C3 : s_cites s3 = s_cites s1) by apply Q3.
    assert (B3 : obj (s_state s3) i = MkColl KTextgroup u t p [] 0) by (unfold obj; rewrite O3; exact B1).
    assert (P3 : group_pre i u s3).
    { unfold group_pre. rewrite B3, O3, N1. cbn. auto. }
    eapply yields_bind.
    { change (kids_named (ti #"work") e) with (named #"work" e).
      apply (collect_trace (fun c => parse_work order leaf nsmap c (Some i)) good_work
        (fun w s s' r => work_done w (Some i) s s' r) (group_pre i u)); [ | | exact P3 ].
      - intros w s0 Hw H0. apply parse_work_yields; [ cbn; split; [ apply H0 | exact I ] | apply Hft; exact Hw ].
      - intros w s0 s0' r Hw. apply works_keep. }
    intros s6 rs [T P6].
    assert (A6 : at0 i u s6) by (destruct P6 as (_ & X & Y); split; assumption).
    eapply yields_bind; [ apply (parse_structured_yields leaf nsmap i u e s6 Hf A6) | ].
    intros s7 [] [Q7 M7].
    apply (yields_ret i s7 True); [ exact I | ].
    instantiate (1 := fun s' i => group_done e p s s' i). cbn beta.
    destruct (works_structure _ i u s3 s6 rs P3 T) as (XT & ST & LT & GT).
    unfold group_done. split; [ exact Ei | ]. exists u. split; [ exact Hu | ].
    assert (X6 : extends p [(u, i)] s s6).
    { eapply extends_inner; [ | exact XT | lia ]. eapply extends_same; eassumption. }
    split; [ eapply quiet_extends; [ exact X6 | exact Q7 ] | ].
    assert (B6 : obj (s_state s6) i = put_children (first_of_each (combine (urn_list (named #"work" e)) (map fst rs))) (MkColl KTextgroup u t p [] 0)).
    { destruct XT as [_ XT]. destruct (XT i (proj1 P3)) as (_ & XT' & _). rewrite (XT' eq_refl), B3.
      cbn [c_children]. rewrite add_all_empty. reflexivity. }
    split; [ | split ].
    + eapply shows_group_objs; [ | apply Q7 | apply Q7 ]. split; [ | exists (map fst rs); split ].
      * unfold made_for. rewrite B6. split; [ apply P6 | ]. cbn. auto.
      * split; [ | rewrite B6; reflexivity ]. intros j Hj. apply in_map_iff in Hj as (r & <- & Hr).
        apply LT in Hr. rewrite O3, N1 in Hr. lia.
      * apply Forall2_map_r. eapply Forall2_impl; [ | exact ST ]. cbn. intros w r H. exists (snd r). exact H.
    + destruct Q3 as (_ & _ & G3), Q7 as (_ & _ & G7).
      eapply grows_ext.
      * eapply grows_trans; [ exact G1 | ].
        eapply grows_trans; [ exact G3 | ]. eapply grows_trans; [ exact GT | exact G7 ].
      * intros x y z _. unfold group_told. unfold the_urn at 1 2 3. rewrite Hu.
        rewrite (described_other leaf nsmap KTextgroup #"groupname" u e (x, y, z)); [ apply group_parts | constructor | intros sub X; discriminate | reflexivity ].
      * intros x. unfold group_urns. cbn [urn_list map]. rewrite Hu. rewrite !in_app_iff. cbn [In]. tauto.
    + intros Hct Hg sp Hsp Hl N w Hw.
      unfold group_urns in N, Hl. cbn [urn_list map] in N, Hl. rewrite Hu in N, Hl.
      assert (G1n : graphs (s_state s1) <> []) by (eapply grows_nonempty; eassumption).
      assert (G3n : graphs (s_state s3) <> []) by (eapply quiet_graphs; eassumption).
      eapply work_langs_stable; [ | apply Q7 | ].
      2:{ intros v Hv [X|[]]. subst v. cbn [app] in N. inversion N as [|? ? N1' N2']; subst. apply N1'.
          apply in_flat_map. exists w. split; assumption. }
      eapply (works_langs sp); [ exact P3 | exact T | exact Hct | exact Hsp | exact G3n | | | exact Hw ].
      * apply all_fresh_app in Hl as [_ Hl]. eapply all_fresh_mute; [ exact Hl | ].
        eapply mute_trans; [ exact L1 | exact M3 ].
      * apply NoDup_app_parts in N. tauto.
  - unfold good_group. change (kids_named (ti #"work") e) with (named #"work" e). tauto.
  - cbn beta. auto.
Qed.

(** ** Inventories *)
Definition inventory_told (name : str) (x : XmlModel.node) (t : triple) : Prop :=
  exists g, In g (anywhere #"textgroup" x) /\ group_told (Some name) g t.

Lemma groups_keep : forall i u g s s' j, group_pre i u s -> group_done g (Some i) s s' j -> group_pre i u s'.
Proof. intros i u g s s' j P (_ & v & _ & E & _). eapply group_pre_keeps; eassumption. Qed.

Lemma groups_step : forall i u g s s' j, group_pre i u s -> group_done g (Some i) s s' j ->
  exists v, urn_of g = Some v /\ extends (Some i) [(v, j)] s s' /\
    j = length (objs (s_state s)) /\ shows_group s' g (Some i) j /\
    grows (group_told (Some u) g) (group_urns g) (graphs (s_state s)) (graphs (s_state s')).
Proof.
  intros i u g s s' j P (Ei & v & Hv & E & S1 & G & _). exists v.
  split; [ exact Hv | ]. split; [ exact E | ]. split; [ exact Ei | ]. split; [ exact S1 | ].
  unfold id_up in G. cbn [option_map] in G. rewrite (proj1 (proj2 P)) in G. exact G.
Qed.

Lemma groups_structure : forall l i u s s' js, group_pre i u s ->
  trace (fun g s s' j => group_done g (Some i) s s' j) l s s' js ->
  extends (Some i) (combine (urn_list l) js) s s' /\
  Forall2 (fun g j => shows_group s' g (Some i) j) l js /\
  (forall j, In j js -> length (objs (s_state s)) <= j) /\
  grows (fun t => exists g, In g l /\ group_told (Some u) g t) (flat_map group_urns l)
    (graphs (s_state s)) (graphs (s_state s')).
Proof.
  intros l i u s s' js Hs T.
  destruct (loop_structure _ i (group_pre i u) (fun w => w) (fun j => j)
    (fun s g j => shows_group s g (Some i) j) (group_told (Some u)) group_urns
    (groups_keep i u) (fun s H => proj1 H) (groups_step i u)) with (l := l) (s := s) (s' := s') (bs := js)
    as (A & B & C & D); [ | exact T | exact Hs | ].
  - intros s0 s1 w r H F. eapply shows_group_stable; eassumption.
  - rewrite !map_id in A. auto.
Qed.

Lemma group_langs_stable : forall s s' g told ids, group_langs s g ->
  grows told ids (graphs (s_state s)) (graphs (s_state s')) ->
  (forall u, In u (group_urns g) -> ~ In u ids) -> group_langs s' g.
Proof.
  intros s s' g told ids H G D w Hw. eapply work_langs_stable; [ apply H; exact Hw | exact G | ].
  intros u Hu. apply D. unfold group_urns. apply in_or_app. right. apply in_flat_map. exists w. auto.
Qed.

Lemma groups_langs : forall (sp : str -> Prop) l i u s s' js, group_pre i u s ->
  trace (fun g s s' j => group_done g (Some i) s s' j) l s s' js ->
  (forall g, In g l -> calm_group g) ->
  (forall g w, In g l -> In w (named #"work" g) -> lang_of w = None -> sp (the_urn w)) ->
  graphs (s_state s) <> [] ->
  all_fresh sp s (flat_map group_urns l) -> NoDup (flat_map group_urns l) ->
  forall g, In g l -> group_langs s' g.
Proof.
  intros sp l i u s s' js Hs T Hc Hsp Hg Hfr N g Hgl.
  pose proof (trace_impl_in _ (fun g s s' j => group_done g (Some i) s s' j /\ In g l)
    _ _ _ _ T (fun a s s' b Ha H => conj H Ha)) as T'.
  refine (loop_facts _ i (group_pre i u) (fun w => w) (fun j => j)
    (fun s g j => shows_group s g (Some i) j) (group_told (Some u)) group_urns
    _ (fun s H => proj1 H) _ _ group_langs (all_fresh sp) (fun s => graphs (s_state s) <> [])
    group_langs_stable (all_fresh_stable sp) (all_fresh_app sp) _ _ _ _ _ _ T' Hs Hg Hfr N g Hgl).
  - intros a s0 s1 r H0 [H1 _]. eapply groups_keep; eassumption.
  - intros a s0 s1 r H0 [H1 _]. eapply groups_step; eassumption.
  - intros s0 s1 a r H F. eapply shows_group_stable; eassumption.
  - intros a s0 s1 r H0 M [H1 _]. destruct (groups_step i u a s0 s1 r H0 H1) as (v & _ & _ & _ & _ & G).
    eapply grows_nonempty; eassumption.
  - intros a s0 s1 r H0 M [(_ & v & Hv & _ & _ & _ & L) Hin] Hfa Na.
    apply (L (Hc _ Hin) M sp); [ intros w Hw Hlw; eapply Hsp; eassumption | exact Hfa | exact Na ].
Qed.

Definition inventory_done (x : XmlModel.node) (s s' : store) (i : nat) : Prop :=
  i = length (objs (s_state s)) /\
  exists name, inventory_name x name /\
    extends None [] s s' /\ shows_inventory s' x i /\ c_urn (obj (s_state s') i) = [] /\
    grows (inventory_told name x) (name :: document_urns x) (graphs (s_state s)) (graphs (s_state s')) /\
    ((forall g, In g (anywhere #"textgroup" x) -> calm_group g) -> graphs (s_state s) <> [] ->
     forall sp : str -> Prop,
     (forall g w, In g (anywhere #"textgroup" x) -> In w (named #"work" g) -> lang_of w = None -> sp (the_urn w)) ->
     all_fresh sp s (document_urns x) -> NoDup (document_urns x) ->
     forall g, In g (anywhere #"textgroup" x) -> group_langs s' g).

Lemma everywhere_same : forall x, everywhere x = document_order x.
Proof. reflexivity. Qed.

Lemma parse_inventory_yields : forall x s,
  (forall g, In g (anywhere #"textgroup" x) -> fine_group g) ->
  yields (parse_inventory order leaf nsmap x) s (good_inventory x) (fun s' i => inventory_done x s s' i).
Proof using Ho.
  intros x s Hf. unfold parse_inventory, good_inventory.
  change (all_named (ti #"TextInventory") x) with (anywhere #"TextInventory" x).
  change (all_named (ti #"textgroup") x) with (anywhere #"textgroup" x).
  destruct (anywhere #"TextInventory" x) as [|t rest] eqn:Et.
  { unfold yields, raise. cbn beta iota. tauto. }
  set (name := match get_attr #"tiid" (n_attrs t) with Some s => s | None => [] end).
  assert (Hn : inventory_name x name) by (exists t, rest; split; [ exact Et | reflexivity ]).
  eapply yields_weaken.
  - eapply yields_bind with (w1 := True) (Q1 := fun s1 i => i = length (objs (s_state s)) /\
      objs (s_state s1) = objs (s_state s) ++ [MkColl KInventory name [] None [] 0] /\
      s_cites s1 = s_cites s /\ mute s s1 /\
      grows (fun _ => False) [name] (graphs (s_state s)) (graphs (s_state s1))).
    { unfold yields. rewrite new_object_eq. split; [ exact I | ]. cbn [s_state objs graphs s_cites].
      split; [ reflexivity | ]. split; [ reflexivity | ]. split; [ reflexivity | ]. split.
      - intros o n. unfold objects0. cbn [s_state graphs]. destruct (graphs (s_state s)) as [|g r]; [ reflexivity | ].
        cbn [upd nth]. apply types_mute.
      - apply grows_upd. intros g. apply effect_types. }
    intros s1 i (Ei & O1 & C1 & M1 & G1).
    assert (B1 : obj (s_state s1) i = MkColl KInventory name [] None [] 0).
    { unfold obj. rewrite O1, Ei. apply nth_app_last. }
    assert (N1 : length (objs (s_state s1)) = S i).
    { rewrite O1, app_length, Ei. cbn. lia. }
    assert (P1 : group_pre i name s1).
    { unfold group_pre. rewrite B1, N1. cbn. auto. }
    eapply yields_bind.
    { apply (collect_trace (fun c => parse_textgroup order leaf nsmap c (Some i)) good_group
        (fun g s s' j => group_done g (Some i) s s' j) (group_pre i name)); [ | | exact P1 ].
      - intros g s0 Hg H0. apply parse_textgroup_yields; [ cbn; split; [ apply H0 | exact I ] | apply Hf; exact Hg ].
      - intros g s0 s0' j Hg. apply groups_keep. }
    intros s6 js [T P6].
    apply (yields_ret i s6 True); [ exact I | ].
    instantiate (1 := fun s' i => inventory_done x s s' i). cbn beta.
    destruct (groups_structure _ i name s1 s6 js P1 T) as (XT & ST & LT & GT).
    assert (B6 : obj (s_state s6) i = put_children (first_of_each (combine (urn_list (anywhere #"textgroup" x)) js)) (MkColl KInventory name [] None [] 0)).
    { destruct XT as [_ XT]. destruct (XT i (proj1 P1)) as (_ & XT' & _). rewrite (XT' eq_refl), B1.
      cbn [c_children]. rewrite add_all_empty. reflexivity. }
    split; [ exact Ei | ]. exists name. split; [ exact Hn | ].
    split; [ | split; [ | split; [ | split ] ] ].
    + eapply extends_inner; [ | exact XT | lia ]. split; [ rewrite O1, app_length; lia | ].
      intros j Hj. unfold obj, citation_of. rewrite O1, C1, app_nth1 by exact Hj.
      split; [ reflexivity | ]. split; [ discriminate | reflexivity ].
    + unfold shows_inventory. rewrite B6. split; [ apply P6 | ]. cbn [c_kind c_id c_parent c_graph put_children].
      split; [ reflexivity | ]. split; [ exact Hn | ]. split; [ reflexivity | ]. split; [ reflexivity | ].
      exists js. split; [ | exact ST ]. split; [ | rewrite B6; reflexivity ].
      intros j Hj. apply LT in Hj. lia.
    + rewrite B6. reflexivity.
    + eapply grows_ext; [ eapply grows_trans; [ exact G1 | exact GT ] | | ].
      * intros a b c _. unfold inventory_told. tauto.
      * unfold document_urns. apply incl_refl.
    + intros Hc Hg sp Hsp Hl N g Hgx.
      eapply (groups_langs sp); [ exact P1 | exact T | exact Hc | exact Hsp | eapply grows_nonempty; eassumption | | exact N | exact Hgx ].
      eapply all_fresh_mute; [ exact Hl | exact M1 ].
  - split; [ intros (_ & H & _); split; [ discriminate | exact H ] | tauto ].
  - cbn beta. auto.
Qed.
End Done.
