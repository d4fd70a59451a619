(** Reading inventories: texts, works, textgroups, inventories. *)

From Coq Require Import List NArith ZArith Arith Bool Lia Permutation.
From Verif Require Import PyStr PyStrFacts CiteModel XmlModel UrnModel MetaModel MetaSpec MetaProofs
  CollModel CollSpec CollProofs CollHist CollLang UtilModel InvModel InvSpec InvProofs InvTrace.
Import ListNotations.

Section Tree.
Variable order : list term -> list term.
Hypothesis Ho : arranges order.
Variable leaf : XmlModel.node -> guess.
Variable nsmap : XmlModel.node -> list (str * str).

Definition own_told (k : kind) (u : str) (e : XmlModel.node) (t : triple) : Prop :=
  exists p o, described leaf nsmap k e p o /\ t = (URI u, p, o).

Lemma described_text : forall k u e t, own_told (KText k) u e t <->
  labels_told (KText k) #"description" u e t \/ labels_told (KText k) #"label" u e t
  \/ about_told u e t \/ structured_told leaf nsmap u e t.
Proof.
  intros k u e t. unfold own_told. split.
  - intros (p & o & D & ->). inversion D; subst.
    + match goal with X : title_element _ _ |- _ => inversion X; subst end.
      right. left. exists c, l, p. auto.
    + left. exists c, l, (cts #"description"). repeat (split; auto). left. reflexivity.
    + right. right. left. exists c, u0. auto.
    + right. right. right. exists m, ns, name, o. auto.
  - intros [H|[H|[H|H]]].
    + destruct H as (c & l & p & Hc & Hl & [<-|[]] & ->). eexists _, _. split; [ | reflexivity ].
      eapply d_description; eassumption.
    + destruct H as (c & l & p & Hc & Hl & Hp & ->). eexists _, _. split; [ | reflexivity ].
      eapply d_title; [ constructor | exact Hc | exact Hl | exact Hp ].
    + destruct H as (c & v & Hc & Hv & ->). eexists _, _. split; [ | reflexivity ]. eapply d_about; eassumption.
    + destruct H as (m & ns & name & o & Hm & Hq & Hv & ->). eexists _, _. split; [ | reflexivity ].
      eapply d_structured; eassumption.
Qed.

Lemma described_other : forall k name u e t, title_element k name -> (forall sub, k <> KText sub) ->
  label_preds k name = [cts name; rdfs_label; skos_prefLabel] ->
  (own_told k u e t <-> labels_told k name u e t \/ structured_told leaf nsmap u e t).
Proof.
  intros k name u e t T N P. unfold own_told. split.
  - intros (p & o & D & ->). inversion D; subst.
    + assert (name0 = name).
      { inversion H; subst; inversion T; subst; try reflexivity; exfalso; eapply N; reflexivity. }
      subst name0. left. exists c, l, p. rewrite P. auto.
    + exfalso. eapply N. reflexivity.
    + exfalso. eapply N. reflexivity.
    + right. exists m, ns, name0, o. auto.
  - intros [H|H].
    + destruct H as (c & l & p & Hc & Hl & Hp & ->). eexists _, _. split; [ | reflexivity ].
      eapply d_title; [ exact T | exact Hc | exact Hl | rewrite <- P; exact Hp ].
    + destruct H as (m & ns & nm & o & Hm & Hq & Hv & ->). eexists _, _. split; [ | reflexivity ].
      eapply d_structured; eassumption.
Qed.

Lemma assign_lang_yields : forall i u e s, at0 i u s ->
  yields (assign_lang i e) s True
    (fun s' _ => quiet (fun _ => False) u s s' /\
       match lang_of e with
       | Some l => graphs (s_state s) <> [] -> forall o, arranges o ->
           objects0 o (URI u) dc_language (s_state s') = [Literal l None None]
       | None => s' = s
       end).
Proof.
  intros i u e s [H1 H2]. unfold yields, assign_lang, lang_of, xml_lang.
  destruct (get_attr _ (n_attrs e)) as [l|]; cbn beta iota; (split; [ exact I | ]).
  - unfold set_lang, CollModel.node. rewrite H1, H2. split.
    + split; [ reflexivity | split; [ reflexivity | ] ]. cbn [s_state graphs with_graph].
      apply grows_upd. intros g. apply effect_set. unfold single_valued. cbn. auto.
    + intros Hg o Hoo. unfold objects0. cbn [s_state graphs with_graph].
      rewrite hd_upd by exact Hg. apply objects_set. exact Hoo.
  - split; [ apply quiet_refl | reflexivity ].
Qed.

Definition fine (e : XmlModel.node) : Prop := forall m, In m (structured_in e) -> clark m.

Definition text_lang (inh : str) (k : subtype) (e : XmlModel.node) : str :=
  match k, lang_of e with
  | Edition, _ => inh
  | _, Some l => l
  | _, None => inh
  end.

Definition text_told (k : subtype) (u : str) (up : option str) (e : XmlModel.node) (t : triple) : Prop :=
  parent_told u up t \/ own_told (KText k) u e t.

Definition text_done (k : subtype) (e : XmlModel.node) (p : option nat) (s s' : store) (i : nat) : Prop :=
  i = length (objs (s_state s)) /\
  exists u t, urn_of e = Some u /\ reads_urn u t /\
    objs (s_state s') = hook p u i (objs (s_state s)) ++ [MkColl (KText k) u t p [] 0] /\
    s_cites s' = (i, ingest e) :: s_cites s /\
    grows (text_told k u (id_up s p) e) [u] (graphs (s_state s)) (graphs (s_state s')) /\
    (forall q, p = Some q -> calm leaf nsmap e [Literal (text_lang (inherited order s q) k e) None None] -> graphs (s_state s) <> [] -> forall o, arranges o ->
       objects0 o (URI u) dc_language (s_state s') = [Literal (text_lang (inherited order s q) k e) None None]).

Lemma made_at0 : forall k p s s' i u t,
  i = length (objs (s_state s)) ->
  objs (s_state s') = hook p u i (objs (s_state s)) ++ [MkColl k u t p [] 0] -> at0 i u s'.
Proof.
  intros k p s s' i u t -> E. unfold at0, obj. rewrite E.
  rewrite <- (length_hook p u (length (objs (s_state s))) (objs (s_state s))) at 1 3.
  rewrite nth_app_last. auto.
Qed.

Lemma quiet_graphs : forall told u s s', quiet told u s s' -> graphs (s_state s) <> [] -> graphs (s_state s') <> [].
Proof.
  intros told u s s' (_ & _ & G) H. unfold grows in G. destruct (graphs (s_state s)); [ congruence | ].
  destruct G as [g' [-> _]]. discriminate.
Qed.

Lemma set_citation_yields : forall i c s,
  yields (set_citation i c) s True (fun s' _ => s' = MkStore (s_state s) ((i, c) :: s_cites s) (s_paths s)).
Proof. intros. split; [ exact I | reflexivity ]. Qed.

Lemma text_parts : forall A B C D E : Prop,
  (A \/ False \/ B \/ C \/ D \/ E) <-> (A \/ B \/ C \/ D \/ E).
Proof. tauto. Qed.

Lemma parse_text_yields : forall k e p s, parent_fits (KText k) p s -> fine e ->
  yields (parse_text order leaf nsmap k e p) s (good_text e) (fun s' i => text_done k e p s s' i).
Proof using Ho.
  intros k e p s Hp Hf. unfold parse_text.
  eapply yields_weaken.
  - eapply yields_bind; [ apply (make_yields order Ho); exact Hp | ].
    intros s1 i (Ei & u & t & Hu & Ht & O1 & C1 & G1 & L1).
    assert (A1 : at0 i u s1) by (eapply made_at0; eassumption).
    eapply yields_bind with (w1 := True) (Q1 := fun s2 (_ : unit) => quiet (fun _ => False) u s1 s2 /\
      (forall q, p = Some q -> graphs (s_state s) <> [] -> forall o, arranges o ->
         objects0 o (URI u) dc_language (s_state s2) = [Literal (text_lang (inherited order s q) k e) None None])).
    { assert (B : yields (assign_lang i e) s1 True (fun s2 (_ : unit) => quiet (fun _ => False) u s1 s2 /\
        (forall q, p = Some q -> graphs (s_state s) <> [] -> forall o, arranges o ->
         objects0 o (URI u) dc_language (s_state s2)
         = [Literal (match lang_of e with Some l => l | None => inherited order s q end) None None]))).
      { eapply yields_weaken; [ apply assign_lang_yields; exact A1 | reflexivity | ].
        intros s2 [] [Q2 L2]. split; [ exact Q2 | ]. intros q -> Hg o Hoo.
        destruct (lang_of e) as [l|].
        - apply L2; [ | exact Hoo ]. unfold grows in G1. destruct (graphs (s_state s)); [ congruence | ].
          destruct G1 as [g' [-> _]]. discriminate.
        - subst s2. apply (L1 Hg o Hoo). }
      destruct k; try exact B.
      apply yields_ret; [ exact I | ]. split; [ apply quiet_refl | ].
      intros q -> Hg o Hoo. apply (L1 Hg o Hoo). }
    intros s2 [] [Q2 L2].
    assert (A2 : at0 i u s2) by (eapply at0_objs; [ apply Q2 | exact A1 ]).
    eapply yields_bind; [ apply (parse_labels_yields i u (KText k) #"description" e); [ discriminate | exact A2 ] | ].
    intros s3 [] [Q3 M3].
    assert (A3 : at0 i u s3) by (eapply at0_objs; [ apply Q3 | exact A2 ]).
    eapply yields_bind; [ apply (parse_labels_yields i u (KText k) #"label" e); [ discriminate | exact A3 ] | ].
    intros s4 [] [Q4 M4].
    assert (A4 : at0 i u s4) by (eapply at0_objs; [ apply Q4 | exact A3 ]).
    eapply yields_bind; [ apply set_citation_yields | ].
    intros s5 [] E5.
    assert (A5 : at0 i u s5) by (rewrite E5; exact A4).
    eapply yields_bind; [ apply (parse_about_yields i u e); exact A5 | ].
    intros s6 [] [Q6 M6].
    assert (A6 : at0 i u s6) by (eapply at0_objs; [ apply Q6 | exact A5 ]).
    eapply yields_bind; [ apply (parse_structured_yields leaf nsmap i u e s6 Hf A6) | ].
    intros s7 [] [Q7 M7].
    apply (yields_ret i s7 True); [ exact I | ].
    instantiate (1 := fun s' i => text_done k e p s s' i). cbn beta.
    destruct Q2 as (O2 & C2 & G2), Q3 as (O3 & C3 & G3), Q4 as (O4 & C4 & G4),
      Q6 as (O6 & C6 & G6), Q7 as (O7 & C7 & G7).
    subst s5. cbn [s_state s_cites] in *.
    split; [ exact Ei | ]. exists u, t. split; [ exact Hu | ]. split; [ exact Ht | ].
    split; [ rewrite O7, O6, O4, O3, O2; exact O1 | ].
    split; [ rewrite C7, C6, C4, C3, C2, C1; reflexivity | ].
    split.
    + eapply grows_ext.
      * eapply grows_trans; [ exact G1 | ]. eapply grows_trans; [ exact G2 | ].
        eapply grows_trans; [ exact G3 | ]. eapply grows_trans; [ exact G4 | ].
        eapply grows_trans; [ exact G6 | exact G7 ].
      * intros x y z _. unfold text_told. rewrite described_text. apply text_parts.
      * intros x. cbn. tauto.
    + intros q Eq Hcalm Hg. apply (M7 _ Hcalm). intros o Hoo. rewrite M6. cbn [s_state].
      rewrite M4, M3. apply L2; assumption.
  - unfold good_text. tauto.
  - cbn beta. auto.
Qed.

(** ** Citations *)
Lemma flat_map_assoc : forall {X Y Z} (f : Y -> list Z) (g : X -> list Y) l,
  flat_map (fun x => flat_map f (g x)) l = flat_map f (flat_map g l).
Proof.
  intros X Y Z f g l. induction l as [|x l IH]; cbn [flat_map]; [ reflexivity | ].
  rewrite flat_map_app, IH. reflexivity.
Qed.

Definition first_levels (l : list XmlModel.node) : list level :=
  (fix first (l : list XmlModel.node) : list level :=
     match l with
     | [] => []
     | k :: l' => if str_eqb (n_tag k) (ti #"citation") then chain_of k else first l'
     end) l.

Lemma chain_levels : forall e, levels e (chain_of e).
Proof.
  fix IH 1. intros [t a x y kids].
  assert (F : (named #"citation" (Elem t a x y kids) = [] /\ first_levels kids = [])
    \/ exists c, first_named #"citation" (Elem t a x y kids) c /\ levels c (first_levels kids)).
  { unfold named, first_named. cbn [n_kids].
    induction kids as [|k kids IHk]; [ left; split; reflexivity | ].
    cbn [filter first_levels].
    destruct (str_eqb (n_tag k) (ti #"citation")) eqn:E.
    - right. exists k. split; [ | apply IH ]. exists [], kids. split; [ reflexivity | ].
      split; [ apply str_eqb_eq; exact E | intros ? [] ].
    - assert (E' : str_eqb (n_tag k) (cts_tag #"citation") = false) by exact E.
      rewrite E'. destruct IHk as [L|(c & (pre & post & K1 & K2 & K3) & Lc)]; [ left; exact L | right ].
      exists c. split; [ | exact Lc ]. exists (k :: pre), post. split; [ cbn; rewrite K1; reflexivity | ].
      split; [ exact K2 | ]. intros z [<-|Hz]; [ | apply K3; exact Hz ].
      intros X. rewrite X, str_eqb_refl in E'. discriminate. }
  change (chain_of (Elem t a x y kids)) with (level_of (Elem t a x y kids) :: first_levels kids).
  destruct F as [[F1 F2]|(c & F1 & F2)].
  - rewrite F2. apply levels_last. exact F1.
  - eapply levels_more; eassumption.
Qed.

Lemma ingest_says : forall e, citation_says e (ingest e).
Proof.
  intros e. unfold citation_says, ingest, mapped. rewrite <- flat_map_assoc.
  change (fun x => flat_map (named #"citation") (named #"citationMapping" x))
    with (fun o => flat_map (kids_named (ti #"citation")) (kids_named (ti #"citationMapping") o)).
  change (named #"online" e) with (kids_named (ti #"online") e).
  destruct (flat_map _ _) as [|c l]; [ reflexivity | apply chain_levels ].
Qed.

(** ** Objects made one at a time *)
Lemma citation_other : forall i c s j, j <> i ->
  citation_of (MkStore (s_state s) ((i, c) :: s_cites s) (s_paths s)) j = citation_of s j.
Proof.
  intros i c s j N. unfold citation_of. cbn [s_cites find fst].
  destruct (Nat.eqb i j) eqn:E; [ apply Nat.eqb_eq in E; congruence | reflexivity ].
Qed.

Lemma made_extends : forall p u t k s s',
  (forall q, p = Some q -> q < length (objs (s_state s))) ->
  objs (s_state s') = hook p u (length (objs (s_state s))) (objs (s_state s)) ++ [MkColl k u t p [] 0] ->
  (forall j, j < length (objs (s_state s)) -> citation_of s' j = citation_of s j) ->
  extends p [(u, length (objs (s_state s)))] s s' /\
  length (objs (s_state s')) = S (length (objs (s_state s))) /\
  obj (s_state s') (length (objs (s_state s))) = MkColl k u t p [] 0.
Proof.
  intros p u t k s s' Hp E C. set (n := length (objs (s_state s))) in *.
  assert (L : length (objs (s_state s')) = S n).
  { rewrite E, app_length, length_hook. cbn. unfold n. lia. }
  split; [ split; [ lia | ] | split; [ exact L | ] ].
  - intros j Hj. unfold obj. rewrite E, app_nth1 by (rewrite length_hook; exact Hj).
    split; [ | split; [ | apply C; exact Hj ] ].
    + intros N. destruct p as [q|]; cbn [hook]; [ | reflexivity ]. rewrite nth_upd.
      destruct (Nat.eqb q j) eqn:X; [ apply Nat.eqb_eq in X; congruence | reflexivity ].
    + intros ->. cbn [hook]. rewrite nth_upd, Nat.eqb_refl.
      pose proof (Hp j eq_refl) as X. apply Nat.ltb_lt in X. fold n. rewrite X. reflexivity.
  - unfold obj. rewrite E. unfold n. rewrite <- (length_hook p u n (objs (s_state s))) at 1. apply nth_app_last.
Qed.

Lemma extends_same : forall p es s s1 s2, extends p es s s1 ->
  objs (s_state s2) = objs (s_state s1) -> s_cites s2 = s_cites s1 -> extends p es s s2.
Proof.
  intros p es s s1 s2 [L H] O C. split; [ rewrite O; exact L | ]. intros j Hj.
  destruct (H j Hj) as (A & B & D). unfold obj, citation_of in *. rewrite O, C. auto.
Qed.

Lemma extends_inner : forall p es i es' s s1 s2, extends p es s s1 -> extends (Some i) es' s1 s2 ->
  length (objs (s_state s)) <= i -> extends p es s s2.
Proof.
  intros p es i es' s s1 s2 [L1 H1] [L2 H2] Hi. split; [ lia | ]. intros j Hj.
  destruct (H1 j Hj) as (A & B & C). destruct (H2 j ltac:(lia)) as (A' & _ & C').
  rewrite A', C' by (intros X; injection X as X; lia). auto.
Qed.

(** ** Stability of what was shown *)
Lemma made_for_stable : forall s s' k e p i hi, made_for s k e p i ->
  frame i hi s s' -> i < hi -> made_for s' k e p i.
Proof.
  intros s s' k e p i hi (A & B) [L F] Hi. unfold made_for.
  destruct (F i ltac:(lia)) as [E _]. rewrite E. split; [ lia | exact B ].
Qed.

Lemma shows_text_stable : forall s s' k e p i, shows_text s k e p i ->
  frame i (length (objs (s_state s))) s s' -> shows_text s' k e p i.
Proof.
  intros s s' k e p i (M & C & D) F.
  assert (Hi : i < length (objs (s_state s))) by apply M.
  split; [ eapply made_for_stable; eassumption | ].
  destruct F as [L F]. destruct (F i ltac:(lia)) as [E1 E2]. rewrite E1, E2. auto.
Qed.

Lemma frame_sub : forall lo lo' hi s s', frame lo hi s s' -> lo <= lo' -> frame lo' hi s s'.
Proof. intros lo lo' hi s s' [L F] H. split; [ exact L | ]. intros j Hj. apply F. lia. Qed.

Lemma members_are_stable : forall s s' i es l hi, members_are s i es l -> frame i hi s s' -> i < hi ->
  members_are s' i es l.
Proof.
  intros s s' i es l hi [A B] [L F] H. destruct (F i ltac:(lia)) as [E _]. split; [ exact A | ].
  rewrite E. exact B.
Qed.

Lemma Forall2_In_r : forall {X Y} (R : X -> Y -> Prop) l l', Forall2 R l l' ->
  Forall2 (fun x y => R x y /\ In y l') l l'.
Proof.
  intros X Y R l l' H. induction H as [|x y l l' Hxy _ IH]; constructor.
  - split; [ exact Hxy | left; reflexivity ].
  - eapply Forall2_impl; [ | exact IH ]. cbn. intros a b [H1 H2]. auto.
Qed.

Lemma shows_work_stable : forall s s' e p i ts, shows_work s e p i ts ->
  frame i (length (objs (s_state s))) s s' -> shows_work s' e p i ts.
Proof.
  intros s s' e p i ts (M & C & D) F.
  assert (Hi : i < length (objs (s_state s))) by apply M.
  split; [ eapply made_for_stable; eassumption | ].
  split; [ eapply members_are_stable; eassumption | ].
  apply Forall2_In_r in D. eapply Forall2_impl; [ | exact D ]. cbn. intros [k c] j [H Hj].
  eapply shows_text_stable; [ exact H | ]. eapply frame_sub; [ exact F | ].
  apply (proj1 C) in Hj. lia.
Qed.

Lemma shows_group_stable : forall s s' e p i, shows_group s e p i ->
  frame i (length (objs (s_state s))) s s' -> shows_group s' e p i.
Proof.
  intros s s' e p i (M & ws & C & D) F.
  assert (Hi : i < length (objs (s_state s))) by apply M.
  split; [ eapply made_for_stable; eassumption | ]. exists ws.
  split; [ eapply members_are_stable; eassumption | ].
  apply Forall2_In_r in D. eapply Forall2_impl; [ | exact D ]. cbn. intros w j [[ts H] Hj].
  exists ts. eapply shows_work_stable; [ exact H | ]. eapply frame_sub; [ exact F | ].
  apply (proj1 C) in Hj. lia.
Qed.
End Tree.
