(** The DTS export of a collection, read again. *)

From Coq Require Import List NArith ZArith Arith Bool Lia Permutation.
From Verif Require Import PyStr PyStrFacts Json MetaModel MetaSpec MetaProofs GraphModel TreeModel TreeSpec TreeProofs
  DtsModel DtsSpec DtsProofs JsonLdSpec DtsOutModel DtsOutSpec DtsOutProofs.
Import ListNotations.

Section Out.
Variable name : term -> str.
Variable objects_order : list term -> list term.
Variable triples_order : graph -> graph.
Variable predicates_order : list str -> list str.
Variable qn : str -> str * str * str.
Variable to_python : str -> option str -> json.
Variable x : source.
Variable ok : term -> Prop.
Hypothesis HT : texts name.
Hypothesis HO : arranges objects_order.
Hypothesis HR : arranges triples_order.
Hypothesis HP : arranges predicates_order.
Hypothesis HQ : qualifies qn (named x).
Hypothesis HX : ready_with qn ok x.

Let id := b_id (x_brief x).
Let g := b_graph (x_brief x).
Let out := filter (fun t => negb (is_bnode (snd t))) (triples_order (filter (matches (Some (URI id)) None None) g)).

Lemma bnode_blank : forall o, is_bnode o = true <-> is_blank o.
Proof. intros [s|n|s l d]; cbn; split; try discriminate; try (intros [m E]; discriminate); intros; [ exists n; reflexivity | reflexivity ]. Qed.

Lemma out_In : forall s p o, In (s, p, o) out <-> In (s, p, o) g /\ s = URI id /\ ~ is_blank o.
Proof using to_python HR.
  intros s p o. unfold out. rewrite filter_In. cbn [snd]. rewrite negb_true_iff.
  assert (B : is_bnode o = false <-> ~ is_blank o).
  { rewrite <- bnode_blank. destruct (is_bnode o); split; intros; try congruence. }
  rewrite B.
  assert (P : In (s, p, o) (triples_order (filter (matches (Some (URI id)) None None) g)) <-> In (s, p, o) (filter (matches (Some (URI id)) None None) g)).
  { split; intros I; (eapply Permutation_in; [ | exact I ]); [ apply Permutation_sym | ]; apply HR. }
  rewrite P, filter_In. cbn [matches pos_matches]. rewrite !andb_true_r, term_eqb_eq.
  split; [ intros [[I <-] N]; auto | intros [I [-> N]]; auto ].
Qed.

Lemma out_NoDup : NoDup out.
Proof using to_python HR HX. apply NoDup_filter. eapply Permutation_NoDup; [ apply HR | ]. apply NoDup_filter. apply (r_graph _ _ _ HX). Qed.

Lemma out_key : forall t, In t out -> exists u o, t = (URI id, URI u, o) /\ In (URI id, URI u, o) g /\ ~ is_blank o /\ named x u.
Proof using to_python HR HX.
  intros [[s p] o] I. apply out_In in I as [I [-> N]]. destruct (r_keys _ _ _ HX p o I) as [u ->].
  exists u, o. split; [ reflexivity | ]. split; [ exact I | ]. split; [ exact N | ]. apply (named_key x u o I).
Qed.

(** The predicates, as the context sees them. *)
Definition preds : list str := predicates_order (distinct (map (fun t => name (snd (fst t))) out)).

Lemma distinct_In : forall u l, In u (distinct l) <-> In u l.
Proof.
  intros u. induction l as [|y l IH]; cbn [distinct In]; [ tauto | ]. rewrite filter_In, IH, negb_true_iff, str_eqb_neq.
  split; [ intros [E|[I _]]; auto | intros [E|I]; auto ]. destruct (str_eqb y u) eqn:E.
  - apply str_eqb_eq in E. auto.
  - apply str_eqb_neq in E. auto.
Qed.

Lemma preds_In : forall u, In u preds <-> exists o, In (URI id, URI u, o) g /\ ~ is_blank o.
Proof using to_python HT HR HP HX.
  intros u. unfold preds. split.
  - intros I. eapply Permutation_in in I; [ | apply Permutation_sym, HP ]. apply (proj1 (distinct_In _ _)) in I. apply in_map_iff in I as [t [E I]].
    destruct (out_key t I) as [u' [o [-> [I' [N _]]]]]. cbn [fst snd] in E. rewrite (proj1 HT) in E. subst u'. exists o. auto.
  - intros [o [I N]]. eapply Permutation_in; [ apply HP | ]. apply distinct_In. apply in_map_iff. exists (URI id, URI u, o).
    split; [ cbn [fst snd]; apply (proj1 HT) | ]. apply out_In. auto.
Qed.

Definition ctx_dict : list (str * json) := context_of name predicates_order qn out.

Lemma is_in_In : forall s l, is_in s l = true <-> In s l.
Proof.
  intros s l. unfold is_in. rewrite existsb_exists. split.
  - intros [y [I E]]. apply str_eqb_eq in E. subst. exact I.
  - intros I. exists s. split; [ exact I | apply str_eqb_refl ].
Qed.
Lemma is_in_not : forall s l, is_in s l = false <-> ~ In s l.
Proof. intros s l. rewrite <- is_in_In. destruct (is_in s l); split; intros; congruence. Qed.

Lemma ctx_dict_spec :
  (forall k v, In (k, v) ctx_dict -> exists u, In u preds /\ k = prefix_of qn u /\ v = JStr (ns_of qn u) /\ ~ In (ns_of qn u) undeclared) /\
  (forall u, In u preds -> ~ In (ns_of qn u) undeclared -> field (prefix_of qn u) ctx_dict <> None).
Proof.
  unfold ctx_dict, context_of. fold preds.
  match goal with |- context [fold_left ?f preds []] => set (F := f) end.
  assert (X : forall l d,
    (forall k v, In (k, v) d -> exists u, In u preds /\ k = prefix_of qn u /\ v = JStr (ns_of qn u) /\ ~ In (ns_of qn u) undeclared) ->
    (forall u, In u l -> In u preds) ->
    (forall k v, In (k, v) (fold_left F l d) -> exists u, In u preds /\ k = prefix_of qn u /\ v = JStr (ns_of qn u) /\ ~ In (ns_of qn u) undeclared) /\
    (forall k, field k d <> None -> field k (fold_left F l d) <> None) /\
    (forall u, In u l -> ~ In (ns_of qn u) undeclared -> field (prefix_of qn u) (fold_left F l d) <> None)).
  { induction l as [|u l IH]; intros d S I; cbn [fold_left].
    - split; [ exact S | ]. split; [ auto | ]. intros u [].
    - assert (P : prefix qn u = prefix_of qn u) by reflexivity. assert (N : namespace qn u = ns_of qn u) by reflexivity.
      assert (D : (forall k v, In (k, v) (F d u) -> exists u, In u preds /\ k = prefix_of qn u /\ v = JStr (ns_of qn u) /\ ~ In (ns_of qn u) undeclared) /\
                  (forall k, field k d <> None -> field k (F d u) <> None) /\
                  (~ In (ns_of qn u) undeclared -> field (prefix_of qn u) (F d u) <> None)).
      { unfold F. rewrite P, N. destruct (field (prefix_of qn u) d) eqn:E.
        - split; [ exact S | ]. split; [ auto | ]. intros _. rewrite E. discriminate.
        - change [cap_ns; hydra_ns; rdf_ns; rdfs_ns] with undeclared. destruct (is_in (ns_of qn u) undeclared) eqn:W.
          + split; [ exact S | ]. split; [ auto | ]. apply is_in_In in W. intros W'. contradiction.
          + apply is_in_not in W. rewrite (jset_new _ _ _ E). split; [ | split ].
            * intros k v J. apply in_app_or in J as [J|[J|[]]]; [ apply S, J | ]. injection J as <- <-. exists u.
              split; [ apply I; left; reflexivity | auto ].
            * intros k J. rewrite field_app. destruct (field k d); [ discriminate | contradiction ].
            * intros _. rewrite field_app, E. cbn [field]. rewrite str_eqb_refl. discriminate. }
      destruct D as [D1 [D2 D3]]. destruct (IH (F d u) D1 (fun y J => I y (or_intror J))) as [A [B C]].
      split; [ exact A | ]. split; [ intros k J; apply B, D2, J | ]. intros w [<-|J] W; [ apply B, D3, W | apply C; assumption ]. }
  destruct (X preds [] (fun k v (I : In _ []) => match I with end) (fun u I => I)) as [A [_ C]]. auto.
Qed.

Lemma preds_named : forall u, In u preds -> named x u.
Proof using to_python HT HR HP HX. intros u I. apply preds_In in I as [o [I _]]. apply (named_key x u o I). Qed.

Lemma prefix_shape : forall u, named x u -> prefix_of qn u = [] \/ local_name (prefix_of qn u).
Proof using to_python HQ. intros u U. unfold prefix_of. destruct (qn u) as [[p n] l] eqn:E. apply (q_prefix _ _ HQ u p n l U E). Qed.

(** The context of the document. *)
Definition ctx : context := Context (flat_map (fun kv => match kv with (k, JStr v) => if keyword k then [] else [(k, v)] | _ => [] end) ctx_dict) hydra_ns.

Lemma prefix_keyword : forall u, named x u -> keyword (prefix_of qn u) = false.
Proof using to_python HQ.
  intros u U. destruct (prefix_shape u U) as [->|L]; [ reflexivity | ]. rewrite <- (app_nil_r (prefix_of qn u)). apply local_keyword, L.
Qed.

Lemma context_read : forall fs, field #"@context" fs = Some (JObj (jset #"@vocab" (JStr hydra_ns) ctx_dict)) -> context_in fs = ctx.
Proof using to_python HT HR HP HQ HX.
  intros fs F. unfold context_in. rewrite F. destruct ctx_dict_spec as [S _].
  assert (V : field #"@vocab" ctx_dict = None).
  { apply field_none. intros I. apply in_map_iff in I as [[k v] [E I]]. cbn [fst] in E. subst k. destruct (S _ _ I) as [u [P [E _]]].
    apply preds_named, prefix_keyword in P. rewrite <- E in P. discriminate. }
  rewrite (jset_new _ _ _ V), flat_map_app, field_app, V. cbn [flat_map field]. unfold ctx. f_equal.
  rewrite app_nil_r. reflexivity.
Qed.

Lemma terms_entry : forall k, entry k (terms ctx) = match field k ctx_dict with Some (JStr v) => Some v | _ => None end.
Proof using to_python HT HR HP HQ HX.
  intros k. unfold ctx. cbn [terms]. destruct ctx_dict_spec as [S _]. revert S. generalize ctx_dict. intros d S.
  assert (S' : forall k v, In (k, v) d -> keyword k = false /\ exists w, v = JStr w).
  { intros a b I. destruct (S a b I) as [u [P [-> [-> _]]]]. split; [ apply prefix_keyword, preds_named, P | eauto ]. }
  clear S. induction d as [|[a b] d IH]; [ reflexivity | ]. destruct (S' a b (or_introl eq_refl)) as [K [w ->]].
  cbn [flat_map field]. rewrite K. cbn [app entry]. destruct (str_eqb a k); [ reflexivity | ].
  apply IH. intros a' b' I. apply (S' a' b'). right. exact I.
Qed.

Lemma term_sound : forall k v, entry k (terms ctx) = Some v -> exists u, In u preds /\ k = prefix_of qn u /\ v = ns_of qn u /\ ~ In (ns_of qn u) undeclared.
Proof using to_python HT HR HP HQ HX.
  intros k v E. rewrite terms_entry in E. destruct (field k ctx_dict) as [w|] eqn:F; [ | discriminate ].
  apply field_In in F. destruct ctx_dict_spec as [S _]. destruct (S k w F) as [u [P [-> [-> N]]]]. injection E as <-. exists u. auto.
Qed.

Lemma term_none : forall k, (forall u, named x u -> k <> prefix_of qn u) -> entry k (terms ctx) = None.
Proof using to_python HT HR HP HQ HX.
  intros k H. destruct (entry k (terms ctx)) as [v|] eqn:E; [ | reflexivity ]. apply term_sound in E as [u [P [-> _]]].
  exfalso. apply (H u); [ apply preds_named, P | reflexivity ].
Qed.

Lemma term_complete : forall u, In u preds -> ~ In (ns_of qn u) undeclared -> entry (prefix_of qn u) (terms ctx) = Some (ns_of qn u).
Proof using to_python HT HR HP HQ HX.
  intros u I N. destruct ctx_dict_spec as [_ C]. specialize (C u I N).
  destruct (entry (prefix_of qn u) (terms ctx)) as [v|] eqn:E.
  - pose proof (term_sound _ _ E) as [u' [I' [P [-> N']]]]. f_equal. apply preds_named in I, I'. unfold prefix_of, ns_of in *.
    destruct (qn u) as [[p n] l] eqn:E1. destruct (qn u') as [[p' n'] l'] eqn:E2. symmetry.
    apply (q_same _ _ HQ u u' p n l p' n' l' I I' E1 E2). exact P.
  - rewrite terms_entry in E. destruct (field (prefix_of qn u) ctx_dict) as [w|] eqn:F; [ | contradiction ].
    apply field_In in F. destruct ctx_dict_spec as [S _]. destruct (S _ _ F) as [u' [_ [_ [-> _]]]]. discriminate.
Qed.

(** Names that the context can tell. *)
Definition told_name (u : str) : Prop :=
  ns_of qn u = hydra_ns \/ exists u', In u' preds /\ ns_of qn u' = ns_of qn u /\ ~ In (ns_of qn u') undeclared.

Lemma hydra_unprefixed : forall u, named x u -> (prefix_of qn u = [] <-> ns_of qn u = hydra_ns).
Proof using to_python HQ.
  intros u U. unfold prefix_of, ns_of. destruct (qn u) as [[p n] l] eqn:E.
  pose proof (q_hydra _ _ HQ #"title" (or_introl eq_refl)) as E'.
  pose proof (q_same _ _ HQ u (hydra #"title") p n l _ _ _ U (named_hydra x _ (or_introl eq_refl)) E E') as S. exact S.
Qed.

Lemma name_expands : forall u, named x u -> told_name u -> expand_iri ctx true (qname qn u) = u.
Proof using to_python HT HR HP HQ HX.
  intros u U D. pose proof (hydra_unprefixed u U) as HU. unfold prefix_of, ns_of in HU. unfold told_name in D. unfold ns_of at 1 3 in D. unfold qname.
  destruct (qn u) as [[p n] l] eqn:E. pose proof (q_whole _ _ HQ u p n l U E) as W. pose proof (q_local _ _ HQ u p n l U E) as L.
  destruct L as [L0 [L1 [L2 L3]]].
  destruct p as [|c p].
  - assert (K : keyword l = false) by (rewrite <- (app_nil_r l); apply local_keyword; repeat split; assumption).
    unfold expand_iri. rewrite K. rewrite term_none.
    + rewrite (cut_none l L1). cbn [vocab ctx]. rewrite W. f_equal. symmetry. apply HU. reflexivity.
    + intros u' U' ->. unfold prefix_of in *. destruct (qn u') as [[p' n'] l'] eqn:E'.
      apply (q_apart _ _ HQ u u' n p' p' n' l' U U' E E'). reflexivity.
  - assert (P : local_name (c :: p)) by (destruct (q_prefix _ _ HQ u _ n l U E) as [?|?]; [ discriminate | assumption ]).
    destruct D as [->|[u' [I [N' D]]]]; [ destruct HU as [_ HU]; discriminate (HU eq_refl) | ].
    set (q := c :: p) in *. change (expand_iri ctx true (q ++ #":" ++ l) = u).
    unfold expand_iri. rewrite (local_keyword q (#":" ++ l) P). rewrite term_none.
    + rewrite (cut_at q l) by apply P. rewrite (local_slashes l L2).
      assert (EN : entry q (terms ctx) = Some n).
      { pose proof (term_complete u' I D) as C. rewrite N' in C.
        assert (PP : prefix_of qn u' = q).
        { unfold prefix_of, ns_of in *. destruct (qn u') as [[p' n'] l'] eqn:E'.
          apply (q_same _ _ HQ u' u p' n' l' q n l (preds_named u' I) U E' E). exact N'. }
        rewrite PP in C. exact C. }
      rewrite EN. destruct (q_ends _ _ HQ u _ n l U E) as [a [z [-> Z]]]. unfold usable. rewrite rev_app_distr. cbn [rev app].
      assert (DZ : delimiter z = true).
      { unfold delimiter. apply existsb_exists. exists z. split; [ exact Z | apply N.eqb_refl ]. }
      rewrite DZ. symmetry. exact W.
    + intros u'' U'' Eq. destruct (prefix_shape u'' U'') as [S|[_ [S _]]].
      * rewrite S in Eq. subst q. discriminate.
      * apply S. rewrite <- Eq. apply in_or_app. right. left. reflexivity.
Qed.

Lemma dts_told : forall w, In w dts_words -> told_name (dts w).
Proof using to_python HT HR HP HQ HX.
  intros w W. right. destruct (r_model _ _ _ HX) as [u [o [I [N E]]]]. exists u. split; [ apply preds_In; exists o; auto | ].
  rewrite E. split; [ unfold ns_of; rewrite (q_dts _ _ HQ w W); reflexivity | ].
  apply is_in_not. reflexivity.
Qed.

Lemma qname_hydra : forall w, In w hydra_words -> qname qn (hydra_ns ++ w) = w.
Proof using to_python HQ. intros w W. unfold qname. pose proof (q_hydra _ _ HQ w W) as E. unfold hydra in E. fold hydra_ns in E. rewrite E. reflexivity. Qed.
Lemma qname_dts : forall w, In w dts_words -> qname qn (dts_ns ++ w) = #"dts:" ++ w.
Proof using to_python HQ. intros w W. unfold qname. pose proof (q_dts _ _ HQ w W) as E. unfold dts in E. fold dts_ns in E. rewrite E. reflexivity. Qed.

Lemma context_understands : understands ctx.
Proof using to_python HT HR HP HQ HX.
  split; intros w W.
  - rewrite <- (qname_hydra w W) at 1. change (hydra_ns ++ w) with (hydra w). apply name_expands; [ apply named_hydra, W | ].
    left. unfold ns_of. rewrite (q_hydra _ _ HQ w W). reflexivity.
  - rewrite <- (qname_dts w W). change (dts_ns ++ w) with (dts w). apply name_expands; [ apply named_dts, W | apply dts_told, W ].
Qed.

Lemma id_expands : forall b, In b (x_brief x :: x_members x) -> expand_iri ctx false (b_id b) = b_id b.
Proof using to_python HT HR HP HQ HX.
  intros b I. destruct (r_briefs _ _ _ HX b I) as [_ _ _ _ K H]. unfold expand_iri.
  assert (KW : keyword (b_id b) = false).
  { destruct (b_id b) as [|c r] eqn:E; [ reflexivity | ]. cbn [keyword]. apply N.eqb_neq. intros ->. apply (K r). reflexivity. }
  rewrite KW. destruct (cut (b_id b)) as [[p r]|] eqn:C; [ | reflexivity ]. apply cut_some in C. destruct (slashes r); [ reflexivity | ].
  rewrite term_none; [ reflexivity | ]. intros u U ->. apply (H u r U). exact C.
Qed.

(** ** The base of an object *)

Lemma objects_In : forall G s p o, In o (g_objects objects_order s p G) <-> In (s, p, o) G.
Proof using to_python HO.
  intros G s p o. unfold g_objects.
  assert (P : In o (objects_order (map snd (filter (matches (Some s) (Some p) None) G))) <-> In o (map snd (filter (matches (Some s) (Some p) None) G))).
  { split; intros I; (eapply Permutation_in; [ | exact I ]); [ apply Permutation_sym | ]; apply HO. }
  rewrite P, in_map_iff. split.
  - intros [[[s' p'] o'] [<- I]]. apply filter_In in I as [I M]. cbn [matches pos_matches] in M. rewrite andb_true_r in M.
    apply andb_true_iff in M as [M1 M2]. apply term_eqb_eq in M1, M2. subst. exact I.
  - intros I. exists (s, p, o). split; [ reflexivity | ]. apply filter_In. split; [ exact I | ].
    cbn [matches pos_matches]. rewrite !(proj2 (term_eqb_eq _ _) eq_refl). reflexivity.
Qed.

Lemma base_of : forall G b, brief_ready qn x g b -> (forall o, In (URI (b_id b), URI (hydra #"description"), o) G <-> In (URI (b_id b), URI (hydra #"description"), o) g) ->
  exists t lo od, export_base name objects_order qn G b =
      Ok (entries (b_id b) (qname qn t) (name lo) (b_size b) (option_map JStr od) None None None None None) /\
    In (URI (b_id b), URI rdf_type, URI t) (b_graph b) /\ type_declared qn x t /\
    In (URI (b_id b), URI rdfs_label, lo) (b_graph b) /\
    ((od = None /\ forall o, ~ In (URI (b_id b), URI (hydra #"description"), o) g) \/
     exists o, In (URI (b_id b), URI (hydra #"description"), o) g /\ od = Some (name o)).
Proof using to_python HT HO HQ.
  intros G b B D. unfold export_base, type_of, label_text.
  change (rdf_ns ++ #"type") with rdf_type. change (rdfs_ns ++ #"label") with rdfs_label. change (hydra_ns ++ #"description") with (hydra #"description").
  destruct (g_objects objects_order (URI (b_id b)) (URI rdf_type) (b_graph b)) as [|t ts] eqn:ET.
  { destruct (r_type _ _ _ _ B) as [t I]. apply objects_In in I. rewrite ET in I. destruct I. }
  destruct (g_objects objects_order (URI (b_id b)) (URI rdfs_label) (b_graph b)) as [|lo ls] eqn:EL.
  { destruct (r_label _ _ _ _ B) as [t' I]. apply objects_In in I. rewrite EL in I. destruct I. }
  assert (IT : In (URI (b_id b), URI rdf_type, t) (b_graph b)) by (apply objects_In; rewrite ET; left; reflexivity).
  assert (IL : In (URI (b_id b), URI rdfs_label, lo) (b_graph b)) by (apply objects_In; rewrite EL; left; reflexivity).
  destruct (r_types _ _ _ _ B t IT) as [u [-> TD]]. cbn [bind]. rewrite (proj1 HT).
  pose proof (qname_hydra #"title" ltac:(cbn; auto)) as Q1. pose proof (qname_hydra #"totalItems" ltac:(cbn; auto)) as Q2.
  pose proof (qname_hydra #"description" ltac:(cbn; auto)) as Q3. change (hydra_ns ++ #"description") with (hydra #"description") in Q3.
  rewrite Q1, Q2, Q3.
  set (o0 := jset #"totalItems" (JInt (b_size b)) _).
  assert (X : forall ds od0, exists od,
    fold_left (fun o d => jset #"description" (JStr (name d)) o) ds (o0 ++ opt #"description" (option_map JStr od0)) =
      o0 ++ opt #"description" (option_map JStr od) /\
    ((ds = [] /\ od = od0) \/ exists d, In d ds /\ od = Some (name d))).
  { induction ds as [|d ds IH]; intros od0; cbn [fold_left].
    - exists od0. split; [ reflexivity | left; auto ].
    - assert (J : jset #"description" (JStr (name d)) (o0 ++ opt #"description" (option_map JStr od0)) = o0 ++ opt #"description" (option_map JStr (Some (name d)))).
      { destruct od0; reflexivity. }
      rewrite J. destruct (IH (Some (name d))) as [od [E H]]. exists od. split; [ exact E | ]. right.
      destruct H as [[_ ->]|[d' [I ->]]]; [ exists d; split; [ left | ]; reflexivity | exists d'; split; [ right; exact I | reflexivity ] ]. }
  destruct (X (g_objects objects_order (URI (b_id b)) (URI (hydra #"description")) G) None) as [od [E H]].
  cbn [option_map opt] in E. rewrite app_nil_r in E.
  exists u, lo, od. split; [ | split; [ exact IT | split; [ exact TD | split; [ exact IL | ]]]].
  - rewrite E. f_equal. unfold entries, opt at 2 3 4 5 6. rewrite !app_nil_r. reflexivity.
  - destruct H as [[H1 H2]|[d [I ->]]].
    + left. split; [ exact H2 | ]. intros o I. apply D, objects_In in I. rewrite H1 in I. destruct I.
    + right. exists d. split; [ apply D, objects_In, I | reflexivity ].
Qed.

Lemma type_expands : forall b t, In b (x_brief x :: x_members x) -> In (URI (b_id b), URI rdf_type, URI t) (b_graph b) -> type_declared qn x t ->
  expand_iri ctx true (qname qn t) = t.
Proof using to_python HT HR HP HQ HX.
  intros b t I T D. apply name_expands; [ apply (named_type x b t I T) | ]. destruct D as [D|[u [o [J [N [E D]]]]]]; [ left; exact D | ].
  right. exists u. split; [ apply preds_In; exists o; auto | auto ].
Qed.

(** ** The members *)

Lemma member_of : forall b, In b (x_members x) -> exists r c,
  export_base name objects_order qn g b = Ok r /\ exists fs, expand_value ctx (JObj r) = [JObj fs] /\ says_coll (JObj fs) c /\ member_found name g b c.
Proof using to_python HT HO HR HP HQ HX.
  intros b I. pose proof (r_briefs _ _ _ HX b (or_intror I)) as B.
  destruct (base_of g b B (fun o => iff_refl _)) as [t [lo [od [E [T [TD [L D]]]]]]].
  eexists. exists (Coll (b_id b) (MkCMeta [JStr (name lo)] [JStr t] None None [JInt (b_size b)] (match od with Some d => [JStr d] | None => [] end) ([] ++ [])) [] false).
  split; [ exact E | ].
  pose proof (expand_entries ctx [] (b_id b) (qname qn t) (name lo) (b_size b) (option_map JStr od) None None None None None context_understands) as X.
  cbn [app] in X. rewrite X; [ | | left; reflexivity ].
  - rewrite (id_expands b (or_intror I)), (type_expands b t (or_intror I) T TD). eexists. split; [ reflexivity | ].
    split.
    + apply (entries_say ctx (b_id b) t (name lo) (b_size b) od None None None None None [] [] None []); left; auto.
    + split; [ | repeat split ]. constructor; cbn [co_id co_meta co_view cm_labels cm_types cm_totals cm_descriptions]; eauto.
      destruct D as [[-> D]|[o [J ->]]]; [ left; auto | right; eauto ].
  - repeat constructor; try discriminate. destruct od; discriminate.
Qed.

Lemma members_of : forall ms, incl ms (x_members x) -> exists js cs,
  mapM (fun m => r <- export_base name objects_order qn g m ;; Ok (JObj r)) ms = Ok js /\
  Forall2 says_coll (flat_map (expand_value ctx) js) cs /\ Forall2 (member_found name g) ms cs.
Proof using to_python HT HO HR HP HQ HX.
  induction ms as [|m ms IH]; intros I.
  - exists [], []. repeat split; constructor.
  - destruct (IH (fun y J => I y (or_intror J))) as [js [cs [E [S F]]]].
    destruct (member_of m (I m (or_introl eq_refl))) as [r [c [E1 [fs [E2 [S1 F1]]]]]].
    exists (JObj r :: js), (c :: cs). cbn [mapM]. rewrite E1. cbn [bind]. rewrite E. cbn [bind flat_map]. rewrite E2. cbn [app].
    repeat split; constructor; assumption.
Qed.

(** ** The statements *)

Definition pair_of (t : triple) : str * json := let '(_, p, o) := t in (qname qn (name p), literal_to_dict name to_python o).
Definition is_dub (t : triple) : bool :=
  let n := namespace qn (name (snd (fst t))) in negb (is_in n [cap_ns; hydra_ns; rdf_ns; rdfs_ns; dts_ns]) && str_eqb n dct_ns.
Definition is_ext (t : triple) : bool :=
  let n := namespace qn (name (snd (fst t))) in negb (is_in n [cap_ns; hydra_ns; rdf_ns; rdfs_ns; dts_ns]) && negb (str_eqb n dct_ns).

Lemma sort_out_groups : sort_out name triples_order qn to_python out =
  (groups (map pair_of (filter is_ext (triples_order out))), groups (map pair_of (filter is_dub (triples_order out)))).
Proof.
  unfold sort_out, groups. generalize (triples_order out). intros l.
  match goal with |- fold_left ?f l _ = _ => set (F := f) end.
  assert (X : forall l e d, fold_left F l (e, d) =
    (fold_left (fun d kv => add_value (fst kv) (snd kv) d) (map pair_of (filter is_ext l)) e,
     fold_left (fun d kv => add_value (fst kv) (snd kv) d) (map pair_of (filter is_dub l)) d)).
  { induction l0 as [|[[s p] o] l0 IH]; intros e d; cbn [fold_left filter]; [ reflexivity | ].
    unfold F at 2. unfold is_ext at 1, is_dub at 1. cbn [fst snd].
    destruct (is_in (namespace qn (name p)) [cap_ns; hydra_ns; rdf_ns; rdfs_ns; dts_ns]); cbn [negb andb]; [ apply IH | ].
    destruct (str_eqb (namespace qn (name p)) dct_ns); cbn [negb map fold_left]; rewrite IH; reflexivity. }
  apply X.
Qed.

Lemma kept_out : forall t, In t (triples_order out) <-> In t out.
Proof using to_python HR. intros t. split; intros I; (eapply Permutation_in; [ | exact I ]); [ apply Permutation_sym | ]; apply HR. Qed.

Definition some_group (d : list (str * json)) : option json := match d with [] => None | d => Some (JObj d) end.

Lemma group_of : forall f, (forall t, f t = true -> is_in (namespace qn (name (snd (fst t)))) [cap_ns; hydra_ns; rdf_ns; rdfs_ns; dts_ns] = false) ->
  (forall t, In t (triples_order out) -> f t = true -> carried to_python (snd t)) ->
  exists sts, group_says ctx (some_group (groups (map pair_of (filter f (triples_order out))))) sts /\
    Permutation sts (map (stated to_python) (filter f (triples_order out))).
Proof using to_python HT HR HP HQ HX.
  intros f Hf Hc. set (l := filter f (triples_order out)).
  assert (L : forall t, In t l -> exists u o, t = (URI id, URI u, o) /\ In (URI id, URI u, o) g /\ ~ is_blank o /\ named x u /\
     ~ In (ns_of qn u) reserved /\ carried to_python o).
  { intros t I. apply filter_In in I as [I F]. pose proof (Hc t I F) as CA. apply (proj1 (kept_out t)) in I. destruct (out_key t I) as [u [o [-> [J [N U]]]]].
    exists u, o. specialize (Hf _ F). cbn [fst snd] in Hf. rewrite (proj1 HT) in Hf. change (namespace qn u) with (ns_of qn u) in Hf.
    change [cap_ns; hydra_ns; rdf_ns; rdfs_ns; dts_ns] with reserved in Hf. apply is_in_not in Hf.
    do 5 (split; [ auto | ]). exact CA. }
  assert (TN : forall u o, In (URI id, URI u, o) g -> ~ is_blank o -> ~ In (ns_of qn u) reserved -> told_name u).
  { intros u o J N R. right. exists u. split; [ apply preds_In; exists o; auto | ]. split; [ reflexivity | ]. intros U. apply R.
    unfold undeclared in U. unfold reserved. cbn [In] in *. intuition. }
  assert (KW : forall u, named x u -> keyword (qname qn u) = false).
  { intros u U. unfold qname. destruct (qn u) as [[p n] w] eqn:E. pose proof (q_local _ _ HQ u p n w U E) as LW. destruct p as [|c p].
    - rewrite <- (app_nil_r w). apply local_keyword, LW.
    - apply (local_keyword (c :: p)). destruct (q_prefix _ _ HQ u _ n w U E) as [?|?]; [ discriminate | assumption ]. }
  assert (PO : forall k v, In (k, v) (map pair_of l) -> exists u o, k = qname qn u /\ v = literal_to_dict name to_python o /\
    named x u /\ expand_iri ctx true (qname qn u) = u /\ carried to_python o).
  { intros k v I. apply in_map_iff in I as [t [E I]]. destruct (L t I) as [u [o [-> [J [N [U [R C]]]]]]]. cbn [pair_of] in E.
    rewrite (proj1 HT) in E. injection E as <- <-. exists u, o. repeat split; auto. apply name_expands; [ exact U | apply (TN u o J N R) ]. }
  destruct (expand_groups ctx (map pair_of l)) as [gs [parts [E [F P]]]].
  - intros k v I. destruct (PO k v I) as [u [o [-> [_ [U _]]]]]. apply KW, U.
  - intros k k' v v' I I'. destruct (PO k v I) as [u [o [-> [_ [_ [-> _]]]]]]. destruct (PO k' v' I') as [u' [o' [-> [_ [_ [-> _]]]]]].
    intros ->. reflexivity.
  - intros k v I. destruct (PO k v I) as [u [o [_ [-> [_ [_ C]]]]]]. destruct o as [s|n|s [t|] d]; cbn [carried] in C; try contradiction; cbn [literal_to_dict].
    + right. right. eauto.
    + destruct C as [[t ->]|[z ->]]; eauto.
  - assert (ST : map (fun kv => stat (expand_iri ctx true (fst kv)) (snd kv)) (map pair_of l) = map (stated to_python) l).
    { rewrite map_map. apply map_ext_in. intros t I. destruct (L t I) as [u [o [-> [J [N [U [R C]]]]]]]. cbn [pair_of fst snd].
      rewrite (proj1 HT). rewrite (name_expands u U (TN u o J N R)).
      destruct o as [s|n|s [t|] d]; cbn [carried] in C; try contradiction; cbn [literal_to_dict stated stat]; [ reflexivity | ].
      destruct C as [[t ->]|[z ->]]; reflexivity. }
    rewrite ST in P.
    destruct (groups (map pair_of l)) as [|kv d] eqn:EG.
    + exists []. split; [ left; auto | ]. cbn in E. injection E as <-. inversion F; subst. cbn [concat] in P. exact P.
    + exists (concat parts). split; [ | exact P ]. right. exists (JObj (kv :: d)), gs, parts. auto.
Qed.

(** ** The whole document *)

Lemma jset_entries : forall c id t l z od oe ob om op, (c = [] \/ exists v, c = [(#"@context", v)]) ->
  (forall v, jset #"dts:extensions" v (c ++ entries id t l z od None None None None None) = c ++ entries id t l z od (Some v) None None None None) /\
  (forall v, jset #"dts:dublincore" v (c ++ entries id t l z od oe None None None None) = c ++ entries id t l z od oe (Some v) None None None) /\
  (forall v, jset #"member" v (c ++ entries id t l z od oe ob None None None) = c ++ entries id t l z od oe ob (Some v) None None) /\
  (forall v, jset #"dts:citeDepth" v (c ++ entries id t l z od oe ob om None None) = c ++ entries id t l z od oe ob om (Some v) None) /\
  (forall v, jset #"dts:citeStructure" v (c ++ entries id t l z od oe ob om op None) = c ++ entries id t l z od oe ob om op (Some v)).
Proof. intros c id' t l z od oe ob om op [->|[w ->]]; repeat split; intros; destruct od, oe, ob, om, op; reflexivity. Qed.

Definition ext_part : option json := some_group (groups (map pair_of (filter is_ext (triples_order out)))).
Definition dub_part : option json := some_group (groups (map pair_of (filter is_dub (triples_order out)))).

(** What is exported and what it expands to, whatever the statements say. *)
Lemma document : forall fuel, 0 < fuel -> exists j t lo od om op os c cs,
  dts_export name objects_order triples_order predicates_order qn to_python fuel x = Ok j /\
  expand_document j = [JObj (expanded_entries ctx id t (name lo) (b_size (x_brief x)) (option_map JStr od) ext_part dub_part om (option_map JInt op) os)] /\
  members_say ctx om cs /\ structure_says ctx os c /\
  In (URI id, URI rdf_type, URI t) (b_graph (x_brief x)) /\ In (URI id, URI rdfs_label, lo) (b_graph (x_brief x)) /\
  ((od = None /\ forall o, ~ In (URI id, URI (hydra #"description"), o) g) \/
   exists o, In (URI id, URI (hydra #"description"), o) g /\ od = Some (name o)) /\
  (b_size (x_brief x) = 0%Z -> cs = []) /\ (b_size (x_brief x) <> 0%Z -> Forall2 (member_found name g) (x_members x) cs) /\
  forall about, cites_found (x_cites x)
    (MkCMeta [JStr (name lo)] [JStr t] c (option_map JInt op) [JInt (b_size (x_brief x))] (match od with Some d => [JStr d] | None => [] end) about).
Proof using to_python HT HO HR HP HQ HX.
  intros [|fuel] HF; [ lia | ]. unfold dts_export. fold id g.
  rewrite (graph_of_node name triples_order fuel g (URI id) HR (r_graph _ _ _ HX)). fold out. cbn [bind].
  rewrite sort_out_groups.
  set (ext := groups (map pair_of (filter is_ext (triples_order out)))) in *.
  set (dub := groups (map pair_of (filter is_dub (triples_order out)))) in *.
  pose proof (r_briefs _ _ _ HX _ (or_introl eq_refl)) as B.
  destruct (base_of out (x_brief x) B) as [t [lo [od [E [T [TD [L D]]]]]]].
  { intros o. rewrite out_In. split; [ tauto | ]. intros I. split; [ exact I | ]. split; [ reflexivity | ].
    destruct (r_descriptions _ _ _ _ B o I) as [s [w [d ->]]]. intros [n N]. discriminate. }
  rewrite E. cbn [bind]. fold id.
  set (C := [(#"@context", JObj (jset #"@vocab" (JStr hydra_ns) (context_of name predicates_order qn out)))]).
  assert (HC : C = [] \/ exists v, C = [(#"@context", v)]) by (right; eexists; reflexivity).
  match goal with |- context [jset_if _ _ (JObj ext) ?o] => change o with (C ++ entries id (qname qn t) (name lo) (b_size (x_brief x)) (option_map JStr od) None None None None None) end.
  assert (QE : forall w, In w dts_words -> qname qn (dts_ns ++ w) = #"dts:" ++ w) by exact qname_dts.
  rewrite (QE #"extensions"), (QE #"dublincore"), (QE #"citeDepth"), (QE #"citeStructure") by (cbn; auto 10).
  rewrite (qname_hydra #"member") by (cbn; auto 10).
  pose proof (fun oe ob om op => jset_entries C id (qname qn t) (name lo) (b_size (x_brief x)) (option_map JStr od) oe ob om op HC) as JS.
  change ext_part with (some_group ext). change dub_part with (some_group dub). set (oe := some_group ext). set (ob := some_group dub).
  assert (E1 : jset_if (match ext with [] => false | _ => true end) (#"dts:" ++ #"extensions") (JObj ext)
      (C ++ entries id (qname qn t) (name lo) (b_size (x_brief x)) (option_map JStr od) None None None None None) =
      C ++ entries id (qname qn t) (name lo) (b_size (x_brief x)) (option_map JStr od) oe None None None None).
  { unfold oe, some_group. destruct ext as [|kv e]; cbn [jset_if]; [ reflexivity | ].
    apply (JS None None None None). }
  rewrite E1.
  assert (E2 : jset_if (match dub with [] => false | _ => true end) (#"dts:" ++ #"dublincore") (JObj dub)
      (C ++ entries id (qname qn t) (name lo) (b_size (x_brief x)) (option_map JStr od) oe None None None None) =
      C ++ entries id (qname qn t) (name lo) (b_size (x_brief x)) (option_map JStr od) oe ob None None None).
  { unfold ob, some_group. destruct dub as [|kv e]; cbn [jset_if]; [ reflexivity | ].
    apply (JS oe None None None). }
  rewrite E2.
  assert (MM : exists om cs,
    (if (b_size (x_brief x) =? 0)%Z
     then Ok (C ++ entries id (qname qn t) (name lo) (b_size (x_brief x)) (option_map JStr od) oe ob None None None)
     else ms <- mapM (fun m => r <- export_base name objects_order qn g m ;; Ok (JObj r)) (x_members x) ;;
          Ok (jset #"member" (JList ms) (C ++ entries id (qname qn t) (name lo) (b_size (x_brief x)) (option_map JStr od) oe ob None None None))) =
    Ok (C ++ entries id (qname qn t) (name lo) (b_size (x_brief x)) (option_map JStr od) oe ob om None None) /\
    om <> Some JNull /\ members_say ctx om cs /\ (b_size (x_brief x) = 0%Z -> cs = []) /\
    (b_size (x_brief x) <> 0%Z -> Forall2 (member_found name g) (x_members x) cs)).
  { destruct (b_size (x_brief x) =? 0)%Z eqn:Z.
    - exists None, []. split; [ reflexivity | ]. split; [ discriminate | ]. split; [ left; auto | ]. split; [ auto | ].
      apply Z.eqb_eq in Z. intros; contradiction.
    - destruct (members_of (x_members x) (fun y J => J)) as [js [cs [EM [SM FM]]]]. rewrite EM. cbn [bind].
      exists (Some (JList js)), cs. split; [ f_equal; apply (JS oe ob None None) | ]. split; [ discriminate | ].
      split; [ right; exists (JList js); split; [ reflexivity | exact SM ] | ].
      apply Z.eqb_neq in Z. split; [ intros; contradiction | auto ]. }
  destruct MM as [om [cs [E3 [NM [SM [M0 M1]]]]]]. rewrite E3. cbn [bind].
  set (op := if (cites_depth (x_cites x) =? 0)%Z then None else Some (cites_depth (x_cites x))).
  assert (E4 : jset_if (negb (cites_depth (x_cites x) =? 0)%Z) (#"dts:" ++ #"citeDepth") (JInt (cites_depth (x_cites x)))
      (C ++ entries id (qname qn t) (name lo) (b_size (x_brief x)) (option_map JStr od) oe ob om None None) =
      C ++ entries id (qname qn t) (name lo) (b_size (x_brief x)) (option_map JStr od) oe ob om (option_map JInt op) None).
  { unfold op. destruct (cites_depth (x_cites x) =? 0)%Z; cbn [negb jset_if option_map]; [ reflexivity | ].
    apply (JS oe ob om None). }
  rewrite E4.
  set (os := cites_structure qn (x_cites x)).
  assert (E5 : match os with
     | Some j => jset (#"dts:" ++ #"citeStructure") j (C ++ entries id (qname qn t) (name lo) (b_size (x_brief x)) (option_map JStr od) oe ob om (option_map JInt op) None)
     | None => C ++ entries id (qname qn t) (name lo) (b_size (x_brief x)) (option_map JStr od) oe ob om (option_map JInt op) None
     end = C ++ entries id (qname qn t) (name lo) (b_size (x_brief x)) (option_map JStr od) oe ob om (option_map JInt op) os).
  { destruct os; [ | reflexivity ]. apply (JS oe ob om (option_map JInt op)). }
  rewrite E5.
  assert (CI : exists c, structure_says ctx os c /\ os <> Some JNull /\ forall about, cites_found (x_cites x)
      (MkCMeta [JStr (name lo)] [JStr t] c (option_map JInt op) [JInt (b_size (x_brief x))] (match od with Some d => [JStr d] | None => [] end) about)).
  { destruct context_understands as [_ U].
    assert (EX : forall c, expand_value ctx (citation_export #"dts:citeType" #"dts:citeStructure" c) =
      [expand #"dts:citeType" #"dts:citeStructure" (citation_export #"dts:citeType" #"dts:citeStructure" c)]).
    { intros c. apply expand_citation; [ apply (U #"citeType") | apply (U #"citeStructure") ]; cbn; auto 10. }
    assert (EL : forall l, flat_map (expand_value ctx) (map (citation_export #"dts:citeType" #"dts:citeStructure") l) =
      map (expand #"dts:citeType" #"dts:citeStructure") (map (citation_export #"dts:citeType" #"dts:citeStructure") l)).
    { induction l as [|c l IH]; [ reflexivity | ]. cbn [map flat_map]. rewrite EX, IH. reflexivity. }
    unfold os, op, cites_structure, cites_found. rewrite (QE #"citeType"), (QE #"citeStructure") by (cbn; auto 10).
    cbn [cm_citation cm_depth]. destruct (x_cites x) as [|f|c]; cbn [cites_depth].
    - exists None. split; [ left; auto | ]. split; [ discriminate | split; reflexivity ].
    - destruct (is_empty (s_children f)) eqn:EM.
      + assert (N : s_children f = []) by (destruct (s_children f); [ reflexivity | discriminate ]). exists None.
        split; [ left; auto | ]. split; [ discriminate | ]. split; [ auto | ]. split; [ intros; contradiction | ].
        destruct (set_depth f =? 0)%Z; reflexivity.
      + destruct (set_json_round_trip #"dts:citeType" #"dts:citeStructure" f 0) as [s [S1 [S2 _]]]. exists (Some s).
        assert (N : s_children f <> []) by (destruct (s_children f); [ discriminate | discriminate ]).
        split; [ | split; [ discriminate | ]].
        * right. unfold set_export in S1. cbn [expand] in S1.
          destruct (s_children f) as [|k ks] eqn:K; [ contradiction | ]. cbn [map] in S1.
          eexists. eexists. eexists. exists s. split; [ reflexivity | ]. unfold set_export. rewrite K. cbn [expand_value].
          split; [ rewrite EL; cbn [map]; reflexivity | ]. split; [ exact S1 | reflexivity ].
        * split; [ intros; contradiction | ]. split; [ intros _; exists s; auto | ]. destruct (set_depth f =? 0)%Z; reflexivity.
    - assert (DN : (Z.of_nat (citation_depth c) =? 0)%Z = false).
      { apply Z.eqb_neq. destruct c as [n r [|k ks]]; cbn [citation_depth]; lia. }
      rewrite DN. destruct (is_empty (c_children c)) eqn:EM.
      + assert (N : c_children c = []) by (destruct (c_children c); [ reflexivity | discriminate ]). exists None.
        split; [ left; auto | ]. split; [ discriminate | ]. split; [ auto | ]. split; [ intros; contradiction | reflexivity ].
      + destruct (set_json_round_trip #"dts:citeType" #"dts:citeStructure" (MkSet [c] None) 0) as [s [S1 [S2 _]]]. exists (Some s).
        assert (N : c_children c <> []) by (destruct (c_children c); [ discriminate | discriminate ]).
        split; [ | split; [ destruct c; discriminate | ]].
        * right. unfold set_export in S1. cbn [expand s_children map] in S1.
          eexists. eexists. eexists. exists s. split; [ reflexivity | ]. split; [ apply EX | ]. split; [ exact S1 | reflexivity ].
        * split; [ intros; contradiction | ]. split; [ intros _; exists s; auto | reflexivity ]. }
  destruct CI as [c [SC [NC FC]]].
  eexists. exists t, lo, od, om, op, os, c, cs. split; [ reflexivity | ]. split; [ | repeat (split; [ assumption | ]); exact FC ].
  cbn [expand_document]. rewrite (context_read (C ++ entries id (qname qn t) (name lo) (b_size (x_brief x)) (option_map JStr od) oe ob om (option_map JInt op) os)) by reflexivity.
  rewrite expand_entries; [ unfold id; rewrite (id_expands _ (or_introl eq_refl)), (type_expands _ t (or_introl eq_refl) T TD); reflexivity | apply context_understands | | exact HC ].
    repeat constructor; try assumption.
    + destruct od; discriminate.
    + unfold oe, some_group. destruct ext; discriminate.
    + unfold ob, some_group. destruct dub; discriminate.
    + unfold op. destruct (cites_depth (x_cites x) =? 0)%Z; discriminate.
Qed.

Lemma ext_open : forall t, is_ext t = true -> is_in (namespace qn (name (snd (fst t)))) [cap_ns; hydra_ns; rdf_ns; rdfs_ns; dts_ns] = false.
Proof. intros t F. unfold is_ext in F. apply andb_true_iff in F as [F _]. apply negb_true_iff in F. exact F. Qed.
Lemma dub_open : forall t, is_dub t = true -> is_in (namespace qn (name (snd (fst t)))) [cap_ns; hydra_ns; rdf_ns; rdfs_ns; dts_ns] = false.
Proof. intros t F. unfold is_dub in F. apply andb_true_iff in F as [F _]. apply negb_true_iff in F. exact F. Qed.

Lemma kept_ok : forall t, In t (triples_order out) -> is_in (namespace qn (name (snd (fst t)))) [cap_ns; hydra_ns; rdf_ns; rdfs_ns; dts_ns] = false -> ok (snd t).
Proof using to_python HT HR HX.
  intros t I F. apply (proj1 (kept_out t)) in I. destruct (out_key t I) as [u [o [-> [J [N U]]]]]. cbn [fst snd] in *. rewrite (proj1 HT) in F.
  change (namespace qn u) with (ns_of qn u) in F. change [cap_ns; hydra_ns; rdf_ns; rdfs_ns; dts_ns] with reserved in F. apply is_in_not in F.
  apply (r_values _ _ _ HX u o J N F).
Qed.

Lemma round_trip : (forall o, ok o -> carried to_python o) -> forall fuel, 0 < fuel -> exists j fs c,
  dts_export name objects_order triples_order predicates_order qn to_python fuel x = Ok j /\
  expand_document j = [JObj fs] /\ says_coll (JObj fs) c /\ found name qn to_python x c.
Proof using to_python HT HO HR HP HQ HX.
  intros OK fuel HF. destruct (document fuel HF) as [j [t [lo [od [om [op [os [c [cs [E [X [SM [SC [T [L [D [M0 [M1 FC]]]]]]]]]]]]]]]]]].
  destruct (group_of is_ext ext_open) as [ex [GE PE]]; [ intros y I F; apply OK, kept_ok; [ exact I | apply ext_open, F ] | ].
  destruct (group_of is_dub dub_open) as [du [GD PD]]; [ intros y I F; apply OK, kept_ok; [ exact I | apply dub_open, F ] | ].
  exists j. eexists. eexists. split; [ exact E | ]. split; [ exact X | ]. split.
  - apply (entries_say ctx _ t (name lo) _ od ext_part dub_part om op os du ex c cs); [ exact GD | exact GE | exact SM | exact SC ].
  - constructor.
    + constructor; cbn [co_id co_meta co_view cm_labels cm_types cm_totals cm_descriptions]; eauto.
      destruct D as [[-> D]|[o [J ->]]]; [ left; auto | right; eauto ].
    + cbn [co_meta cm_about].
      exists (filter (fun t => is_dub t || is_ext t) (triples_order out)). split; [ | split ].
      * apply NoDup_filter. eapply Permutation_NoDup; [ apply HR | apply out_NoDup ].
      * intros [[s p] o]. rewrite filter_In, kept_out. split.
        -- intros [I F]. destruct (out_key _ I) as [u [o' [Et [J [N U]]]]]. injection Et as -> -> ->. split; [ exact J | ].
           exists u, o'. split; [ reflexivity | ]. split; [ exact N | ]. unfold is_dub, is_ext in F. cbn [fst snd] in F. rewrite (proj1 HT) in F.
           change [cap_ns; hydra_ns; rdf_ns; rdfs_ns; dts_ns] with reserved in F. change (namespace qn u) with (ns_of qn u) in F.
           destruct (is_in (ns_of qn u) reserved) eqn:R; [ discriminate | ]. apply is_in_not in R. exact R.
        -- intros [I [u [o' [Et [N R]]]]]. injection Et as -> -> ->. split; [ apply out_In; auto | ].
           unfold is_dub, is_ext. cbn [fst snd]. rewrite (proj1 HT).
           change [cap_ns; hydra_ns; rdf_ns; rdfs_ns; dts_ns] with reserved. change (namespace qn u) with (ns_of qn u).
           apply is_in_not in R. rewrite R. cbn [negb andb]. destruct (str_eqb (ns_of qn u) dct_ns); reflexivity.
      * rewrite PD, PE, <- map_app. apply Permutation_map.
        generalize (triples_order out). intros l. induction l as [|y l IH]; [ reflexivity | ]. cbn [filter].
        destruct (is_dub y) eqn:ED; destruct (is_ext y) eqn:EE; cbn [orb].
        -- exfalso. unfold is_dub, is_ext in ED, EE. apply andb_true_iff in ED as [_ ED]. apply andb_true_iff in EE as [_ EE]. rewrite ED in EE. discriminate.
        -- cbn [app]. constructor. exact IH.
        -- rewrite <- Permutation_middle. constructor. exact IH.
        -- exact IH.
    + split; assumption.
    + apply FC.
Qed.

Lemma links_of : (forall o, ok o -> carried to_python o \/ exists v, o = URI v) -> forall f fs k,
  (forall t, f t = true -> is_in (namespace qn (name (snd (fst t)))) [cap_ns; hydra_ns; rdf_ns; rdfs_ns; dts_ns] = false) ->
  field k fs = values ctx (some_group (groups (map pair_of (filter f (triples_order out))))) ->
  ((exists r, parse_group k (JObj fs) = Ok r) \/ parse_group k (JObj fs) = Err KeyError) /\
  ((exists u v, In (URI id, URI u, URI v) g /\ f (URI id, URI u, URI v) = true) -> parse_group k (JObj fs) = Err KeyError).
Proof using to_python HT HR HP HQ HX.
  intros OK f fs k Hf F. set (l := filter f (triples_order out)) in *.
  assert (PO : forall k v, In (k, v) (map pair_of l) -> exists u o, k = qname qn u /\ v = literal_to_dict name to_python o /\
    named x u /\ expand_iri ctx true (qname qn u) = u /\ ok o).
  { intros k' v I. apply in_map_iff in I as [t [E I]]. apply filter_In in I as [I Ft]. pose proof (kept_ok t I (Hf t Ft)) as OKt.
    apply (proj1 (kept_out t)) in I. destruct (out_key t I) as [u [o [-> [J [N U]]]]]. cbn [pair_of] in E. rewrite (proj1 HT) in E. injection E as <- <-.
    exists u, o. do 3 (split; [ auto | ]). split; [ | exact OKt ]. apply name_expands; [ exact U | ]. right. exists u.
    split; [ apply preds_In; exists o; auto | ]. split; [ reflexivity | ]. specialize (Hf _ Ft). cbn [fst snd] in Hf. rewrite (proj1 HT) in Hf.
    change (namespace qn u) with (ns_of qn u) in Hf. change [cap_ns; hydra_ns; rdf_ns; rdfs_ns; dts_ns] with reserved in Hf. apply is_in_not in Hf.
    intros W. apply Hf. unfold undeclared in W. unfold reserved. cbn [In] in *. intuition. }
  assert (KW : forall u, named x u -> keyword (qname qn u) = false).
  { intros u U. unfold qname. destruct (qn u) as [[p n] w] eqn:E. pose proof (q_local _ _ HQ u p n w U E) as LW. destruct p as [|c p].
    - rewrite <- (app_nil_r w). apply local_keyword, LW.
    - apply (local_keyword (c :: p)). destruct (q_prefix _ _ HQ u _ n w U E) as [?|?]; [ discriminate | assumption ]. }
  destruct (group_links ctx (map pair_of l) fs k) as [G1 G2].
  - intros k' v I. destruct (PO k' v I) as [u [o [-> [_ [U _]]]]]. apply KW, U.
  - intros k1 k2 v v' I I'. destruct (PO k1 v I) as [u [o [-> [_ [_ [-> _]]]]]]. destruct (PO k2 v' I') as [u' [o' [-> [_ [_ [-> _]]]]]].
    intros ->. reflexivity.
  - intros k' v I. destruct (PO k' v I) as [u [o [_ [-> [_ [_ C]]]]]]. destruct (OK o C) as [C'|[s ->]]; [ left | right; exists s; reflexivity ].
    unfold plain_value. destruct o as [s|n|s [t|] d]; cbn [carried] in C'; try contradiction; cbn [literal_to_dict].
    + right. right. eauto.
    + destruct C' as [[t ->]|[z ->]]; eauto.
  - revert F. unfold some_group. destruct (groups (map pair_of l)); intros F; exact F.
  - split; [ exact G1 | ]. intros [u [v [I Fu]]]. apply G2. exists (qname qn u), (JObj [(#"@id", JStr v)]). split; [ | exists v; reflexivity ].
    apply in_map_iff. exists (URI id, URI u, URI v). split; [ cbn [pair_of]; rewrite (proj1 HT); reflexivity | ].
    apply filter_In. split; [ | exact Fu ]. apply kept_out, out_In. split; [ exact I | ]. split; [ reflexivity | ]. intros [n N]. discriminate.
Qed.

Lemma link_fails : (forall o, ok o -> carried to_python o \/ exists v, o = URI v) -> links qn x -> forall fuel, 0 < fuel -> exists j e,
  dts_export name objects_order triples_order predicates_order qn to_python fuel x = Ok j /\
  expand_document j = [e] /\ parse_coll e = Err KeyError.
Proof using to_python HT HO HR HP HQ HX.
  intros OK [u [v [I N]]] fuel HF.
  destruct (document fuel HF) as [j [t [lo [od [om [op [os [c [cs [E [X [SM [SC _]]]]]]]]]]]]].
  exists j. eexists. split; [ exact E | ]. split; [ exact X | ].
  apply (entries_fail ctx id t (name lo) _ od ext_part dub_part om op os c cs KeyError SM SC).
  destruct (fields_of_entries ctx id t (name lo) (b_size (x_brief x)) (option_map JStr od) ext_part dub_part om (option_map JInt op) os)
    as [_ [_ [_ [_ [_ [F6 [F7 _]]]]]]].
  destruct (links_of OK is_dub _ _ dub_open F7) as [D1 D2]. destruct (links_of OK is_ext _ _ ext_open F6) as [E1 E2].
  unfold parse_metadata. change (dts_term #"dublincore") with (dts #"dublincore"). change (dts_term #"extensions") with (dts #"extensions").
  assert (W : is_dub (URI id, URI u, URI v) = true \/ is_ext (URI id, URI u, URI v) = true).
  { unfold is_dub, is_ext. cbn [fst snd]. rewrite (proj1 HT). change (namespace qn u) with (ns_of qn u).
    change [cap_ns; hydra_ns; rdf_ns; rdfs_ns; dts_ns] with reserved. apply is_in_not in N. rewrite N. cbn [negb andb].
    destruct (str_eqb (ns_of qn u) dct_ns); auto. }
  destruct W as [W|W].
  - rewrite D2 by eauto. reflexivity.
  - destruct D1 as [[r ->]| ->]; cbn [bind]; [ | reflexivity ]. rewrite E2 by eauto. reflexivity.
Qed.
End Out.
