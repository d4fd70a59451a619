(** Proofs about the fields of collections. *)

From Coq Require Import List NArith ZArith Arith Bool Lia Permutation.
From Verif Require Import PyStr PyStrFacts MetaModel MetaSpec MetaProofs UrnModel
  CollModel CollSpec CollProofs CollHist CollLang InvModel FieldModel FieldSpec.
Import ListNotations.

Lemma after_snoc : forall st h w, after st (h ++ [w]) = do_write (after st h) w.
Proof. intros. unfold after. rewrite fold_left_app. reflexivity. Qed.
Lemma after_app : forall st a b, after st (a ++ b) = after (after st a) b.
Proof. intros. unfold after. apply fold_left_app. Qed.

(** ** The values *)
Lemma mk_literal_of : forall v l, mk_literal v l = literal_of v l.
Proof. intros [[s|n|s l' d]|s|z] l; try reflexivity. destruct l as [[|a l]|]; reflexivity. Qed.
Lemma version_value : forall v, match v with PTerm (Literal _ _ _ as t) => t | _ => mk_literal v None end = literal_of v None.
Proof. intros [[s|n|s l d]|s|z]; reflexivity. Qed.
Lemma as_uri_of : forall v u, as_uri v = Ok u <-> uri_of v u.
Proof.
  intros v u. split.
  - destruct v as [[s|n|s l d]|s|z]; cbn; intros H; try discriminate; injection H as <-.
    + exact (uri_term (URI s)).
    + exact (uri_term (BNode n)).
    + exact (uri_term (Literal s l d)).
    + constructor.
  - intros [[s|n|s l d]|s]; reflexivity.
Qed.
Lemma as_uri_err : forall v e, as_uri v = Err e -> forall u, ~ uri_of v u.
Proof. intros v e H u U. apply as_uri_of in U. congruence. Qed.
Lemma as_object_term : forall u, as_object (PTerm u) None = u.
Proof. intros [s|n|s l d]; reflexivity. Qed.
Lemma title_key_titles : forall k name, title_key k = Some (cts_term name) <-> titles k name.
Proof.
  assert (I : forall a b : str, Some (cts_term a) = Some (cts_term b) <-> b = a).
  { intros a b. split; [ | intros ->; reflexivity ]. intros H. injection H as H. symmetry. apply H. }
  intros [| | | | |] name; cbn [title_key titles]; try apply I. split; [ discriminate | intros [] ].
Qed.
Lemma is_cts_kind : forall k, is_cts k = true <-> cts_kind k.
Proof. intros [| | | | |]; unfold cts_kind; cbn; split; intros H; try reflexivity; try discriminate; congruence. Qed.
Lemma is_cts_not : forall k, is_cts k = false -> ~ cts_kind k.
Proof. intros k H C. apply is_cts_kind in C. congruence. Qed.

(** ** What stays of the objects *)
Definition keeps (st st' : state) : Prop :=
  length (graphs st') = length (graphs st) /\ length (objs st) <= length (objs st') /\
  forall c, c < length (objs st) -> c_kind (obj st' c) = c_kind (obj st c) /\ place st' c = place st c.

Lemma keeps_refl : forall st, keeps st st.
Proof. intros st. split; [ reflexivity | ]. split; [ lia | ]. auto. Qed.
Lemma keeps_trans : forall a b c, keeps a b -> keeps b c -> keeps a c.
Proof.
  intros a b c (A1 & A2 & A3) (B1 & B2 & B3). split; [ congruence | ]. split; [ lia | ].
  intros x Hx. destruct (A3 x Hx) as [A4 A5]. destruct (B3 x ltac:(lia)) as [B4 B5]. split; congruence.
Qed.
Lemma keeps_graph : forall st i f, keeps st (with_graph st i f).
Proof.
  intros st i f. split; [ apply length_upd | ]. split; [ cbn; lia | ]. intros c _.
  split; [ reflexivity | reflexivity ].
Qed.
Lemma keeps_obj : forall st i f, (forall x, c_kind (f x) = c_kind x /\ c_graph (f x) = c_graph x /\ c_id (f x) = c_id x) ->
  keeps st (with_obj st i f).
Proof.
  intros st i f H. split; [ reflexivity | ]. split; [ cbn; rewrite length_upd; lia | ]. intros c _.
  unfold place. rewrite !obj_with. destruct (H (obj st c)) as (A & B & C).
  destruct (Nat.eqb i c && Nat.ltb i (length (objs st))); [ | auto ]. rewrite A, B, C. auto.
Qed.

Lemma keeps_write : forall st w, keeps st (do_write st w).
Proof.
  intros st w. destruct w as [k id urn|c p|c v|c v|c v|c l|c v lang|c name v lang|c prop v|c pp oo]; cbn [do_write].
  - split; [ apply length_upd | ]. split; [ cbn; rewrite app_length; lia | ]. intros c Hc. unfold place. rewrite obj_new.
    destruct (Nat.eqb_spec c (length (objs st))); [ lia | ]. auto.
  - unfold set_parent.
    assert (P : forall q x, c_kind (put_parent q x) = c_kind x /\ c_graph (put_parent q x) = c_graph x /\ c_id (put_parent q x) = c_id x)
      by (intros; repeat split).
    eapply keeps_trans; [ apply (keeps_obj st c (put_parent (Some p)) (P _)) | ].
    eapply keeps_trans; [ apply keeps_graph | ]. unfold add_member.
    destruct (dget _ _); [ apply keeps_refl | ]. apply keeps_obj. intros; repeat split.
  - apply keeps_graph.
  - unfold set_type. destruct (as_uri v); [ apply keeps_graph | apply keeps_refl ].
  - unfold set_model. destruct (as_uri v); [ apply keeps_graph | apply keeps_refl ].
  - unfold assign_lang, set_lang. destruct (c_kind (obj st c)); try apply keeps_refl; apply keeps_graph.
  - apply keeps_graph.
  - unfold set_property. destruct (is_cts _); [ apply keeps_graph | apply keeps_refl ].
  - unfold set_link. destruct (is_cts _); [ | apply keeps_refl ]. destruct (as_uri v); [ apply keeps_graph | apply keeps_refl ].
  - apply keeps_graph.
Qed.

Lemma housed_write : forall st w, housed st -> housed (do_write st w).
Proof.
  intros st w [H0 H1]. pose proof (keeps_write st w) as (K1 & K2 & K3). split; [ rewrite K1; exact H0 | ].
  intros c Hc. rewrite K1. destruct (Nat.lt_ge_cases c (length (objs st))) as [L|L].
  - destruct (K3 c L) as [_ E]. unfold place in E. injection E as E _. rewrite E. apply H1, L.
  - destruct w as [k id urn|c' p|c' v|c' v|c' v|c' l|c' v lang|c' name v lang|c' prop v|c' pp oo]; cbn [do_write] in Hc |- *.
    + rewrite obj_new. destruct (Nat.eqb_spec c (length (objs st))) as [->|N]; [ exact H0 | ]. cbn in Hc. rewrite app_length in Hc. cbn in Hc. lia.
    + rewrite length_set_parent in Hc. lia.
    + cbn in Hc. lia.
    + exfalso. unfold set_type in Hc. destruct (as_uri v); cbn in Hc; lia.
    + exfalso. unfold set_model in Hc. destruct (as_uri v); cbn in Hc; lia.
    + exfalso. unfold assign_lang, set_lang in Hc. destruct (c_kind _); cbn in Hc; lia.
    + cbn in Hc. lia.
    + exfalso. unfold set_property in Hc. destruct (is_cts _); cbn in Hc; lia.
    + exfalso. unfold set_link in Hc. destruct (is_cts _); [ | cbn in Hc; lia ]. destruct (as_uri v); cbn in Hc; lia.
    + cbn in Hc. lia.
Qed.

Lemma keeps_after : forall h st, keeps st (after st h).
Proof.
  induction h as [|w h IH] using rev_ind; intros st; [ apply keeps_refl | ]. rewrite after_snoc.
  eapply keeps_trans; [ apply IH | apply keeps_write ].
Qed.
Lemma housed_after : forall h st, housed st -> housed (after st h).
Proof.
  induction h as [|w h IH] using rev_ind; intros st H; [ exact H | ]. rewrite after_snoc. apply housed_write, IH, H.
Qed.

(** ** One write *)
Lemma In_set : forall m q v g n p o, In (n, p, o) (g_set (m, q, v) g) <->
  (n, p, o) = (m, q, v) \/ In (n, p, o) g /\ ~ (m = n /\ q = p).
Proof.
  intros. unfold g_set. rewrite In_add, In_remove, !covers_some. split.
  - intros [H|[H N]]; [ auto | right ]. split; [ exact H | ]. intros [A B]. apply N. repeat split; auto. apply covers_none.
  - intros [H|[H N]]; [ auto | right ]. split; [ exact H | ]. intros (A & B & _). auto.
Qed.

Lemma nth_graph : forall st c f gi, c_graph (obj st c) < length (graphs st) ->
  nth gi (graphs (in_graph st c f)) [] =
  if Nat.eqb (c_graph (obj st c)) gi then f (nth gi (graphs st) []) else nth gi (graphs st) [].
Proof.
  intros st c f gi H. unfold in_graph, with_graph. cbn [graphs]. rewrite nth_upd.
  apply Nat.ltb_lt in H. rewrite H, andb_true_r. reflexivity.
Qed.

Lemma place_is : forall st c gi n, place st c = (gi, n) <-> c_graph (obj st c) = gi /\ URI (c_id (obj st c)) = n.
Proof. intros. unfold place. split; [ intros H; injection H as <- <-; auto | intros [<- <-]; reflexivity ]. Qed.

(** An operation on the graph of an object, given by what it says and takes back. *)
Lemma in_graph_In : forall st c f (S U : term -> term -> Prop), c_graph (obj st c) < length (graphs st) ->
  (forall g n p o, In (n, p, o) (f g) <-> (n = URI (c_id (obj st c)) /\ S p o) \/ In (n, p, o) g /\ ~ (n = URI (c_id (obj st c)) /\ U p o)) ->
  forall gi n p o, In (n, p, o) (nth gi (graphs (in_graph st c f)) []) <->
    (place st c = (gi, n) /\ S p o) \/ In (n, p, o) (nth gi (graphs st) []) /\ ~ (place st c = (gi, n) /\ U p o).
Proof.
  intros st c f S U Hg Hf gi n p o. rewrite nth_graph, place_is by exact Hg.
  destruct (Nat.eqb_spec (c_graph (obj st c)) gi) as [E|E].
  - rewrite Hf. split.
    + intros [[-> H]|[H N]]; [ auto | right ]. split; [ exact H | ]. intros [[_ <-] X]. auto.
    + intros [[[_ <-] H]|[H N]]; [ auto | right ]. split; [ exact H | ]. intros [-> X]. apply N. auto.
  - split; [ intros H; right; split; [ exact H | ]; intros [[X _] _]; contradiction | ].
    intros [[[X _] _]|[H _]]; [ contradiction | exact H ].
Qed.

Lemma set_op : forall m q v g n p o, In (n, p, o) (g_set (m, q, v) g) <->
  (n = m /\ (p = q /\ o = v)) \/ In (n, p, o) g /\ ~ (n = m /\ p = q).
Proof.
  intros. rewrite In_set. split.
  - intros [H|[H N]]; [ injection H as -> -> ->; auto | right ]. split; [ exact H | ]. intros [-> ->]. apply N. auto.
  - intros [[-> [-> ->]]|[H N]]; [ auto | right ]. split; [ exact H | ]. intros [-> ->]. apply N. auto.
Qed.
Lemma set_label_op : forall m v lang g n p o, In (n, p, o) (set_label g m v lang) <->
  (n = m /\ ((p = a_label \/ p = a_skos_label) /\ o = literal_of v lang)) \/ In (n, p, o) g /\ ~ (n = m /\ False).
Proof.
  intros. unfold set_label, md_add. rewrite !In_add, as_object_term, mk_literal_of. fold a_label. change rdfs_label with a_label.
  change skos_prefLabel with a_skos_label. split.
  - intros [H|[H|H]]; try (injection H as -> -> ->; auto 6). right. split; [ exact H | ]. intros [_ []].
  - intros [[-> [[->| ->] ->]]|[H _]]; auto.
Qed.
Lemma property_op : forall k m name v lang g n p o,
  In (n, p, o) (set_cts_property g m (title_key k) (cts_term name) v lang) <->
  (n = m /\ ((p = in_cts name /\ o = cts_value v lang) \/
             (titles k name /\ (p = a_label \/ p = a_skos_label) /\ o = literal_of (PTerm (cts_value v lang)) lang)))
  \/ In (n, p, o) g /\ ~ (n = m /\ False).
Proof.
  intros. unfold set_cts_property.
  replace (match v with PTerm (Literal _ _ _ as t) => t | _ => mk_literal v lang end) with (cts_value v lang)
    by (destruct v as [[s|b|s l d]|s|z]; try reflexivity; cbn; rewrite <- mk_literal_of; reflexivity).
  unfold md_add. rewrite In_add, as_object_term. change (cts_term name) with (in_cts name).
  assert (T : match title_key k with Some x => if term_eqb (in_cts name) x then set_label g m (PTerm (cts_value v lang)) lang else g | None => g end
              = set_label g m (PTerm (cts_value v lang)) lang /\ titles k name \/
              match title_key k with Some x => if term_eqb (in_cts name) x then set_label g m (PTerm (cts_value v lang)) lang else g | None => g end
              = g /\ ~ titles k name).
  { destruct (title_key k) as [x|] eqn:E.
    - destruct (term_eqb (in_cts name) x) eqn:Q.
      + apply term_eqb_eq in Q. subst x. left. split; [ reflexivity | ]. apply title_key_titles. exact E.
      + right. split; [ reflexivity | ]. intros T. apply title_key_titles in T. rewrite E in T. injection T as ->.
        change (cts_term name) with (in_cts name) in Q. rewrite term_eqb_refl in Q. discriminate.
    - right. split; [ reflexivity | ]. intros T. apply title_key_titles in T. congruence. }
  destruct T as [[-> T]|[-> T]].
  - rewrite set_label_op. split.
    + intros [H|[[-> [H ->]]|[H _]]]; [ injection H as -> -> ->; auto 6 | auto 8 | right ]. split; [ exact H | intros [_ []] ].
    + intros [[-> [[-> ->]|(_ & H & ->)]]|[H _]]; auto 6. right. right. split; [ exact H | intros [_ []] ].
  - split.
    + intros [H|H]; [ injection H as -> -> ->; auto 6 | right ]. split; [ exact H | intros [_ []] ].
    + intros [[-> [[-> ->]|(X & _)]]|[H _]]; auto. contradiction.
Qed.

(** The graphs after a parent is assigned. *)
Lemma graphs_set_parent : forall st c p, c < length (objs st) -> p < length (objs st) ->
  graphs (set_parent st c p) = graphs (in_graph st c (g_add (URI (c_id (obj st c)), a_parent, URI (c_id (obj st p))))).
Proof.
  intros st c p Hc Hp. unfold set_parent.
  set (st1 := with_obj st c (put_parent (Some p))).
  assert (A : forall x, c_id (obj st1 x) = c_id (obj st x) /\ c_graph (obj st1 x) = c_graph (obj st x)).
  { intros x. unfold st1. rewrite obj_with. destruct (Nat.eqb c x && _); split; reflexivity. }
  destruct (A c) as [A1 A2]. destruct (A p) as [A3 _]. unfold node. rewrite A1, A2, A3.
  unfold add_member. destruct (dget _ _); reflexivity.
Qed.

Lemma write_In : forall st w, housed st -> Forall (fun c => c < length (objs st)) (about w) ->
  forall gi n p o, gi < length (graphs st) ->
  In (n, p, o) (nth gi (graphs (do_write st w)) []) <->
  says st w (gi, n) p o \/ In (n, p, o) (nth gi (graphs st) []) /\ ~ unsays st w (gi, n) p o.
Proof.
  intros st w [H0 H1] A gi n p o Hgi.
  assert (None_ : forall w', (forall a b c, ~ says st w' a b c) -> (forall a b c, ~ unsays st w' a b c) ->
    In (n, p, o) (nth gi (graphs st) []) <-> says st w' (gi, n) p o \/ In (n, p, o) (nth gi (graphs st) []) /\ ~ unsays st w' (gi, n) p o).
  { intros w' N1 N2. split; [ intros H; right; split; [ exact H | apply N2 ] | ]. intros [H|[H _]]; [ exfalso; eapply N1, H | exact H ]. }
  destruct w as [k id urn|c q|c v|c v|c v|c l|c v lang|c name v lang|c prop v|c pp oo]; cbn [do_write about] in *;
    try (assert (Hg : c_graph (obj st c) < length (graphs st)) by (apply H1; inversion A; assumption)).
  - cbn [new_object fst graphs with_graph]. rewrite nth_upd. apply Nat.ltb_lt in H0. rewrite H0, andb_true_r.
    destruct (Nat.eqb_spec 0 gi) as [<-|E].
    + rewrite !set_op. replace (type_uri k) with (born_type k) by (destruct k as [|[]| | | |]; reflexivity).
      replace (model_uri k) with (born_model k) by (destruct k; reflexivity).
      change dts_model with (in_dts #"model"). change rdf_type with a_type. split.
      * intros [(-> & -> & ->)|[[(-> & -> & ->)|[H N1]] N2]]; [ left; constructor | left; constructor | right ].
        split; [ exact H | ]. intros U. inversion U; subst. match goal with X : _ = a_type \/ _ |- _ => destruct X as [->| ->] end; [ apply N1 | apply N2 ]; auto.
      * intros [S|[H N]].
        -- inversion S; subst; [ right | left; auto ]. split; [ left; auto | ]. intros [_ X]. discriminate X.
        -- right. split; [ right; split; [ exact H | ] | ]; intros [-> ->]; apply N; constructor; auto.
    + split; [ intros H; right; split; [ exact H | ]; intros U; inversion U; subst; congruence | ].
      intros [S|[H _]]; [ inversion S; subst; congruence | exact H ].
  - rewrite graphs_set_parent by (inversion A as [|? ? X Y]; subst; inversion Y; subst; assumption).
    rewrite (in_graph_In st c _ (fun p o => p = a_parent /\ o = URI (c_id (obj st q))) (fun _ _ => False) Hg).
    + split.
      * intros [(E & -> & ->)|[H _]]; [ left; rewrite <- E; constructor | right; split; [ exact H | intros U; inversion U ] ].
      * intros [S|[H _]]; [ inversion S; subst; auto | right; split; [ exact H | intros [_ []] ] ].
    + intros g m r u. rewrite In_add. split.
      * intros [H|H]; [ injection H as -> -> ->; auto | right; split; [ exact H | intros [_ []] ] ].
      * intros [(-> & -> & ->)|[H _]]; auto.
  - unfold set_version. rewrite version_value.
    rewrite (in_graph_In st c _ (fun p o => p = in_dts #"version" /\ o = literal_of v None) (fun p _ => p = in_dts #"version") Hg).
    + split.
      * intros [(E & -> & ->)|[H N]]; [ left; rewrite <- E; constructor | right; split; [ exact H | intros U; inversion U; subst; auto ] ].
      * intros [S|[H N]]; [ inversion S; subst; auto | right; split; [ exact H | intros [E ->]; apply N; rewrite <- E; constructor ] ].
    + intros. apply set_op.
  - unfold set_type. destruct (as_uri v) as [u|e] eqn:E; cbn [fst].
    + apply as_uri_of in E.
      rewrite (in_graph_In st c _ (fun p o => p = a_type /\ o = u) (fun p _ => p = a_type) Hg).
      * split.
        -- intros [(X & -> & ->)|[H N]]; [ left; rewrite <- X; constructor; exact E | right; split; [ exact H | intros U; inversion U; subst; auto ] ].
        -- intros [S|[H N]]; [ inversion S; subst; left; repeat split; auto; apply as_uri_of in E; match goal with U : uri_of v _ |- _ => apply as_uri_of in U end; congruence
                             | right; split; [ exact H | intros [X ->]; apply N; rewrite <- X; econstructor; exact E ] ].
      * intros. apply set_op.
    + apply None_; intros a b d X; inversion X; subst; eapply (as_uri_err _ _ E); eassumption.
  - unfold set_model. destruct (as_uri v) as [u|e] eqn:E; cbn [fst].
    + apply as_uri_of in E.
      rewrite (in_graph_In st c _ (fun p o => p = in_dts #"model" /\ o = u) (fun p _ => p = in_dts #"model") Hg).
      * split.
        -- intros [(X & -> & ->)|[H N]]; [ left; rewrite <- X; constructor; exact E | right; split; [ exact H | intros U; inversion U; subst; auto ] ].
        -- intros [S|[H N]]; [ inversion S; subst; left; repeat split; auto; apply as_uri_of in E; match goal with U : uri_of v _ |- _ => apply as_uri_of in U end; congruence
                             | right; split; [ exact H | intros [X ->]; apply N; rewrite <- X; econstructor; exact E ] ].
      * intros. apply set_op.
    + apply None_; intros a b d X; inversion X; subst; eapply (as_uri_err _ _ E); eassumption.
  - assert (D : has_lang (c_kind (obj st c)) /\ assign_lang st c l = in_graph st c (g_set (URI (c_id (obj st c)), a_language, Literal l None None))
               \/ ~ has_lang (c_kind (obj st c)) /\ assign_lang st c l = st).
    { unfold assign_lang, has_lang. destruct (c_kind (obj st c)); try (right; split; [ intros [X|[sub X]]; discriminate X | reflexivity ]);
        left; (split; [ eauto | reflexivity ]). }
    destruct D as [[Hl ->]|[Hl ->]].
    + rewrite (in_graph_In st c _ (fun p o => p = a_language /\ o = Literal l None None) (fun p _ => p = a_language) Hg).
      * split.
        -- intros [(E & -> & ->)|[H N]]; [ left; rewrite <- E; constructor; exact Hl | right; split; [ exact H | intros U; inversion U; subst; auto ] ].
        -- intros [S|[H N]]; [ inversion S; subst; auto | right; split; [ exact H | intros [E ->]; apply N; rewrite <- E; constructor; exact Hl ] ].
      * intros. apply set_op.
    + apply None_; intros a b d X; inversion X; subst; contradiction.
  - unfold label.
    rewrite (in_graph_In st c _ (fun p o => (p = a_label \/ p = a_skos_label) /\ o = literal_of v lang) (fun _ _ => False) Hg).
    + split.
      * intros [(E & X & ->)|[H _]]; [ left; rewrite <- E; constructor; exact X | right; split; [ exact H | intros U; inversion U ] ].
      * intros [S|[H _]]; [ inversion S; subst; auto | right; split; [ exact H | intros [_ []] ] ].
    + intros. apply set_label_op.
  - unfold set_property. destruct (is_cts (c_kind (obj st c))) eqn:E; cbn [fst].
    + apply is_cts_kind in E.
      rewrite (in_graph_In st c _ (fun p o => (p = in_cts name /\ o = cts_value v lang) \/
             (titles (c_kind (obj st c)) name /\ (p = a_label \/ p = a_skos_label) /\ o = literal_of (PTerm (cts_value v lang)) lang)) (fun _ _ => False) Hg).
      * split.
        -- intros [(X & [[-> ->]|(T & Y & ->)])|[H _]]; [ left; rewrite <- X; constructor; exact E
             | left; rewrite <- X; apply says_property_title; assumption | right; split; [ exact H | intros U; inversion U ] ].
        -- intros [S|[H _]]; [ inversion S; subst; auto 6 | right; split; [ exact H | intros [_ []] ] ].
      * intros. apply property_op.
    + apply is_cts_not in E. apply None_; intros a b d X; inversion X; subst; contradiction.
  - unfold set_link. destruct (is_cts (c_kind (obj st c))) eqn:E; cbn [fst].
    + apply is_cts_kind in E. destruct (as_uri v) as [u|e] eqn:F; cbn [fst].
      * apply as_uri_of in F.
        rewrite (in_graph_In st c _ (fun p o => p = prop /\ o = u) (fun _ _ => False) Hg).
        -- split.
           ++ intros [(X & -> & ->)|[H _]]; [ left; rewrite <- X; constructor; assumption | right; split; [ exact H | intros U; inversion U ] ].
           ++ intros [S|[H _]]; [ inversion S; subst; left; repeat split; auto; apply as_uri_of in F; match goal with U : uri_of v _ |- _ => apply as_uri_of in U end; congruence
                                | right; split; [ exact H | intros [_ []] ] ].
        -- intros g m r x. unfold md_add. rewrite In_add, as_object_term. split.
           ++ intros [H|H]; [ injection H as -> -> ->; auto | right; split; [ exact H | intros [_ []] ] ].
           ++ intros [(-> & -> & ->)|[H _]]; auto.
      * apply None_; intros a b d X; inversion X; subst; eapply (as_uri_err _ _ F); eassumption.
    + apply is_cts_not in E. apply None_; intros a b d X; inversion X; subst; contradiction.
  - rewrite (in_graph_In st c _ (fun _ _ => False) (fun p o => covers pp p /\ covers oo o) Hg).
    + split.
      * intros [[_ []]|[H N]]. right. split; [ exact H | ]. intros U. inversion U; subst. apply N. auto.
      * intros [S|[H N]]; [ inversion S | right ]. split; [ exact H | ]. intros (E & X & Y). apply N. rewrite <- E. constructor; assumption.
    + intros g m r x. unfold md_remove. rewrite In_remove, covers_some. split.
      * intros [H N]. right. split; [ exact H | ]. intros (-> & X & Y). auto.
      * intros [[_ []]|[H N]]. split; [ exact H | ]. intros (<- & X & Y). auto.
Qed.

(** ** Histories *)
Lemma proper_snoc : forall st h w, proper st (h ++ [w]) -> proper st h /\ Forall (fun c => c < length (objs (after st h))) (about w).
Proof.
  intros st h w H. inversion H as [E|h' w' P A E]; [ destruct h; discriminate E | ].
  apply app_inj_tail in E as [-> ->]. auto.
Qed.

Lemma stands_snoc : forall st h w at_ p o, stands st (h ++ [w]) at_ p o <->
  says (after st h) w at_ p o \/ stands st h at_ p o /\ ~ unsays (after st h) w at_ p o.
Proof.
  intros. split.
  - intros H. inversion H as [? ? ? ? ? E|h' w' ? ? ? S E|h' w' ? ? ? S U E]; subst.
    + destruct h; discriminate.
    + apply app_inj_tail in E as [-> ->]. auto.
    + apply app_inj_tail in E as [-> ->]. auto.
  - intros [H|[H U]]; [ apply stands_said, H | apply stands_kept; assumption ].
Qed.

Lemma values_after : forall h st, housed st -> proper st h -> forall gi n p o, gi < length (graphs st) ->
  In (n, p, o) (nth gi (graphs (after st h)) []) <-> stands st h (gi, n) p o.
Proof.
  induction h as [|w h IH] using rev_ind; intros st Hs P gi n p o Hgi.
  - split; [ constructor; assumption | ]. intros H. inversion H as [? ? ? ? X E| h' w' ? ? ? S E|h' w' ? ? ? S U E]; subst;
      [ exact X | destruct h'; discriminate E | destruct h'; discriminate E ].
  - apply proper_snoc in P as [P A]. rewrite after_snoc, stands_snoc.
    rewrite (write_In _ w (housed_after h st Hs) A) by (rewrite (proj1 (keeps_after h st)); exact Hgi).
    rewrite IH by assumption. reflexivity.
Qed.

Lemma objects_remove_away : forall order m pp oo n p g, ~ (m = n /\ covers pp p) ->
  g_objects order n p (g_remove (Some m) pp oo g) = g_objects order n p g.
Proof.
  intros order m pp oo n p g N. unfold g_objects, g_remove. do 2 f_equal.
  induction g as [|[[a b] c] g IH]; [ reflexivity | ]. cbn [filter].
  destruct (matches (Some m) pp oo (a, b, c)) eqn:E; cbn [negb].
  - rewrite IH. apply matches_spec in E as (E1 & E2 & _). apply covers_some in E1. subst a.
    destruct (matches (Some n) (Some p) None (m, b, c)) eqn:F; [ exfalso | reflexivity ].
    apply matches_spec in F as (F1 & F2 & _). apply covers_some in F1, F2. subst. auto.
  - cbn [filter]. rewrite IH. reflexivity.
Qed.

Lemma objects_label_other : forall order n p m v lang g, ~ (n = m /\ (p = a_label \/ p = a_skos_label)) ->
  g_objects order n p (set_label g m v lang) = g_objects order n p g.
Proof.
  intros order n p m v lang g N. unfold set_label, md_add.
  rewrite !objects_add_other; [ reflexivity | | ]; intros E; injection E as -> ->; apply N; auto.
Qed.

Lemma objects_in_graph : forall order st c f gi n p, c_graph (obj st c) < length (graphs st) ->
  (c_graph (obj st c) = gi -> g_objects order n p (f (nth gi (graphs st) [])) = g_objects order n p (nth gi (graphs st) [])) ->
  g_objects order n p (nth gi (graphs (in_graph st c f)) []) = g_objects order n p (nth gi (graphs st) []).
Proof.
  intros order st c f gi n p Hg H. rewrite nth_graph by exact Hg.
  destruct (Nat.eqb_spec (c_graph (obj st c)) gi); auto.
Qed.

Lemma write_leaves : forall order st w, housed st -> Forall (fun c => c < length (objs st)) (about w) ->
  forall gi n p, leaves st w (gi, n) p ->
  g_objects order n p (nth gi (graphs (do_write st w)) []) = g_objects order n p (nth gi (graphs st) []).
Proof.
  intros order st w [H0 H1] A gi n p L.
  assert (LS : forall o, ~ says st w (gi, n) p o) by (intros o; apply L).
  assert (LU : forall o, ~ unsays st w (gi, n) p o) by (intros o; apply L). clear L.
  destruct w as [k id urn|c q|c v|c v|c v|c l|c v lang|c name v lang|c prop v|c pp oo]; cbn [do_write about] in *;
    try (assert (Hg : c_graph (obj st c) < length (graphs st)) by (apply H1; inversion A; assumption));
    try (assert (Pl : c_graph (obj st c) = gi -> place st c = (gi, URI (c_id (obj st c)))) by (intros <-; reflexivity)).
  - cbn [new_object fst graphs with_graph]. rewrite nth_upd. apply Nat.ltb_lt in H0. rewrite H0, andb_true_r.
    destruct (Nat.eqb_spec 0 gi) as [<-|E]; [ | reflexivity ].
    rewrite !objects_set_other; [ reflexivity | | ]; intros E; injection E as -> ->.
    + apply (LU (URI [])). constructor. left. reflexivity.
    + apply (LU (URI [])). constructor. right. reflexivity.
  - rewrite graphs_set_parent by (inversion A as [|? ? X Y]; subst; inversion Y; subst; assumption).
    apply objects_in_graph; [ exact Hg | ]. intros E. apply objects_add_other. intros X. injection X as -> ->.
    eapply LS. rewrite <- (Pl E). constructor.
  - apply objects_in_graph; [ exact Hg | ]. intros E. apply objects_set_other. intros X. injection X as -> ->.
    eapply LS. change (node (obj st c)) with (URI (c_id (obj st c))). rewrite <- (Pl E). constructor.
  - unfold set_type. destruct (as_uri v) as [u|e] eqn:F; [ | reflexivity ]. apply as_uri_of in F.
    apply objects_in_graph; [ exact Hg | ]. intros E. apply objects_set_other. intros X. injection X as -> ->.
    eapply LS. change (node (obj st c)) with (URI (c_id (obj st c))). rewrite <- (Pl E). constructor. exact F.
  - unfold set_model. destruct (as_uri v) as [u|e] eqn:F; [ | reflexivity ]. apply as_uri_of in F.
    apply objects_in_graph; [ exact Hg | ]. intros E. apply objects_set_other. intros X. injection X as -> ->.
    eapply LS. change (node (obj st c)) with (URI (c_id (obj st c))). rewrite <- (Pl E). constructor. exact F.
  - assert (D : has_lang (c_kind (obj st c)) /\ assign_lang st c l = in_graph st c (g_set (URI (c_id (obj st c)), a_language, Literal l None None))
               \/ assign_lang st c l = st).
    { unfold assign_lang, has_lang. destruct (c_kind (obj st c)); try (right; reflexivity); left; (split; [ eauto | reflexivity ]). }
    destruct D as [[Hl ->]| ->]; [ | reflexivity ].
    apply objects_in_graph; [ exact Hg | ]. intros E. apply objects_set_other. intros X. injection X as -> ->.
    eapply LS. rewrite <- (Pl E). constructor. exact Hl.
  - apply objects_in_graph; [ exact Hg | ]. intros E. apply objects_label_other. intros [-> X].
    eapply LS. change (node (obj st c)) with (URI (c_id (obj st c))). rewrite <- (Pl E). constructor. exact X.
  - unfold set_property. destruct (is_cts (c_kind (obj st c))) eqn:F; [ | reflexivity ]. apply is_cts_kind in F.
    apply objects_in_graph; [ exact Hg | ]. intros E. unfold set_cts_property, md_add. rewrite objects_add_other.
    + destruct (title_key (c_kind (obj st c))) as [x|] eqn:T; [ | reflexivity ].
      destruct (term_eqb (cts_term name) x) eqn:Q; [ | reflexivity ]. apply term_eqb_eq in Q. subst x. apply title_key_titles in T.
      apply objects_label_other. intros [-> X]. eapply LS. change (node (obj st c)) with (URI (c_id (obj st c))). rewrite <- (Pl E).
      apply says_property_title; assumption.
    + intros X. injection X as -> ->. eapply LS. change (node (obj st c)) with (URI (c_id (obj st c))). rewrite <- (Pl E).
      apply says_property. exact F.
  - unfold set_link. destruct (is_cts (c_kind (obj st c))) eqn:F; [ | reflexivity ]. apply is_cts_kind in F.
    destruct (as_uri v) as [u|e] eqn:G; [ | reflexivity ]. apply as_uri_of in G.
    apply objects_in_graph; [ exact Hg | ]. intros E. unfold md_add. apply objects_add_other. intros X. injection X as -> ->.
    eapply LS. change (node (obj st c)) with (URI (c_id (obj st c))). rewrite <- (Pl E). constructor; [ exact F | exact G ].
  - apply objects_in_graph; [ exact Hg | ]. intros E. unfold md_remove. apply objects_remove_away. intros [<- X].
    destruct oo as [t|].
    + apply (LU t). rewrite <- (Pl E). constructor; [ exact X | right; reflexivity ].
    + apply (LU (URI [])). rewrite <- (Pl E). constructor; [ exact X | left; reflexivity ].
Qed.

Lemma quiet_objects : forall order at_ p h st, housed st -> proper st h -> quiet st at_ p h ->
  g_objects order (snd at_) p (nth (fst at_) (graphs (after st h)) []) = g_objects order (snd at_) p (nth (fst at_) (graphs st) []).
Proof.
  intros order [gi n] p h st Hs P Q. cbn [fst snd]. induction h as [|w h IH] using rev_ind; [ reflexivity | ].
  apply proper_snoc in P as [P A].
  assert (Q' : quiet st (gi, n) p h /\ leaves (after st h) w (gi, n) p).
  { inversion Q as [E|h' w' X Y E]; [ destruct h; discriminate E | ]. apply app_inj_tail in E as [-> ->]. auto. }
  rewrite after_snoc, write_leaves; [ apply IH; [ exact P | apply Q' ] | apply housed_after, Hs | exact A | apply Q' ].
Qed.

(** ** Choosing one value *)
Lemma get_single_picked : forall order, arranges order -> forall g n k lang,
  (lang <> None -> forall v, In (n, k, v) g -> is_literal v) ->
  exists r, md_get_single order g n k lang = Ok r /\ picked (fun v => In (n, k, v) g) lang r.
Proof.
  intros order Ho g n k lang L. destruct lang as [l|].
  - destruct (single_language order Ho g [] n k l) as (r & E & R).
    + intros v [[H _]|(b & c & a & X & _)]; [ apply L; [ discriminate | exact H ] | destruct b; discriminate X ].
    + exists r. split; [ exact E | ].
      assert (HH : forall v, holds g [] n k v <-> In (n, k, v) g).
      { intros v. split; [ intros [[H _]|(b & c & a & X & _)]; [ exact H | destruct b; discriminate X ] | intros H; left; auto ]. }
      destruct r as [v|]; cbn [picked].
      * destruct R as [R1 R2]. split; [ apply HH, R1 | ]. intros l' X. injection X as <-. destruct R2 as [R2|R2]; [ auto | right ].
        intros w Hw. apply R2, HH, Hw.
      * intros v Hv. apply (R v), HH, Hv.
  - exists (hd_error (g_objects order n k g)). split; [ reflexivity | ].
    destruct (g_objects order n k g) as [|v os] eqn:E; cbn [hd_error picked].
    + intros v Hv. apply (In_objects order Ho) in Hv. rewrite E in Hv. destruct Hv.
    + split; [ | discriminate ]. apply (In_objects order Ho). rewrite E. left. reflexivity.
Qed.
Lemma get_label_picked : forall order, arranges order -> forall g n lang,
  (lang <> None -> forall v, In (n, a_label, v) g -> is_literal v) ->
  exists r, get_label order g n lang = Ok r /\ picked (fun v => In (n, a_label, v) g) lang r.
Proof.
  intros order Ho g n lang L.
  destruct (get_single_picked order Ho g n a_label lang L) as (r & E & R). exists r. split; [ | exact R ].
  rewrite <- E. unfold get_label, md_get_single. change rdfs_label with a_label. destruct lang as [l|].
  - apply label_in_single.
  - destruct (g_objects order n a_label g); reflexivity.
Qed.
