(** Proofs about the languages and siblings of texts, and about equality. *)

From Coq Require Import List NArith Arith Bool Lia Permutation.
From Verif Require Import PyStr PyStrFacts MetaModel MetaSpec MetaProofs UrnModel
  CollModel CollSpec CollProofs CollHist.
Import ListNotations.

Lemma objects_set : forall order, arranges order -> forall s p o g,
  g_objects order s p (g_set (s, p, o) g) = [o].
Proof.
  intros order Ho s p o g. unfold g_objects, g_set, g_add, g_remove.
  assert (E : existsb (triple_eqb (s, p, o))
    (filter (fun t => negb (matches (Some s) (Some p) None t)) g) = false).
  { apply not_true_iff_false. rewrite existsb_exists. intros [t [Ht E]].
    apply filter_In in Ht as [_ Ht]. apply triple_eqb_eq in E. subst t.
    cbn in Ht. rewrite !(proj2 (term_eqb_eq _ _) eq_refl) in Ht. discriminate. }
  rewrite E, filter_app.
  assert (F : filter (matches (Some s) (Some p) None)
    (filter (fun t => negb (matches (Some s) (Some p) None t)) g) = []).
  { apply filter_none. intros t Ht. apply filter_In in Ht as [_ Ht].
    apply negb_true_iff in Ht. exact Ht. }
  rewrite F. cbn [app filter matches pos_matches].
  rewrite !(proj2 (term_eqb_eq _ _) eq_refl). cbn.
  apply Permutation_length_1_inv. apply Ho.
Qed.

Lemma objects_add_other : forall order s p s' p' o g, (s, p) <> (s', p') ->
  g_objects order s p (g_add (s', p', o) g) = g_objects order s p g.
Proof.
  intros order s p s' p' o g N. unfold g_objects, g_add.
  destruct (existsb (triple_eqb (s', p', o)) g); [ reflexivity | ].
  rewrite filter_app. cbn [filter matches pos_matches].
  destruct (term_eqb s s') eqn:E1; cbn [andb].
  - apply term_eqb_eq in E1. subst s'. destruct (term_eqb p p') eqn:E2; cbn [andb].
    + apply term_eqb_eq in E2. subst p'. congruence.
    + rewrite app_nil_r. reflexivity.
  - rewrite app_nil_r. reflexivity.
Qed.

Lemma objects_remove_other : forall order s p s' p' g, (s, p) <> (s', p') ->
  g_objects order s p (g_remove (Some s') (Some p') None g) = g_objects order s p g.
Proof.
  intros order s p s' p' g N. unfold g_objects, g_remove. do 2 f_equal.
  induction g as [|[[a b] c] g IH]; [ reflexivity | ]. cbn [filter].
  destruct (matches (Some s') (Some p') None (a, b, c)) eqn:E; cbn [negb].
  - rewrite IH. cbn in E. apply andb_true_iff in E as [E _]. apply andb_true_iff in E as [E1 E2].
    apply term_eqb_eq in E1, E2. subst a b.
    cbn [matches pos_matches].
    destruct (term_eqb s s') eqn:E1; cbn [andb]; [ | reflexivity ].
    apply term_eqb_eq in E1. subst s'.
    destruct (term_eqb p p') eqn:E2; cbn [andb]; [ | reflexivity ].
    apply term_eqb_eq in E2. congruence.
  - cbn [filter]. rewrite IH. reflexivity.
Qed.

Lemma objects_set_other : forall order s p s' p' o g, (s, p) <> (s', p') ->
  g_objects order s p (g_set (s', p', o) g) = g_objects order s p g.
Proof.
  intros. unfold g_set. rewrite objects_add_other, objects_remove_other by assumption. reflexivity.
Qed.

Definition carries_lang (k : kind) : bool :=
  match k with KText _ | KWork => true | _ => false end.

Lemma get_lang_set : forall order, arranges order -> forall st c l,
  carries_lang (c_kind (obj st c)) = true -> c_graph (obj st c) < length (graphs st) ->
  get_lang order (set_lang st c l) c = Ok l.
Proof.
  intros order Ho st c l K G. unfold get_lang, set_lang.
  change (obj (with_graph st _ _) c) with (obj st c). cbn [graphs with_graph].
  rewrite nth_upd, Nat.eqb_refl. apply Nat.ltb_lt in G. rewrite G. cbn [andb].
  rewrite objects_set by exact Ho.
  destruct (c_kind (obj st c)); try discriminate K; reflexivity.
Qed.

Lemma get_lang_same : forall order st st' c,
  c_kind (obj st' c) = c_kind (obj st c) -> c_id (obj st' c) = c_id (obj st c) ->
  c_graph (obj st' c) = c_graph (obj st c) ->
  g_objects order (node (obj st c)) dc_language (nth (c_graph (obj st c)) (graphs st') [])
  = g_objects order (node (obj st c)) dc_language (nth (c_graph (obj st c)) (graphs st) []) ->
  get_lang order st' c = get_lang order st c.
Proof.
  intros order st st' c A B C D. unfold get_lang, node in *. rewrite A, B, C, D. reflexivity.
Qed.

Lemma lang_new : forall order st k id urn p, p < length (objs st) ->
  get_lang order (fst (new_object st k id urn)) p = get_lang order st p.
Proof.
  intros order st k id urn p Hp.
  assert (E : obj (fst (new_object st k id urn)) p = obj st p).
  { rewrite obj_new. assert (X : Nat.eqb p (length (objs st)) = false) by (apply Nat.eqb_neq; lia).
    rewrite X. reflexivity. }
  apply get_lang_same; rewrite ?E; try reflexivity.
  cbn [new_object fst graphs with_graph]. rewrite nth_upd.
  destruct (Nat.eqb 0 (c_graph (obj st p)) && _); [ | reflexivity ].
  rewrite !objects_set_other; [ reflexivity | | ]; intros X; apply (f_equal snd) in X;
    vm_compute in X; discriminate.
Qed.

Lemma lang_parent : forall order st c q p,
  c < length (objs st) -> q < length (objs st) ->
  get_lang order (set_parent st c q) p = get_lang order st p.
Proof.
  intros order st c q p Hc Hq. apply get_lang_same; try (rewrite obj_set_parent by assumption; reflexivity).
  rewrite graphs_set_parent by exact Hc. rewrite nth_upd.
  destruct (Nat.eqb _ _ && _); [ | reflexivity ].
  apply objects_add_other. intros X; apply (f_equal snd) in X; vm_compute in X; discriminate.
Qed.

Lemma new_index : forall st k id urn, snd (new_object st k id urn) = length (objs st).
Proof. reflexivity. Qed.

Lemma new_length : forall st k id urn,
  length (objs (fst (new_object st k id urn))) = S (length (objs st)).
Proof. intros. cbn. rewrite app_length. cbn. lia. Qed.

(** A text created with a language has it. *)
Theorem created_with_language : forall order, arranges order ->
  forall st sub urn parent l st' c, graphs st <> [] ->
  (forall p, parent = Some p -> p < length (objs st)) ->
  new_cts order st (KText sub) urn parent (Some l) = (st', Ok c) ->
  get_lang order st' c = Ok l.
Proof.
  intros order Ho st sub urn parent l st' c Hg Hp H. unfold new_cts in H.
  set (txt := u <- urn_parse urn ;; to_str u) in H.
  destruct (new_object st (KText sub) urn (match txt with Ok t => t | Err _ => [] end)) as [st1 x] eqn:E.
  assert (E1 : st1 = fst (new_object st (KText sub) urn (match txt with Ok t => t | Err _ => [] end)))
    by (rewrite E; reflexivity).
  assert (E2 : x = length (objs st)) by (unfold new_object in E; injection E as _ <-; reflexivity).
  destruct txt as [t|e]; [ | discriminate ].
  assert (Ox : obj st1 x = MkColl (KText sub) urn t None [] 0).
  { rewrite E1, E2, obj_new, Nat.eqb_refl. reflexivity. }
  assert (Gl : length (graphs st1) = length (graphs st)) by (rewrite E1; cbn; apply length_upd).
  assert (L : get_lang order (set_lang st1 x l) x = Ok l).
  { apply get_lang_set; [ exact Ho | rewrite Ox; reflexivity | ]. rewrite Ox, Gl. cbn.
    destruct (graphs st); [ congruence | cbn; lia ]. }
  assert (Lx : length (objs (set_lang st1 x l)) = S (length (objs st))).
  { change (objs (set_lang st1 x l)) with (objs st1). rewrite E1. apply new_length. }
  destruct parent as [p|].
  - injection H as <- <-. rewrite lang_parent; [ exact L | rewrite Lx; lia | ].
    rewrite Lx. specialize (Hp p eq_refl). lia.
  - injection H as <- <-. exact L.
Qed.

(** A text created under a work without a language has the language of the
    work. *)
Theorem created_without_language : forall order, arranges order ->
  forall st sub urn p st' c, graphs st <> [] -> p < length (objs st) ->
  new_cts order st (KText sub) urn (Some p) None = (st', Ok c) ->
  get_lang order st' c = get_lang order st p.
Proof.
  intros order Ho st sub urn p st' c Hg Hp H. unfold new_cts in H.
  set (txt := u <- urn_parse urn ;; to_str u) in H.
  destruct (new_object st (KText sub) urn (match txt with Ok t => t | Err _ => [] end)) as [st1 x] eqn:E.
  assert (E1 : st1 = fst (new_object st (KText sub) urn (match txt with Ok t => t | Err _ => [] end)))
    by (rewrite E; reflexivity).
  assert (E2 : x = length (objs st)) by (unfold new_object in E; injection E as _ <-; reflexivity).
  destruct txt as [t|e]; [ | discriminate ].
  assert (Lx : length (objs st1) = S (length (objs st))) by (rewrite E1; apply new_length).
  assert (Lp : get_lang order (set_parent st1 x p) p = get_lang order st p).
  { rewrite lang_parent by lia. rewrite E1. apply lang_new. exact Hp. }
  rewrite Lp in H. destruct (get_lang order st p) as [l|e]; [ | discriminate ].
  injection H as <- <-. apply get_lang_set; [ exact Ho | | ].
  - rewrite obj_set_parent by lia. cbn [c_kind]. rewrite E1, E2, obj_new, Nat.eqb_refl. reflexivity.
  - rewrite obj_set_parent by lia. cbn [c_graph]. rewrite graphs_set_parent by lia. rewrite length_upd.
    rewrite E1, E2, obj_new, Nat.eqb_refl. cbn. rewrite length_upd.
    destruct (graphs st); [ congruence | cbn; lia ].
Qed.

(** ... and fails under anything that has no language. *)
Theorem created_without_language_error : forall order,
  forall st sub urn p u t, graphs st <> [] -> p < length (objs st) ->
  urn_parse urn = Ok u -> to_str u = Ok t ->
  carries_lang (c_kind (obj st p)) = false ->
  snd (new_cts order st (KText sub) urn (Some p) None) = Err AttributeError.
Proof.
  intros order st sub urn p u t Hg Hp Hu Ht Hk. unfold new_cts. rewrite Hu. cbn [bind]. rewrite Ht.
  destruct (new_object st (KText sub) urn t) as [st1 x] eqn:E.
  assert (E1 : st1 = fst (new_object st (KText sub) urn t)) by (rewrite E; reflexivity).
  assert (E2 : x = length (objs st)) by (unfold new_object in E; injection E as _ <-; reflexivity).
  assert (Lx : length (objs st1) = S (length (objs st))) by (rewrite E1; apply new_length).
  assert (G : get_lang order (set_parent st1 x p) p = Err AttributeError).
  { rewrite lang_parent by lia. rewrite E1, lang_new by exact Hp. unfold get_lang.
    destruct (c_kind (obj st p)); try discriminate Hk; reflexivity. }
  rewrite G. reflexivity.
Qed.

(** ** Siblings *)

Lemma filterM_filter : forall {A} (f : A -> result bool) (g : A -> bool) l,
  (forall a, In a l -> f a = Ok (g a)) -> filterM f l = Ok (filter g l).
Proof.
  intros A f g l. induction l as [|a l IH]; intros H; [ reflexivity | ]. cbn.
  rewrite (H a (or_introl eq_refl)). cbn. rewrite IH by (intros; apply H; right; assumption).
  reflexivity.
Qed.

Theorem translations_of_work : forall order st w key,
  exists f, get_translation_in order st w key = Ok (filter f (map snd (c_children (obj st w))))
    /\ forall t, f t = true
       <-> c_kind (obj st t) = KText Translation
           /\ (forall l, key = Some l -> get_lang order st t = Ok l).
Proof.
  intros order st w key.
  exists (fun t => match c_kind (obj st t) with
    | KText Translation => match key with
        | None => true
        | Some l => match get_lang order st t with Ok x => str_eqb x l | Err _ => false end
        end
    | _ => false end).
  split.
  - unfold get_translation_in. apply filterM_filter. intros t _. unfold is_translation, get_lang.
    destruct (c_kind (obj st t)) as [|[]| | | |]; try reflexivity.
    destruct key; reflexivity.
  - intros t. destruct (c_kind (obj st t)) as [|[]| | | |] eqn:K; try (split; [ discriminate | intros [X _]; discriminate ]).
    destruct key as [l|].
    + destruct (get_lang order st t) as [x|e]; split.
      * intros H. apply str_eqb_eq in H. subst x. split; [ reflexivity | ]. intros l' H. congruence.
      * intros [_ H]. specialize (H l eq_refl). injection H as ->. apply str_eqb_refl.
      * discriminate.
      * intros [_ H]. specialize (H l eq_refl). discriminate.
    + split; [ | reflexivity ]. intros _. split; [ reflexivity | discriminate ].
Qed.

Theorem siblings : forall order st t w, c_parent (obj st t) = Some w ->
  c_kind (obj st w) = KWork ->
  (forall key, text_translations order st t key = get_translation_in order st w key)
  /\ exists f, text_editions st t = Ok (filter f (map snd (c_children (obj st w))))
       /\ forall e, f e = true <-> c_kind (obj st e) = KText Edition.
Proof.
  intros order st t w Hp Hk. split.
  - intros key. unfold text_translations. rewrite Hp, Hk. reflexivity.
  - eexists. split; [ unfold text_editions; rewrite Hp; reflexivity | ]. intros e. unfold is_edition.
    cbn beta. destruct (c_kind (obj st e)) as [|[]| | | |]; split; congruence.
Qed.

(** ** Equality *)

Theorem coll_eq_spec : forall st a b,
  coll_eq st a b = true
  <-> a = b \/ (c_kind (obj st a) = c_kind (obj st b)
               /\ c_kind (obj st a) <> KCollection
               /\ c_urn (obj st a) = c_urn (obj st b)).
Proof.
  intros st a b. unfold coll_eq, cts_eq.
  destruct (Nat.eq_dec a b) as [->|N].
  { split; [ auto | intros _ ]. rewrite Nat.eqb_refl.
    destruct (c_kind (obj st b)) as [|[]| | | |]; reflexivity. }
  assert (E : Nat.eqb a b = false) by (apply Nat.eqb_neq; exact N).
  assert (E' : Nat.eqb b a = false) by (apply Nat.eqb_neq; auto).
  rewrite E, E'. cbn [orb].
  destruct (c_kind (obj st a)) as [|[]| | | |], (c_kind (obj st b)) as [|[]| | | |];
    cbn; rewrite ?str_eqb_eq; split; intros H; try discriminate H;
    try (right; repeat split; congruence);
    destruct H as [H|(H1 & H2 & H3)]; congruence.
Qed.
