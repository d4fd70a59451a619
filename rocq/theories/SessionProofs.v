(** Proofs about programs that work with several graphs. *)

From Coq Require Import List NArith ZArith Arith Bool Lia Permutation.
From Verif Require Import PyStr PyStrFacts MetaModel MetaSpec MetaProofs CollModel CollProofs FieldModel FieldSpec FieldProofs SessionModel SessionSpec.
Import ListNotations.

Lemma metadata_lives : forall w h at_, metadata w h = Some at_ <-> lives w h at_.
Proof.
  intros w h [g n]. unfold metadata. split.
  - destruct (nth_error (w_things w) h) as [[g' n'|g' id p kids|g' id n' mg mn]|] eqn:E; intros X; inversion X; subst.
    + apply lives_meta. exact E.
    + eapply lives_coll. exact E.
    + eapply lives_text. exact E.
  - intros L. inversion L as [g' n' E X|g' id p kids E X|g' id n' mg mn E X]; subst; unfold thing_at in E; rewrite E; reflexivity.
Qed.

Lemma lives_one : forall w h a b, lives w h a -> lives w h b -> a = b.
Proof. intros w h a b A B. apply metadata_lives in A. apply metadata_lives in B. congruence. Qed.

Lemma named_node : forall w h t n, thing_at w h t -> (named w h n <-> n = as_node t).
Proof.
  intros w h t n T. unfold thing_at in T. split.
  - intros N. inversion N as [g' n' E|g' id p kids E|g' id n' mg mn E]; subst; unfold thing_at in E; rewrite E in T; injection T as <-; reflexivity.
  - intros ->. destruct t as [g' n'|g' id p kids|g' id n' mg mn]; cbn [as_node].
    + eapply named_meta; exact T.
    + eapply named_coll; exact T.
    + eapply named_text; exact T.
Qed.

(** Reading a graph after a change of one graph. *)
Lemma nth_in_graph : forall w i f g, i < length (w_graphs w) ->
  nth g (w_graphs (in_graph w i f)) [] = if Nat.eqb g i then f (nth g (w_graphs w) []) else nth g (w_graphs w) [].
Proof.
  intros w i f g L. cbn [in_graph w_graphs]. rewrite nth_upd. destruct (Nat.eqb g i) eqn:E.
  - apply Nat.eqb_eq in E. subst. destruct (Nat.ltb i (length (w_graphs w))) eqn:B; [|apply Nat.ltb_ge in B; lia].
    try rewrite Nat.eqb_refl. reflexivity.
  - try rewrite E. try (rewrite Nat.eqb_sym in E; rewrite E). reflexivity.
Qed.

(** What a deed does to the graphs. *)
Section Order.
Variable order : list term -> list term.

Definition effect (d : deed) (w : world) : option (nat * (graph -> graph)) :=
  let meta h f := match metadata w h with Some (g, n) => Some (g, f n) | None => None end in
  let coll h f := match nth_error (w_things w) h with Some (Coll g id _ _) => Some (g, f (URI id)) | _ => None end in
  match d with
  | NewColl id => Some (w_now w, fun G => g_set (URI id, dts_model, URI (dts_ns ++ #"collection")) (g_set (URI id, rdf_type, URI (dts_ns ++ #"collection")) G))
  | NewText id given =>
      match given with
      | Some h => match metadata w h with Some _ => Some (w_now w, g_add (BNode (w_blanks w), implements, URI id)) | None => None end
      | None => Some (w_now w, g_add (BNode (w_blanks w), implements, URI id))
      end
  | AddValue h key v lang => meta h (fun n G => md_add G n key v lang)
  | SetValue h key v lang => meta h (fun n G => md_set G n key v lang)
  | Remove h p o => meta h (fun n G => md_remove G n p o)
  | Unlink h s p => meta h (fun n G => md_unlink G n s p)
  | SetType h v => match as_uri v with Ok u => coll h (fun n => g_set (n, rdf_type, u)) | Err _ => None end
  | SetModel h v => match as_uri v with Ok u => coll h (fun n => g_set (n, dts_model, u)) | Err _ => None end
  | SetVersion h v => coll h (fun n => g_set (n, dts_version, literal_of v None))
  | Label h v lang => coll h (fun n G => set_label G n v lang)
  | SetParent h p => match nth_error (w_things w) p with Some t => coll h (fun n => g_add (n, cpt_parent, as_node t)) | None => None end
  | SetField h f v lang =>
      match nth_error (w_things w) h with
      | Some (Text _ _ _ mg mn) => Some (mg, fun G => md_add G mn (field_key f) v lang)
      | _ => None
      end
  | _ => None
  end.

Lemma metadata_housed : forall w h g n, housed w -> metadata w h = Some (g, n) -> g < length (w_graphs w).
Proof.
  intros w h g n [_ H] M. unfold metadata in M. destruct (nth_error (w_things w) h) as [t|] eqn:E; [|discriminate].
  specialize (H h t E). destruct t; injection M as <- <-; tauto.
Qed.
Lemma coll_housed : forall w h g id p kids, housed w -> nth_error (w_things w) h = Some (Coll g id p kids) -> g < length (w_graphs w).
Proof. intros w h g id p kids [_ H] E. exact (H h _ E). Qed.

Lemma upd_twice : forall {A} (l : list A) i f f', upd (upd l i f) i f' = upd l i (fun x => f' (f x)).
Proof. intros A l. induction l as [|x l IH]; intros [|i] f f'; cbn; auto. rewrite IH. reflexivity. Qed.

Lemma graphs_perform : forall d w,
  w_graphs (fst (perform order d w)) =
  match effect d w with
  | Some (i, f) => upd (w_graphs w) i f
  | None => match d with BindGraph => w_graphs w ++ [[]] | _ => w_graphs w end
  end.
Proof.
  intros d w. destruct d; cbn [perform effect].
  - reflexivity.
  - unfold set_graph. destruct (i <? length (w_graphs w)); reflexivity.
  - unfold new_metadata, metadata_init, blank. destruct n; reflexivity.
  - unfold get_or, new_metadata, metadata_init, blank. destruct (existsb _ _); [destruct (g_objects _ _ _ _); reflexivity|]. destruct n; reflexivity.
  - unfold new_collection, put, in_graph, get_graph. cbn. rewrite upd_twice. reflexivity.
  - unfold new_text, metadata_init, blank, put, in_graph, get_graph. destruct given as [h|]; [destruct (metadata w h) as [[mg mn]|]|]; reflexivity.
  - unfold add_value, on_metadata. destruct (metadata w h) as [[g n]|]; reflexivity.
  - unfold set_value, on_metadata. destruct (metadata w h) as [[g n]|]; reflexivity.
  - unfold remove, on_metadata. destruct (metadata w h) as [[g n]|]; reflexivity.
  - unfold unlink, on_metadata. destruct (metadata w h) as [[g n]|]; reflexivity.
  - unfold set_type, on_collection. destruct (as_uri v); [|reflexivity]. destruct (nth_error (w_things w) h) as [[| |]|]; reflexivity.
  - unfold set_model, on_collection. destruct (as_uri v); [|reflexivity]. destruct (nth_error (w_things w) h) as [[| |]|]; reflexivity.
  - unfold set_version, on_collection. rewrite version_value. destruct (nth_error (w_things w) h) as [[| |]|]; reflexivity.
  - unfold label, on_collection. destruct (nth_error (w_things w) h) as [[| |]|]; reflexivity.
  - unfold set_parent. destruct (nth_error (w_things w) h) as [[| |]|]; destruct (nth_error (w_things w) p) as [[| |]|]; reflexivity.
  - unfold set_field, add_value, on_metadata, metadata. destruct (nth_error (w_things w) h) as [[| |]|]; reflexivity.
Qed.

Lemma effect_housed : forall d w i f, housed w -> effect d w = Some (i, f) -> i < length (w_graphs w).
Proof.
  intros d w i f H E. destruct d; cbn [effect] in E; try discriminate.
  - injection E as <- _. apply H.
  - destruct given as [h|]; [destruct (metadata w h); [|discriminate]|]; injection E as <- _; apply H.
  - destruct (metadata w h) as [[g n]|] eqn:M; [|discriminate]. injection E as <- _. eapply metadata_housed; eassumption.
  - destruct (metadata w h) as [[g n]|] eqn:M; [|discriminate]. injection E as <- _. eapply metadata_housed; eassumption.
  - destruct (metadata w h) as [[g n]|] eqn:M; [|discriminate]. injection E as <- _. eapply metadata_housed; eassumption.
  - destruct (metadata w h) as [[g n]|] eqn:M; [|discriminate]. injection E as <- _. eapply metadata_housed; eassumption.
  - destruct (as_uri v); [|discriminate]. destruct (nth_error (w_things w) h) as [[| |]|] eqn:M; try discriminate. injection E as <- _. eapply coll_housed; eassumption.
  - destruct (as_uri v); [|discriminate]. destruct (nth_error (w_things w) h) as [[| |]|] eqn:M; try discriminate. injection E as <- _. eapply coll_housed; eassumption.
  - destruct (nth_error (w_things w) h) as [[| |]|] eqn:M; try discriminate. injection E as <- _. eapply coll_housed; eassumption.
  - destruct (nth_error (w_things w) h) as [[| |]|] eqn:M; try discriminate. injection E as <- _. eapply coll_housed; eassumption.
  - destruct (nth_error (w_things w) p); [|discriminate]. destruct (nth_error (w_things w) h) as [[| |]|] eqn:M; try discriminate. injection E as <- _. eapply coll_housed; eassumption.
  - destruct (nth_error (w_things w) h) as [[| |]|] eqn:M; try discriminate. injection E as <- _. apply (proj2 H h _ M).
Qed.

Lemma nth_perform : forall d w g, housed w ->
  nth g (w_graphs (fst (perform order d w))) [] =
  match effect d w with
  | Some (i, f) => if Nat.eqb g i then f (nth g (w_graphs w) []) else nth g (w_graphs w) []
  | None => nth g (w_graphs w) []
  end.
Proof.
  intros d w g H. rewrite graphs_perform. destruct (effect d w) as [[i f]|] eqn:E.
  - apply (effect_housed d w i f H) in E. apply (nth_in_graph w i f g E).
  - destruct d; try reflexivity. destruct (Nat.lt_ge_cases g (length (w_graphs w))) as [L|L].
    + rewrite app_nth1 by exact L. reflexivity.
    + rewrite app_nth2 by exact L. rewrite (nth_overflow (w_graphs w)) by exact L. destruct (g - length (w_graphs w)) as [|[|k]]; reflexivity.
Qed.

(** Statements. *)
Lemma In_set : forall s q v g n p o, In (n, p, o) (g_set (s, q, v) g) <-> (n, p, o) = (s, q, v) \/ In (n, p, o) g /\ ~ (n = s /\ p = q).
Proof.
  intros s q v g n p o. unfold g_set. rewrite In_add, In_remove. split.
  - intros [X|[X Y]]; [left; exact X|right]. split; [exact X|]. intros [-> ->]. apply Y. split; [right; reflexivity|]. split; [right; reflexivity|left; reflexivity].
  - intros [X|[X Y]]; [left; exact X|right]. split; [exact X|]. intros (A & B & _). apply covers_some in A. apply covers_some in B. subst. apply Y. auto.
Qed.

Lemma coll_lives : forall w h g id p kids at_, nth_error (w_things w) h = Some (Coll g id p kids) -> lives w h at_ -> at_ = (g, URI id).
Proof. intros w h g id p kids at_ E L. eapply lives_one; [exact L|]. eapply lives_coll. exact E. Qed.
Lemma a_coll : forall w h, a_collection w h -> exists g id p kids, nth_error (w_things w) h = Some (Coll g id p kids).
Proof. intros w h X. exact X. Qed.

Lemma says_effect : forall w d g n p o, says w d (g, n) p o -> exists f, effect d w = Some (g, f).
Proof.
  intros w d g n p o S. inversion S; subst; cbn [effect].
  - eexists; reflexivity.
  - eexists; reflexivity.
  - destruct given as [h|]; [|eexists; reflexivity]. match goal with H : forall h, _ |- _ => destruct (H h eq_refl) as (t & T) end.
    unfold metadata. unfold thing_at in T. rewrite T. destruct t; eexists; reflexivity.
  - match goal with L : lives _ _ _ |- _ => apply metadata_lives in L; rewrite L end. eexists; reflexivity.
  - match goal with L : lives _ _ _ |- _ => apply metadata_lives in L; rewrite L end. eexists; reflexivity.
  - match goal with A : a_collection _ _, L : lives _ _ _, U : uri_of _ _ |- _ => apply as_uri_of in U; rewrite U; destruct A as (g' & id & q & kids & E); unfold thing_at in E; rewrite E;
      apply (coll_lives _ _ _ _ _ _ _ E) in L; injection L as -> _ end. eexists; reflexivity.
  - match goal with A : a_collection _ _, L : lives _ _ _, U : uri_of _ _ |- _ => apply as_uri_of in U; rewrite U; destruct A as (g' & id & q & kids & E); unfold thing_at in E; rewrite E;
      apply (coll_lives _ _ _ _ _ _ _ E) in L; injection L as -> _ end. eexists; reflexivity.
  - match goal with A : a_collection _ _, L : lives _ _ _ |- _ => destruct A as (g' & id & q & kids & E); unfold thing_at in E; rewrite E;
      apply (coll_lives _ _ _ _ _ _ _ E) in L; injection L as -> _ end. eexists; reflexivity.
  - match goal with A : a_collection _ _, L : lives _ _ _ |- _ => destruct A as (g' & id & q & kids & E); unfold thing_at in E; rewrite E;
      apply (coll_lives _ _ _ _ _ _ _ E) in L; injection L as -> _ end. eexists; reflexivity.
  - match goal with N : named _ _ _ |- _ => inversion N as [? ? T|? ? ? ? T|? ? ? ? ? T]; subst; unfold thing_at in T; rewrite T end;
    match goal with A : a_collection _ _, L : lives _ _ _ |- _ => destruct A as (g' & id' & q & kids' & E); unfold thing_at in E; rewrite E;
      apply (coll_lives _ _ _ _ _ _ _ E) in L; injection L as -> _ end; eexists; reflexivity.
  - match goal with A : a_text _ _, L : lives _ _ _ |- _ => destruct A as (g' & id & m & mg & mn & E); apply metadata_lives in L; unfold metadata in L; unfold thing_at in E; rewrite E in L |- *; injection L as -> _ end.
    eexists; reflexivity.
Qed.

Lemma unsays_effect : forall w d g n p o, unsays w d (g, n) p o -> exists f, effect d w = Some (g, f).
Proof.
  intros w d g n p o S. inversion S; subst; cbn [effect].
  - eexists; reflexivity.
  - match goal with L : lives _ _ _ |- _ => apply metadata_lives in L; rewrite L end. eexists; reflexivity.
  - match goal with A : a_collection _ _, L : lives _ _ _, U : uri_of _ _ |- _ => apply as_uri_of in U; rewrite U; destruct A as (g' & id & q & kids & E); unfold thing_at in E; rewrite E;
      apply (coll_lives _ _ _ _ _ _ _ E) in L; injection L as -> _ end. eexists; reflexivity.
  - match goal with A : a_collection _ _, L : lives _ _ _, U : uri_of _ _ |- _ => apply as_uri_of in U; rewrite U; destruct A as (g' & id & q & kids & E); unfold thing_at in E; rewrite E;
      apply (coll_lives _ _ _ _ _ _ _ E) in L; injection L as -> _ end. eexists; reflexivity.
  - match goal with A : a_collection _ _, L : lives _ _ _ |- _ => destruct A as (g' & id & q & kids & E); unfold thing_at in E; rewrite E;
      apply (coll_lives _ _ _ _ _ _ _ E) in L; injection L as -> _ end. eexists; reflexivity.
  - match goal with L : lives _ _ _ |- _ => apply metadata_lives in L; rewrite L end. eexists; reflexivity.
  - match goal with L : lives _ _ _ |- _ => apply metadata_lives in L; rewrite L end. eexists; reflexivity.
Qed.

Lemma some_pair : forall {A B} (a c : A) (b d : B), Some (a, b) = Some (c, d) -> a = c /\ b = d.
Proof. intros A B a c b d X. injection X as -> ->. auto. Qed.
Ltac triple3 X := inversion X; subst; clear X.

Lemma step_In : forall d w g n p o, housed w ->
  (In (n, p, o) (nth g (w_graphs (fst (perform order d w))) []) <->
   says w d (g, n) p o \/ In (n, p, o) (nth g (w_graphs w) []) /\ ~ unsays w d (g, n) p o).
Proof.
  intros d w g n p o H. rewrite (nth_perform d w g H). set (G := nth g (w_graphs w) []).
  destruct (effect d w) as [[i f]|] eqn:E.
  2:{ split.
      - intros X. right. split; [exact X|]. intros U. apply unsays_effect in U. destruct U as (f & U). congruence.
      - intros [X|[X _]]; [|exact X]. apply says_effect in X. destruct X as (f & X). congruence. }
  destruct (Nat.eqb g i) eqn:GI.
  2:{ apply Nat.eqb_neq in GI. split.
      - intros X. right. split; [exact X|]. intros U. apply unsays_effect in U. destruct U as (f' & U). congruence.
      - intros [X|[X _]]; [|exact X]. apply says_effect in X. destruct X as (f' & X). congruence. }
  apply Nat.eqb_eq in GI. subst i. destruct d; cbn [effect] in E; try discriminate.
  - (* NewColl *)
    apply some_pair in E; destruct E as [<- <-]. cbv beta. rewrite !In_set. split.
    + intros [X|[[X|[X Y]] Z]].
      * triple3 X. left. apply says_new_model.
      * triple3 X. left. apply says_new_type.
      * right. split; [exact X|]. intros U. inversion U as [id0 p0 o0 [P|P]| | | | | |]; subst; [apply Y; auto|apply Z; auto].
    + intros [S|[X U]].
      * inversion S; subst; [|left; reflexivity]. right. split; [left; reflexivity|]. intros [_ X]. discriminate X.
      * right. split; [right; split; [exact X|]|]; intros [-> ->]; apply U; apply unsays_new; auto.
  - (* NewText *)
    assert (F : g = w_now w /\ f = g_add (BNode (w_blanks w), implements, URI id) /\ (forall h, given = Some h -> exists t, thing_at w h t)).
    { destruct given as [h|]; [destruct (metadata w h) eqn:M; [|discriminate]|]; apply some_pair in E; destruct E as [<- <-]; (split; [reflexivity|split; [reflexivity|]]).
      - intros h' X. injection X as <-. unfold metadata in M. unfold thing_at. destruct (nth_error (w_things w) h) as [t|]; [exists t; reflexivity|discriminate].
      - intros h' X. discriminate. }
    destruct F as (-> & -> & K). rewrite In_add. split.
    + intros [X|X]; [triple3 X; left; apply says_implements; exact K|right]. split; [exact X|]. intros U. inversion U.
    + intros [S|[X _]]; [|right; exact X]. inversion S; subst. left. reflexivity.
  - (* AddValue *)
    destruct (metadata w h) as [[g' m]|] eqn:M; [|discriminate]. apply some_pair in E; destruct E as [<- <-]. cbv beta. unfold md_add. rewrite In_add, as_object_stored.
    pose proof (proj1 (metadata_lives w h _) M) as L. split.
    + intros [X|X]; [triple3 X; left; apply says_add; exact L|right]. split; [exact X|]. intros U. inversion U.
    + intros [S|[X _]]; [|right; exact X]. inversion S; subst. match goal with L' : lives _ _ (g', n) |- _ => pose proof (lives_one _ _ _ _ L L') as Q; injection Q as -> end. left. reflexivity.
  - (* SetValue *)
    destruct (metadata w h) as [[g' m]|] eqn:M; [|discriminate]. apply some_pair in E; destruct E as [<- <-]. cbv beta. unfold md_set. rewrite In_set, as_object_stored.
    pose proof (proj1 (metadata_lives w h _) M) as L. split.
    + intros [X|[X Y]]; [triple3 X; left; apply says_set; exact L|right]. split; [exact X|]. intros U. inversion U; subst.
      match goal with L' : lives _ _ (g', n) |- _ => pose proof (lives_one _ _ _ _ L L') as Q; injection Q as -> end. apply Y. auto.
    + intros [S|[X U]].
      * inversion S; subst. match goal with L' : lives _ _ (g', n) |- _ => pose proof (lives_one _ _ _ _ L L') as Q; injection Q as -> end. left. reflexivity.
      * right. split; [exact X|]. intros [-> ->]. apply U. apply unsays_set. exact L.
  - (* Remove *)
    destruct (metadata w h) as [[g' m]|] eqn:M; [|discriminate]. apply some_pair in E; destruct E as [<- <-]. cbv beta. unfold md_remove. rewrite In_remove.
    pose proof (proj1 (metadata_lives w h _) M) as L. split.
    + intros [X Y]. right. split; [exact X|]. intros U. inversion U; subst.
      match goal with L' : lives _ _ (g', n) |- _ => pose proof (lives_one _ _ _ _ L L') as Q; injection Q as -> end. apply Y. split; [right; reflexivity|]. auto.
    + intros [S|[X U]]; [inversion S|]. split; [exact X|]. intros (A & B & C). apply covers_some in A. subst. apply U. apply unsays_remove; assumption.
  - (* Unlink *)
    destruct (metadata w h) as [[g' m]|] eqn:M; [|discriminate]. apply some_pair in E; destruct E as [<- <-]. cbv beta. unfold md_unlink. rewrite In_remove.
    pose proof (proj1 (metadata_lives w h _) M) as L. split.
    + intros [X Y]. right. split; [exact X|]. intros U. inversion U; subst.
      match goal with L' : lives _ _ (g', o) |- _ => pose proof (lives_one _ _ _ _ L L') as Q; injection Q as -> end. apply Y. split; [assumption|]. split; [assumption|right; reflexivity].
    + intros [S|[X U]]; [inversion S|]. split; [exact X|]. intros (A & B & C). apply covers_some in C. subst. apply U. apply unsays_unlink; assumption.
  - (* SetType *)
    destruct (as_uri v) as [u|] eqn:V; [|discriminate]. apply as_uri_of in V. destruct (nth_error (w_things w) h) as [[|g' i q kids|]|] eqn:M; try discriminate. apply some_pair in E; destruct E as [<- <-]. cbv beta. rewrite In_set.
    assert (L : lives w h (g', URI i)) by (eapply lives_coll; exact M). assert (A : a_collection w h) by (eexists _, _, _, _; exact M). split.
    + intros [X|[X Y]]; [triple3 X; left; apply says_type; assumption|right]. split; [exact X|]. intros U. inversion U; subst.
      match goal with L' : lives _ _ (g', n) |- _ => pose proof (lives_one _ _ _ _ L L') as Q; injection Q as Q; subst n end. apply Y. auto.
    + intros [S|[X U]].
      * inversion S; subst. match goal with L' : lives _ _ (g', n) |- _ => pose proof (lives_one _ _ _ _ L L') as Q; injection Q as Q; subst n end.
        left. match goal with U' : uri_of v o |- _ => apply as_uri_of in U'; apply as_uri_of in V; rewrite V in U'; injection U' as -> end. reflexivity.
      * right. split; [exact X|]. intros [-> ->]. apply U. eapply unsays_type; eassumption.
  - (* SetModel *)
    destruct (as_uri v) as [u|] eqn:V; [|discriminate]. apply as_uri_of in V. destruct (nth_error (w_things w) h) as [[|g' i q kids|]|] eqn:M; try discriminate. apply some_pair in E; destruct E as [<- <-]. cbv beta. rewrite In_set.
    assert (L : lives w h (g', URI i)) by (eapply lives_coll; exact M). assert (A : a_collection w h) by (eexists _, _, _, _; exact M). split.
    + intros [X|[X Y]]; [triple3 X; left; apply says_model; assumption|right]. split; [exact X|]. intros U. inversion U; subst.
      match goal with L' : lives _ _ (g', n) |- _ => pose proof (lives_one _ _ _ _ L L') as Q; injection Q as Q; subst n end. apply Y. auto.
    + intros [S|[X U]].
      * inversion S; subst. match goal with L' : lives _ _ (g', n) |- _ => pose proof (lives_one _ _ _ _ L L') as Q; injection Q as Q; subst n end.
        left. match goal with U' : uri_of v o |- _ => apply as_uri_of in U'; apply as_uri_of in V; rewrite V in U'; injection U' as -> end. reflexivity.
      * right. split; [exact X|]. intros [-> ->]. apply U. eapply unsays_model; eassumption.
  - (* SetVersion *)
    destruct (nth_error (w_things w) h) as [[|g' i q kids|]|] eqn:M; try discriminate. apply some_pair in E; destruct E as [<- <-]. cbv beta. rewrite In_set.
    assert (L : lives w h (g', URI i)) by (eapply lives_coll; exact M). assert (A : a_collection w h) by (eexists _, _, _, _; exact M). split.
    + intros [X|[X Y]]; [injection X as -> -> ->; left; apply says_version; assumption|right]. split; [exact X|]. intros U. inversion U; subst.
      match goal with L' : lives _ _ (g', n) |- _ => pose proof (lives_one _ _ _ _ L L') as Q; injection Q as Q; subst n end. apply Y. auto.
    + intros [S|[X U]].
      * inversion S; subst. match goal with L' : lives _ _ (g', n) |- _ => pose proof (lives_one _ _ _ _ L L') as Q; injection Q as Q; subst n end. left. reflexivity.
      * right. split; [exact X|]. intros [-> ->]. apply U. eapply unsays_version; eassumption.
  - (* Label *)
    destruct (nth_error (w_things w) h) as [[|g' i q kids|]|] eqn:M; try discriminate. apply some_pair in E; destruct E as [<- <-]. cbv beta. unfold set_label, md_add. rewrite !In_add, mk_literal_of.
    assert (V : as_object (PTerm (literal_of v lang)) None = literal_of v lang) by apply as_object_term. rewrite V.
    assert (L : lives w h (g', URI i)) by (eapply lives_coll; exact M). assert (A : a_collection w h) by (eexists _, _, _, _; exact M). split.
    + intros [X|[X|X]]; [injection X as -> -> ->; left; apply says_label; auto|injection X as -> -> ->; left; apply says_label; auto|right].
      split; [exact X|]. intros U. inversion U.
    + intros [S|[X _]]; [|right; right; exact X]. inversion S as [| | | | | | | |h' v' lang' at_ p' A' L' [P|P]| |]; subst;
        pose proof (lives_one _ _ _ _ L L') as Q; injection Q as Q; subst n; [left|right; left]; reflexivity.
  - (* SetParent *)
    destruct (nth_error (w_things w) p0) as [t|] eqn:T; [|discriminate]. destruct (nth_error (w_things w) h) as [[|g' i q kids|]|] eqn:M; try discriminate. apply some_pair in E; destruct E as [<- <-]. cbv beta.
    rewrite In_add. assert (L : lives w h (g', URI i)) by (eapply lives_coll; exact M). assert (A : a_collection w h) by (eexists _, _, _, _; exact M). split.
    + intros [X|X]; [injection X as -> -> ->; left; apply says_parent; [exact A|exact L|apply (named_node w p0 t _ T); reflexivity]|right]. split; [exact X|]. intros U. inversion U.
    + intros [S|[X _]]; [|right; exact X]. inversion S; subst. match goal with L' : lives _ _ (g', n) |- _ => pose proof (lives_one _ _ _ _ L L') as Q; injection Q as Q; subst n end.
      match goal with N : named _ _ _ |- _ => apply (named_node w p0 t _ T) in N; subst o end. left. reflexivity.
  - (* SetField *)
    destruct (nth_error (w_things w) h) as [[| |g' i m mg mn]|] eqn:M; try discriminate. apply some_pair in E; destruct E as [<- <-]. cbv beta. unfold md_add. rewrite In_add, as_object_stored.
    assert (L : lives w h (mg, mn)) by (eapply lives_text; exact M). assert (A : a_text w h) by (eexists _, _, _, _, _; exact M).
    assert (K : field_key f0 = dublin f0) by (destruct f0; reflexivity). rewrite K. split.
    + intros [X|X]; [injection X as -> -> ->; left; apply says_field; assumption|right]. split; [exact X|]. intros U. inversion U.
    + intros [S|[X _]]; [|right; exact X]. inversion S; subst. match goal with L' : lives _ _ (mg, n) |- _ => pose proof (lives_one _ _ _ _ L L') as Q; injection Q as Q; subst n end. left. reflexivity.
Qed.

(** ** Objects *)

Lemma alike_refl : forall t, alike t t.
Proof. destruct t; cbn; auto. Qed.
Lemma alike_trans : forall a b c, alike a b -> alike b c -> alike a c.
Proof. intros [] [] []; cbn; intros A B; try tauto; decompose [and] A; decompose [and] B; subst; auto. Qed.

Definition born (d : deed) (w : world) : option thing :=
  let fresh n := Meta (w_now w) (match n with Some n => n | None => BNode (w_blanks w) end) in
  match d with
  | NewMeta n => Some (fresh n)
  | GetOr s p n =>
      let G := nth (w_now w) (w_graphs w) [] in
      if existsb (matches (Some s) (Some p) None) G then
        match g_objects order s p G with o :: _ => Some (Meta (w_now w) o) | [] => None end
      else Some (fresh n)
  | NewColl id => Some (Coll (w_now w) id None [])
  | NewText id None => Some (Text (w_now w) id (BNode (w_blanks w)) (w_now w) (BNode (w_blanks w)))
  | NewText id (Some h) =>
      match metadata w h with Some (mg, mn) => Some (Text (w_now w) id (BNode (w_blanks w)) mg mn) | None => None end
  | _ => None
  end.

Lemma nth_error_upd : forall {A} (l : list A) i j f,
  nth_error (upd l i f) j = if Nat.eqb i j then option_map f (nth_error l j) else nth_error l j.
Proof.
  intros A l. induction l as [|x l IH]; intros [|i] [|j] f; cbn; auto.
  destruct (Nat.eqb i j); reflexivity.
Qed.

Lemma things_perform : forall d w,
  (exists old, length old = length (w_things w) /\
     w_things (fst (perform order d w)) = old ++ match born d w with Some t => [t] | None => [] end /\
     (forall h t, nth_error (w_things w) h = Some t -> exists t', nth_error old h = Some t' /\ alike t t') /\
     (match d with SetParent _ _ => True | _ => old = w_things w end)).
Proof.
  intros d w.
  assert (SAME : w_things (fst (perform order d w)) = w_things w ++ match born d w with Some t => [t] | None => [] end ->
    exists old, length old = length (w_things w) /\
     w_things (fst (perform order d w)) = old ++ match born d w with Some t => [t] | None => [] end /\
     (forall h t, nth_error (w_things w) h = Some t -> exists t', nth_error old h = Some t' /\ alike t t') /\
     (match d with SetParent _ _ => True | _ => old = w_things w end)).
  { intros E. exists (w_things w). split; [reflexivity|]. split; [exact E|]. split; [|destruct d; auto].
    intros h t T. exists t. split; [exact T|apply alike_refl]. }
  destruct d; cbn [perform born] in *.
  - apply SAME. cbn. symmetry. apply app_nil_r.
  - apply SAME. unfold set_graph. destruct (i <? length (w_graphs w)); cbn; symmetry; apply app_nil_r.
  - apply SAME. unfold new_metadata, metadata_init, blank. destruct n; reflexivity.
  - apply SAME. unfold get_or, get_graph. destruct (existsb _ _).
    + destruct (g_objects _ _ _ _); cbn; [symmetry; apply app_nil_r|reflexivity].
    + unfold new_metadata, metadata_init, blank. destruct n; reflexivity.
  - apply SAME. reflexivity.
  - apply SAME. unfold new_text, metadata_init, blank, put, in_graph, get_graph.
    destruct given as [h|]; [destruct (metadata w h) as [[mg mn]|]|]; cbn; try reflexivity. symmetry; apply app_nil_r.
  - apply SAME. unfold add_value, on_metadata. destruct (metadata w h) as [[g n]|]; cbn; symmetry; apply app_nil_r.
  - apply SAME. unfold set_value, on_metadata. destruct (metadata w h) as [[g n]|]; cbn; symmetry; apply app_nil_r.
  - apply SAME. unfold remove, on_metadata. destruct (metadata w h) as [[g n]|]; cbn; symmetry; apply app_nil_r.
  - apply SAME. unfold unlink, on_metadata. destruct (metadata w h) as [[g n]|]; cbn; symmetry; apply app_nil_r.
  - apply SAME. unfold set_type, on_collection. destruct (as_uri v); [|cbn; symmetry; apply app_nil_r]. destruct (nth_error (w_things w) h) as [[| |]|]; cbn; symmetry; apply app_nil_r.
  - apply SAME. unfold set_model, on_collection. destruct (as_uri v); [|cbn; symmetry; apply app_nil_r]. destruct (nth_error (w_things w) h) as [[| |]|]; cbn; symmetry; apply app_nil_r.
  - apply SAME. unfold set_version, on_collection. destruct (nth_error (w_things w) h) as [[| |]|]; cbn; symmetry; apply app_nil_r.
  - apply SAME. unfold label, on_collection. destruct (nth_error (w_things w) h) as [[| |]|]; cbn; symmetry; apply app_nil_r.
  - clear SAME. unfold set_parent.
    assert (PP : forall l x q, (forall i t, nth_error l i = Some t -> exists t', nth_error (upd l x (put_parent q)) i = Some t' /\ alike t t')).
    { intros l x q i t T. rewrite nth_error_upd, T. destruct (Nat.eqb x i); cbn [option_map]; eexists; (split; [reflexivity|]); [|apply alike_refl].
      destruct t; cbn; auto. }
    assert (PK : forall l x id k, (forall i t, nth_error l i = Some t -> exists t', nth_error (upd l x (put_kid id k)) i = Some t' /\ alike t t')).
    { intros l x id k i t T. rewrite nth_error_upd, T. destruct (Nat.eqb x i); cbn [option_map]; eexists; (split; [reflexivity|]); [|apply alike_refl].
      destruct t; cbn; auto. }
    destruct (nth_error (w_things w) h) as [[g0 n0|g0 id0 p1 k0|g0 id0 n0 mg mn]|];
      try (exists (w_things w); split; [reflexivity|]; split; [cbn; symmetry; apply app_nil_r|]; split; [|auto];
           intros i t T; exists t; split; [exact T|apply alike_refl]).
    destruct (nth_error (w_things w) p) as [[g1 n1|g1 id1 p2 k1|g1 id1 n1 mg mn]|];
      try (exists (w_things w); split; [reflexivity|]; split; [cbn; symmetry; apply app_nil_r|]; split; [|auto];
           intros i t T; exists t; split; [exact T|apply alike_refl]);
      cbn [fst w_things in_graph].
    + eexists. split; [|split; [symmetry; apply app_nil_r|]]; [apply length_upd|]. split; [apply PP|auto].
    + eexists. split; [|split; [symmetry; apply app_nil_r|]]; [rewrite !length_upd; reflexivity|]. split; [|auto].
      intros i t T. destruct (PP (w_things w) h p i t T) as (t1 & T1 & A1). destruct (PK _ p id0 h i t1 T1) as (t2 & T2 & A2).
      exists t2. split; [exact T2|eapply alike_trans; eassumption].
    + eexists. split; [|split; [symmetry; apply app_nil_r|]]; [apply length_upd|]. split; [apply PP|auto].
  - apply SAME. unfold set_field, add_value, on_metadata. destruct (nth_error (w_things w) h) as [[| |]|]; cbn; try (symmetry; apply app_nil_r).
    destruct (metadata w h) as [[g' n']|]; cbn; symmetry; apply app_nil_r.
Qed.

Lemma now_perform : forall d w,
  w_now (fst (perform order d w)) = match d with SetGraph i => if i <? length (w_graphs w) then i else w_now w | _ => w_now w end.
Proof.
  intros d w. destruct d; cbn [perform].
  - reflexivity.
  - unfold set_graph. destruct (i <? length (w_graphs w)); reflexivity.
  - unfold new_metadata, metadata_init, blank. destruct n; reflexivity.
  - unfold get_or. destruct (existsb _ _); [destruct (g_objects _ _ _ _); reflexivity|]. unfold new_metadata, metadata_init, blank. destruct n; reflexivity.
  - reflexivity.
  - unfold new_text, metadata_init, blank, put, in_graph, get_graph. destruct given as [h|]; [destruct (metadata w h) as [[mg mn]|]|]; reflexivity.
  - unfold add_value, on_metadata. destruct (metadata w h) as [[g n]|]; reflexivity.
  - unfold set_value, on_metadata. destruct (metadata w h) as [[g n]|]; reflexivity.
  - unfold remove, on_metadata. destruct (metadata w h) as [[g n]|]; reflexivity.
  - unfold unlink, on_metadata. destruct (metadata w h) as [[g n]|]; reflexivity.
  - unfold set_type, on_collection. destruct (as_uri v); [|reflexivity]. destruct (nth_error (w_things w) h) as [[| |]|]; reflexivity.
  - unfold set_model, on_collection. destruct (as_uri v); [|reflexivity]. destruct (nth_error (w_things w) h) as [[| |]|]; reflexivity.
  - unfold set_version, on_collection. destruct (nth_error (w_things w) h) as [[| |]|]; reflexivity.
  - unfold label, on_collection. destruct (nth_error (w_things w) h) as [[| |]|]; reflexivity.
  - unfold set_parent. destruct (nth_error (w_things w) h) as [[| |]|]; destruct (nth_error (w_things w) p) as [[| |]|]; reflexivity.
  - unfold set_field, add_value, on_metadata, metadata. destruct (nth_error (w_things w) h) as [[| |]|]; reflexivity.
Qed.

(** Whether the deed makes a blank node. *)
Definition blanks_of (d : deed) (w : world) : N :=
  match d with
  | NewMeta None => 1
  | GetOr s p None => if existsb (matches (Some s) (Some p) None) (nth (w_now w) (w_graphs w) []) then 0 else 1
  | NewText _ None => 1
  | NewText _ (Some h) => match metadata w h with Some _ => 1 | None => 0 end
  | _ => 0
  end%N.
Lemma blanks_perform : forall d w, w_blanks (fst (perform order d w)) = (w_blanks w + blanks_of d w)%N.
Proof.
  intros d w. destruct d; cbn [perform blanks_of].
  - symmetry; apply N.add_0_r.
  - unfold set_graph. destruct (i <? length (w_graphs w)); symmetry; apply N.add_0_r.
  - unfold new_metadata, metadata_init, blank. destruct n; cbn; [symmetry; apply N.add_0_r|reflexivity].
  - unfold get_or, get_graph. destruct (existsb _ _).
    + destruct n; destruct (g_objects _ _ _ _); symmetry; apply N.add_0_r.
    + unfold new_metadata, metadata_init, blank. destruct n; cbn; [symmetry; apply N.add_0_r|reflexivity].
  - symmetry; apply N.add_0_r.
  - unfold new_text, metadata_init, blank, put, in_graph, get_graph. destruct given as [h|]; [destruct (metadata w h) as [[mg mn]|]|]; try reflexivity. symmetry; apply N.add_0_r.
  - unfold add_value, on_metadata. destruct (metadata w h) as [[g n]|]; symmetry; apply N.add_0_r.
  - unfold set_value, on_metadata. destruct (metadata w h) as [[g n]|]; symmetry; apply N.add_0_r.
  - unfold remove, on_metadata. destruct (metadata w h) as [[g n]|]; symmetry; apply N.add_0_r.
  - unfold unlink, on_metadata. destruct (metadata w h) as [[g n]|]; symmetry; apply N.add_0_r.
  - unfold set_type, on_collection. destruct (as_uri v); [|symmetry; apply N.add_0_r]. destruct (nth_error (w_things w) h) as [[| |]|]; symmetry; apply N.add_0_r.
  - unfold set_model, on_collection. destruct (as_uri v); [|symmetry; apply N.add_0_r]. destruct (nth_error (w_things w) h) as [[| |]|]; symmetry; apply N.add_0_r.
  - unfold set_version, on_collection. destruct (nth_error (w_things w) h) as [[| |]|]; symmetry; apply N.add_0_r.
  - unfold label, on_collection. destruct (nth_error (w_things w) h) as [[| |]|]; symmetry; apply N.add_0_r.
  - unfold set_parent. destruct (nth_error (w_things w) h) as [[| |]|]; destruct (nth_error (w_things w) p) as [[| |]|]; symmetry; apply N.add_0_r.
  - unfold set_field, add_value, on_metadata, metadata. destruct (nth_error (w_things w) h) as [[| |]|]; symmetry; apply N.add_0_r.
Qed.

Lemma length_perform : forall d w, length (w_graphs (fst (perform order d w))) = match d with BindGraph => S (length (w_graphs w)) | _ => length (w_graphs w) end.
Proof.
  intros d w. rewrite graphs_perform. destruct (effect d w) as [[i f]|] eqn:E.
  - rewrite length_upd. destruct d; try reflexivity. discriminate.
  - destruct d; try reflexivity. rewrite app_length. cbn. lia.
Qed.

Lemma born_housed : forall d w t, housed w -> born d w = Some t ->
  match t with
  | Meta g _ => g = w_now w
  | Coll g _ _ _ => g = w_now w
  | Text g _ _ mg _ => g = w_now w /\ mg < length (w_graphs w)
  end.
Proof.
  intros d w t H B. destruct d; cbn [born] in B; try discriminate.
  - injection B as <-. reflexivity.
  - destruct (existsb _ _); [destruct (g_objects _ _ _ _); [discriminate|]|]; injection B as <-; reflexivity.
  - injection B as <-. reflexivity.
  - destruct given as [h|].
    + destruct (metadata w h) as [[mg mn]|] eqn:M; [|discriminate]. injection B as <-. split; [reflexivity|]. eapply metadata_housed; eassumption.
    + injection B as <-. split; [reflexivity|apply H].
Qed.

(** An object after a deed was there before, or was made by it. *)
Lemma thing_perform : forall d w h t', thing_at (fst (perform order d w)) h t' ->
  (exists t, thing_at w h t /\ alike t t') \/ (h = length (w_things w) /\ born d w = Some t').
Proof.
  intros d w h t' T. unfold thing_at in *. destruct (things_perform d w) as (old & L & E & A & _). rewrite E in T.
  destruct (Nat.lt_ge_cases h (length old)) as [B|B].
  - rewrite nth_error_app1 in T by exact B. left. destruct (nth_error (w_things w) h) as [t|] eqn:X.
    + destruct (A h t X) as (t1 & T1 & A1). exists t. split; [reflexivity|]. congruence.
    + apply nth_error_None in X. lia.
  - rewrite nth_error_app2 in T by exact B. right. destruct (born d w) as [t|]; [|destruct (h - length old); discriminate].
    destruct (h - length old) as [|k] eqn:K; [|destruct k; discriminate]. injection T as ->. split; [lia|reflexivity].
Qed.
Lemma thing_kept : forall d w h t, thing_at w h t -> exists t', thing_at (fst (perform order d w)) h t' /\ alike t t'.
Proof.
  intros d w h t T. destruct (things_perform d w) as (old & L & E & A & _). destruct (A h t T) as (t' & T' & A').
  exists t'. split; [|exact A']. unfold thing_at. rewrite E. rewrite nth_error_app1; [exact T'|]. apply nth_error_Some. congruence.
Qed.

Lemma housed_perform : forall d w, housed w -> housed (fst (perform order d w)).
Proof.
  intros d w H. pose proof (length_perform d w) as L.
  assert (LE : length (w_graphs w) <= length (w_graphs (fst (perform order d w)))) by (rewrite L; destruct d; lia).
  split.
  - rewrite now_perform. destruct H as [N _]. destruct d; try lia. destruct (i <? length (w_graphs w)) eqn:B; [apply Nat.ltb_lt in B|]; lia.
  - intros h t' T. apply thing_perform in T. destruct T as [(t & T & A)|[_ B]].
    + apply H in T. destruct t, t'; cbn in A; try contradiction; decompose [and] A; subst; lia.
    + apply born_housed in B; [|exact H]. destruct H as [N _]. destruct t'; lia.
Qed.

Lemma after_snoc : forall w ds d, after order w (ds ++ [d]) = fst (perform order d (after order w ds)).
Proof. intros. unfold after. rewrite fold_left_app. reflexivity. Qed.
Lemma after_cons : forall w d ds, after order w (d :: ds) = after order (fst (perform order d w)) ds.
Proof. reflexivity. Qed.
Lemma housed_after : forall ds w, housed w -> housed (after order w ds).
Proof. induction ds as [|d ds IH]; intros w H; [exact H|]. rewrite after_cons. apply IH, housed_perform, H. Qed.

Theorem history_stands : forall ds w g n p o, housed w ->
  (In (n, p, o) (nth g (w_graphs (after order w ds)) []) <-> stands order w ds (g, n) p o).
Proof.
  intros ds w g n p o H. revert g n p o. induction ds as [|d ds IH] using rev_ind; intros g n p o.
  - split; [apply stands_start|]. intros S. inversion S as [? ? ? ? I|? ? ? ? ? ? X|? ? ? ? ? ? ? X]; subst; [exact I| |]; destruct ds; discriminate.
  - rewrite after_snoc, step_In by (apply housed_after; exact H). rewrite IH. split.
    + intros [S|[S U]]; [apply stands_said; exact S|apply stands_kept; assumption].
    + intros S. inversion S as [? ? ? ? I X|ds' d' ? ? ? I X|ds' d' ? ? ? I J X]; subst.
      * destruct ds; discriminate.
      * apply app_inj_tail in X. destruct X as [-> ->]. left. exact I.
      * apply app_inj_tail in X. destruct X as [-> ->]. right. split; [exact I|exact J].
Qed.

Lemma things_after : forall ds w h t, thing_at w h t -> exists t', thing_at (after order w ds) h t' /\ alike t t'.
Proof.
  induction ds as [|d ds IH]; intros w h t T; [exists t; split; [exact T|apply alike_refl]|]. rewrite after_cons.
  destruct (thing_kept d w h t T) as (t1 & T1 & A1). destruct (IH _ h t1 T1) as (t2 & T2 & A2). exists t2. split; [exact T2|eapply alike_trans; eassumption].
Qed.

Lemma alike_lives : forall w w' h t t' at_, thing_at w h t -> thing_at w' h t' -> alike t t' -> (lives w h at_ <-> lives w' h at_).
Proof.
  intros w w' h t t' at_ T T' A. rewrite <- !metadata_lives. unfold metadata. unfold thing_at in *. rewrite T, T'.
  destruct t, t'; cbn in A; try contradiction; decompose [and] A; subst; reflexivity.
Qed.

(** ** Graphs that are left alone *)

Lemma effect_concerns : forall d w i f, effect d w = Some (i, f) -> concerns w d i.
Proof.
  intros d w i f E. unfold concerns. destruct d; cbn [effect] in E; try discriminate; cbn [done_to makes].
  - injection E as <- _. right. auto.
  - right. destruct given as [h|]; [destruct (metadata w h); [|discriminate]|]; injection E as <- _; auto.
  - left. destruct (metadata w h) as [[g n]|] eqn:M; [|discriminate]. injection E as <- _. exists h, n. split; [reflexivity|apply metadata_lives; exact M].
  - left. destruct (metadata w h) as [[g n]|] eqn:M; [|discriminate]. injection E as <- _. exists h, n. split; [reflexivity|apply metadata_lives; exact M].
  - left. destruct (metadata w h) as [[g n]|] eqn:M; [|discriminate]. injection E as <- _. exists h, n. split; [reflexivity|apply metadata_lives; exact M].
  - left. destruct (metadata w h) as [[g n]|] eqn:M; [|discriminate]. injection E as <- _. exists h, n. split; [reflexivity|apply metadata_lives; exact M].
  - left. destruct (as_uri v); [|discriminate]. destruct (nth_error (w_things w) h) as [[| |]|] eqn:M; try discriminate. injection E as <- _. eexists h, _. split; [reflexivity|eapply lives_coll; exact M].
  - left. destruct (as_uri v); [|discriminate]. destruct (nth_error (w_things w) h) as [[| |]|] eqn:M; try discriminate. injection E as <- _. eexists h, _. split; [reflexivity|eapply lives_coll; exact M].
  - left. destruct (nth_error (w_things w) h) as [[| |]|] eqn:M; try discriminate. injection E as <- _. eexists h, _. split; [reflexivity|eapply lives_coll; exact M].
  - left. destruct (nth_error (w_things w) h) as [[| |]|] eqn:M; try discriminate. injection E as <- _. eexists h, _. split; [reflexivity|eapply lives_coll; exact M].
  - left. destruct (nth_error (w_things w) p); [|discriminate]. destruct (nth_error (w_things w) h) as [[| |]|] eqn:M; try discriminate. injection E as <- _. eexists h, _. split; [reflexivity|eapply lives_coll; exact M].
  - left. destruct (nth_error (w_things w) h) as [[| |]|] eqn:M; try discriminate. injection E as <- _. eexists h, _. split; [reflexivity|eapply lives_text; exact M].
Qed.

Theorem history_apart : forall ds w g, housed w -> apart order w g ds -> nth g (w_graphs (after order w ds)) [] = nth g (w_graphs w) [].
Proof.
  induction ds as [|d ds IH]; intros w g H A; [reflexivity|]. destruct A as [A1 A2]. rewrite after_cons.
  rewrite (IH _ g (housed_perform d w H) A2). rewrite (nth_perform d w g H). destruct (effect d w) as [[i f]|] eqn:E; [|reflexivity].
  destruct (Nat.eqb g i) eqn:B; [|reflexivity]. apply Nat.eqb_eq in B. subst i. elim A1. eapply effect_concerns. exact E.
Qed.

Theorem history_now : forall ds w, settable (length (w_graphs w)) ds -> w_now (after order w ds) = set_last w ds.
Proof.
  unfold set_last. induction ds as [|d ds IH]; intros w S; [reflexivity|]. rewrite after_cons. cbn [fold_left].
  pose proof (now_perform d w) as N. pose proof (length_perform d w) as L.
  rewrite IH.
  - f_equal. rewrite N. destruct d; try reflexivity. cbn [settable] in S. destruct S as [S _]. apply Nat.ltb_lt in S. rewrite S. reflexivity.
  - rewrite L. destruct d; cbn [settable] in S; try exact S. apply S.
Qed.

(** ** Blank nodes *)

Definition tidy (w : world) : Prop :=
  (forall g s p o, In (s, p, o) (nth g (w_graphs w) []) -> known w s /\ known w p /\ known w o) /\
  (forall h t, thing_at w h t ->
     match t with Meta _ n => known w n | Coll _ _ _ _ => True | Text _ _ n _ mn => (exists k, n = BNode k) /\ known w n /\ known w mn end) /\
  (forall h k g g' id id' n mg mg' mn mn', thing_at w h (Text g id n mg mn) -> thing_at w k (Text g' id' n mg' mn') -> h = k).

Lemma tidy_start : tidy start.
Proof.
  split; [|split].
  - intros g s p o I. cbn [start w_graphs] in I. destruct g as [|[|g]]; destruct I.
  - intros h t T. unfold thing_at in T. cbn in T. destruct h; discriminate.
  - intros h k g g' id id' n mg mg' mn mn' T. unfold thing_at in T. cbn in T. destruct h; discriminate.
Qed.
Lemma housed_start : housed start.
Proof. split; [cbn; lia|]. intros h t T. unfold thing_at in T. cbn in T. destruct h; discriminate. Qed.

Lemma known_perform : forall d w t, known w t -> known (fst (perform order d w)) t.
Proof. intros d w [| |] K; cbn [known] in *; auto. rewrite blanks_perform. lia. Qed.
Lemma lives_known : forall w h g n, tidy w -> lives w h (g, n) -> known w n.
Proof.
  intros w h g n (_ & T & _) L. inversion L as [g' n' E|g' id p kids E|g' id n' mg mn E]; subst; apply T in E; cbn beta iota in E; [exact E|exact I|apply E].
Qed.
Lemma named_known : forall w h n, tidy w -> named w h n -> known w n.
Proof.
  intros w h n (_ & T & _) L. inversion L as [g' n' E|g' id p kids E|g' id n' mg mn E]; subst; apply T in E; cbn beta iota in E; [exact E|exact I|apply E].
Qed.
Lemma stored_known : forall w v lang, known_value w v -> known w (stored_value v lang).
Proof. intros w v l K. destruct v as [t| |]; [destruct t; destruct l; first [exact K|exact I]|exact I|exact I]. Qed.
Lemma literal_known : forall w v lang, known w (literal_of v lang).
Proof. intros w v l. destruct v as [t| |]; [destruct t|..]; exact I. Qed.

Lemma says_known : forall w d g n p o, tidy w -> known_deed w d -> says w d (g, n) p o ->
  known (fst (perform order d w)) n /\ known (fst (perform order d w)) p /\ known (fst (perform order d w)) o.
Proof.
  intros w d g n p o T K S.
  assert (O : known w n -> known w p -> known w o -> known (fst (perform order d w)) n /\ known (fst (perform order d w)) p /\ known (fst (perform order d w)) o).
  { intros A B C. split; [|split]; apply known_perform; assumption. }
  inversion S; subst; cbn [known_deed] in K.
  - apply O; exact I.
  - apply O; exact I.
  - split; [|split; exact I]. cbn [known]. rewrite blanks_perform. cbn [blanks_of]. destruct given as [h|]; [|lia].
    match goal with X : forall h0, Some h = Some h0 -> _ |- _ => destruct (X h eq_refl) as [t E] end. unfold thing_at in E. unfold metadata. rewrite E. destruct t; lia.
  - destruct K. apply O; [eapply lives_known; eassumption|assumption|apply stored_known; assumption].
  - destruct K. apply O; [eapply lives_known; eassumption|assumption|apply stored_known; assumption].
  - apply O; [eapply lives_known; eassumption|exact I|]. match goal with U : uri_of _ _ |- _ => destruct U; exact I end.
  - apply O; [eapply lives_known; eassumption|exact I|]. match goal with U : uri_of _ _ |- _ => destruct U; exact I end.
  - apply O; [eapply lives_known; eassumption|exact I|apply literal_known].
  - apply O; [eapply lives_known; eassumption| |apply literal_known]. match goal with X : p = _ \/ p = _ |- _ => destruct X as [-> | ->]; exact I end.
  - apply O; [eapply lives_known; eassumption|exact I|eapply named_known; eassumption].
  - apply O; [eapply lives_known; eassumption|destruct f; exact I|apply stored_known; assumption].
Qed.

Hypothesis Ho : arranges order.

Lemma born_known : forall w d t, tidy w -> known_deed w d -> born d w = Some t ->
  let w' := fst (perform order d w) in
  match t with
  | Meta _ n => known w' n
  | Coll _ _ _ _ => True
  | Text _ _ n _ mn => n = BNode (w_blanks w) /\ known w' n /\ known w' mn
  end.
Proof.
  intros w d t T K B w'. pose proof (blanks_perform d w) as N. fold w' in N.
  destruct d; cbn [born] in B; try discriminate; cbn [known_deed] in K.
  - injection B as <-. destruct n as [n|]; [apply known_perform; exact K|]. cbn [known]. rewrite N. cbn [blanks_of]. lia.
  - destruct (existsb _ _) eqn:X.
    + destruct (g_objects _ _ _ _) as [|x xs] eqn:G; [discriminate|]. injection B as <-. apply known_perform.
      assert (Y : In x (g_objects order s p (nth (w_now w) (w_graphs w) []))) by (rewrite G; left; reflexivity).
      apply (In_objects order Ho) in Y. apply T in Y. apply Y.
    + injection B as <-. destruct n as [n|]; [apply known_perform; exact K|]. cbn [known]. rewrite N. cbn [blanks_of]. rewrite X. lia.
  - injection B as <-. exact I.
  - destruct given as [h|].
    + destruct (metadata w h) as [[mg mn]|] eqn:M; [|discriminate]. injection B as <-. split; [reflexivity|]. split.
      * cbn [known]. rewrite N. cbn [blanks_of]. rewrite M. lia.
      * apply known_perform. eapply lives_known; [exact T|apply metadata_lives; exact M].
    + injection B as <-. split; [reflexivity|]. cbn [known]. rewrite N. cbn [blanks_of]. lia.
Qed.

Lemma tidy_perform : forall d w, housed w -> known_deed w d -> tidy w -> tidy (fst (perform order d w)).
Proof.
  intros d w H K T. split; [|split].
  - intros g s p o Y. apply step_In in Y; [|exact H]. destruct Y as [Y|[Y _]].
    + eapply says_known; eassumption.
    + apply T in Y. destruct Y as (A & B & C). split; [|split]; apply known_perform; assumption.
  - intros h t' Y. apply thing_perform in Y. destruct Y as [(t & Y & A)|[_ B]].
    + apply T in Y. destruct t, t'; cbn in A; try contradiction; decompose [and] A; subst; [apply known_perform; exact Y|exact I|].
      destruct Y as (Y1 & Y2 & Y3). split; [exact Y1|]. split; apply known_perform; assumption.
    + pose proof (born_known w d t' T K B) as Y. cbn zeta in Y. destruct t'; try exact Y. destruct Y as (-> & Y). split; [eexists; reflexivity|exact Y].
  - intros h k g g' id id' n mg mg' mn mn' Y Z. apply thing_perform in Y. apply thing_perform in Z.
    destruct Y as [(t & Y & A)|[Y B]]; destruct Z as [(u & Z & C)|[Z D]].
    + destruct t as [| |g1 i1 n1 mg1 mn1]; cbn in A; try contradiction. destruct u as [| |g2 i2 n2 mg2 mn2]; cbn in C; try contradiction.
      decompose [and] A. decompose [and] C. subst. eapply (proj2 (proj2 T)); eassumption.
    + destruct t as [| |g1 i1 n1 mg1 mn1]; cbn in A; try contradiction. decompose [and] A. subst.
      pose proof (born_known w d _ T K D) as (-> & _). apply T in Y. destruct Y as (_ & Y & _). cbn [known] in Y. lia.
    + destruct u as [| |g2 i2 n2 mg2 mn2]; cbn in C; try contradiction. decompose [and] C. subst.
      pose proof (born_known w d _ T K B) as (-> & _). apply T in Z. destruct Z as (_ & Z & _). cbn [known] in Z. lia.
    + lia.
Qed.
Lemma tidy_after : forall ds w, housed w -> tidy w -> known_deeds order w ds -> tidy (after order w ds).
Proof.
  induction ds as [|d ds IH]; intros w H T K; [exact T|]. destruct K as [K1 K2]. rewrite after_cons.
  apply IH; [apply housed_perform; exact H|apply tidy_perform; assumption|exact K2].
Qed.

Lemma fresh_unheard : forall w, tidy w -> unheard w (BNode (w_blanks w)).
Proof.
  intros w (T & _) g s p o Y. apply T in Y. destruct Y as (A & B & C).
  split; [|split]; intros ->; cbn [known] in *; lia.
Qed.

(** ** dts:implements *)

Definition implementing (w : world) : Prop :=
  forall g n o, In (n, a_implements, o) (nth g (w_graphs w) []) <-> exists h id mg mn, thing_at w h (Text g id n mg mn) /\ o = URI id.

Lemma implementing_start : implementing start.
Proof.
  intros g n o. split.
  - cbn [start w_graphs]. destruct g as [|[|g]]; intros [].
  - intros (h & id & mg & mn & T & _). unfold thing_at in T. cbn in T. destruct h; discriminate.
Qed.

Lemma implementing_perform : forall d w, housed w -> gentle d -> implementing w -> implementing (fst (perform order d w)).
Proof.
  intros d w H G M g n o. rewrite step_In by exact H. rewrite (M g n o).
  assert (U : forall n o, ~ unsays w d (g, n) a_implements o).
  { intros n' o' X. inversion X; subst; cbn [gentle] in G; try congruence.
    - match goal with Y : a_implements = _ \/ _ |- _ => destruct Y as [Y|Y]; vm_compute in Y; discriminate Y end.
    - destruct G as (q & -> & Q). match goal with Y : covers (Some q) _ |- _ => destruct Y as [Y|Y]; [discriminate Y|injection Y as Y; elim Q; exact Y] end.
    - destruct G as (q & -> & Q). match goal with Y : covers (Some q) _ |- _ => destruct Y as [Y|Y]; [discriminate Y|injection Y as Y; elim Q; exact Y] end. }
  split.
  - intros [S|[(h & id & mg & mn & T & ->) _]].
    + inversion S; subst; cbn [gentle] in G; try congruence.
      * destruct (things_perform (NewText id given) w) as (old & L & E & A & _).
        assert (B : exists mg mn, born (NewText id given) w = Some (Text (w_now w) id (BNode (w_blanks w)) mg mn)).
        { cbn [born]. destruct given as [h|]; [|eexists _, _; reflexivity].
          match goal with X : forall h0, Some h = Some h0 -> _ |- _ => destruct (X h eq_refl) as [t Et] end.
          unfold thing_at in Et. unfold metadata. rewrite Et. destruct t; eexists _, _; reflexivity. }
        destruct B as (mg & mn & B). rewrite B in E. exists (length old), id, mg, mn. split; [|reflexivity].
        unfold thing_at. rewrite E, nth_error_app2 by lia. rewrite Nat.sub_diag. reflexivity.
      * match goal with Y : a_implements = _ \/ _ |- _ => destruct Y as [Y|Y]; vm_compute in Y; discriminate Y end.
      * destruct f; match goal with Y : dublin _ = _ |- _ => vm_compute in Y; discriminate Y end.
    + destruct (thing_kept d w h _ T) as (t' & T' & A). destruct t' as [| |g1 i1 n1 mg1 mn1]; cbn in A; try contradiction. decompose [and] A. subst.
      exists h, i1, mg1, mn1. split; [exact T'|reflexivity].
  - intros (h & id & mg & mn & T & ->). apply thing_perform in T. destruct T as [(t & T & A)|[_ B]].
    + destruct t as [| |g1 i1 n1 mg1 mn1]; cbn in A; try contradiction. decompose [and] A. subst.
      right. split; [exists h, id, mg, mn; auto|apply U].
    + left. destruct d; cbn [born] in B; try discriminate.
      * destruct (existsb _ _); [destruct (g_objects _ _ _ _)|]; discriminate.
      * destruct given as [k|].
        { destruct (metadata w k) as [[mg' mn']|] eqn:X; [|discriminate]. injection B as <- <- <- <- <-. apply says_implements.
          intros k' Y. injection Y as <-. unfold metadata in X. unfold thing_at. destruct (nth_error (w_things w) k) as [t|]; [eexists; reflexivity|discriminate]. }
        { injection B as <- <- <- <- <-. apply says_implements. discriminate. }
Qed.
Theorem history_implements : forall ds w, housed w -> implementing w -> Forall gentle ds -> implementing (after order w ds).
Proof.
  induction ds as [|d ds IH]; intros w H M G; [exact M|]. inversion G; subst. rewrite after_cons.
  apply IH; [apply housed_perform; exact H|apply implementing_perform; assumption|assumption].
Qed.

End Order.
