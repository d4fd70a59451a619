(** Property C79: programs that work with several graphs. *)

From Coq Require Import List NArith ZArith Arith Bool Lia Permutation.
From Verif Require Import PyStr PyStrFacts MetaModel MetaSpec MetaProofs CollModel CollProofs FieldModel FieldSpec FieldProofs
  SessionModel SessionSpec SessionProofs.
From Verif Require TextMetaModel.
Import ListNotations.

(** What each graph holds after any history: exactly what was said there, or there
    from the start, and not taken back since. *)
Theorem C79_stands : forall order w ds, housed w -> forall g n p o,
  In (n, p, o) (nth g (w_graphs (after order w ds)) []) <-> stands order w ds (g, n) p o.
Proof. intros order w ds H g n p o. apply history_stands, H. Qed.
Print Assumptions C79_stands.

(** Objects stay what they are: whatever graph is set later, each keeps its graph,
    its identifier, its node, and the graph and node of its metadata. *)
Theorem C79_home : forall order w ds h t, thing_at w h t ->
  exists t', thing_at (after order w ds) h t' /\ alike t t' /\ (forall at_, lives w h at_ <-> lives (after order w ds) h at_).
Proof.
  intros order w ds h t T. destruct (things_after order ds w h t T) as (t' & T' & A). exists t'. split; [exact T'|]. split; [exact A|].
  intros at_. eapply alike_lives; eassumption.
Qed.
Print Assumptions C79_home.

(** What is made is made in the graph that was set last, as asked for. *)
Definition as_asked (order : list term -> list term) (w : world) (ds : list deed) (d : deed) (t : thing) : Prop :=
  let w1 := after order w ds in
  let given_or_new n m := match n with Some x => m = x | None => m = BNode (w_blanks w1) end in
  match d, t with
  | NewMeta n, Meta _ m => given_or_new n m
  | GetOr s p n, Meta g m =>
      stands order w ds (g, s) p m \/ (forall o, ~ stands order w ds (g, s) p o) /\ given_or_new n m
  | NewColl id, Coll _ i p kids => i = id /\ p = None /\ kids = []
  | NewText id given, Text g i n mg mn =>
      i = id /\ n = BNode (w_blanks w1) /\
      match given with Some k => lives w1 k (mg, mn) | None => (mg, mn) = (g, n) end
  | _, _ => False
  end.
Definition makes_object (w : world) (d : deed) : Prop :=
  match d with
  | NewMeta _ | GetOr _ _ _ | NewColl _ | NewText _ None => True
  | NewText _ (Some h) => exists t, thing_at w h t
  | _ => False
  end.
Theorem C79_made : forall order, arranges order -> forall w ds d, housed w -> settable (length (w_graphs w)) ds ->
  let w1 := after order w ds in
  makes_object w1 d ->
  snd (perform order d w1) = Ok tt /\
  exists t, w_things (fst (perform order d w1)) = w_things w1 ++ [t] /\ made_in t = set_last w ds /\ as_asked order w ds d t.
Proof.
  intros order Ho w ds d H S w1 M.
  assert (N : w_now w1 = set_last w ds) by (apply history_now; exact S).
  assert (V : forall s p o, In o (g_objects order s p (nth (w_now w1) (w_graphs w1) [])) <-> stands order w ds (w_now w1, s) p o).
  { intros s p o. rewrite (In_objects order Ho). apply history_stands, H. }
  destruct d; cbn [makes_object] in M; try contradiction; cbn [perform as_asked].
  - split; [reflexivity|]. destruct n as [n|]; eexists; (split; [reflexivity|split; [exact N|reflexivity]]).
  - unfold get_or, get_graph. specialize (V s p). destruct (existsb _ _) eqn:X.
    + destruct (g_objects _ _ _ _) as [|o os].
      * exfalso. apply existsb_exists in X. destruct X as ([[a b] c] & X & Y).
        assert (Z : In c []); [|exact Z]. apply V. apply history_stands; [exact H|]. fold w1.
        unfold matches in Y. cbn in Y. apply andb_true_iff in Y. destruct Y as [Y _]. apply andb_true_iff in Y. destruct Y as [Y1 Y2].
        apply term_eqb_eq in Y1. apply term_eqb_eq in Y2. subst. exact X.
      * split; [reflexivity|]. eexists. split; [reflexivity|]. split; [exact N|]. left. apply V. left. reflexivity.
    + assert (E : forall o, ~ stands order w ds (w_now w1, s) p o).
      { intros o Z. apply history_stands in Z; [|exact H]. fold w1 in Z.
        assert (Y : existsb (matches (Some s) (Some p) None) (nth (w_now w1) (w_graphs w1) []) = true).
        { apply existsb_exists. eexists. split; [exact Z|]. unfold matches. cbn. rewrite !term_eqb_refl. reflexivity. }
        congruence. }
      split; [reflexivity|]. destruct n as [n|]; eexists; (split; [reflexivity|split; [exact N|]]); right; (split; [exact E|reflexivity]).
  - split; [reflexivity|]. eexists. split; [reflexivity|]. split; [exact N|auto].
  - unfold new_text, blank, metadata_init, get_graph. destruct given as [h|].
    + destruct M as [t T]. destruct (metadata w1 h) as [[mg mn]|] eqn:X.
      * split; [reflexivity|]. eexists. split; [reflexivity|]. split; [exact N|]. split; [reflexivity|]. split; [reflexivity|]. apply metadata_lives. exact X.
      * unfold metadata in X. unfold thing_at in T. rewrite T in X. destruct t; discriminate.
    + split; [reflexivity|]. eexists. split; [reflexivity|]. split; [exact N|]. auto.
Qed.
Print Assumptions C79_made.

(** Everything an object reports. *)
Definition same_reports (order : list term -> list term) (w w' : world) (h : nat) : Prop :=
  (forall key lang, values order w' h key lang = values order w h key lang) /\
  (forall key lang, single order w' h key lang = single order w h key lang) /\
  (forall f lang, get_field order w' h f lang = get_field order w h f lang) /\
  type_of order w' h = type_of order w h /\ model_of order w' h = model_of order w h /\ version_of order w' h = version_of order w h /\
  (forall lang, label_of order w' h lang = label_of order w h lang).
Lemma same_graph_reports : forall order order' w ds h t, thing_at w h t ->
  (forall g n, lives w h (g, n) -> nth g (w_graphs (after order w ds)) [] = nth g (w_graphs w) []) ->
  same_reports order' w (after order w ds) h.
Proof.
  intros order order' w ds h t T G. destruct (things_after order ds w h t T) as (t' & T' & A). unfold thing_at in *.
  unfold same_reports, values, single, get_field, type_of, model_of, version_of, label_of, of_collection, metadata. rewrite T, T'.
  destruct t as [g n|g id p kids|g id n mg mn]; destruct t' as [g' n'|g' id' p' kids'|g' id' n' mg' mn']; cbn in A; try contradiction.
  - destruct A as [<- <-]. rewrite (G g n) by (apply lives_meta; exact T). repeat split.
  - destruct A as [<- <-]. rewrite (G g (URI id)) by (eapply lives_coll; exact T). repeat split.
  - destruct A as (<- & <- & <- & <- & <-). rewrite (G mg mn) by (eapply lives_text; exact T). repeat split.
Qed.

(** A graph that nothing is done to is not changed, and everything the objects
    described in it report stays the same. *)
Theorem C79_apart : forall order w g ds, housed w -> apart order w g ds ->
  nth g (w_graphs (after order w ds)) [] = nth g (w_graphs w) [] /\
  forall order' h n, lives w h (g, n) -> same_reports order' w (after order w ds) h.
Proof.
  intros order w g ds H A. pose proof (history_apart order ds w g H A) as E. split; [exact E|].
  intros order' h n L. assert (T : exists t, thing_at w h t) by (inversion L; eexists; eassumption). destruct T as [t T].
  apply (same_graph_reports order order' w ds h t T). intros g' n' L'. pose proof (lives_one _ _ _ _ L L') as X. injection X as -> ->. exact E.
Qed.
Print Assumptions C79_apart.

(** Setting a graph, making graphs and making or looking up metadata change no graph
    and nothing any object reports. *)
Definition only_looks (d : deed) : Prop :=
  match d with BindGraph | SetGraph _ | NewMeta _ | GetOr _ _ _ => True | _ => False end.
Theorem C79_switch : forall order w ds, housed w -> Forall only_looks ds ->
  (forall g, nth g (w_graphs (after order w ds)) [] = nth g (w_graphs w) []) /\
  forall order' h t, thing_at w h t -> same_reports order' w (after order w ds) h.
Proof.
  intros order w ds H F.
  assert (E : forall g, nth g (w_graphs (after order w ds)) [] = nth g (w_graphs w) []).
  { intros g. apply history_apart; [exact H|]. clear H. revert w. induction F as [|d ds D F IH]; intros w; [exact I|]. split; [|apply IH].
    intros [(h & n & X & _)|[X _]]; destruct d; contradiction. }
  split; [exact E|]. intros order' h t T. eapply same_graph_reports; [exact T|]. intros g n _. apply E.
Qed.
Print Assumptions C79_switch.

(** Reading an object gives what stands where its metadata is. *)
Theorem C79_read : forall order, arranges order -> forall order' w ds, housed w ->
  let w' := after order' w ds in
  forall h g n, lives w' h (g, n) ->
  let here := stands order' w ds (g, n) in
  (forall key, exists vs, values order w' h key None = Ok vs /\ forall v, In v vs <-> here key v) /\
  (forall key l, (forall v, here key v -> is_literal v) ->
     exists vs, values order w' h key (Some l) = Ok vs /\ forall v, In v vs <-> here key v /\ written_in l v) /\
  (forall key lang, (lang <> None -> forall v, here key v -> is_literal v) ->
     exists r, single order w' h key lang = Ok r /\ picked (here key) lang r) /\
  (a_collection w' h ->
     match type_of order w' h with Ok o => here a_type o | Err e => e = IndexError /\ forall o, ~ here a_type o end /\
     match model_of order w' h with Ok o => here (in_dts #"model") o | Err e => e = IndexError /\ forall o, ~ here (in_dts #"model") o end /\
     (exists r, version_of order w' h = Ok r /\ picked (here (in_dts #"version")) None r) /\
     forall lang, (lang <> None -> forall v, here a_label v -> is_literal v) ->
       exists r, label_of order w' h lang = Ok r /\ picked (here a_label) lang r).
Proof.
  intros order Ho order' w ds H w' h g n L here.
  assert (V : forall p o, In (n, p, o) (nth g (w_graphs w') []) <-> here p o) by (intros p o; apply history_stands, H).
  assert (O : forall p o, In o (g_objects order n p (nth g (w_graphs w') [])) <-> here p o) by (intros p o; rewrite (In_objects order Ho); apply V).
  assert (PK : forall k lang, (lang <> None -> forall v, here k v -> is_literal v) ->
    exists r, md_get_single order (nth g (w_graphs w') []) n k lang = Ok r /\ picked (here k) lang r).
  { intros k lang X. destruct (get_single_picked order Ho (nth g (w_graphs w') []) n k lang) as (r & E & R).
    - intros Y v Z. apply X; [exact Y|]. apply V. exact Z.
    - exists r. split; [exact E|]. destruct r as [v|]; cbn [picked] in *.
      + destruct R as [R1 R2]. split; [apply V; exact R1|]. intros l Y. destruct (R2 l Y) as [Z|Z]; [left; exact Z|right; intros u U; apply Z, V, U].
      + intros v U. apply (R v), V, U. }
  assert (M : metadata w' h = Some (g, n)) by (apply metadata_lives; exact L).
  split; [|split; [|split]].
  - intros key. unfold values. rewrite M. eexists. split; [reflexivity|]. apply O.
  - intros key l X. unfold values. rewrite M. cbn [md_get].
    destruct (in_language_spec l (g_objects order n key (nth g (w_graphs w') []))) as (vs & E & R).
    { intros o Y. apply X, O, Y. }
    exists vs. split; [exact E|]. intros v. rewrite R, O. reflexivity.
  - intros key lang X. unfold single. rewrite M. apply PK, X.
  - intros (g' & id & p & kids & T). assert (X : (g, n) = (g', URI id)) by (eapply lives_one; [exact L|eapply lives_coll; exact T]).
    injection X as -> ->. unfold type_of, model_of, version_of, label_of, of_collection. unfold thing_at in T. rewrite T.
    split; [|split; [|split]].
    + specialize (O rdf_type). change a_type with rdf_type. destruct (g_objects _ _ _ _) as [|o os]; cbn [first_of].
      * split; [reflexivity|]. intros o Y. apply O in Y. destruct Y.
      * apply O. left. reflexivity.
    + specialize (O dts_model). change (in_dts #"model") with dts_model. destruct (g_objects _ _ _ _) as [|o os]; cbn [first_of].
      * split; [reflexivity|]. intros o Y. apply O in Y. destruct Y.
      * apply O. left. reflexivity.
    + eexists. split; [reflexivity|]. specialize (O dts_version). change (in_dts #"version") with dts_version. destruct (g_objects _ _ _ _) as [|o os]; cbn [hd_error picked].
      * intros o Y. apply O in Y. destruct Y.
      * split; [apply O; left; reflexivity|discriminate].
    + intros lang X. destruct (get_label_picked order Ho (nth g' (w_graphs w') []) (URI id) lang) as (r & E & R).
      * intros Y v Z. apply X; [exact Y|]. apply V. exact Z.
      * exists r. split; [exact E|]. destruct r as [v|]; cbn [picked] in *.
        { destruct R as [R1 R2]. split; [apply V; exact R1|]. intros l Y. destruct (R2 l Y) as [Z|Z]; [left; exact Z|right; intros u U; apply Z, V, U]. }
        { intros v U. apply (R v), V, U. }
Qed.
Print Assumptions C79_read.

(** The creator, description and subject of a text are chosen among what was said of
    them; its title too, and among the titles of dcterms when the one chosen is
    empty or missing. *)
Definition a_second_title : term := URI #"http://purl.org/dc/terms/title".
Theorem C79_fields : forall order, arranges order -> forall order' w ds, housed w ->
  let w' := after order' w ds in
  forall h g n, lives w' h (g, n) -> a_text w' h -> forall lang,
  let here := stands order' w ds (g, n) in
  (lang <> None -> forall k v, here k v -> is_literal v) ->
  (forall f, f <> Title -> exists r, get_field order w' h f lang = Ok r /\ picked (here (dublin f)) lang r) /\
  exists a, picked (here (dublin Title)) lang a /\
    match a with
    | Some t => if str_eqb (text_form t) [] then exists b, picked (here a_second_title) lang b /\ get_field order w' h Title lang = Ok b
                else get_field order w' h Title lang = Ok a
    | None => exists b, picked (here a_second_title) lang b /\ get_field order w' h Title lang = Ok b
    end.
Proof.
  intros order Ho order' w ds H w' h g n L (tg & id & tn & mg & mn & T) lang here X.
  destruct (C79_read order Ho order' w ds H h g n L) as (_ & _ & R & _). fold w' here in R.
  assert (P : forall k, exists r, md_get_single order (nth g (w_graphs w') []) n k lang = Ok r /\ picked (here k) lang r).
  { intros k. destruct (R k lang) as (r & E & Q); [intros Y v Z; eapply X; eassumption|]. exists r. split; [|exact Q].
    unfold single in E. apply metadata_lives in L. rewrite L in E. exact E. }
  assert (Y : (g, n) = (mg, mn)) by (eapply lives_one; [exact L|eapply lives_text; exact T]). injection Y as -> ->.
  unfold get_field. unfold thing_at in T. rewrite T. split.
  - intros f F. destruct f; try (elim F; reflexivity).
    + exact (P (dublin Creator)).
    + exact (P (dublin Description)).
    + exact (P (dublin Subject)).
  - destruct (P (dublin Title)) as (a & E & Q). exists a. split; [exact Q|]. destruct (P a_second_title) as (b & E' & Q').
    unfold TextMetaModel.get_title. change (TextMetaModel.dc #"title") with (dublin Title). rewrite E. cbn [bind].
    change (TextMetaModel.dcterms #"title") with a_second_title. destruct a as [t|]; cbn [TextMetaModel.counts].
    + assert (K : MetaModel.text_of t = text_form t) by (destruct t; reflexivity). rewrite K. destruct (text_form t) as [|c s].
      * cbn [str_eqb]. exists b. split; [exact Q'|exact E'].
      * reflexivity.
    + exists b. split; [exact Q'|exact E'].
Qed.
Print Assumptions C79_fields.

(** New nodes are new: nothing in any graph mentions the blank node a new text or new
    metadata gets, no object has it, and no two texts have the same node.  A new text
    without metadata of another object therefore says nothing of itself. *)
Theorem C79_fresh : forall order, arranges order -> forall ds, known_deeds order start ds ->
  let w := after order start ds in
  unheard w (BNode (w_blanks w)) /\
  (forall h, ~ named w h (BNode (w_blanks w)) /\ forall g, ~ lives w h (g, BNode (w_blanks w))) /\
  (forall h k n g g' id id' mg mg' mn mn', thing_at w h (Text g id n mg mn) -> thing_at w k (Text g' id' n mg' mn') -> h = k) /\
  forall order', arranges order' -> forall id f lang,
    let w' := fst (perform order (NewText id None) w) in
    get_field order' w' (length (w_things w)) f lang = Ok None.
Proof.
  intros order Ho ds K w.
  assert (T : tidy w) by (apply tidy_after; [exact Ho|apply housed_start|apply tidy_start|exact K]).
  assert (H : housed w) by (apply housed_after, housed_start).
  pose proof (fresh_unheard w T) as U. split; [exact U|]. split; [|split].
  - intros h. split.
    + intros N. apply (named_known w h _ T) in N. cbn [known] in N. lia.
    + intros g N. apply (lives_known w h g _ T) in N. cbn [known] in N. lia.
  - intros h k n g g' id id' mg mg' mn mn' A B. destruct T as (_ & _ & T). eapply T; eassumption.
  - intros order' Ho' id f lang w'.
    assert (E : nth_error (w_things w') (length (w_things w)) = Some (Text (w_now w) id (BNode (w_blanks w)) (w_now w) (BNode (w_blanks w)))).
    { cbn. rewrite nth_error_app2 by lia. rewrite Nat.sub_diag. reflexivity. }
    assert (G : nth (w_now w) (w_graphs w') [] = g_add (BNode (w_blanks w), implements, URI id) (nth (w_now w) (w_graphs w) [])).
    { change (w_graphs w') with (w_graphs (in_graph w (w_now w) (g_add (BNode (w_blanks w), implements, URI id)))).
      rewrite nth_in_graph by apply H. rewrite Nat.eqb_refl. reflexivity. }
    assert (Z : forall k, k <> implements -> md_get_single order' (nth (w_now w) (w_graphs w') []) (BNode (w_blanks w)) k lang = Ok None).
    { intros k NK. assert (N : forall v, ~ In (BNode (w_blanks w), k, v) (nth (w_now w) (w_graphs w') [])).
      { intros v I. rewrite G in I. apply In_add in I. destruct I as [I|I].
        - apply NK. congruence.
        - apply (U (w_now w)) in I. destruct I as [I _]. apply I. reflexivity. }
      destruct (get_single_picked order' Ho' (nth (w_now w) (w_graphs w') []) (BNode (w_blanks w)) k lang) as (r & E1 & R).
      - intros _ v I. elim (N v I).
      - rewrite E1. destruct r as [v|]; [|reflexivity]. destruct R as [R _]. elim (N v R). }
    assert (D : forall a b, a <> implements -> md_get_single order' (nth (w_now w) (w_graphs w') []) (BNode (w_blanks w)) a lang = b -> b = Ok None).
    { intros a b A <-. apply Z, A. }
    unfold get_field. rewrite E. destruct f.
    + apply Z. intros X. vm_compute in X. discriminate X.
    + unfold TextMetaModel.get_title. rewrite Z by (intros X; vm_compute in X; discriminate X). cbn [bind TextMetaModel.counts].
      apply Z. intros X. vm_compute in X. discriminate X.
    + apply Z. intros X. vm_compute in X. discriminate X.
    + apply Z. intros X. vm_compute in X. discriminate X.
Qed.
Print Assumptions C79_fresh.

(** As long as a program does not itself write dts:implements, nor takes back
    statements without naming a predicate, a graph says that a node implements an
    identifier exactly when it is the node of a text of that identifier made while
    that graph was set. *)
Theorem C79_implements : forall order ds, Forall gentle ds ->
  let w := after order start ds in
  forall g n o, In (n, a_implements, o) (nth g (w_graphs w) []) <-> exists h id mg mn, thing_at w h (Text g id n mg mn) /\ o = URI id.
Proof. intros order ds G w. exact (history_implements order ds start housed_start implementing_start G). Qed.
Print Assumptions C79_implements.

(** Assigning a parent: the collection has that parent, the parent lists it under its
    identifier unless it lists that identifier already, and no other object changes.
    Every other deed leaves parents and children alone. *)
Theorem C79_parent : forall order w h p, a_collection w h -> a_collection w p ->
  snd (perform order (SetParent h p) w) = Ok tt /\
  forall k g id par kids, thing_at w k (Coll g id par kids) ->
  exists kids', thing_at (fst (perform order (SetParent h p) w)) k (Coll g id (if Nat.eqb h k then Some p else par) kids') /\
    (k <> p -> kids' = kids) /\
    (k = p -> forall gc idc pc kc, thing_at w h (Coll gc idc pc kc) ->
       (In idc (map fst kids) -> kids' = kids) /\ (~ In idc (map fst kids) -> kids' = kids ++ [(idc, h)])).
Proof.
  intros order w h p (gh & ih & ph & kh & Th) (gp & ip & pp & kp & Tp). cbn [perform]. unfold SessionModel.set_parent. unfold thing_at in *. rewrite Th, Tp.
  split; [reflexivity|]. intros k g id par kids T. cbn [fst w_things in_graph].
  rewrite nth_error_upd, nth_error_upd, T. cbn [option_map].
  assert (X : forall x, In x (map fst kids) <-> existsb (fun q : str * nat => str_eqb x (fst q)) kids = true).
  { intros x. rewrite existsb_exists, in_map_iff. split; intros (y & A & B); exists y.
    - split; [exact B|]. rewrite A. apply str_eqb_refl.
    - apply str_eqb_eq in B. auto. }
  destruct (Nat.eqb h k) eqn:HK; destruct (Nat.eqb p k) eqn:PK; cbn [option_map put_parent put_kid].
  - eexists. split; [reflexivity|]. apply Nat.eqb_eq in PK. split; [intros Y; elim Y; auto|]. intros _ gc idc pc kc C.
    assert (idc = ih) as -> by congruence. specialize (X ih). destruct (existsb _ kids); split; intros Y; try reflexivity; try (apply X in Y; discriminate). elim Y. apply X. reflexivity.
  - eexists. split; [reflexivity|]. apply Nat.eqb_neq in PK. split; [reflexivity|]. intros Y. elim PK. auto.
  - eexists. split; [reflexivity|]. apply Nat.eqb_eq in PK. split; [intros Y; elim Y; auto|]. intros _ gc idc pc kc C.
    assert (idc = ih) as -> by congruence. specialize (X ih). destruct (existsb _ kids); split; intros Y; try reflexivity; try (apply X in Y; discriminate). elim Y. apply X. reflexivity.
  - eexists. split; [reflexivity|]. apply Nat.eqb_neq in PK. split; [reflexivity|]. intros Y. elim PK. auto.
Qed.
Print Assumptions C79_parent.
Theorem C79_places : forall order w d h t, (forall k p, d <> SetParent k p) -> thing_at w h t -> thing_at (fst (perform order d w)) h t.
Proof.
  intros order w d h t N T. destruct (things_perform order d w) as (old & L & E & A & K). unfold thing_at in *. rewrite E.
  assert (O : old = w_things w) by (destruct d; try exact K; elim (N h0 p eq_refl)). rewrite O. rewrite nth_error_app1; [exact T|]. apply nth_error_Some. congruence.
Qed.
Print Assumptions C79_places.

(** What can be done: anything to objects that are there and have the method.  What
    fails changes nothing, but for a parent that is not a collection. *)
Definition allowed (w : world) (d : deed) : Prop :=
  match d with
  | BindGraph | NewMeta _ | GetOr _ _ _ | NewColl _ | NewText _ None => True
  | SetGraph i => i < length (w_graphs w)
  | NewText _ (Some h) | AddValue h _ _ _ | SetValue h _ _ _ | Remove h _ _ | Unlink h _ _ => exists t, thing_at w h t
  | SetType h v | SetModel h v => a_collection w h /\ exists u, uri_of v u
  | SetVersion h _ | Label h _ _ => a_collection w h
  | SetParent h p => a_collection w h /\ a_collection w p
  | SetField h _ _ _ => a_text w h
  end.
Theorem C79_outcome : forall order, arranges order -> forall w d, housed w ->
  (snd (perform order d w) = Ok tt <-> allowed w d) /\
  (~ allowed w d -> fst (perform order d w) = w \/ exists h p, d = SetParent h p).
Proof.
  intros order Ho w d H.
  assert (MD : forall h, (exists t, thing_at w h t) <-> exists at_, metadata w h = Some at_).
  { intros h. unfold thing_at, metadata. destruct (nth_error (w_things w) h) as [[| |]|]; split; intros [x X]; try discriminate; eexists; reflexivity. }
  assert (ON : forall h f, (snd (on_metadata w h f) = Ok tt <-> exists t, thing_at w h t) /\ (~ (exists t, thing_at w h t) -> fst (on_metadata w h f) = w)).
  { intros h f. rewrite MD. unfold on_metadata. destruct (metadata w h) as [[g n]|].
    - split; [split; [eauto|reflexivity]|]. intros N. elim N. eauto.
    - split; [split; [discriminate|intros [x X]; discriminate]|reflexivity]. }
  assert (CO : forall h, a_collection w h <-> match nth_error (w_things w) h with Some (Coll _ _ _ _) => True | _ => False end).
  { intros h. unfold a_collection, thing_at. destruct (nth_error (w_things w) h) as [[| |]|]; split; try contradiction; try (intros (? & ? & ? & ? & X); discriminate); eauto 6. }
  assert (OC : forall h f, (snd (on_collection w h f) = Ok tt <-> a_collection w h) /\ (~ a_collection w h -> fst (on_collection w h f) = w)).
  { intros h f. rewrite CO. unfold on_collection. destruct (nth_error (w_things w) h) as [[| |]|]; cbn [fst snd]; (split; [split|]); try tauto; try discriminate. }
  assert (UR : forall v, match as_uri v with Ok u => uri_of v u | Err _ => forall u, ~ uri_of v u end).
  { intros v. destruct (as_uri v) as [u|e] eqn:E; [apply as_uri_of; exact E|]. intros u X. apply as_uri_of in X. congruence. }
  destruct d; cbn [perform allowed].
  - cbn. tauto.
  - unfold SessionModel.set_graph. destruct (Nat.ltb_spec i (length (w_graphs w))); cbn [fst snd]; (split; [split|]); try discriminate; try lia; auto.
  - cbn. tauto.
  - destruct (C79_made order Ho w [] (GetOr s p n) H I I) as [X _]. cbn [perform] in X. unfold after in X. cbn [fold_left] in X. tauto.
  - cbn. tauto.
  - unfold new_text. destruct given as [h|]; [|cbn; tauto]. rewrite MD. destruct (metadata w h) as [[g n]|]; cbn [fst snd].
    + split; [split; [eauto|reflexivity]|]. intros N. elim N. eauto.
    + split; [split; [discriminate|intros [x X]; discriminate]|auto].
  - destruct (ON h (fun n g => md_add g n key v lang)) as [A B]. split; [exact A|auto].
  - destruct (ON h (fun n g => md_set g n key v lang)) as [A B]. split; [exact A|auto].
  - destruct (ON h (fun n g => md_remove g n p o)) as [A B]. split; [exact A|auto].
  - destruct (ON h (fun n g => md_unlink g n s p)) as [A B]. split; [exact A|auto].
  - unfold SessionModel.set_type. specialize (UR v). destruct (as_uri v) as [u|e].
    + destruct (OC h (fun n => g_set (n, rdf_type, u))) as [A B]. rewrite A. split; [split; [eauto|tauto]|]. intros N. left. apply B. intros C. apply N. eauto.
    + cbn [fst snd]. split; [split; [discriminate|]|auto]. intros [_ [u X]]. elim (UR u X).
  - unfold SessionModel.set_model. specialize (UR v). destruct (as_uri v) as [u|e].
    + destruct (OC h (fun n => g_set (n, dts_model, u))) as [A B]. rewrite A. split; [split; [eauto|tauto]|]. intros N. left. apply B. intros C. apply N. eauto.
    + cbn [fst snd]. split; [split; [discriminate|]|auto]. intros [_ [u X]]. elim (UR u X).
  - unfold SessionModel.set_version. match goal with |- context [on_collection w h ?f] => destruct (OC h f) as [A B] end. split; [exact A|auto].
  - unfold SessionModel.label. match goal with |- context [on_collection w h ?f] => destruct (OC h f) as [A B] end. split; [exact A|auto].
  - split; [|right; eauto]. rewrite !CO. unfold SessionModel.set_parent.
    destruct (nth_error (w_things w) h) as [[| |]|]; destruct (nth_error (w_things w) p) as [[| |]|]; cbn [snd]; split; try discriminate; try tauto.
  - unfold SessionModel.set_field.
    assert (T : a_text w h <-> match nth_error (w_things w) h with Some (Text _ _ _ _ _) => True | _ => False end).
    { unfold a_text, thing_at. destruct (nth_error (w_things w) h) as [[| |]|]; split; try contradiction; try (intros (? & ? & ? & ? & ? & X); discriminate); eauto 8. }
    rewrite T. destruct (ON h (fun n g => md_add g n (field_key f) v lang)) as [A B]. unfold add_value.
    destruct (nth_error (w_things w) h) as [[| |]|] eqn:E; cbn [fst snd]; try (split; [split|]; try discriminate; tauto).
    split; [|tauto]. split; [auto|]. intros _. apply A. eexists. exact E.
Qed.
Print Assumptions C79_outcome.

(** ** A program with two graphs

    A collection and a text with a creator in the first graph; then, in the second, a
    collection, a text with the metadata of the first text, metadata looked up, a
    parent in the first graph, and a title said through the shared metadata. *)
Definition sample : list deed :=
  [ NewColl #"a"; NewText #"t" None; SetField 1 Creator (PStr #"Virgil") (Some #"en");
    BindGraph; SetGraph 1;
    NewColl #"b"; NewText #"u" (Some 1); GetOr (URI #"b") a_type None; NewMeta None;
    SetParent 2 0; SetField 3 Title (PStr #"Aeneid") None; SetType 2 (PStr #"x"); Remove 5 None None ].
Definition as_is (l : list term) : list term := l.
Lemma as_is_arranges : arranges as_is.
Proof. intros l. apply Permutation_refl. Qed.

Example C79_meets : arranges as_is /\ housed start /\ settable (length (w_graphs start)) sample /\ known_deeds as_is start sample /\
  set_last start sample = 1 /\ apart as_is (after as_is start (firstn 5 sample)) 0 (firstn 5 (skipn 5 sample)) /\
  Forall gentle (firstn 12 sample).
Proof.
  split; [exact as_is_arranges|]. split; [apply housed_start|]. split; [cbn; lia|]. split; [vm_compute; repeat split|]. split; [reflexivity|]. split.
    cbn [firstn skipn sample]. repeat split; try exact I;
      (intros [(h & n & D & L)|[D N]]; [try contradiction D; cbn [done_to] in D; subst h; apply metadata_lives in L; vm_compute in L; discriminate L
                                       |try contradiction D; vm_compute in N; discriminate N]).
  - repeat constructor.
Qed.

(** What is there in the end: the creator and the title of the first text are in the
    first graph; the second text reports both. *)
Example C79_sample : let w := after as_is start sample in
  w_now w = 1 /\ length (w_things w) = 6 /\
  lives w 1 (0, BNode 0) /\ lives w 3 (0, BNode 0) /\ named w 3 (BNode 1) /\
  get_field as_is w 3 Creator None = Ok (Some (Literal #"Virgil" (Some #"en") None)) /\
  get_field as_is w 1 Title None = Ok (Some (Literal #"Aeneid" None None)) /\
  lives w 4 (1, in_dts #"collection") /\
  type_of as_is w 0 = Ok (in_dts #"collection") /\ type_of as_is w 2 = Ok (URI #"x") /\
  stands as_is start sample (1, URI #"b") a_parent (URI #"a") /\
  stands as_is start sample (0, BNode 0) a_implements (URI #"t") /\ stands as_is start sample (1, BNode 1) a_implements (URI #"u") /\
  nth_error (w_things w) 0 = Some (Coll 0 #"a" None [(#"b", 2)]).
Proof.
  intros w. split; [vm_compute; reflexivity|]. split; [vm_compute; reflexivity|].
  split; [apply metadata_lives; vm_compute; reflexivity|]. split; [apply metadata_lives; vm_compute; reflexivity|].
  split; [eapply named_text; vm_compute; reflexivity|]. split; [vm_compute; reflexivity|]. split; [vm_compute; reflexivity|].
  split; [apply metadata_lives; vm_compute; reflexivity|]. split; [vm_compute; reflexivity|]. split; [vm_compute; reflexivity|].
  split; [|split; [|split]]; try (apply C79_stands; [apply housed_start|]; vm_compute; repeat (first [left; reflexivity|right])).
  vm_compute. reflexivity.
Qed.

(** ** What does not hold *)

(** [getOr] does not tie what it makes to the subject: asked again for the same
    subject and predicate, it makes another node, and what was said of the first is
    not found. *)
Theorem C79_get_or_refuted : exists order s p ds, arranges order /\
  let w := after order start ds in
  ds = [GetOr s p None; AddValue 0 p (PStr #"x") None; GetOr s p None] /\
  single order w 0 p None = Ok (Some (Literal #"x" None None)) /\ single order w 1 p None = Ok None.
Proof.
  exists as_is, (URI #"s"), (URI #"p"). eexists. split; [exact as_is_arranges|]. split; [reflexivity|]. split; vm_compute; reflexivity.
Qed.
Print Assumptions C79_get_or_refuted.

(** The metadata of a text need not be in the graph of the text: with the metadata of
    an object of another graph, the graph of the text only says what it implements. *)
Theorem C79_text_graph_refuted : exists order ds h g id n mg mn, arranges order /\
  let w := after order start ds in
  thing_at w h (Text g id n mg mn) /\
  get_field order w h Creator None = Ok (Some (Literal #"Virgil" None None)) /\
  forall s o, ~ In (s, dublin Creator, o) (nth g (w_graphs w) []).
Proof.
  exists as_is, [NewText #"t" None; SetField 0 Creator (PStr #"Virgil") None; BindGraph; SetGraph 1; NewText #"u" (Some 0)]. eexists 1, 1, _, _, _, _.
  split; [exact as_is_arranges|]. split; [vm_compute; reflexivity|]. split; [vm_compute; reflexivity|].
  intros s o X. vm_compute in X. destruct X as [X|X]; [discriminate X|exact X].
Qed.
Print Assumptions C79_text_graph_refuted.

(** A parent in another graph is only mentioned in the graph of the child. *)
Theorem C79_parent_graph_refuted : exists order ds h p g idp par kids, arranges order /\
  let w := after order start ds in
  a_collection w h /\ thing_at w p (Coll g idp par kids) /\ kids = [(#"b", h)] /\
  forall s o, ~ In (s, a_parent, o) (nth g (w_graphs w) []).
Proof.
  exists as_is, [NewColl #"a"; BindGraph; SetGraph 1; NewColl #"b"; SetParent 1 0], 1, 0. eexists _, _, _, _.
  split; [exact as_is_arranges|]. split; [eexists _, _, _, _; vm_compute; reflexivity|]. split; [vm_compute; reflexivity|]. split; [reflexivity|].
  intros s o X. vm_compute in X. repeat (destruct X as [X|X]; [discriminate X|]). exact X.
Qed.
Print Assumptions C79_parent_graph_refuted.

(** The setters of texts add: after a second [set_title], [get_title] can still give
    the first title. *)
Theorem C79_set_field_refuted : exists order ds h f v, arranges order /\
  let w := after order start (ds ++ [SetField h f v None]) in
  v = PStr #"Second" /\ get_field order w h f None = Ok (Some (Literal #"First" None None)).
Proof.
  exists as_is, [NewText #"t" None; SetField 0 Title (PStr #"First") None], 0, Title. eexists.
  split; [exact as_is_arranges|]. split; [reflexivity|]. vm_compute. reflexivity.
Qed.
Print Assumptions C79_set_field_refuted.

(** A parent that is not a collection is refused too late: the statement has been
    made and the child has it as its parent. *)
Theorem C79_parent_refused_refuted : exists order ds h p, arranges order /\
  let w := after order start ds in
  let '(w', r) := perform order (SetParent h p) w in
  r = Err AttributeError /\ nth_error (w_things w') h = Some (Coll 0 #"a" (Some p) []) /\
  exists n, named w p n /\ In (URI #"a", a_parent, n) (nth 0 (w_graphs w') []).
Proof.
  exists as_is, [NewColl #"a"; NewText #"t" None], 0, 1. split; [exact as_is_arranges|]. split; [vm_compute; reflexivity|].
  split; [vm_compute; reflexivity|]. eexists. split; [eapply named_text; vm_compute; reflexivity|].
  vm_compute. repeat (first [left; reflexivity|right]).
Qed.
Print Assumptions C79_parent_refused_refuted.
