(** What loading does to the statements. *)

From Coq Require Import List NArith ZArith Arith Bool Lia Permutation.
From Verif Require Import PyStr PyStrFacts UrnModel UrnSpec UrnProofs XmlModel MetaModel MetaSpec MetaProofs CollModel CollSpec CollProofs CollHist CollLang
  UtilModel InvModel InvSpec InvProofs InvTrace InvTree InvDone Props_Inv LocalModel LocalSpec LocalProofs LoadModel LoadSpec LoadRead LoadAll
  AnswerSpec AnswerGraph SaidSpec.
Import ListNotations.

(** ** Objects keep their place *)
Definition like_object (st st' : state) (j : nat) : Prop :=
  c_kind (obj st' j) = c_kind (obj st j) /\ c_id (obj st' j) = c_id (obj st j) /\ c_graph (obj st' j) = c_graph (obj st j).
Definition shape (st st' : state) : Prop :=
  length (objs st') = length (objs st) /\ length (graphs st') = length (graphs st) /\ forall j, like_object st st' j.

Lemma shape_refl : forall st, shape st st.
Proof. intros st. split; [reflexivity|]. split; [reflexivity|]. intros j. repeat split. Qed.
Lemma shape_trans : forall a b c, shape a b -> shape b c -> shape a c.
Proof.
  intros a b c (A1 & A2 & A3) (B1 & B2 & B3). split; [congruence|]. split; [congruence|]. intros j.
  destruct (A3 j) as (X1 & X2 & X3), (B3 j) as (Y1 & Y2 & Y3). split; [congruence|]. split; congruence.
Qed.
Lemma shape_graph : forall st i f, shape st (with_graph st i f).
Proof. intros st i f. split; [reflexivity|]. split; [apply length_upd|]. intros j. repeat split. Qed.
Lemma shape_obj : forall st i f, (forall x, c_kind (f x) = c_kind x /\ c_id (f x) = c_id x /\ c_graph (f x) = c_graph x) -> shape st (with_obj st i f).
Proof.
  intros st i f H. split; [apply length_upd|]. split; [reflexivity|]. intros j. unfold like_object, obj, with_obj. cbn [objs].
  rewrite nth_upd. destruct (_ && _); [apply H|]. repeat split.
Qed.
Lemma shape_parent : forall st c p, shape st (set_parent st c p).
Proof.
  intros st c p. unfold set_parent. eapply shape_trans; [apply shape_obj with (f := put_parent (Some p)); repeat split|].
  eapply shape_trans; [apply shape_graph|]. unfold add_member. destruct (dget _ _); [apply shape_refl|]. apply shape_obj. repeat split.
Qed.
Lemma shape_child : forall st p k c, shape st (set_child st p k c).
Proof. intros st p k c. apply shape_obj. repeat split. Qed.

(** ** Entering textgroups *)
Definition graphs_ok (st : state) : Prop := forall j, j < length (objs st) -> c_graph (obj st j) < length (graphs st).

Section Settle.
Variable q : term.
Hypothesis Nq : q <> cap_parent.

Definition alike (st st' : state) (g g' : nat) : Prop :=
  forall x y, In (x, q, y) (nth g' (graphs st') []) <-> In (x, q, y) (nth g (graphs st) []).
Definition settles (st st' : state) : Prop := graphs_ok st ->
  graphs_ok st' /\ length (graphs st) <= length (graphs st') /\ alike st st' 0 0 /\
  forall j, j < length (objs st') -> exists i, i < length (objs st) /\ c_kind (obj st' j) = c_kind (obj st i) /\
    c_id (obj st' j) = c_id (obj st i) /\ alike st st' (c_graph (obj st i)) (c_graph (obj st' j)).

Lemma settles_refl : forall st, settles st st.
Proof using Type. intros st W. split; [exact W|]. split; [lia|]. split; [intros x y; reflexivity|]. intros j J. exists j. repeat split; tauto. Qed.

Lemma settles_trans : forall a b c, settles a b -> settles b c -> settles a c.
Proof using Type.
  intros a b c A B W. destruct (A W) as (W1 & L1 & Z1 & H1). destruct (B W1) as (W2 & L2 & Z2 & H2).
  split; [exact W2|]. split; [lia|]. split; [intros x y; rewrite (Z2 x y); apply Z1|]. intros j J.
  destruct (H2 j J) as (i & I & K & D & S). destruct (H1 i I) as (i' & I' & K' & D' & S').
  exists i'. split; [exact I'|]. split; [congruence|]. split; [congruence|]. intros x y. rewrite (S x y). apply S'.
Qed.

Lemma settles_same : forall st st', same_with q st st' -> shape st st' -> settles st st'.
Proof using Type.
  intros st st' S (L1 & L2 & H) W. split; [|split; [lia|split]].
  - intros j J. rewrite L1 in J. destruct (H j) as (_ & _ & ->). rewrite L2. apply W. exact J.
  - intros x y. symmetry. apply S.
  - intros j J. rewrite L1 in J. destruct (H j) as (A & B & C). exists j. split; [exact J|]. split; [exact A|]. split; [exact B|].
    rewrite C. intros x y. symmetry. apply S.
Qed.

Lemma settles_parent : forall st c p, settles st (set_parent st c p).
Proof using Nq. intros st c p. apply settles_same; [apply same_parent; exact Nq|apply shape_parent]. Qed.
Lemma settles_child : forall st p k c, settles st (set_child st p k c).
Proof using Type. intros st p k c. apply settles_same; [intros g x y; reflexivity|apply shape_child]. Qed.

Lemma settles_copy : forall st c, settles st (fst (deepcopy st c)).
Proof using Type.
  intros st c W. unfold deepcopy. cbn [fst]. set (n := length (objs st)). set (m := length (graphs st)).
  assert (OB : forall j, j < n -> nth j (objs st ++ map (shift n m) (objs st)) nowhere = obj st j) by (intros j J; apply app_nth1; exact J).
  assert (OC : forall i, i < n -> nth (n + i) (objs st ++ map (shift n m) (objs st)) nowhere = shift n m (obj st i)).
  { intros i I. rewrite app_nth2 by (fold n; lia). fold n. replace (n + i - n) with i by lia.
    rewrite (nth_indep _ nowhere (shift n m nowhere)) by (rewrite map_length; exact I). apply map_nth. }
  assert (CASE : forall j, j < length (objs st ++ map (shift n m) (objs st)) -> j < n \/ exists i, i < n /\ j = n + i).
  { intros j J. rewrite app_length, map_length in J. fold n in J. destruct (Nat.lt_ge_cases j n) as [H|H]; [left; exact H|]. right. exists (j - n). lia. }
  assert (G1 : forall g, g < m -> nth g (graphs st ++ graphs st) [] = nth g (graphs st) []) by (intros g H; apply app_nth1; exact H).
  assert (G2 : forall g, nth (m + g) (graphs st ++ graphs st) [] = nth g (graphs st) []).
  { intros g. rewrite app_nth2 by (fold m; lia). f_equal. unfold m. lia. }
  split; [|split; [|split]].
  - intros j J. cbn [objs] in J. unfold obj at 1. cbn [objs graphs]. rewrite app_length. fold m. destruct (CASE j J) as [H|(i & I & ->)].
    + rewrite (OB j H). specialize (W j H). fold m in W. lia.
    + rewrite (OC i I). cbn [c_graph shift]. specialize (W i I). fold m in W. lia.
  - cbn [graphs]. rewrite app_length. lia.
  - intros x y. cbn [graphs]. unfold m in *. destruct (graphs st); reflexivity.
  - intros j J. cbn [objs] in J. destruct (CASE j J) as [H|(i & I & ->)].
    + pose proof (OB j H) as E. change (obj (MkState (objs st ++ map (shift n m) (objs st)) (graphs st ++ graphs st)) j = obj st j) in E.
      exists j. split; [exact H|]. rewrite E. split; [reflexivity|]. split; [reflexivity|].
      intros x y. cbn [graphs]. rewrite (G1 _ (W j H)). reflexivity.
    + pose proof (OC i I) as E. change (obj (MkState (objs st ++ map (shift n m) (objs st)) (graphs st ++ graphs st)) (n + i) = shift n m (obj st i)) in E.
      exists i. split; [exact I|]. rewrite E. split; [reflexivity|]. split; [reflexivity|].
      intros x y. cbn [graphs c_graph shift]. rewrite G2. reflexivity.
Qed.

Lemma settles_texts : forall self l st, settles st (fold_left (take_text self) l st).
Proof using Nq.
  intros self l. induction l as [|e l IH]; intros st; [apply settles_refl|]. cbn [fold_left]. eapply settles_trans; [|apply IH].
  unfold take_text. eapply settles_trans; [apply settles_child|apply settles_parent].
Qed.

Lemma settles_work : forall st self other, settles st (fst (work_update st self other)).
Proof using Nq.
  intros st self other. unfold work_update. destruct (c_kind _); try apply settles_refl. destruct (str_eqb _ _); [|apply settles_refl].
  apply settles_texts.
Qed.

Lemma settles_take : forall self st r e, settles st (fst (take_work self (st, r) e)).
Proof using Nq.
  intros self st r [k w]. unfold take_work. destruct r as [[]|x]; [|apply settles_refl].
  pose proof (settles_copy st w) as S1. destruct (deepcopy st w) as [st1 copy]. cbn [fst] in S1.
  destruct (dget k (c_children (obj st self))) as [mine|].
  - destruct (c_kind (obj st mine)); try exact S1.
    pose proof (settles_work st1 mine copy) as S2. destruct (work_update st1 mine copy) as [st2 [[]|x]]; cbn [fst] in *; pose proof (settles_trans _ _ _ S1 S2) as S3; [|exact S3].
    eapply settles_trans; [exact S3|apply settles_parent].
  - cbn [fst]. eapply settles_trans; [exact S1|]. eapply settles_trans; [apply settles_child|apply settles_parent].
Qed.

Lemma settles_group : forall st self other, settles st (fst (textgroup_update st self other)).
Proof using Nq.
  intros st self other. unfold textgroup_update. destruct (c_kind _); try apply settles_refl. destruct (str_eqb _ _); [|apply settles_refl].
  generalize (c_children (obj st other)) (@Ok unit tt). intros l. revert st. induction l as [|e l IH]; intros st r; [apply settles_refl|].
  cbn [fold_left]. pose proof (settles_take self st r e) as S1. destruct (take_work self (st, r) e) as [st1 r1]. cbn [fst] in S1.
  eapply settles_trans; [exact S1|apply IH].
Qed.

Lemma settles_update : forall st self other, settles st (fst (update_any st self other)).
Proof using Nq.
  intros st self other. unfold update_any. destruct (c_kind _); try apply settles_refl; [apply settles_work|apply settles_group].
Qed.

Lemma settles_enter_work : forall limit root tg st r e, settles st (fst (enter_work limit root tg (st, r) e)).
Proof using Nq.
  intros limit root tg st r e. unfold enter_work. destruct r as [[]|x]; [|apply settles_refl].
  destruct (getitem _ _ _ _) as [g|x]; [|apply settles_refl]. destruct (existsb _ _); [|apply settles_refl].
  destruct (getitem _ _ _ _) as [w|x]; [|apply settles_refl]. apply settles_update.
Qed.

(** Results that do not stop a loading. *)
Definition goes_on {A} (r : result A) : Prop := match r with Ok _ => True | Err UndispatchedTextError => True | Err _ => False end.

Lemma settles_dispatch : forall st d c path, goes_on (snd (dispatch st d c path)) -> settles st (fst (dispatch st d c path)).
Proof using Nq.
  intros st d c path. unfold dispatch. induction (rev (d_methods d)) as [|[name f] l IH]; cbn [dispatch_in]; [intros _; apply settles_refl|].
  destruct (f st c path) as [[|]|x]; [|exact IH|intros _; apply settles_refl].
  unfold child. destruct (dget _ _) as [i|]; [intros _; apply settles_parent|].
  destruct (c_kind _); intros H; first [destruct H|apply settles_refl].
Qed.

Lemma settles_enter : forall limit st d tg path, goes_on (snd (enter limit st d tg path)) -> settles st (fst (enter limit st d tg path)).
Proof using Nq.
  intros limit st d tg path. unfold enter. destruct (contains _ _ _ _) as [b|x]; [|intros _; apply settles_refl].
  assert (FOLD : forall l s1 r1, settles s1 (fst (fold_left (enter_work limit (d_root d) tg) l (s1, r1)))).
  { intros l. induction l as [|e l IH]; intros s1 r1; [apply settles_refl|]. cbn [fold_left].
    pose proof (settles_enter_work limit (d_root d) tg s1 r1 e) as S1. destruct (enter_work limit (d_root d) tg (s1, r1) e) as [s2 r2]. cbn [fst] in S1.
    eapply settles_trans; [exact S1|apply IH]. }
  destruct b.
  - destruct (getitem _ _ _ _) as [g|x]; [|intros _; apply settles_refl]. pose proof (settles_update st g tg) as S1.
    destruct (update_any st g tg) as [st1 [[]|x]]; cbn [fst] in *; intros _; [|exact S1]. eapply settles_trans; [exact S1|apply FOLD].
  - pose proof (settles_dispatch st d tg (Some path)) as S1. destruct (dispatch st d tg (Some path)) as [st1 [[]|x]]; cbn [fst snd] in *; [|exact S1].
    intros _. eapply settles_trans; [exact (S1 I)|apply FOLD].
Qed.

Lemma settles_container : forall ru limit d tg path s s', dispatch_container ru limit d tg path s = (s', Ok tt) -> settles (s_state s) (s_state s').
Proof using Nq.
  intros ru limit d tg path s s'. unfold dispatch_container, on_state. pose proof (settles_enter limit (s_state s) d tg path) as S1.
  destruct (enter limit (s_state s) d tg path) as [st r]. cbn [fst snd] in S1.
  destruct r as [[]|x].
  - intros E. injection E as <-. exact (S1 I).
  - destruct x; try discriminate. destruct ru; [discriminate|]. intros E. injection E as <-. exact (S1 I).
Qed.

Lemma settles_containers : forall ru limit d (gs : list (nat * group_file)) s s',
  for_each gs (fun g => dispatch_container ru limit d (fst g) (gf_path (snd g))) s = (s', Ok tt) -> settles (s_state s) (s_state s').
Proof using Nq.
  intros ru limit d gs. induction gs as [|g gs IH]; intros s s' E; cbn [for_each] in E; [injection E as <-; apply settles_refl|].
  unfold andthen in E. destruct (dispatch_container ru limit d (fst g) (gf_path (snd g)) s) as [s1 [[]|x]] eqn:D; [|discriminate].
  eapply settles_trans; [eapply settles_container; exact D|apply IH; exact E].
Qed.
End Settle.

(** ** Reading makes objects for the elements *)
Definition news (ids : kind -> str -> Prop) (s s' : store) : Prop :=
  length (objs (s_state s)) <= length (objs (s_state s')) /\
  (forall j, j < length (objs (s_state s)) -> like_object (s_state s) (s_state s') j) /\
  forall j, length (objs (s_state s)) <= j < length (objs (s_state s')) ->
    c_graph (obj (s_state s') j) = 0 /\ ids (c_kind (obj (s_state s') j)) (c_id (obj (s_state s') j)).
Definition makes {A} (ids : kind -> str -> Prop) (m : act A) : Prop :=
  forall s, match m s with (s', Ok _) => news ids s s' | (_, Err _) => True end.

Lemma news_shape : forall ids s s', shape (s_state s) (s_state s') -> news ids s s'.
Proof. intros ids s s' (L & _ & H). split; [lia|]. split; [intros j _; apply H|]. intros j J. lia. Qed.
Lemma news_trans : forall ids a b c, news ids a b -> news ids b c -> news ids a c.
Proof.
  intros ids a b c (A1 & A2 & A3) (B1 & B2 & B3). split; [lia|]. split.
  - intros j J. destruct (A2 j J) as (X1 & X2 & X3). destruct (B2 j ltac:(lia)) as (Y1 & Y2 & Y3). split; [congruence|]. split; congruence.
  - intros j J. destruct (Nat.lt_ge_cases j (length (objs (s_state b)))) as [H|H]; [|apply B3; lia].
    destruct (B2 j H) as (Y1 & Y2 & Y3). rewrite Y1, Y2, Y3. apply A3. lia.
Qed.
Lemma news_incl : forall (i1 i2 : kind -> str -> Prop) s s', news i1 s s' -> (forall k u, i1 k u -> i2 k u) -> news i2 s s'.
Proof. intros i1 i2 s s' (A & B & C) H. split; [exact A|]. split; [exact B|]. intros j J. destruct (C j J) as [D E]. split; [exact D|apply H; exact E]. Qed.

Lemma makes_ret : forall {A} ids (a : A), makes ids (ret a).
Proof. intros A ids a s. apply news_shape, shape_refl. Qed.
Lemma makes_raise : forall {A} ids e, makes ids (@raise A e).
Proof. intros A ids e s. exact I. Qed.
Lemma makes_andthen : forall {A B} ids (m : act A) (k : A -> act B), makes ids m -> (forall a, makes ids (k a)) -> makes ids (andthen m k).
Proof.
  intros A B ids m k M K s. unfold andthen. pose proof (M s) as E. destruct (m s) as [s1 [a|e]]; [|exact I].
  pose proof (K a s1) as E2. destruct (k a s1) as [s2 [b|e]]; [|exact I]. eapply news_trans; eassumption.
Qed.
Lemma makes_for_each : forall {A} ids (l : list A) f, (forall a, makes ids (f a)) -> makes ids (for_each l f).
Proof. intros A ids l f F. induction l as [|a l IH]; cbn [for_each]; [apply makes_ret|]. apply makes_andthen; [apply F|intros; exact IH]. Qed.
Lemma makes_collect : forall {A B} ids (l : list A) (f : A -> act B), (forall a, In a l -> makes ids (f a)) -> makes ids (collect l f).
Proof.
  intros A B ids l f. induction l as [|a l IH]; intros F; cbn [collect]; [apply makes_ret|]. apply makes_andthen; [apply F; left; reflexivity|].
  intros b. apply makes_andthen; [apply IH; intros a' H; apply F; right; exact H|]. intros r. apply makes_ret.
Qed.
Lemma makes_on_graph : forall ids i f, makes ids (on_graph i f).
Proof. intros ids i f s. apply news_shape, shape_graph. Qed.

Section Makes.
Variable order : list term -> list term.
Variable leaf : XmlModel.node -> guess.
Variable nsmap : XmlModel.node -> list (str * str).

Lemma makes_make : forall (ids : kind -> str -> Prop) k e p, ids k (own_urn e) -> makes ids (make order k e p).
Proof using Type.
  intros ids k e p H s. unfold make. unfold own_urn, urn_of in H. destruct (get_attr #"urn" (n_attrs e)) as [u|]; [|exact I].
  unfold new_cts. destruct (_ <- urn_parse u ;; _) as [t|x]; [|exact I].
  destruct (new_object (s_state s) k u t) as [st1 c] eqn:NO.
  assert (OB1 : objs st1 = objs (s_state s) ++ [MkColl k u t None [] 0] /\ c = length (objs (s_state s))) by (unfold new_object in NO; injection NO as <- <-; auto).
  clear NO. destruct OB1 as [OB1 EC].
  assert (N1 : forall st', shape st1 st' -> news ids s (MkStore st' (s_cites s) (s_paths s))).
  { intros st' S. eapply news_trans; [|apply (news_shape ids (MkStore st1 (s_cites s) (s_paths s))); exact S].
    cbn [s_state]. split; [|split]; cbn [s_state]; rewrite ?OB1, ?app_length; cbn [length]; [lia| |].
    - intros j J. unfold like_object, obj. rewrite OB1, app_nth1 by exact J. repeat split.
    - intros j J. assert (j = c) by lia. subst j. unfold obj. rewrite OB1, EC, app_nth2 by lia. rewrite Nat.sub_diag. cbn. auto. }
  destruct p as [p|].
  - assert (S0 : shape st1 (set_parent st1 c p)) by apply shape_parent.
    destruct k; try (apply N1; exact S0).
    destruct (get_lang order (set_parent st1 c p) p); [|exact I]. apply N1. eapply shape_trans; [exact S0|apply shape_graph].
  - destruct k; apply N1, shape_refl.
Qed.

Ltac making := repeat (first
  [ apply makes_ret | apply makes_raise | apply makes_on_graph | apply makes_for_each; intros | apply makes_andthen; intros ]).
Lemma makes_structured : forall ids i e, makes ids (parse_structured leaf nsmap i e).
Proof using Type.
  intros ids i e. unfold parse_structured. making. destruct (structured_value leaf nsmap a) as [[[[tag v] l]|]|x]; making.
Qed.
Lemma makes_labels : forall ids i k n e, makes ids (parse_labels i k n e).
Proof using Type. intros ids i k n e. unfold parse_labels. making. destruct (get_attr xml_lang (n_attrs a)); making. Qed.
Lemma makes_lang : forall ids i e, makes ids (assign_lang i e).
Proof using Type.
  intros ids i e s. unfold assign_lang. destruct (get_attr xml_lang (n_attrs e)); apply news_shape; [apply shape_graph|apply shape_refl].
Qed.
Lemma makes_about : forall ids i e, makes ids (parse_about i e).
Proof using Type. intros ids i e. unfold parse_about. making. destruct (get_attr #"urn" (n_attrs a)); making. Qed.
Lemma makes_text : forall (ids : kind -> str -> Prop) k e p, ids (KText k) (own_urn e) -> makes ids (parse_text order leaf nsmap k e p).
Proof using Type.
  intros ids k e p H. unfold parse_text.
  repeat first [apply makes_make; exact H|apply makes_labels|apply makes_about|apply makes_structured|apply makes_ret|apply makes_andthen; intros].
  - destruct k; first [apply makes_ret|apply makes_lang].
  - intros s. apply news_shape, shape_refl.
Qed.
Lemma makes_work : forall (ids : kind -> str -> Prop) e p, ids KWork (own_urn e) -> (forall k c, In (k, c) (texts_in e) -> ids (KText k) (own_urn c)) -> makes ids (parse_work order leaf nsmap e p).
Proof using Type.
  intros ids e p H T. unfold parse_work.
  apply makes_andthen; [apply makes_make; exact H|]. intros i.
  repeat first [apply makes_labels|apply makes_lang|apply makes_structured|apply makes_ret|apply makes_andthen; intros];
    apply makes_collect; intros c I; apply makes_text.
  - apply (T Edition). unfold texts_in. apply in_or_app. left. apply in_map. exact I.
  - apply (T Translation). unfold texts_in. apply in_or_app. right. apply in_or_app. left. apply in_map. exact I.
  - apply (T Commentary). unfold texts_in. apply in_or_app. right. apply in_or_app. right. apply in_map. exact I.
Qed.
Lemma makes_textgroup : forall (ids : kind -> str -> Prop) e p, ids KTextgroup (own_urn e) ->
  (forall w, In w (named #"work" e) -> ids KWork (own_urn w) /\ forall k c, In (k, c) (texts_in w) -> ids (KText k) (own_urn c)) -> makes ids (parse_textgroup order leaf nsmap e p).
Proof using Type.
  intros ids e p H T. unfold parse_textgroup.
  apply makes_andthen; [apply makes_make; exact H|]. intros i.
  repeat first [apply makes_labels|apply makes_structured|apply makes_ret|apply makes_andthen; intros].
  apply makes_collect. intros w I. apply makes_work; apply (T w I).
Qed.
End Makes.
