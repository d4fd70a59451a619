(** More proofs about citations as objects: trees, assignments, shared lists. *)

From Coq Require Import List NArith ZArith Arith Bool Lia.
From Verif Require Import PyStr TreeModel CiteLifeModel CiteLifeSpec CiteLifeProofs.
Import ListNotations.

(** ** Trees *)
Lemma mapM_ok_in : forall {A B} (f : A -> result B) l ys, mapM f l = Ok ys -> Forall2 (fun x y => f x = Ok y) l ys.
Proof.
  induction l as [|x l IH]; intros ys E; cbn [mapM] in E; [injection E as <-; constructor|].
  destruct (f x) eqn:Ex; cbn [bind] in E; [|discriminate].
  destruct (mapM f l) eqn:El; cbn [bind] in E; [|discriminate]. injection E as <-. constructor; [exact Ex|apply IH; reflexivity].
Qed.

Lemma mapM_of_forall2 : forall {A B C} (f : A -> result B) (g : A -> result C) (h : C -> B) l ys,
  Forall2 (fun x y => g x = Ok y) l ys -> (forall x y, In x l -> g x = Ok y -> f x = Ok (h y)) ->
  mapM f l = Ok (map h ys).
Proof.
  induction 1 as [|x y l ys E F IH]; intros H; [reflexivity|]. cbn [mapM map].
  rewrite (H x y (or_introl eq_refl) E). cbn [bind].
  rewrite IH by (intros a b I; apply H; right; exact I). reflexivity.
Qed.

Lemma below_trans : forall w i j k, below w i j -> below w j k -> below w i k.
Proof. intros w i j k A B. induction B; [exact A|]. eapply below_child; eassumption. Qed.
Lemma below_down : forall w i j k, In j (children w i) -> below w j k -> below w i k.
Proof. intros. eapply below_trans; [|eassumption]. eapply below_child; [apply below_self|assumption]. Qed.

Section Trees.
Variable w : world.

Lemma tree_children : forall fuel i t, tree (S fuel) w i = Ok t ->
  exists ts, t = Cite (o_name (cob w i)) (o_root (cob w i)) ts /\
             Forall2 (fun j s => tree fuel w j = Ok s) (children w i) ts.
Proof.
  intros fuel i t E. cbn [tree] in E. destruct (mapM (tree fuel w) (children w i)) as [ts|] eqn:M; [|discriminate].
  cbn [bind] in E. injection E as <-. exists ts. split; [reflexivity|apply mapM_ok_in, M].
Qed.

Lemma tree_depth : forall fuel i t, tree fuel w i = Ok t -> (forall j, below w i j -> o_kind (cob w j) = KCit) ->
  depth fuel w i = Ok (citation_depth t).
Proof.
  induction fuel as [|fuel IH]; intros i t E K; [discriminate|].
  destruct (tree_children _ _ _ E) as (ts & -> & F). cbn [depth].
  rewrite (K i (below_self _ _)).
  assert (M : mapM (depth fuel w) (children w i) = Ok (map citation_depth ts)).
  { apply (mapM_of_forall2 _ (tree fuel w)); [exact F|]. intros x y I Ex. apply IH; [exact Ex|].
    intros j B. apply K. eapply below_down; eassumption. }
  destruct (children w i) as [|a l]; inversion F; subst; [reflexivity|]. rewrite M. reflexivity.
Qed.

Lemma tree_size : forall fuel i t, tree fuel w i = Ok t -> size fuel w i = Ok (citation_len t).
Proof.
  induction fuel as [|fuel IH]; intros i t E; [discriminate|].
  destruct (tree_children _ _ _ E) as (ts & -> & F). cbn [size].
  rewrite (mapM_of_forall2 (size fuel w) (tree fuel w) citation_len _ _ F) by (intros; apply IH; assumption).
  cbn [bind citation_len]. f_equal. f_equal. clear -F. induction F; [reflexivity|]. cbn [length]. rewrite IHF. reflexivity.
Qed.

Lemma tree_iterate : forall fuel i t, tree fuel w i = Ok t -> (forall j, below w i j -> o_kind (cob w j) = KCit) ->
  exists l, iterate fuel w i = Ok l /\ map (fun j => o_name (cob w j)) l = names t.
Proof.
  induction fuel as [|fuel IH]; intros i t E K; [discriminate|].
  destruct (tree_children _ _ _ E) as (ts & -> & F). cbn [iterate]. rewrite (K i (below_self _ _)).
  assert (G : forall l ts, Forall2 (fun j s => tree fuel w j = Ok s) l ts -> incl l (children w i) ->
     exists ls, mapM (iterate fuel w) l = Ok ls /\
       map (fun j => o_name (cob w j)) (concat ls) = flat_map names ts).
  { clear -IH K. induction 1 as [|x y l ts E F IHF]; intros I; [exists []; split; reflexivity|].
    destruct (IH x y E) as (a & A1 & A2); [intros j B; apply K; eapply below_down; [apply I; left; reflexivity|exact B]|].
    destruct IHF as (ls & L1 & L2); [intros z Z; apply I; right; exact Z|].
    exists (a :: ls). cbn [mapM]. rewrite A1. cbn [bind]. rewrite L1. split; [reflexivity|].
    cbn [concat flat_map]. rewrite map_app, A2, L2. reflexivity. }
  destruct (G _ _ F (fun x p => p)) as (ls & M & N). rewrite M. cbn [bind].
  exists (i :: concat ls). split; [reflexivity|]. cbn [map names]. rewrite N. reflexivity.
Qed.

Lemma tree_level : forall k fuel i t, tree fuel w i = Ok t -> S k < fuel ->
  map (fun j => o_name (cob w j)) (at_level k w i) = level_names k t.
Proof.
  assert (N : forall fuel j s, tree fuel w j = Ok s -> o_name (cob w j) = c_name s).
  { intros [|fuel] j s E; [discriminate|]. destruct (tree_children _ _ _ E) as (ts & -> & _). reflexivity. }
  induction k as [|k IH]; intros [|fuel] i t E L; try lia;
    destruct (tree_children _ _ _ E) as (ts & -> & F); cbn [at_level level_names].
  - clear -F N. induction F as [|x y l ts E F IHF]; [reflexivity|]. cbn [map]. rewrite IHF, (N _ _ _ E). reflexivity.
  - assert (G : forall l, Forall2 (fun j s => tree fuel w j = Ok s) l ts ->
       map (fun j => o_name (cob w j)) (flat_map (at_level k w) l) = flat_map (level_names k) ts).
    { intros l F'. clear F E. induction F' as [|x y l ts E F IHF]; [reflexivity|]. cbn [flat_map].
      rewrite map_app, IHF, (IH fuel x y E) by lia. reflexivity. }
    apply G, F.
Qed.
End Trees.

(** ** Assigning children *)
Lemma accepted_fits : forall w c i, accepted w c i = true <-> fits w c (VCit i).
Proof.
  intros. unfold accepted, fits. destruct (o_kind (cob w i)), (o_kind (cob w c)); split; intros H; auto; try discriminate.
  destruct H; discriminate.
Qed.

(** The loop changes roots, and nothing else. *)
Record only_roots (w w' : world) : Prop := {
  or_len : length (objects w') = length (objects w);
  or_lists : lists w' = lists w;
  or_kind : forall x, o_kind (cob w' x) = o_kind (cob w x);
  or_name : forall x, o_name (cob w' x) = o_name (cob w x);
  or_refs : forall x, o_refs (cob w' x) = o_refs (cob w x);
  or_list : forall x, o_list (cob w' x) = o_list (cob w x) }.

Lemma only_roots_refl : forall w, only_roots w w.
Proof. constructor; reflexivity. Qed.
Lemma only_roots_trans : forall a b c, only_roots a b -> only_roots b c -> only_roots a c.
Proof. intros a b c [] []. constructor; intros; etransitivity; eauto. Qed.
Lemma only_roots_one : forall w i r, only_roots w (change_object w i (put_root r)).
Proof.
  intros. constructor; intros; try (rewrite cob_change; destruct (_ && _); reflexivity); [|reflexivity].
  unfold change_object. cbn [objects]. apply length_change.
Qed.

Lemma only_roots_children : forall w w' x, only_roots w w' -> children w' x = children w x.
Proof. intros w w' x O. unfold children. rewrite (or_list _ _ O), (or_lists _ _ O). reflexivity. Qed.

Lemma only_roots_fits : forall w w' c v, only_roots w w' -> (fits w' c v <-> fits w c v).
Proof. intros w w' c [|i|] O; cbn [fits]; try tauto. rewrite !(or_kind _ _ O). tauto. Qed.

Lemma take_only_roots : forall vals w c final, only_roots w (fst (take_children w c vals final)).
Proof.
  induction vals as [|v vals IH]; intros w c final; cbn [take_children]; [apply only_roots_refl|].
  destruct v as [|i|]; [apply IH| |apply only_roots_refl].
  destruct (accepted w c i); [|apply only_roots_refl].
  eapply only_roots_trans; [apply only_roots_one|apply IH].
Qed.

Lemma take_result : forall vals w c final,
  (Forall (fits w c) vals -> snd (take_children w c vals final) = Ok (final ++ given vals)) /\
  (~ Forall (fits w c) vals -> snd (take_children w c vals final) = Err TypeError).
Proof.
  induction vals as [|v vals IH]; intros w c final; cbn [take_children given].
  - split; [intros _; cbn [snd]; rewrite app_nil_r; reflexivity|intros N; destruct (N (Forall_nil _))].
  - destruct v as [|i|].
    + destruct (IH w c final) as (A & B). split; intros H.
      * apply A. inversion H; assumption.
      * apply B. intros F. apply H. constructor; [exact I|exact F].
    + destruct (accepted w c i) eqn:Ac.
      * apply accepted_fits in Ac. set (w1 := change_object w i _).
        assert (O : only_roots w w1) by apply only_roots_one.
        destruct (IH w1 c (final ++ [i])) as (A & B).
        assert (Fo : Forall (fits w1 c) vals <-> Forall (fits w c) vals)
          by (rewrite !Forall_forall; split; intros H v I; specialize (H v I);
              apply (only_roots_fits _ _ c v O); exact H).
        split; intros H.
        -- rewrite A by (apply Fo; inversion H; assumption). rewrite <- app_assoc. reflexivity.
        -- apply B. rewrite Fo. intros F. apply H. constructor; [exact Ac|exact F].
      * split; intros H; [|reflexivity]. inversion H; subst. apply accepted_fits in H2. congruence.
    + split; intros H; [|reflexivity]. inversion H; subst. destruct H2.
Qed.

Lemma top_step : forall w c i, c < length (objects w) ->
  top (change_object w i (put_root (Some (top w c)))) c = top w c.
Proof.
  intros w c i L. unfold top at 1. rewrite cob_change. apply Nat.ltb_lt in L. rewrite L, andb_true_r.
  destruct (Nat.eqb_spec i c) as [->|N]; [|reflexivity]. cbn [put_root o_kind o_root].
  unfold top. destruct (o_kind (cob w c)); reflexivity.
Qed.

Lemma top_eq : forall w c, match o_kind (cob w c) with KCit => root w c | KSet => c end = top w c.
Proof. intros. unfold top, root. destruct (o_kind (cob w c)); [reflexivity|]. destruct (o_root (cob w c)); reflexivity. Qed.

Lemma take_roots : forall vals w c final, c < length (objects w) -> Forall (fits w c) vals ->
  (forall i, In i (given vals) -> i < length (objects w)) ->
  (forall x, In x (given vals) -> o_root (cob (fst (take_children w c vals final)) x) = Some (top w c)) /\
  (forall x, ~ In x (given vals) -> o_root (cob (fst (take_children w c vals final)) x) = o_root (cob w x)).
Proof.
  induction vals as [|v vals IH]; intros w c final L F G; cbn [take_children given fst].
  - split; [intros x []|reflexivity].
  - inversion F as [|? ? Fv Fs]; subst. destruct v as [|i|]; [apply IH; assumption| |destruct Fv].
    assert (Ac : accepted w c i = true) by (apply accepted_fits; exact Fv). rewrite Ac, top_eq.
    set (w1 := change_object w i (put_root (Some (top w c)))).
    assert (O : only_roots w w1) by apply only_roots_one.
    cbn [given] in G. destruct (IH w1 c (final ++ [i])) as (A & B).
    + rewrite (or_len _ _ O). exact L.
    + rewrite Forall_forall in *. intros v I. apply (only_roots_fits _ _ c v O). apply Fs, I.
    + intros j J. rewrite (or_len _ _ O). apply G. right. exact J.
    + unfold w1 in A. rewrite top_step in A by exact L. fold w1 in A. split; intros x H.
      * destruct (in_dec Nat.eq_dec x (given vals)) as [J|J]; [apply A, J|].
        rewrite B by exact J. destruct H as [<-|H]; [|contradiction]. unfold w1. rewrite cob_change, Nat.eqb_refl.
        assert (Li : i <? length (objects w) = true) by (apply Nat.ltb_lt, G; left; reflexivity). rewrite Li. reflexivity.
      * rewrite B by (intros J; apply H; right; exact J). unfold w1. rewrite cob_change.
        destruct (Nat.eqb_spec i x) as [->|N]; [|reflexivity]. exfalso. apply H. left. reflexivity.
Qed.

Lemma cob_fresh : forall w c l x, cob (fresh_list w c l) x
  = if (c =? x) && (x <? length (objects w)) then put_list (length (lists w)) (cob w x) else cob w x.
Proof. intros. unfold cob, fresh_list. cbn [objects]. apply nth_change. Qed.

Lemma set_children_ok : forall w c vals, c < length (objects w) ->
  (forall i, In i (given vals) -> i < length (objects w)) -> sound w ->
  Forall (fits w c) vals ->
  let w' := fst (set_children w c vals) in
  snd (set_children w c vals) = Ok tt /\
  children w' c = given vals /\
  (forall x, x < length (objects w) -> x <> c -> children w' x = children w x) /\
  (forall x, In x (given vals) -> o_root (cob w' x) = Some (top w c)) /\
  (forall x, ~ In x (given vals) -> o_root (cob w' x) = o_root (cob w x)) /\
  (forall x, o_kind (cob w' x) = o_kind (cob w x) /\ o_name (cob w' x) = o_name (cob w x) /\
             o_refs (cob w' x) = o_refs (cob w x)).
Proof.
  intros w c vals L G So F w'. unfold w', set_children.
  destruct (take_result vals w c []) as (Rk & _). specialize (Rk F).
  pose proof (take_only_roots vals w c []) as O. destruct (take_roots vals w c [] L F G) as (T1 & T2).
  destruct (take_children w c vals []) as (w1 & r). cbn [fst snd] in *. subst r. cbn [app fst snd].
  assert (R : forall x, o_root (cob (fresh_list w1 c (given vals)) x) = o_root (cob w1 x))
    by (intros x; rewrite cob_fresh; destruct (_ && _); reflexivity).
  split; [reflexivity|]. split; [|split; [|split; [|split]]].
  - unfold children. rewrite cob_fresh, Nat.eqb_refl, (or_len _ _ O). apply Nat.ltb_lt in L. rewrite L.
    cbn [andb put_list o_list fresh_list lists]. rewrite app_nth2, Nat.sub_diag by lia. reflexivity.
  - intros x Lx N. unfold children. rewrite cob_fresh. replace (c =? x) with false by (symmetry; apply Nat.eqb_neq; congruence).
    cbn [andb fresh_list lists]. rewrite (or_list _ _ O). rewrite (or_lists _ _ O). apply app_nth1. apply (So x Lx).
  - intros x I. rewrite R. apply T1, I.
  - intros x I. rewrite R. apply T2, I.
  - intros x. rewrite <- (or_kind _ _ O x), <- (or_name _ _ O x), <- (or_refs _ _ O x). rewrite cob_fresh. destruct (_ && _); repeat split.
Qed.

Lemma set_children_error : forall w c vals, ~ Forall (fits w c) vals ->
  let w' := fst (set_children w c vals) in
  snd (set_children w c vals) = Err TypeError /\
  (forall x, children w' x = children w x) /\
  (forall x, o_kind (cob w' x) = o_kind (cob w x) /\ o_name (cob w' x) = o_name (cob w x) /\
             o_refs (cob w' x) = o_refs (cob w x)).
Proof.
  intros w c vals N w'. unfold w', set_children.
  destruct (take_result vals w c []) as (_ & Rk). specialize (Rk N).
  pose proof (take_only_roots vals w c []) as O.
  destruct (take_children w c vals []) as (w1 & r). cbn [fst snd] in *. subst r. cbn [fst snd].
  split; [reflexivity|]. split; [intros; apply only_roots_children, O|].
  intros x. rewrite (or_kind _ _ O), (or_name _ _ O), (or_refs _ _ O). repeat split.
Qed.

(** ** Lists that are shared, and lists that are not *)

(** The list object of [x] is the one it was. *)
Definition list_kept (w w' : world) (x : nat) : Prop :=
  length (objects w) <= length (objects w') /\ o_list (cob w' x) = o_list (cob w x).

Lemma set_children_list : forall w c vals x, x <> c -> list_kept w (fst (set_children w c vals)) x.
Proof.
  intros w c vals x N. unfold list_kept, set_children. pose proof (take_only_roots vals w c []) as O.
  destruct (take_children w c vals []) as (w1 & [l|e]); cbn [fst] in *.
  - split; [unfold fresh_list; cbn [objects]; rewrite length_change, (or_len _ _ O); lia|].
    rewrite cob_fresh. replace (c =? x) with false by (symmetry; apply Nat.eqb_neq; congruence). apply (or_list _ _ O).
  - split; [rewrite (or_len _ _ O); lia|apply (or_list _ _ O)].
Qed.

Lemma change_list : forall w c f x, (forall o, o_list (f o) = o_list o) -> list_kept w (change_object w c f) x.
Proof.
  intros w c f x E. split; [unfold change_object; cbn [objects]; rewrite length_change; lia|].
  rewrite cob_change. destruct (_ && _); [apply E|reflexivity].
Qed.

Lemma list_kept_trans : forall a b c x, list_kept a b x -> list_kept b c x -> list_kept a c x.
Proof. intros a b c x (A & B) (C & D). split; [lia|congruence]. Qed.
Lemma list_kept_refl : forall a x, list_kept a a x.
Proof. intros. split; [lia|reflexivity]. Qed.

Lemma list_kept_new : forall w o more x, x < length (objects w) ->
  list_kept w (MkWorld (objects w ++ [o]) (lists w ++ more)) x.
Proof. intros. split; [cbn [objects]; rewrite app_length; lia|]. unfold cob. cbn [objects]. rewrite app_nth1 by assumption. reflexivity. Qed.

Lemma perform_list : forall w d x, x < length (objects w) -> ~ assigns x d -> list_kept w (perform w d) x.
Proof.
  intros w d x L N. destruct d as [vals|name refs vals r|c vals|c v|c v|c l|c n|c r|c r|c|c]; cbn [perform assigns] in *.
  - unfold new_set. set (w1 := MkWorld _ _).
    assert (K : list_kept w w1 x) by (apply list_kept_new; exact L).
    destruct vals as [|v vals]; [exact K|]. apply (list_kept_trans _ _ _ _ K). apply set_children_list. lia.
  - unfold new_citation. set (w1 := MkWorld _ _).
    assert (K : list_kept w w1 x) by (apply list_kept_new; exact L).
    assert (K2 : list_kept w1 (fst (set_children w1 (length (objects w)) vals)) x) by (apply set_children_list; lia).
    destruct (set_children w1 (length (objects w)) vals) as (w2 & [u|e]); cbn [fst] in *.
    + apply (list_kept_trans _ _ _ _ K). apply (list_kept_trans _ _ _ _ K2).
      apply list_kept_trans with (b := change_object w2 (length (objects w)) (put_root r)); [apply change_list; reflexivity|].
      destruct refs; cbn [set_refs]; [apply change_list; reflexivity|apply list_kept_refl].
    + exact (list_kept_trans _ _ _ _ K K2).
  - apply set_children_list. congruence.
  - unfold set_child. destruct v as [i|]; [|apply set_children_list; congruence].
    pose proof (set_children_list w c [VCit i] x) as K2.
    destruct (set_children w c [VCit i]) as (w2 & [u|e]); cbn [fst] in *; [|apply K2; congruence].
    eapply list_kept_trans; [apply K2; congruence|apply change_list; reflexivity].
  - unfold add_child. destruct v as [|i|]; try apply list_kept_refl. destruct (o_kind (cob w i)); [apply list_kept_refl|].
    split; [cbn [objects]; lia|reflexivity].
  - split; [cbn [splice objects]; lia|reflexivity].
  - apply change_list. reflexivity.
  - unfold set_refs. destruct r; [apply change_list; reflexivity|apply list_kept_refl].
  - apply change_list. reflexivity.
  - pose proof (list_kept_new w (cob w c) [] x L) as K. rewrite app_nil_r in K. exact K.
  - split; [unfold deep_copy, loads; cbn [objects]; rewrite app_length; lia|]. unfold deep_copy. rewrite cob_loads_old by exact L. reflexivity.
Qed.

Lemma shared_stay : forall a b w held w' held', 
  runs (fun d => ~ assigns a d /\ ~ assigns b d) w held w' held' ->
  a < length (objects w) -> b < length (objects w) -> o_list (cob w a) = o_list (cob w b) ->
  a < length (objects w') /\ b < length (objects w') /\ o_list (cob w' a) = o_list (cob w' b).
Proof.
  intros a b w held w' held' Rn La Lb E. induction Rn as [|w' held' x y Rn IH I K|w' held' d Rn IH A N]; auto.
  destruct IH as (A1 & A2 & A3). destruct (perform_list w' d a A1 (proj1 A)) as (B1 & B2).
  destruct (perform_list w' d b A2 (proj2 A)) as (_ & B3).
  split; [lia|]. split; [lia|congruence].
Qed.

(** No two citations have a list in common. *)
Definition separate (w : world) : Prop :=
  forall x, x < length (objects w) -> o_list (cob w x) < length (lists w) /\
    forall y, y < length (objects w) -> o_list (cob w x) = o_list (cob w y) -> x = y.

Lemma separate_same : forall w w', separate w -> length (objects w') = length (objects w) ->
  length (lists w') = length (lists w) -> (forall x, o_list (cob w' x) = o_list (cob w x)) -> separate w'.
Proof.
  intros w w' S E1 E2 E3 x L. rewrite E1 in L. rewrite E2, E3. destruct (S x L) as (A & B). split; [exact A|].
  intros y Ly. rewrite E1 in Ly. rewrite E3. apply B, Ly.
Qed.

Lemma separate_change : forall w c f, separate w -> (forall o, o_list (f o) = o_list o) -> separate (change_object w c f).
Proof.
  intros w c f S E. apply (separate_same w); [exact S|unfold change_object; cbn [objects]; apply length_change|reflexivity|].
  intros x. rewrite cob_change. destruct (_ && _); [apply E|reflexivity].
Qed.

Lemma separate_fresh : forall w c l, separate w -> separate (fresh_list w c l).
Proof.
  intros w c l Sp x L. unfold fresh_list in L. cbn [objects] in L. rewrite length_change in L.
  replace (length (lists (fresh_list w c l))) with (S (length (lists w)))
    by (unfold fresh_list; cbn [lists]; rewrite app_length; cbn [length]; lia).
  destruct (Sp x L) as (A & B). rewrite cob_fresh. apply Nat.ltb_lt in L as Lb. rewrite Lb, andb_true_r.
  split; [destruct (c =? x); cbn [put_list o_list]; lia|].
  intros y Ly. unfold fresh_list in Ly. cbn [objects] in Ly. rewrite length_change in Ly.
  rewrite cob_fresh. apply Nat.ltb_lt in Ly as Lyb. rewrite Lyb, andb_true_r. destruct (Sp y Ly) as (C & _).
  destruct (Nat.eqb_spec c x), (Nat.eqb_spec c y); cbn [put_list o_list]; intros E; subst; try lia. apply B; assumption.
Qed.

Lemma separate_set_children : forall w c vals, separate w -> separate (fst (set_children w c vals)).
Proof.
  intros w c vals S. unfold set_children. pose proof (take_only_roots vals w c []) as O.
  assert (S1 : separate (fst (take_children w c vals []))).
  { apply (separate_same w); [exact S|apply (or_len _ _ O)|rewrite (or_lists _ _ O); reflexivity|apply (or_list _ _ O)]. }
  destruct (take_children w c vals []) as (w1 & [l|e]); cbn [fst] in *; [apply separate_fresh|]; exact S1.
Qed.

Lemma separate_new : forall w o, separate w -> o_list o = length (lists w) ->
  separate (MkWorld (objects w ++ [o]) (lists w ++ [[]])).
Proof.
  intros w o S E.
  assert (G : forall x, x < length (objects w ++ [o]) ->
     x < length (objects w) /\ cob (MkWorld (objects w ++ [o]) (lists w ++ [[]])) x = cob w x \/
     x = length (objects w) /\ cob (MkWorld (objects w ++ [o]) (lists w ++ [[]])) x = o).
  { intros x L. rewrite app_length in L. cbn [length] in L. unfold cob. cbn [objects].
    destruct (Nat.ltb_spec x (length (objects w))) as [H|H]; [left; split; [exact H|apply app_nth1, H]|right].
    split; [lia|]. replace x with (length (objects w)) by lia. rewrite app_nth2, Nat.sub_diag by lia. reflexivity. }
  intros x L. cbn [objects lists] in *. rewrite app_length. cbn [length].
  destruct (G x L) as [(L1 & ->)|(L1 & ->)].
  - destruct (S x L1) as (A & B). split; [lia|]. intros y Ly. destruct (G y Ly) as [(L2 & ->)|(L2 & ->)]; [apply B, L2|lia].
  - split; [lia|]. intros y Ly. destruct (G y Ly) as [(L2 & ->)|(L2 & ->)]; [|lia].
    destruct (S y L2) as (A & _). lia.
Qed.

Lemma separate_deep : forall w, separate w -> separate (deep_copy w).
Proof.
  intros w S.
  assert (E1 : length (objects (deep_copy w)) = length (objects w) + length (objects w))
    by (unfold deep_copy, loads; cbn [objects]; rewrite app_length, map_length; reflexivity).
  assert (E2 : length (lists (deep_copy w)) = length (lists w) + length (lists w))
    by (unfold deep_copy, loads; cbn [lists]; rewrite app_length, map_length; reflexivity).
  assert (G : forall x, x < length (objects w) + length (objects w) ->
     x < length (objects w) /\ o_list (cob (deep_copy w) x) = o_list (cob w x) \/
     exists y, y < length (objects w) /\ x = loaded w y /\ o_list (cob (deep_copy w) x) = length (lists w) + o_list (cob w y)).
  { intros x L. destruct (Nat.ltb_spec x (length (objects w))) as [H|H].
    - left. split; [exact H|]. unfold deep_copy. rewrite cob_loads_old by exact H. reflexivity.
    - right. exists (x - length (objects w)). assert (Ex : x = loaded w (x - length (objects w))) by (unfold loaded; lia).
      split; [lia|]. split; [exact Ex|]. rewrite Ex at 1. unfold deep_copy. rewrite cob_loads_new by lia. reflexivity. }
  intros x L. rewrite E1 in L. rewrite E1, E2.
  destruct (G x L) as [(L1 & ->)|(y & L1 & Ex & ->)]; destruct (S _ L1) as (A & B); (split; [lia|]);
    intros z Lz; destruct (G z Lz) as [(L2 & ->)|(t & L2 & Ez & ->)]; destruct (S _ L2) as (C & _); intros E; try lia.
  - apply B; assumption.
  - assert (y = t) by (apply B; [exact L2|lia]). congruence.
Qed.

Lemma separate_perform : forall w d, separate w -> match d with CopyCopy _ => False | _ => True end -> separate (perform w d).
Proof.
  intros w d S N. destruct d as [vals|name refs vals r|c vals|c v|c v|c l|c n|c r|c r|c|c]; cbn [perform] in *.
  - unfold new_set. assert (S1 := separate_new w (MkObj KSet None None (length (lists w)) None) S eq_refl).
    destruct vals; [exact S1|apply separate_set_children, S1].
  - unfold new_citation. assert (S1 := separate_new w (MkObj KCit name None (length (lists w)) None) S eq_refl).
    set (w1 := MkWorld _ _) in *.
    assert (S2 := separate_set_children w1 (length (objects w)) vals S1).
    destruct (set_children w1 (length (objects w)) vals) as (w2 & [u|e]); cbn [fst] in *; [|exact S2].
    assert (S3 : separate (change_object w2 (length (objects w)) (put_root r))) by (apply separate_change; [exact S2|reflexivity]).
    destruct refs; [apply separate_change; [exact S3|reflexivity]|exact S3].
  - apply separate_set_children, S.
  - unfold set_child. destruct v as [i|]; [|apply separate_set_children, S].
    assert (S2 := separate_set_children w c [VCit i] S).
    destruct (set_children w c [VCit i]) as (w2 & [u|e]); cbn [fst] in *; [|exact S2].
    apply separate_change; [exact S2|reflexivity].
  - unfold add_child. destruct v as [|i|]; try exact S. destruct (o_kind (cob w i)); [exact S|].
    apply (separate_same w); [exact S|reflexivity|cbn [lists]; apply length_change|reflexivity].
  - apply (separate_same w); [exact S|reflexivity|cbn [splice lists]; apply length_change|reflexivity].
  - apply separate_change; [exact S|reflexivity].
  - destruct r; [apply separate_change; [exact S|reflexivity]|exact S].
  - apply separate_change; [exact S|reflexivity].
  - destruct N.
  - apply separate_deep, S.
Qed.

Lemma separate_runs : forall w held,
  runs (fun d => match d with CopyCopy _ => False | _ => True end) nothing [] w held -> separate w.
Proof.
  intros w held Rn. induction Rn as [|w' held' x y Rn IH I K|w' held' d Rn IH A N]; [intros x L; inversion L|exact IH|].
  apply separate_perform; assumption.
Qed.

Lemma add_child_children : forall w c i x, o_kind (cob w i) = KCit -> sound w -> c < length (objects w) ->
  children (add_child w c (VCit i)) x
  = if o_list (cob w c) =? o_list (cob w x) then children w x ++ [i] else children w x.
Proof.
  intros w c i x K So L. unfold add_child. rewrite K. unfold children, cob. cbn [objects lists].
  rewrite nth_change. fold (cob w x) (cob w c).
  destruct (Nat.eqb_spec (o_list (cob w c)) (o_list (cob w x))) as [E|N]; cbn [andb]; [|reflexivity].
  destruct (So c L) as (A & _). rewrite E in A. apply Nat.ltb_lt in A. rewrite A. reflexivity.
Qed.

(** ** The property child *)
Lemma set_child_ok : forall w c i, c < length (objects w) -> i < length (objects w) -> sound w ->
  o_kind (cob w c) = KCit -> o_kind (cob w i) = KCit ->
  let w' := fst (set_child w c (Some i)) in
  snd (set_child w c (Some i)) = Ok tt /\
  children w' c = [i] /\
  (forall x, x < length (objects w) -> x <> c -> children w' x = children w x) /\
  o_root (cob w' i) = Some (top w c) /\
  (forall x, x <> i -> o_root (cob w' x) = o_root (cob w x)) /\
  (forall x, o_kind (cob w' x) = o_kind (cob w x) /\ o_name (cob w' x) = o_name (cob w x) /\
             o_refs (cob w' x) = o_refs (cob w x)).
Proof.
  intros w c i Lc Li So Kc Ki w'. unfold w', set_child.
  destruct (set_children_ok w c [VCit i] Lc) as (A & B & C & D & E & F).
  - intros j [<-|[]]. exact Li.
  - exact So.
  - constructor; [left; exact Ki|constructor].
  - cbn [given] in *. destruct (set_children w c [VCit i]) as (w1 & r) eqn:Es. cbn [fst snd] in *. subst r. cbn [fst snd].
    set (r := if is_root w1 c then c else root w1 c).
    assert (O : only_roots w1 (change_object w1 i (put_root (Some r)))) by apply only_roots_one.
    assert (Len : length (objects w1) = length (objects w)).
    { pose proof (take_only_roots [VCit i] w c []) as T. unfold set_children in Es.
      destruct (take_children w c [VCit i] []) as (w2 & [l|e]); [|discriminate]. injection Es as <-.
      unfold fresh_list. cbn [objects fst] in *. rewrite length_change. apply (or_len _ _ T). }
    assert (R : r = top w c).
    { unfold r, is_root, root, top. rewrite (proj1 (F c)), Kc.
      destruct (Nat.eq_dec c i) as [->|N].
      - rewrite (D i (or_introl eq_refl)). unfold top. rewrite Kc. reflexivity.
      - rewrite E by (intros [X|[]]; congruence). destruct (o_root (cob w c)); reflexivity. }
    split; [reflexivity|]. split; [rewrite (only_roots_children _ _ _ O); exact B|].
    split; [intros x Lx N; rewrite (only_roots_children _ _ _ O); apply C; assumption|]. split; [|split].
    + rewrite cob_change, Nat.eqb_refl, Len. apply Nat.ltb_lt in Li. rewrite Li. cbn [andb put_root o_root]. rewrite R. reflexivity.
    + intros x N. rewrite cob_change. replace (i =? x) with false by (symmetry; apply Nat.eqb_neq; congruence).
      cbn [andb]. apply E. intros [X|[]]. congruence.
    + intros x. rewrite (or_kind _ _ O), (or_name _ _ O), (or_refs _ _ O). apply F.
Qed.

(** ** Circles *)
Inductive chain (w : world) : nat -> list nat -> Prop :=
| chain_one : forall i, chain w i [i]
| chain_more : forall i j l, In j (children w i) -> chain w j l -> chain w i (i :: l).

Lemma tree_error : forall w fuel i e, tree fuel w i = Err e ->
  exists l, chain w i l /\ length l = S fuel.
Proof.
  induction fuel as [|fuel IH]; intros i e E.
  - exists [i]. split; [constructor|reflexivity].
  - cbn [tree] in E. destruct (mapM (tree fuel w) (children w i)) as [ts|e'] eqn:M; [discriminate|].
    assert (G : exists j e2, In j (children w i) /\ tree fuel w j = Err e2).
    { clear E. revert M. generalize (children w i). induction l as [|a l IHl]; intros M; cbn [mapM] in M; [discriminate|].
      destruct (tree fuel w a) eqn:Ea; cbn [bind] in M; [|exists a; eexists; split; [left; reflexivity|exact Ea]].
      destruct (mapM (tree fuel w) l) eqn:El; cbn [bind] in M; [discriminate|].
      destruct (IHl M) as (j & e2 & I & J). exists j, e2. split; [right; exact I|exact J]. }
    destruct G as (j & e2 & I & J). destruct (IH j e2 J) as (l & C & L).
    exists (i :: l). split; [econstructor; eassumption|cbn [length]; rewrite L; reflexivity].
Qed.

Lemma chain_below : forall w i l, chain w i l -> forall x, In x l -> below w i x.
Proof.
  induction 1 as [i|i j l I C IH]; intros x J.
  - destruct J as [<-|[]]. constructor.
  - destruct J as [<-|J]; [constructor|]. eapply below_down; [exact I|apply IH, J].
Qed.

Lemma chain_circular : forall w i l, chain w i l -> ~ NoDup l -> circular w i.
Proof.
  induction 1 as [i|i j l I C IH]; intros N.
  - exfalso. apply N. constructor; [intros []|constructor].
  - destruct (in_dec Nat.eq_dec i l) as [J|J].
    + exists i, j. split; [constructor|]. split; [exact I|]. apply (chain_below _ _ _ C), J.
    + destruct IH as (a & b & A & B & D); [intros M; apply N; constructor; assumption|].
      exists a, b. split; [eapply below_down; eassumption|]. split; assumption.
Qed.

Lemma below_bound : forall w i j, sound w -> i < length (objects w) -> below w i j -> j < length (objects w).
Proof. intros w i j So L B. induction B; [exact L|]. destruct (So j IHB) as (_ & C & _). apply C. assumption. Qed.

Lemma tree_defined : forall w i, sound w -> i < length (objects w) -> ~ circular w i ->
  forall fuel, length (objects w) <= fuel -> exists t, tree fuel w i = Ok t.
Proof.
  intros w i So L N fuel F. destruct (tree fuel w i) as [t|e] eqn:E; [exists t; reflexivity|]. exfalso.
  destruct (tree_error _ _ _ _ E) as (l & C & Ll). apply N, (chain_circular _ _ l C). intros D.
  assert (I : incl l (seq 0 (length (objects w)))).
  { intros x J. apply in_seq. split; [lia|]. apply (below_bound w i); [exact So|exact L|]. apply (chain_below _ _ _ C), J. }
  pose proof (NoDup_incl_length D I) as X. rewrite seq_length in X. lia.
Qed.

Lemma tree_child_ok : forall w fuel i t k, tree fuel w i = Ok t -> In k (children w i) ->
  exists f s, fuel = S f /\ tree f w k = Ok s.
Proof.
  intros w [|f] i t k E I; [discriminate|]. destruct (tree_children _ _ _ _ E) as (ts & _ & F).
  clear E. exists f. revert I. induction F as [|x y l ts Ex F IH]; intros I; [destruct I|].
  destruct I as [<-|I]; [exists y; split; [reflexivity|exact Ex]|]. exact (IH I).
Qed.

Lemma tree_below_ok : forall w i j, below w i j -> forall fuel t, tree fuel w i = Ok t ->
  exists f s, f <= fuel /\ tree f w j = Ok s.
Proof.
  intros w i j B. induction B as [|j k B IH I]; intros fuel t E; [exists fuel, t; split; [lia|exact E]|].
  destruct (IH fuel t E) as (f & s & L & Es). destruct (tree_child_ok _ _ _ _ _ Es I) as (f' & s' & -> & Es').
  exists f', s'. split; [lia|exact Es'].
Qed.

Lemma circular_undefined : forall w i, circular w i -> forall fuel, tree fuel w i = Err RecursionError.
Proof.
  intros w i (j & k & A & B & C) fuel.
  assert (D : forall f t, tree f w j = Ok t -> False).
  { induction f as [f IH] using lt_wf_ind. intros t E.
    destruct (tree_child_ok _ _ _ _ _ E B) as (f' & s & -> & Es).
    destruct (tree_below_ok _ _ _ C _ _ Es) as (f2 & s2 & L & E2). exact (IH f2 ltac:(lia) s2 E2). }
  assert (G : forall f x, (exists t, tree f w x = Ok t) \/ tree f w x = Err RecursionError).
  { induction f as [|f IH]; intros x; [right; reflexivity|]. cbn [tree].
    assert (H : forall l, (exists ts, mapM (tree f w) l = Ok ts) \/ mapM (tree f w) l = Err RecursionError).
    { induction l as [|y l IHl]; [left; exists []; reflexivity|]. cbn [mapM].
      destruct (IH y) as [(t & ->)| ->]; cbn [bind]; [|right; reflexivity].
      destruct IHl as [(ts & ->)| ->]; [left; eexists; reflexivity|right; reflexivity]. }
    destruct (H (children w x)) as [(ts & ->)| ->]; [left; eexists; reflexivity|right; reflexivity]. }
  destruct (G fuel i) as [(t & E)|E]; [|exact E]. exfalso.
  destruct (tree_below_ok _ _ _ A _ _ E) as (f & s & _ & Es). exact (D f s Es).
Qed.

(** Iteration stops when the tree does. *)
Lemma iterate_tree : forall w fuel i, 
  match tree fuel w i with Ok _ => exists l, iterate fuel w i = Ok l | Err e => iterate fuel w i = Err e end.
Proof.
  induction fuel as [|fuel IH]; intros i; [reflexivity|]. cbn [tree iterate].
  assert (H : forall l, match mapM (tree fuel w) l with
     | Ok _ => exists ls, mapM (iterate fuel w) l = Ok ls | Err e => mapM (iterate fuel w) l = Err e end).
  { induction l as [|y l IHl]; [exists []; reflexivity|]. cbn [mapM]. specialize (IH y).
    destruct (tree fuel w y); cbn [bind].
    - destruct IH as (la & ->). cbn [bind]. destruct (mapM (tree fuel w) l); cbn [bind].
      + destruct IHl as (ls & ->). eexists. reflexivity.
      + rewrite IHl. reflexivity.
    - rewrite IH. reflexivity. }
  specialize (H (children w i)). destruct (mapM (tree fuel w) (children w i)); cbn [bind].
  - destruct H as (ls & ->). eexists. reflexivity.
  - rewrite H. reflexivity.
Qed.

Lemma sound_loads : forall saved later, sound saved -> sound later -> sound (loads saved later).
Proof. intros saved later A B. exact (fenced_sound _ _ _ (fenced_loads saved later true A B)). Qed.

(** ** copy.copy *)
Lemma copy_copy_same : forall w c, sound w -> c < length (objects w) ->
  cob (copy_copy w c) (length (objects w)) = cob w c /\
  children (copy_copy w c) (length (objects w)) = children w c /\
  forall x, x < length (objects w) -> answers_alike (fun i => i) w x (copy_copy w c) x.
Proof.
  intros w c So L.
  assert (E : cob (copy_copy w c) (length (objects w)) = cob w c)
    by (unfold cob at 1, copy_copy; cbn [objects]; rewrite app_nth2, Nat.sub_diag by lia; reflexivity).
  split; [exact E|]. split; [unfold children; rewrite E; reflexivity|].
  intros x Lx.
  assert (O : forall i, i < length (objects w) -> cob (copy_copy w c) i = cob w i)
    by (intros i Li; unfold cob, copy_copy; cbn [objects]; apply app_nth1, Li).
  apply (alike (fun i => i)) with (P := fun i => i < length (objects w)); intros; try (rewrite O by assumption; try reflexivity).
  - destruct (So i H) as (_ & B & _). apply B. assumption.
  - destruct (o_root (cob w i)); reflexivity.
  - unfold children. rewrite O by assumption. cbn [copy_copy lists]. symmetry. apply map_id.
  - exact Lx.
Qed.

(** ** Making citations *)
Lemma sound_new : forall w o, sound w -> o_root o = None -> o_list o = length (lists w) ->
  sound (MkWorld (objects w ++ [o]) (lists w ++ [[]])).
Proof.
  intros w o So R E. apply sound_fenced in So.
  destruct (kept_new _ _ _ o [[]] So) as (os & ls & K & _); [congruence|left; split; [reflexivity|exact E]|].
  exact (fenced_sound _ _ _ (k_fenced _ _ _ _ _ _ K)).
Qed.

Lemma cob_new_old : forall w o more x, x < length (objects w) ->
  cob (MkWorld (objects w ++ [o]) (lists w ++ more)) x = cob w x.
Proof. intros. unfold cob. cbn [objects]. apply app_nth1. assumption. Qed.
Lemma cob_new_self : forall w o more, cob (MkWorld (objects w ++ [o]) (lists w ++ more)) (length (objects w)) = o.
Proof. intros. unfold cob. cbn [objects]. rewrite app_nth2, Nat.sub_diag by lia. reflexivity. Qed.
Lemma children_new_old : forall w o more x, sound w -> x < length (objects w) ->
  children (MkWorld (objects w ++ [o]) (lists w ++ more)) x = children w x.
Proof.
  intros w o more x So L. unfold children. rewrite cob_new_old by exact L. cbn [lists]. apply app_nth1. apply (So x L).
Qed.

Lemma fits_new : forall w o more v, (forall i, In i (given [v]) -> i < length (objects w)) ->
  (fits (MkWorld (objects w ++ [o]) (lists w ++ more)) (length (objects w)) v <->
   match v with VNone => True | VOther => False | VCit i => o_kind (cob w i) = KCit \/ o_kind o = KSet end).
Proof.
  intros w o more [|i|] G; cbn [fits]; try tauto.
  rewrite cob_new_self, cob_new_old by (apply G; left; reflexivity). tauto.
Qed.

Lemma given_one : forall v vals i, In v vals -> In i (given [v]) -> In i (given vals).
Proof.
  induction vals as [|u vals IH]; intros i I J; [destruct I|].
  destruct I as [->|I].
  - destruct v as [|k|]; cbn [given] in *; [destruct J| |destruct J]. destruct J as [<-|[]]. left. reflexivity.
  - specialize (IH i I J). destruct u; cbn [given]; [exact IH|right; exact IH|exact IH].
Qed.

Lemma new_citation_ok : forall w name refs vals r, sound w ->
  (forall i, In i (given vals) -> i < length (objects w)) ->
  Forall (fun v => match v with VNone => True | VOther => False | VCit i => o_kind (cob w i) = KCit end) vals ->
  let self := length (objects w) in
  let w' := fst (new_citation w name refs vals r) in
  snd (new_citation w name refs vals r) = Ok tt /\
  o_kind (cob w' self) = KCit /\ o_name (cob w' self) = name /\ o_refs (cob w' self) = refs /\
  o_root (cob w' self) = r /\ children w' self = given vals /\
  (forall x, In x (given vals) -> o_root (cob w' x) = Some self) /\
  (forall x, x < self -> ~ In x (given vals) -> o_root (cob w' x) = o_root (cob w x)) /\
  (forall x, x < self -> children w' x = children w x /\ o_kind (cob w' x) = o_kind (cob w x) /\
     o_name (cob w' x) = o_name (cob w x) /\ o_refs (cob w' x) = o_refs (cob w x)).
Proof.
  intros w name refs vals r So G F self w'. unfold w', new_citation. fold self.
  set (o := MkObj KCit name None (length (lists w)) None).
  set (w1 := MkWorld (objects w ++ [o]) (lists w ++ [[]])).
  assert (S1 : sound w1) by (apply sound_new; [exact So|reflexivity|reflexivity]).
  assert (Len : length (objects w1) = S self) by (unfold w1, self; cbn [objects]; rewrite app_length; cbn [length]; lia).
  assert (Fi : Forall (fits w1 self) vals).
  { rewrite Forall_forall in *. intros v I. apply fits_new; [intros i J; apply G; exact (given_one v vals i I J)|].
    specialize (F v I). destruct v as [|i|]; [exact Logic.I|left; exact F|exact F]. }
  destruct (set_children_ok w1 self vals) as (A & B & C & D & E & K);
    [lia|intros i I; specialize (G i I); unfold self in *; lia|exact S1|exact Fi|].
  assert (T : top w1 self = self) by (unfold top, w1, self; rewrite cob_new_self; reflexivity).
  assert (O1 : cob w1 self = o) by apply cob_new_self.
  destruct (set_children w1 self vals) as (w2 & q) eqn:Es. cbn [fst snd] in *. subst q. cbn [fst snd].
  assert (Len2 : self <? length (objects w2) = true).
  { apply Nat.ltb_lt. pose proof (take_only_roots vals w1 self []) as Tk. unfold set_children in Es.
    destruct (take_children w1 self vals []) as (w3 & [l|e]); [|discriminate]. injection Es as <-.
    unfold fresh_list. cbn [objects fst] in *. rewrite length_change, (or_len _ _ Tk), Len. lia. }
  set (w3 := change_object w2 self (put_root r)).
  assert (R3 : forall x, cob w3 x = if self =? x then put_root r (cob w2 x) else cob w2 x).
  { intros x. unfold w3. rewrite cob_change. destruct (Nat.eqb_spec self x) as [<-|N]; [rewrite Len2|]; reflexivity. }
  assert (L3 : self <? length (objects w3) = true) by (unfold w3, change_object; cbn [objects]; rewrite length_change; exact Len2).
  assert (R4 : forall x, cob (set_refs w3 self refs) x =
     if self =? x then (match refs with Some _ => put_refs refs | None => fun o => o end) (put_root r (cob w2 x)) else cob w2 x).
  { intros x. destruct refs as [t|]; cbn [set_refs]; [rewrite cob_change|]; rewrite R3;
      (destruct (Nat.eqb_spec self x) as [<-|N]; [try rewrite L3|]; reflexivity). }
  assert (C4 : forall x, children (set_refs w3 self refs) x = children w2 x).
  { intros x. unfold children. rewrite R4. assert (X : lists (set_refs w3 self refs) = lists w2) by (destruct refs; reflexivity).
    rewrite X. destruct (self =? x); [|reflexivity]. destruct refs; reflexivity. }
  assert (Old : forall x, x < self -> (self =? x) = false) by (intros x Lx; apply Nat.eqb_neq; lia).
  split; [reflexivity|]. rewrite !R4, !C4, Nat.eqb_refl.
  destruct (K self) as (K1 & K2 & K3). rewrite O1 in K1, K2, K3. cbn [o o_kind o_name o_refs] in K1, K2, K3.
  split; [destruct refs; exact K1|]. split; [destruct refs; exact K2|]. split; [destruct refs; [reflexivity|exact K3]|].
  split; [destruct refs; reflexivity|]. split; [exact B|]. split; [|split].
  - intros x I. rewrite R4, Old by (apply G, I). rewrite (D x I), T. reflexivity.
  - intros x Lx N. rewrite R4, Old by exact Lx. rewrite (E x N). unfold w1. rewrite cob_new_old by exact Lx. reflexivity.
  - intros x Lx. rewrite R4, C4, Old by exact Lx. destruct (K x) as (X1 & X2 & X3).
    rewrite X1, X2, X3, C by lia. unfold w1. rewrite cob_new_old by exact Lx. split; [|repeat split].
    apply children_new_old; assumption.
Qed.

Lemma new_set_ok : forall w vals, sound w ->
  (forall i, In i (given vals) -> i < length (objects w)) -> ~ In VOther vals ->
  let self := length (objects w) in
  let w' := fst (new_set w vals) in
  snd (new_set w vals) = Ok tt /\
  o_kind (cob w' self) = KSet /\ children w' self = given vals /\
  (forall x, In x (given vals) -> o_root (cob w' x) = Some self) /\
  (forall x, x < self -> ~ In x (given vals) -> o_root (cob w' x) = o_root (cob w x)) /\
  (forall x, x < self -> children w' x = children w x /\ o_kind (cob w' x) = o_kind (cob w x) /\
     o_name (cob w' x) = o_name (cob w x) /\ o_refs (cob w' x) = o_refs (cob w x)).
Proof.
  intros w vals So G F self w'. unfold w', new_set. fold self.
  set (o := MkObj KSet None None (length (lists w)) None).
  set (w1 := MkWorld (objects w ++ [o]) (lists w ++ [[]])).
  assert (S1 : sound w1) by (apply sound_new; [exact So|reflexivity|reflexivity]).
  assert (Len : length (objects w1) = S self) by (unfold w1, self; cbn [objects]; rewrite app_length; cbn [length]; lia).
  assert (O1 : cob w1 self = o) by apply cob_new_self.
  assert (T : top w1 self = self) by (unfold top; rewrite O1; reflexivity).
  assert (Old : forall x, x < self -> cob w1 x = cob w x) by (intros; apply cob_new_old; assumption).
  assert (OldC : forall x, x < self -> children w1 x = children w x) by (intros; apply children_new_old; assumption).
  destruct vals as [|v vals].
  - cbn [fst snd given]. rewrite O1. split; [reflexivity|]. split; [reflexivity|]. split.
    + unfold children. rewrite O1. cbn [o o_list w1 lists]. rewrite app_nth2, Nat.sub_diag by lia. reflexivity.
    + split; [intros x []|]. split; intros x Lx; [intros _|]; rewrite Old by exact Lx; [reflexivity|].
      split; [apply OldC, Lx|repeat split].
  - assert (Fi : Forall (fits w1 self) (v :: vals)).
    { rewrite Forall_forall. intros u I. apply fits_new; [intros i J; apply G; exact (given_one u _ i I J)|].
      destruct u as [|i|]; [exact Logic.I|right; reflexivity|exact (F I)]. }
    destruct (set_children_ok w1 self (v :: vals)) as (A & B & C & D & E & K);
      [lia|intros i I; specialize (G i I); unfold self in *; lia|exact S1|exact Fi|].
    split; [exact A|]. destruct (K self) as (K1 & _). rewrite O1 in K1. split; [exact K1|]. split; [exact B|].
    split; [intros x I; rewrite (D x I), T; reflexivity|]. split.
    + intros x Lx N. rewrite (E x N), Old by exact Lx. reflexivity.
    + intros x Lx. destruct (K x) as (X1 & X2 & X3). rewrite X1, X2, X3, C, Old, OldC by lia. repeat split.
Qed.

(** ** Levels *)

Lemma level_leads : forall k w i j, In j (at_level k w i) <-> leads w (S k) i j.
Proof.
  induction k as [|k IH]; intros w i j; cbn [at_level].
  - split; [intros H; exists j; split; [exact H|reflexivity]|]. intros (c & H & <-). exact H.
  - rewrite in_flat_map. split.
    + intros (c & Hc & H). exists c. split; [exact Hc|]. apply IH. exact H.
    + intros (c & Hc & H). exists c. split; [exact Hc|]. apply IH. exact H.
Qed.

Lemma leads_snoc : forall w n i j c, leads w n i j -> In c (children w j) -> leads w (S n) i c.
Proof.
  intros w n. induction n as [|n IH]; intros i j c H Hc.
  - cbn in H. subst j. exists c. split; [exact Hc|reflexivity].
  - destruct H as (k & Hk & H). exists k. split; [exact Hk|]. exact (IH k j c H Hc).
Qed.

Lemma depth_leads : forall w fuel i d, (forall n j, leads w (S n) i j -> o_kind (cob w j) = KCit) -> depth fuel w i = Ok d ->
  let own := match o_kind (cob w i) with KSet => 0 | KCit => 1 end in
  own <= d /\ (exists j, leads w (d - own) i j) /\ forall n j, leads w n i j -> own + n <= d.
Proof.
  intros w fuel. induction fuel as [|fuel IH]; intros i d K E; [discriminate E|]. cbv zeta. cbn [depth] in E.
  set (own := match o_kind (cob w i) with KSet => 0 | KCit => 1 end) in *.
  destruct (children w i) as [|c cs] eqn:C.
  - injection E as <-. split; [lia|]. split; [exists i; rewrite Nat.sub_diag; reflexivity|].
    intros [|n] j H; [lia|]. destruct H as (k & Hk & _). rewrite C in Hk. destruct Hk.
  - rewrite <- C in E. destruct (mapM (depth fuel w) (children w i)) as [ds|] eqn:M; [|discriminate E]. cbn [bind] in E. injection E as <-.
    apply mapM_ok_in in M.
    assert (Kid : forall k, In k (children w i) -> o_kind (cob w k) = KCit /\ forall n j, leads w (S n) k j -> o_kind (cob w j) = KCit).
    { intros k Hk. split; [apply (K 0); exists k; split; [exact Hk|reflexivity]|]. intros n j H. apply (K (S n)). exists k. auto. }
    assert (Up : forall k dk, In k (children w i) -> depth fuel w k = Ok dk -> 1 <= dk /\ (exists j, leads w (dk - 1) k j) /\ forall n j, leads w n k j -> 1 + n <= dk).
    { intros k dk Hk E. destruct (Kid k Hk) as (K1 & K2). specialize (IH k dk K2 E). cbv zeta in IH. rewrite K1 in IH. exact IH. }
    assert (G : forall l ds, (forall k, In k l -> In k (children w i)) -> Forall2 (fun x y => depth fuel w x = Ok y) l ds ->
      (forall k n j, In k l -> leads w n k j -> 1 + n <= fold_right Nat.max 0 ds) /\
      (l <> [] -> exists k j, In k l /\ 1 <= fold_right Nat.max 0 ds /\ leads w (fold_right Nat.max 0 ds - 1) k j)).
    { clear M. intros l ds' S F. induction F as [|k dk l ds' E F IHF]; [split; [intros k n j []|congruence]|].
      destruct (Up k dk (S k (or_introl eq_refl)) E) as (U1 & (j0 & U2) & U3). destruct IHF as (I1 & I2); [intros k' H; apply S; right; exact H|]. cbn [fold_right]. split.
      - intros k' n j [<-|H] L; [specialize (U3 n j L)|specialize (I1 k' n j H L)]; lia.
      - intros _. destruct (le_lt_dec (fold_right Nat.max 0 ds') dk) as [L|L].
        + exists k, j0. split; [left; reflexivity|]. replace (Nat.max dk (fold_right Nat.max 0 ds')) with dk by lia. auto.
        + assert (N : l <> []) by (intros ->; inversion F; subst; cbn in L; lia). destruct (I2 N) as (k' & j & Hk & L1 & L2). exists k', j. split; [right; exact Hk|].
          replace (Nat.max dk (fold_right Nat.max 0 ds')) with (fold_right Nat.max 0 ds') by lia. auto. }
    destruct (G (children w i) ds (fun k H => H) M) as (G1 & G2). split; [lia|]. split.
    + destruct G2 as (k & j & Hk & L1 & L2); [rewrite C; discriminate|]. exists j.
      replace (own + fold_right Nat.max 0 ds - own) with (S (fold_right Nat.max 0 ds - 1)) by lia. exists k. auto.
    + intros [|n] j H; [lia|]. destruct H as (k & Hk & H). specialize (G1 k n j Hk H). lia.
Qed.
