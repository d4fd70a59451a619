(** Lemmas about the utilities. *)

From Coq Require Import List NArith Arith Bool Lia.
From Verif Require Import PyStr PyStrFacts PyRe UtilModel UtilSpec.
Import ListNotations.

(** ** normalize *)

Lemma strip_none_char : forall c s, c <> 32%N -> rmatch strip_items (c :: s) = None.
Proof.
  intros c s H. apply rmatch_head_none; cbn; [ lia | ]. apply is_char_neq. unfold c_space. congruence.
Qed.

Lemma strip_none_one : forall s, hd_error s <> Some 32%N -> rmatch strip_items (32%N :: s) = None.
Proof.
  intros s H. apply rmatch_none. intros ws t E F. inversion F as [|? w ? ws' Hp Hr]; subst.
  inversion Hr; subst. destruct Hp as [Hw [Hl _]]. cbn in *. rewrite app_nil_r in E.
  destruct w as [|a [|b w]]; cbn in Hl; try lia. cbn in E. injection E as <- ->.
  cbn in Hw. apply andb_true_iff in Hw as [_ Hw]. apply andb_true_iff in Hw as [Hw _].
  apply is_char_spec in Hw. unfold c_space in Hw. subst. cbn in H. congruence.
Qed.

Lemma strip_run : forall n s, hd_error s <> Some 32%N ->
  rmatch strip_items (repeat 32%N (S (S n)) ++ s) = Some ([repeat 32%N (S (S n))], s).
Proof.
  intros n s H. pose proof (rmatch_max strip_items [repeat 32%N (S (S n))] s) as M.
  cbn [concat] in M. rewrite app_nil_r in M. apply M. cbn [pieces_max strip_items]. split; [ | split; [ | exact I ] ].
  - split; [ | split ]; cbn [i_cls i_lo i_hi].
    + apply forallb_forall. intros x Hx. apply repeat_spec in Hx. subst. apply is_char_spec. reflexivity.
    + rewrite repeat_length. lia.
    + exact I.
  - right. cbn [concat app i_cls]. destruct s as [|c s]; [ exact I | ]. apply is_char_neq. unfold c_space.
    intros E. apply H. cbn. congruence.
Qed.

Lemma normalize_squeezed : forall s t, squeezed s t -> normalize s = t.
Proof.
  unfold normalize, re_sub. induction 1 as [|c s t Hc H IH|n s t Hs H IH].
  - rewrite re_scan_nil; [ reflexivity | ]. apply rmatch_head_none; cbn; [ lia | exact I ].
  - rewrite re_scan_skip by (apply strip_none_char; exact Hc). cbn [flat_map app]. rewrite IH. reflexivity.
  - destruct n as [|n].
    + cbn [repeat app]. rewrite re_scan_skip by (apply strip_none_one; exact Hs). cbn [flat_map app]. rewrite IH. reflexivity.
    + rewrite (re_scan_match strip_items _ _ _ (strip_run n s Hs)) by (cbn; discriminate).
      cbn [flat_map app]. rewrite IH. reflexivity.
Qed.

Lemma squeezed_exists : forall n s, length s <= n -> exists t, squeezed s t.
Proof.
  assert (R : forall s, exists k r, s = repeat 32%N k ++ r /\ hd_error r <> Some 32%N).
  { induction s as [|c s [k [r [E H]]]].
    - exists 0, []. split; [ reflexivity | discriminate ].
    - destruct (N.eq_dec c 32) as [->|N].
      + exists (S k), r. cbn. rewrite <- E. split; [ reflexivity | exact H ].
      + exists 0, (c :: s). split; [ reflexivity | cbn; congruence ]. }
  induction n as [|n IH]; intros s L.
  - destruct s; [ | cbn in L; lia ]. exists []. constructor.
  - destruct (R s) as [[|k] [r [E H]]].
    + cbn in E. subst r. destruct s as [|c s]; [ exists []; constructor | ].
      destruct (IH s) as [t T]; [ cbn in L; lia | ]. exists (c :: t). constructor; [ | exact T ].
      cbn in H. congruence.
    + subst s. rewrite app_length, repeat_length in L. destruct (IH r) as [t T]; [ lia | ].
      exists (32%N :: t). constructor; assumption.
Qed.

Lemma normalize_spec : forall s, squeezed s (normalize s).
Proof.
  intros s. destruct (squeezed_exists (length s) s) as [t T]; [ lia | ].
  rewrite (normalize_squeezed s t T). exact T.
Qed.

Lemma squeezed_hd : forall s t, squeezed s t -> hd_error s = hd_error t.
Proof. destruct 1; reflexivity. Qed.

Lemma squeezed_no_double : forall s t, squeezed s t -> forall a b, t <> a ++ 32%N :: 32%N :: b.
Proof.
  induction 1 as [|c s t Hc H IH|n s t Hs H IH]; intros a b E.
  - destruct a; discriminate.
  - destruct a as [|x a]; cbn in E; injection E as E1 E2; [ congruence | ]. exact (IH a b E2).
  - destruct a as [|x a]; cbn in E; injection E as E2.
    + apply squeezed_hd in H. rewrite E2 in H. cbn in H. contradiction.
    + exact (IH a b H0).
Qed.

Lemma squeezed_filter : forall s t, squeezed s t ->
  filter (fun c => negb (N.eqb c 32)) t = filter (fun c => negb (N.eqb c 32)) s.
Proof.
  induction 1 as [|c s t Hc H IH|n s t Hs H IH]; cbn [filter app repeat]; [ reflexivity | | ].
  - destruct (negb (N.eqb c 32)); [ f_equal | ]; exact IH.
  - rewrite N.eqb_refl. cbn [negb]. rewrite filter_app, <- IH.
    assert (E : filter (fun c => negb (N.eqb c 32)) (repeat 32%N n) = []).
    { clear. induction n; cbn; [ reflexivity | exact IHn ]. }
    rewrite E. reflexivity.
Qed.

Lemma squeezed_same : forall s t, squeezed s t ->
  (forall a b, s <> a ++ 32%N :: 32%N :: b) -> t = s.
Proof.
  induction 1 as [|c s t Hc H IH|n s t Hs H IH]; intros D; [ reflexivity | | ].
  - f_equal. apply IH. intros a b E. apply (D (c :: a) b). rewrite E. reflexivity.
  - destruct n as [|n].
    + cbn. f_equal. apply IH. intros a b E. apply (D (32%N :: a) b). cbn. rewrite E. reflexivity.
    + exfalso. apply (D [] (repeat 32%N n ++ s)). reflexivity.
Qed.

Lemma normalize_idem : forall s, normalize (normalize s) = normalize s.
Proof.
  intros s. apply (squeezed_same _ _ (normalize_spec (normalize s))).
  exact (squeezed_no_double _ _ (normalize_spec s)).
Qed.

(** ** Nested dictionaries *)

Lemma dset_same : forall A k (x : A) es, dget k es = Some x -> dset k x es = es.
Proof.
  induction es as [|[j y] es IH]; cbn; intros H; [ discriminate | ].
  destruct (str_eqb j k); [ injection H as ->; reflexivity | rewrite IH by exact H; reflexivity ].
Qed.

Lemma dset_dset : forall A k (x y : A) es, dset k x (dset k y es) = dset k x es.
Proof.
  induction es as [|[j z] es IH]; cbn; [ rewrite str_eqb_refl; reflexivity | ].
  destruct (str_eqb j k) eqn:E; cbn; rewrite E; [ reflexivity | rewrite IH; reflexivity ].
Qed.

Section Nested.
Variable V : Type.
Implicit Types d x y v : nested V.

Lemma leads_fun : forall d p x, leads d p x -> forall y, leads d p y -> x = y.
Proof.
  induction 1 as [d|a es k p x y Hk H IH]; intros z Hz; inversion Hz; subst; [ reflexivity | ].
  apply IH. congruence.
Qed.

Lemma leads_app : forall d p q y, leads d (p ++ q) y <-> exists x, leads d p x /\ leads x q y.
Proof.
  intros d p. revert d. induction p as [|k p IH]; intros d q y; cbn.
  - split; [ intros H; exists d; split; [ constructor | exact H ] | intros [x [H1 H2]]; inversion H1; subst; exact H2 ].
  - split.
    + intros H. inversion H as [|a es k0 p0 x1 y0 Hk Hl]; subst. apply IH in Hl as [x0 [H1 H2]]. exists x0. split; [ | exact H2 ].
      econstructor; eassumption.
    + intros [x [H1 H2]]. inversion H1; subst. econstructor; [ eassumption | ]. apply IH. exists x. auto.
Qed.

Lemma leads_leaf : forall (v : V) p y, leads (Leaf v) p y -> p = [] /\ y = Leaf v.
Proof. intros v p y H. inversion H; subst. auto. Qed.

Lemma leads_get : forall d p x, leads d p x -> nested_get d p = Ok (x, d).
Proof.
  induction 1 as [d|a es k p x y Hk H IH]; [ reflexivity | ].
  cbn [nested_get get_item]. rewrite Hk. cbn [bind]. rewrite IH. cbn [bind set_item].
  rewrite (dset_same _ _ _ _ Hk). reflexivity.
Qed.

Lemma hd_rev_app : forall A (l : list A) a, l <> [] -> exists b t t', rev l = b :: t /\ rev (a :: l) = b :: t'.
Proof.
  intros A l a H. destruct (rev l) as [|b t] eqn:E.
  - exfalso. apply H. rewrite <- (rev_involutive l), E. reflexivity.
  - exists b, t, (t ++ [a]). cbn. rewrite E. auto.
Qed.

(** nested_set, one key at a time. *)
Lemma nested_set_one : forall d k v, nested_set d [k] v = set_item d k v.
Proof. intros [w|a es] k v; reflexivity. Qed.

Lemma nested_get_put : forall d p x d1 t, nested_get d p = Ok (x, d1) ->
  exists d2, nested_put d1 p t = d2 /\ leads d1 p x.
Proof.
  intros d p. revert d. induction p as [|k p IH]; intros d x d1 t H; cbn [nested_get] in H.
  - injection H as <- <-. exists t. split; [ reflexivity | constructor ].
  - eexists. split; [ reflexivity | ].
    destruct (get_item d k) as [[x0 d0]|e] eqn:G; [ cbn [bind] in H | discriminate ].
    destruct (nested_get x0 p) as [[y x0']|e] eqn:N; [ cbn [bind] in H | discriminate ].
    destruct (IH _ _ _ t N) as [d2 [_ L]].
    destruct d0 as [w|a es]; cbn in H; [ discriminate | ]. injection H as <- <-.
    econstructor; [ apply dget_dset_same | exact L ].
Qed.

Lemma nested_set_cons : forall d k k2 ks v,
  nested_set d (k :: k2 :: ks) v =
  ('(x, d1) <- get_item d k ;; x' <- nested_set x (k2 :: ks) v ;; set_item d1 k x').
Proof.
  intros d k k2 ks v. unfold nested_set.
  change (removelast (k :: k2 :: ks)) with (k :: removelast (k2 :: ks)).
  destruct (hd_rev_app _ (k2 :: ks) k) as [b [t [t' [E1 E2]]]]; [ discriminate | ]. rewrite E1, E2.
  set (r := removelast (k2 :: ks)). cbn [nested_get].
  destruct (get_item d k) as [[x d1]|e] eqn:G; [ cbn [bind] | reflexivity ].
  destruct (nested_get x r) as [[y x']|e]; [ cbn [bind] | reflexivity ].
  destruct d1 as [w|a es]; [ destruct d as [w'|a' es']; [ discriminate | ] | ].
  - exfalso. cbn in G. destruct (dget k es'); [ discriminate | ]. destruct a'; discriminate.
  - cbn [set_item bind]. destruct (set_item y b v) as [y'|e]; [ cbn [bind] | reflexivity ].
    cbn [nested_put]. rewrite dget_dset_same. rewrite dset_dset. reflexivity.
Qed.

Lemma nested_set_nil : forall d v, nested_set d [] v = Err IndexError.
Proof. reflexivity. Qed.

Lemma set_leads : forall p d v d', nested_set d p v = Ok d' -> leads d' p v.
Proof.
  induction p as [|k [|k2 p] IH]; intros d v d' H; [ discriminate | | ].
  - rewrite nested_set_one in H. destruct d; [ discriminate | ]. injection H as <-.
    econstructor; [ apply dget_dset_same | constructor ].
  - rewrite nested_set_cons in H. destruct (get_item d k) as [[x d1]|e]; [ cbn [bind] in H | discriminate ].
    destruct (nested_set x (k2 :: p) v) as [x'|e] eqn:E; [ cbn [bind] in H | discriminate ].
    apply IH in E. destruct d1 as [w|a es]; [ discriminate | ]. injection H as <-.
    econstructor; [ apply dget_dset_same | exact E ].
Qed.

Lemma get_item_other : forall d k x d1, get_item d k = Ok (x, d1) ->
  exists a es es1, d = Dict a es /\ d1 = Dict a es1 /\ dget k es1 = Some x
    /\ (forall j, j <> k -> dget j es1 = dget j es)
    /\ (dget k es = Some x \/ dget k es = None /\ x = nested_ordered_dictionary /\ a = true).
Proof.
  intros [w|a es] k x d1 H; cbn in H; [ discriminate | ].
  destruct (dget k es) as [y|] eqn:E.
  - injection H as <- <-. exists a, es, es. repeat split; auto.
  - destruct a; [ | discriminate ]. injection H as <- <-. exists true, es, (dset k nested_ordered_dictionary es).
    repeat split; auto; [ apply dget_dset_same | ]. intros j Hj. apply dget_dset_other. congruence.
Qed.

Lemma unrelated_cons : forall k p q, unrelated (k :: p) (k :: q) -> unrelated p q.
Proof.
  intros k p q [A B]. split; intros [r ->]; [ apply A | apply B ]; exists r; reflexivity.
Qed.

Lemma leads_dict_cons : forall a es k q y, leads (Dict a es) (k :: q) y <->
  exists x, dget k es = Some x /\ leads x q y.
Proof.
  intros. split.
  - intros H. inversion H; subst. eauto.
  - intros [x [H1 H2]]. econstructor; eassumption.
Qed.

Lemma set_other : forall p d v d', nested_set d p v = Ok d' ->
  forall q y, unrelated p q -> (leads d' q y <-> leads d q y).
Proof.
  induction p as [|k [|k2 p] IH]; intros d v d' H q y U; [ discriminate | | ].
  - rewrite nested_set_one in H. destruct d as [w|a es]; [ discriminate | ]. injection H as <-.
    destruct q as [|j q]; [ exfalso; apply (proj2 U); exists [k]; reflexivity | ].
    assert (J : j <> k). { intros ->. apply (proj1 U). exists q. reflexivity. }
    rewrite !leads_dict_cons, dget_dset_other by congruence. reflexivity.
  - rewrite nested_set_cons in H.
    destruct (get_item d k) as [[x d1]|e] eqn:G; [ cbn [bind] in H | discriminate ].
    destruct (nested_set x (k2 :: p) v) as [x'|e] eqn:E; [ cbn [bind] in H | discriminate ].
    destruct (get_item_other _ _ _ _ G) as [a [es [es1 [-> [-> [K [O C]]]]]]].
    injection H as <-.
    destruct q as [|j q]; [ exfalso; apply (proj2 U); exists (k :: k2 :: p); reflexivity | ].
    destruct (str_eq_dec j k) as [->|J].
    + apply unrelated_cons in U. rewrite !leads_dict_cons. rewrite dget_dset_same.
      destruct C as [C|[C [-> _]]].
      * rewrite C. split; intros [z [Hz L]]; injection Hz as <-.
        -- exists x. split; [ reflexivity | ]. apply (IH _ _ _ E q y U). exact L.
        -- exists x'. split; [ reflexivity | ]. apply (IH _ _ _ E q y U). exact L.
      * rewrite C. split; [ | intros [z [Hz _]]; discriminate ].
        intros [z [Hz L]]. injection Hz as <-. apply (IH _ _ _ E q y U) in L.
        inversion L; subst; [ exfalso; apply (proj2 U); exists (k2 :: p); reflexivity | discriminate ].
    + rewrite !leads_dict_cons, dget_dset_other by congruence. rewrite (O j J). reflexivity.
Qed.

(** *** Dictionaries made by nested_ordered_dictionary only *)
Definition all_auto d : Prop := forall p a es, leads d p (Dict a es) -> a = true.

Lemma all_auto_dict : forall a es, all_auto (Dict a es) <->
  a = true /\ forall k x, dget k es = Some x -> all_auto x.
Proof.
  intros a es. split.
  - intros H. split; [ apply (H [] a es); constructor | ].
    intros k x Hk p b fs L. apply (H (k :: p) b fs). econstructor; eassumption.
  - intros [-> H] p b fs L. inversion L; subst; [ reflexivity | ]. eapply H; eassumption.
Qed.

Lemma all_auto_leaf : forall v : V, all_auto (Leaf v).
Proof. intros v p a es L. apply leads_leaf in L as [_ L]. discriminate. Qed.

Lemma all_auto_new : all_auto nested_ordered_dictionary.
Proof. apply all_auto_dict. split; [ reflexivity | discriminate ]. Qed.

Lemma set_all_auto : forall p d v d', nested_set d p v = Ok d' -> all_auto d -> all_auto v -> all_auto d'.
Proof.
  assert (S1 : forall k x a es, all_auto (Dict a es) -> all_auto x -> all_auto (Dict a (dset k x es))).
  { intros k x a es H Hx. apply all_auto_dict in H as [-> H]. apply all_auto_dict. split; [ reflexivity | ].
    intros j y Hy. destruct (str_eq_dec k j) as [->|N].
    - rewrite dget_dset_same in Hy. injection Hy as <-. exact Hx.
    - rewrite dget_dset_other in Hy by congruence. apply (H j). exact Hy. }
  induction p as [|k [|k2 p] IH]; intros d v d' H A B; [ discriminate | | ].
  - rewrite nested_set_one in H. destruct d as [w|a es]; [ discriminate | ]. injection H as <-. auto.
  - rewrite nested_set_cons in H. destruct (get_item d k) as [[x d1]|e] eqn:G; [ cbn [bind] in H | discriminate ].
    destruct (nested_set x (k2 :: p) v) as [x'|e] eqn:E; [ cbn [bind] in H | discriminate ].
    destruct d as [w|a es]; [ discriminate | ].
    assert (AA := A). apply all_auto_dict in AA as [-> AA]. cbn in G. destruct (dget k es) as [y|] eqn:K.
    + injection G as <- <-. injection H as <-. apply S1; [ exact A | ].
      apply (IH _ _ _ E); [ apply (AA k y); exact K | exact B ].
    + injection G as <- <-. injection H as <-. apply S1; [ apply S1; [ exact A | exact all_auto_new ] | ].
      apply (IH _ _ _ E); [ exact all_auto_new | exact B ].
Qed.

(** When setting succeeds. *)
Lemma set_ok : forall p d v, all_auto d -> p <> [] ->
  (forall q w, leads d q (Leaf w) -> path_prefix q p -> q = p) ->
  exists d', nested_set d p v = Ok d'.
Proof.
  induction p as [|k [|k2 p] IH]; intros d v A N H; [ congruence | | ].
  - destruct d as [w|a es].
    + exfalso. specialize (H [] w (leads_here _)). discriminate H. exists [k]. reflexivity.
    + eexists. reflexivity.
  - destruct d as [w|a es].
    { exfalso. specialize (H [] w (leads_here _)). discriminate H. exists (k :: k2 :: p). reflexivity. }
    rewrite nested_set_cons. assert (AA := A). apply all_auto_dict in AA as [-> AA]. cbn [get_item].
    destruct (dget k es) as [y|] eqn:K; cbn [bind].
    + destruct (IH y v) as [x' E]; [ apply (AA k); exact K | discriminate | | ].
      * intros q w L P. assert (X : k :: q = k :: k2 :: p).
        { apply (H (k :: q) w). econstructor; eassumption. destruct P as [r P]. exists r. cbn. congruence. }
        congruence.
      * rewrite E. cbn [bind set_item]. eauto.
    + destruct (IH nested_ordered_dictionary v) as [x' E]; [ exact all_auto_new | discriminate | | ].
      * intros q w L _. inversion L; subst. discriminate.
      * rewrite E. cbn [bind set_item]. eauto.
Qed.

Lemma set_fails : forall p d v q w, leads d q (Leaf w) -> path_prefix q p -> q <> p ->
  nested_set d p v = Err TypeError.
Proof.
  induction p as [|k [|k2 p] IH]; intros d v q w L [r R] N.
  - destruct q; [ congruence | discriminate ].
  - destruct q as [|j q]; [ | destruct q; [ cbn in R; destruct r; cbn in R; congruence | discriminate ] ].
    inversion L; subst. reflexivity.
  - rewrite nested_set_cons. destruct q as [|j q].
    + inversion L; subst. reflexivity.
    + injection R as <- R. inversion L as [|a es k0 p0 x y0 Hk Hl]; subst. cbn [get_item]. rewrite Hk. cbn [bind].
      rewrite (IH x v q w); [ reflexivity | assumption | exists r; exact R | congruence ].
Qed.

(** *** Histories *)
Lemma run_sets_app : forall h1 h2 d, run_sets d (h1 ++ h2) = (d' <- run_sets d h1 ;; run_sets d' h2).
Proof.
  induction h1 as [|[p v] h1 IH]; intros h2 d; [ reflexivity | ]. cbn [app run_sets].
  destruct (nested_set d p (Leaf v)); cbn [bind]; auto.
Qed.

Lemma path_prefix_dec : forall p q, {path_prefix p q} + {~ path_prefix p q}.
Proof.
  induction p as [|k p IH]; intros q.
  - left. exists q. reflexivity.
  - destruct q as [|j q]; [ right; intros [r R]; discriminate | ].
    destruct (str_eq_dec k j) as [->|N]; [ | right; intros [r R]; cbn in R; congruence ].
    destruct (IH q) as [H|H]; [ left | right ].
    + destruct H as [r ->]. exists r. reflexivity.
    + intros [r R]. apply H. exists r. cbn in R. congruence.
Qed.

Lemma last_word_snoc : forall h q w p (v : V), last_word (h ++ [(q, w)]) p v <->
  (p = q /\ v = w) \/ (unrelated p q /\ last_word h p v).
Proof.
  intros h q w p v. split.
  - intros [h1 [h2 [E U]]]. destruct h2 as [|e h2 _] using rev_ind.
    + apply app_inj_tail in E as [_ E]. injection E as -> ->. left; auto.
    + rewrite app_comm_cons, app_assoc in E. apply app_inj_tail in E as [E1 <-]. right. split.
      * apply (U q w). apply in_or_app. right; left; reflexivity.
      * exists h1, h2. split; [ exact E1 | ]. intros q' w' I. apply (U q' w'). apply in_or_app; auto.
  - intros [[-> ->]|[U [h1 [h2 [-> H]]]]].
    + exists h, []. split; [ reflexivity | intros ? ? [] ].
    + exists h1, (h2 ++ [(q, w)]). split; [ rewrite <- app_assoc; reflexivity | ].
      intros q' w' I. apply in_app_or in I as [I|[I|[]]]; [ eapply H; exact I | ]. injection I as <- <-. exact U.
Qed.

Lemma history_leads : forall h d, run_sets nested_ordered_dictionary h = Ok d ->
  all_auto d /\ forall p (v : V), leads d p (Leaf v) <-> last_word h p v.
Proof.
  intros h. induction h as [|[q w] h IH] using rev_ind; intros d H.
  - injection H as <-. split; [ exact all_auto_new | ]. intros p v. split.
    + intros L. inversion L; subst. discriminate.
    + intros [h1 [h2 [E _]]]. destruct h1; discriminate.
  - rewrite run_sets_app in H. destruct (run_sets nested_ordered_dictionary h) as [d0|e]; [ cbn [bind] in H | discriminate ].
    destruct (IH d0 eq_refl) as [A L]. cbn [run_sets] in H.
    destruct (nested_set d0 q (Leaf w)) as [d1|e] eqn:E; [ cbn [bind] in H | discriminate ]. injection H as <-.
    pose proof (set_leads _ _ _ _ E) as S. split; [ exact (set_all_auto _ _ _ _ E A (all_auto_leaf w)) | ].
    intros p v. rewrite last_word_snoc.
    destruct (list_eq_dec str_eq_dec p q) as [->|N].
    + split.
      * intros X. left. split; [ reflexivity | ]. pose proof (leads_fun _ _ _ X _ S). congruence.
      * intros [[_ ->]|[U _]]; [ exact S | ]. exfalso. apply (proj1 U). exists []. symmetry; apply app_nil_r.
    + destruct (path_prefix_dec q p) as [P|P]; [ | destruct (path_prefix_dec p q) as [P'|P'] ].
      * split; [ | intros [[X _]|[U _]]; [ contradiction | exfalso; apply (proj2 U); exact P ] ].
        intros X. exfalso. destruct P as [r ->]. apply leads_app in X as [x [X1 X2]].
        rewrite (leads_fun _ _ _ X1 _ S) in X2. apply leads_leaf in X2 as [-> _]. apply N. apply app_nil_r.
      * split; [ | intros [[X _]|[U _]]; [ contradiction | exfalso; apply (proj1 U); exact P' ] ].
        intros X. exfalso. destruct P' as [r ->]. apply leads_app in S as [x [X1 X2]].
        rewrite (leads_fun _ _ _ X1 _ X) in X2. apply leads_leaf in X2 as [-> _]. apply N. symmetry; apply app_nil_r.
      * rewrite (set_other _ _ _ _ E) by (split; assumption). rewrite L. split.
        -- intros X. right. split; [ split; assumption | exact X ].
        -- intros [[X _]|[_ X]]; [ contradiction | exact X ].
Qed.

Lemma history_ok : forall h,
  (exists d, run_sets nested_ordered_dictionary h = Ok d) <->
  (forall h1 p (v : V) h2, h = h1 ++ (p, v) :: h2 ->
     p <> [] /\ forall q w, last_word h1 q w -> path_prefix q p -> q = p).
Proof.
  intros h. induction h as [|[q w] h IH] using rev_ind.
  - split; [ | intros _; eexists; reflexivity ]. intros _ h1 p v h2 E. destruct h1; discriminate.
  - rewrite run_sets_app. split.
    + intros [d H]. destruct (run_sets nested_ordered_dictionary h) as [d0|e] eqn:R; [ cbn [bind] in H | discriminate ].
      cbn [run_sets] in H. destruct (nested_set d0 q (Leaf w)) as [d1|e] eqn:E; [ | discriminate ].
      intros h1 p v h2 Eq. destruct h2 as [|e2 h2 _] using rev_ind.
      * apply app_inj_tail in Eq as [<- Eq]. injection Eq as <- <-. split.
        -- intros ->. discriminate.
        -- intros q' w' L P. destruct (list_eq_dec str_eq_dec q' q) as [X|N]; [ exact X | exfalso ].
           apply (history_leads _ _ R) in L. rewrite (set_fails _ _ _ _ _ L P N) in E. discriminate.
      * rewrite app_comm_cons, app_assoc in Eq. apply app_inj_tail in Eq as [-> _].
        apply (proj1 IH) with (h2 := h2) (v := v); [ eexists; reflexivity | reflexivity ].
    + intros H. destruct (proj2 IH) as [d0 R].
      { intros h1 p v h2 ->. apply (H h1 p v (h2 ++ [(q, w)])). rewrite <- app_assoc. reflexivity. }
      rewrite R. cbn [bind run_sets]. destruct (history_leads _ _ R) as [A L].
      destruct (H h q w [] eq_refl) as [N Q].
      destruct (set_ok q d0 (Leaf w) A N) as [d1 E]; [ | rewrite E; eexists; reflexivity ].
      intros q' w' X P. apply (Q q' w'); [ apply L; exact X | exact P ].
Qed.

(** *** Order of the leaves *)
Definition below_key (kx : str * nested V) : list (list str * V) :=
  map (fun pv => (fst kx :: fst pv, snd pv)) (leaves (snd kx)).

Lemma leaves_dict : forall a es, leaves (Dict a es) = flat_map below_key es.
Proof.
  intros a es. cbn [leaves]. induction es as [|[k x] es IH]; [ reflexivity | ].
  cbn [flat_map]. rewrite <- IH. reflexivity.
Qed.

Inductive full : nat -> nested V -> Prop :=
| full_leaf : forall v : V, full 0 (Leaf v)
| full_dict : forall n es, (forall k x, In (k, x) es -> full n x /\ leaves x <> []) -> NoDup (keys es) ->
    full (S n) (Dict true es).

Lemma dset_absent : forall A k (x : A) es, dget k es = None -> dset k x es = es ++ [(k, x)].
Proof.
  induction es as [|[j y] es IH]; cbn; intros H; [ reflexivity | ].
  destruct (str_eqb j k); [ discriminate | ]. rewrite IH by exact H. reflexivity.
Qed.

Lemma keys_app_ : forall A (a b : list (str * A)), keys (a ++ b) = keys a ++ keys b.
Proof. intros. apply map_app. Qed.

Lemma dset_last : forall A k (x y : A) es, ~ In k (keys es) -> dset k y (es ++ [(k, x)]) = es ++ [(k, y)].
Proof.
  induction es as [|[j z] es IH]; intros N; cbn in *.
  - rewrite str_eqb_refl. reflexivity.
  - destruct (str_eqb j k) eqn:E; [ exfalso; apply N; left; apply str_eqb_eq; exact E | ].
    rewrite IH by tauto. reflexivity.
Qed.

Lemma dget_split : forall A k (x : A) es, dget k es = Some x -> exists e1 e2, es = e1 ++ (k, x) :: e2.
Proof. intros A k x es H. apply dget_In in H. apply in_split. exact H. Qed.

Lemma NoDup_snoc : forall A (l : list A) a, NoDup l -> ~ In a l -> NoDup (l ++ [a]).
Proof.
  intros A l a. induction 1 as [|b l Hb H IH]; cbn; intros N; constructor; auto; [ constructor | ].
  intros I. apply in_app_or in I as [I|[<-|[]]]; [ contradiction | tauto ].
Qed.

Lemma grouped_sub : forall k a (l : list (list str)) q,
  grouped (a ++ map (cons k) l ++ [k :: q]) -> grouped (l ++ [q]).
Proof.
  intros k a l q G b x c y e z E I p P1 P2.
  assert (X : path_prefix (k :: p) (k :: z)).
  { apply (G (a ++ map (cons k) b) (k :: x) (map (cons k) c) (k :: y) (map (cons k) e)).
    - change [k :: q] with (map (cons k) [q]). rewrite <- map_app, E, map_app. cbn [map]. rewrite map_app. cbn [map].
      rewrite <- !app_assoc. reflexivity.
    - apply in_map. exact I.
    - destruct P1 as [r ->]. exists r. reflexivity.
    - destruct P2 as [r ->]. exists r. reflexivity. }
  destruct X as [r X]. exists r. cbn in X. congruence.
Qed.

Lemma map_fst_below : forall k x, map fst (below_key (k, x)) = map (cons k) (map fst (leaves x)).
Proof. intros. unfold below_key. rewrite !map_map. reflexivity. Qed.

Lemma insert_last : forall n d q (v : V), full (S n) d -> length q = S n ->
  grouped (map fst (leaves d) ++ [q]) -> ~ In q (map fst (leaves d)) ->
  exists d', nested_set d q (Leaf v) = Ok d' /\ full (S n) d' /\ leaves d' = leaves d ++ [(q, v)].
Proof.
  induction n as [|n IH]; intros d q v F L G N; inversion F as [|? es Hes Hnd]; subst;
    destruct q as [|k q]; try discriminate; injection L as L.
  - destruct q; [ | discriminate ]. exists (Dict true (dset k (Leaf v) es)).
    assert (K : dget k es = None).
    { destruct (dget k es) as [x|] eqn:K; [ exfalso | reflexivity ]. apply dget_In in K.
      destruct (Hes k x K) as [Fx _]. inversion Fx; subst. apply N. rewrite leaves_dict.
      apply in_map_iff. exists ([k], v0). split; [ reflexivity | ]. apply in_flat_map. exists (k, Leaf v0).
      split; [ exact K | left; reflexivity ]. }
    rewrite dset_absent by exact K. split; [ cbn; rewrite dset_absent by exact K; reflexivity | ]. split.
    + constructor.
      * intros j x I. apply in_app_or in I as [I|[I|[]]]; [ exact (Hes j x I) | ]. injection I as <- <-.
        split; [ constructor | discriminate ].
      * rewrite keys_app_. apply NoDup_snoc; [ exact Hnd | apply dget_None; exact K ].
    + rewrite !leaves_dict, flat_map_app. reflexivity.
  - destruct q as [|k2 q]; [ discriminate | ].
    destruct (dget k es) as [x|] eqn:K.
    + destruct (dget_split _ _ _ _ K) as [e1 [e2 E]].
      assert (e2 = []) as ->.
      { destruct e2 as [|[j y] e2]; [ reflexivity | exfalso ]. subst es.
        assert (NE : j <> k).
        { rewrite keys_app_ in Hnd. cbn in Hnd. apply NoDup_remove_2 in Hnd. intros ->. apply Hnd.
          apply in_or_app. right; left; reflexivity. }
        destruct (Hes k x) as [_ Lx]; [ apply in_or_app; right; left; reflexivity | ].
        destruct (Hes j y) as [_ Ly]; [ apply in_or_app; right; right; left; reflexivity | ].
        destruct (leaves x) as [|[px vx] lx] eqn:EX; [ congruence | ].
        destruct (leaves y) as [|[py vy] ly] eqn:EY; [ congruence | ].
        rewrite leaves_dict, flat_map_app in G. cbn [flat_map] in G. unfold below_key at 2 3 in G.
        cbn [fst snd] in G. rewrite EX, EY in G. cbn [map fst snd app] in G. rewrite map_app in G. cbn [map fst snd app] in G.
        rewrite map_app in G. cbn [map fst snd app] in G.
        assert (P : path_prefix [k] (j :: py)).
        {
          rewrite !map_map, <- !app_assoc in G. cbn [app] in G. rewrite <- !app_assoc in G. cbn [app] in G.
          match type of G with grouped (?A ++ ?X :: ?B ++ ?Y :: ?C ++ [?Z]) =>
            apply (G A X (B ++ Y :: C) Z [] (j :: py)) end.
          - cbn [app]. rewrite <- !app_assoc. reflexivity.
          - apply in_or_app. right. left. reflexivity.
          - exists px. reflexivity.
          - exists (k2 :: q). reflexivity. }
        destruct P as [r P]. cbn in P. congruence. }
      subst es.
      destruct (Hes k x) as [Fx Lx]; [ apply in_or_app; right; left; reflexivity | ].
      assert (Nk : ~ In k (keys e1)).
      { rewrite keys_app_ in Hnd. cbn in Hnd. apply NoDup_remove_2 in Hnd. rewrite app_nil_r in Hnd. exact Hnd. }
      rewrite leaves_dict, flat_map_app in G. cbn [flat_map] in G. rewrite app_nil_r, map_app, map_fst_below, <- app_assoc in G.
      apply grouped_sub in G.
      destruct (IH x (k2 :: q) v Fx L G) as [x' [E [F' L']]].
      { intros I. apply N. rewrite leaves_dict, flat_map_app. cbn [flat_map]. rewrite app_nil_r, map_app, map_fst_below.
        apply in_or_app. right. apply in_map. exact I. }
      exists (Dict true (e1 ++ [(k, x')])). split; [ | split ].
      * rewrite nested_set_cons. cbn [get_item]. rewrite K. cbn [bind]. rewrite E. cbn [bind set_item].
        rewrite dset_last by exact Nk. reflexivity.
      * constructor.
        -- intros j y I. apply in_app_or in I as [I|[I|[]]]; [ apply (Hes j y); apply in_or_app; auto | ].
           injection I as <- <-. split; [ exact F' | ]. rewrite L'. intros X. apply app_eq_nil in X as [_ X]. discriminate.
        -- rewrite keys_app_ in *. exact Hnd.
      * rewrite !leaves_dict, !flat_map_app. cbn [flat_map]. rewrite !app_nil_r, <- app_assoc. f_equal.
        unfold below_key. cbn [fst snd]. rewrite L', map_app. reflexivity.
    + destruct (IH nested_ordered_dictionary (k2 :: q) v) as [x' [E [F' L']]].
      * constructor; [ intros ? ? [] | constructor ].
      * exact L.
      * intros a x b y c z Eq I. destruct a as [|? [|? a]]; cbn in Eq; [ | discriminate | discriminate ].
        injection Eq as _ Eq. destruct b; discriminate.
      * intros [].
      * exists (Dict true (es ++ [(k, x')])). split; [ | split ].
        -- rewrite nested_set_cons. cbn [get_item]. rewrite K. cbn [bind]. rewrite E. cbn [bind set_item].
           rewrite dset_dset. rewrite dset_absent by exact K. reflexivity.
        -- constructor.
           ++ intros j y I. apply in_app_or in I as [I|[I|[]]]; [ exact (Hes j y I) | ]. injection I as <- <-.
              split; [ exact F' | ]. rewrite L'. discriminate.
           ++ rewrite keys_app_. apply NoDup_snoc; [ exact Hnd | apply dget_None; exact K ].
        -- rewrite !leaves_dict, flat_map_app. cbn [flat_map]. rewrite app_nil_r. f_equal.
           unfold below_key. cbn [fst snd]. rewrite L'. reflexivity.
Qed.

Lemma grouped_app_l : forall l m, grouped (l ++ m) -> grouped l.
Proof.
  intros l m G a x b y c z E I p P1 P2. apply (G a x b y (c ++ m) z); auto.
  rewrite E, <- !app_assoc. cbn [app]. rewrite <- app_assoc. reflexivity.
Qed.

Lemma NoDup_app_l : forall A (l m : list A), NoDup (l ++ m) -> NoDup l.
Proof.
  induction l as [|a l IH]; intros m H; [ constructor | ]. inversion H; subst. constructor.
  - intros I. apply H2. apply in_or_app; auto.
  - apply (IH m). assumption.
Qed.

Lemma sets_in_order : forall n h, (forall p (v : V), In (p, v) h -> length p = S n) ->
  NoDup (map fst h) -> grouped (map fst h) ->
  exists d, run_sets nested_ordered_dictionary h = Ok d /\ full (S n) d /\ leaves d = h.
Proof.
  intros n h. induction h as [|[q w] h IH] using rev_ind; intros L N G.
  - exists nested_ordered_dictionary. split; [ reflexivity | ]. split; [ | reflexivity ].
    constructor; [ intros ? ? [] | constructor ].
  - rewrite map_app in N, G. destruct IH as [d [R [F E]]].
    + intros p v I. apply (L p v). apply in_or_app; auto.
    + apply (NoDup_app_l _ _ _ N).
    + apply (grouped_app_l _ _ G).
    + destruct (insert_last n d q w F) as [d' [E1 [F1 E2]]].
      * apply (L q w). apply in_or_app. right; left; reflexivity.
      * rewrite E. exact G.
      * rewrite E. intros I. cbn [map fst] in N. apply NoDup_remove_2 in N. rewrite app_nil_r in N. contradiction.
      * exists d'. rewrite run_sets_app, R. cbn [bind run_sets]. rewrite E1. cbn [bind].
        split; [ reflexivity | ]. split; [ exact F1 | ]. rewrite E2, E. reflexivity.
Qed.
End Nested.
