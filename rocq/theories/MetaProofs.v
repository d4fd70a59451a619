(** Proofs about the metadata model. *)

From Coq Require Import List NArith ZArith Arith Bool Lia Permutation.
From Verif Require Import PyStr PyStrFacts MetaModel MetaSpec.
Import ListNotations.

Lemma opt_str_eqb_eq : forall a b : option str,
  opt_eqb str_eqb a b = true <-> a = b.
Proof.
  intros [a|] [b|]; cbn; try rewrite str_eqb_eq; split; intros H;
    try congruence; try discriminate.
Qed.

Lemma term_eqb_eq : forall a b, term_eqb a b = true <-> a = b.
Proof.
  intros [s|n|s l d] [s'|n'|s' l' d']; cbn; try (split; congruence).
  - rewrite str_eqb_eq. split; congruence.
  - rewrite N.eqb_eq. split; congruence.
  - rewrite !andb_true_iff, str_eqb_eq, !opt_str_eqb_eq.
    split; [ intros [[-> ->] ->]; reflexivity | intros H; inversion H; auto ].
Qed.

Lemma term_eqb_refl : forall a, term_eqb a a = true.
Proof. intros a. apply term_eqb_eq. reflexivity. Qed.

Lemma term_eq_dec : forall a b : term, {a = b} + {a <> b}.
Proof.
  intros a b. destruct (term_eqb a b) eqn:E.
  - left. apply term_eqb_eq. exact E.
  - right. intros ->. rewrite term_eqb_refl in E. discriminate.
Qed.

Lemma triple_eqb_eq : forall a b, triple_eqb a b = true <-> a = b.
Proof.
  intros [[s p] o] [[s' p'] o']. cbn. rewrite !andb_true_iff, !term_eqb_eq.
  split; [ intros [[-> ->] ->]; reflexivity | intros H; inversion H; auto ].
Qed.

Lemma pos_matches_covers : forall pat t, pos_matches pat t = true <-> covers pat t.
Proof.
  intros [u|] t; cbn; unfold covers.
  - rewrite term_eqb_eq. split; [ intros ->; auto | intros [H|H]; congruence ].
  - split; auto.
Qed.

Lemma matches_spec : forall s p o n k v,
  matches s p o (n, k, v) = true <-> covers s n /\ covers p k /\ covers o v.
Proof.
  intros. cbn. rewrite !andb_true_iff, !pos_matches_covers. tauto.
Qed.

Lemma covers_some : forall a b, covers (Some a) b <-> a = b.
Proof.
  intros. unfold covers. split; [ intros [H|H]; congruence | intros ->; auto ].
Qed.

Lemma covers_none : forall b, covers None b.
Proof. intros. left. reflexivity. Qed.

Lemma In_add : forall t u g, In t (g_add u g) <-> t = u \/ In t g.
Proof.
  intros t u g. unfold g_add. destruct (existsb (triple_eqb u) g) eqn:E.
  - apply existsb_exists in E as [w [Hw E]]. apply triple_eqb_eq in E. subst w.
    split; [ auto | intros [->|H]; auto ].
  - rewrite in_app_iff. cbn. split; [ intros [H|[H|[]]]; auto | intros [H|H]; auto ].
Qed.

Lemma In_remove : forall s p o n k v g,
  In (n, k, v) (g_remove s p o g)
  <-> In (n, k, v) g /\ ~ (covers s n /\ covers p k /\ covers o v).
Proof.
  intros. unfold g_remove. rewrite filter_In, negb_true_iff.
  rewrite <- matches_spec. rewrite not_true_iff_false. reflexivity.
Qed.

Lemma NoDup_add : forall u g, NoDup g -> NoDup (g_add u g).
Proof.
  intros u g H. unfold g_add. destruct (existsb (triple_eqb u) g) eqn:E; [ exact H | ].
  apply (Permutation_NoDup (Permutation_cons_append g u)).
  constructor; [ | exact H ]. intros Hin.
  assert (X : existsb (triple_eqb u) g = true).
  { apply existsb_exists. exists u. split; [ exact Hin | apply triple_eqb_eq; reflexivity ]. }
  congruence.
Qed.

Lemma NoDup_remove_ : forall s p o g, NoDup g -> NoDup (g_remove s p o g).
Proof. intros. apply NoDup_filter. assumption. Qed.

Lemma as_object_stored : forall v l, as_object v l = stored_value v l.
Proof.
  intros [[s|n|s l' d]|s|z] [l|]; reflexivity.
Qed.

Lemma erases_dec : forall c n k v, {erases c n k v} + {~ erases c n k v}.
Proof.
  intros c n k v.
  assert (D : forall p t, {covers p t} + {~ covers p t}).
  { intros p t. destruct (pos_matches p t) eqn:E.
    - left. apply pos_matches_covers. exact E.
    - right. intros H. apply pos_matches_covers in H. congruence. }
  destruct c as [n' k' v' l|n' k' v' l|n' p o|n' s p].
  - destruct (term_eq_dec n' n) as [->|Hn]; [ | right; intros H; inversion H; subst; auto ].
    destruct (term_eq_dec k' k) as [->|Hk]; [ | right; intros H; inversion H; subst; auto ].
    left. constructor.
  - right. intros H. inversion H.
  - destruct (term_eq_dec n' n) as [->|Hn]; [ | right; intros H; inversion H; subst; auto ].
    destruct (D p k); [ | right; intros H; inversion H; subst; auto ].
    destruct (D o v); [ | right; intros H; inversion H; subst; auto ].
    left. constructor; assumption.
  - destruct (term_eq_dec n' v) as [->|Hn]; [ | right; intros H; inversion H; subst; auto ].
    destruct (D s n); [ | right; intros H; inversion H; subst; auto ].
    destruct (D p k); [ | right; intros H; inversion H; subst; auto ].
    left. constructor; assumption.
Qed.

(** One call. *)
Lemma step_In : forall g c n k v,
  In (n, k, v) (step g c)
  <-> stores c n k v \/ (In (n, k, v) g /\ ~ erases c n k v).
Proof.
  intros g c n k v. destruct c as [n' k' v' l|n' k' v' l|n' p o|n' s p]; cbn [step].
  - unfold md_set, g_set. rewrite In_add, In_remove, as_object_stored.
    rewrite !covers_some. split.
    + intros [H|[H Hn]].
      * injection H as -> -> ->. left. constructor.
      * right. split; [ exact H | ]. intros E. inversion E; subst. apply Hn.
        repeat split; auto using covers_none.
    + intros [H|[H Hn]].
      * inversion H; subst. left. reflexivity.
      * right. split; [ exact H | ]. intros [-> [-> _]]. apply Hn. constructor.
  - unfold md_add. rewrite In_add, as_object_stored. split.
    + intros [H|H].
      * injection H as -> -> ->. left. constructor.
      * right. split; [ exact H | ]. intros E. inversion E.
    + intros [H|[H _]].
      * inversion H; subst. left. reflexivity.
      * right. exact H.
  - unfold md_remove. rewrite In_remove, covers_some. split.
    + intros [H Hn]. right. split; [ exact H | ]. intros E. inversion E; subst.
      apply Hn. auto.
    + intros [H|[H Hn]]; [ inversion H | ]. split; [ exact H | ].
      intros [-> [Hp Ho]]. apply Hn. constructor; assumption.
  - unfold md_unlink. rewrite In_remove, covers_some. split.
    + intros [H Hn]. right. split; [ exact H | ]. intros E. inversion E; subst.
      apply Hn. auto.
    + intros [H|[H Hn]]; [ inversion H | ]. split; [ exact H | ].
      intros [Hs [Hp ->]]. apply Hn. constructor; assumption.
Qed.

Lemma run_app : forall h1 h2 g, run g (h1 ++ h2) = run (run g h1) h2.
Proof. intros. unfold run. apply fold_left_app. Qed.

(** Any history. *)
Theorem run_In : forall h g n k v,
  In (n, k, v) (run g h) <-> holds g h n k v.
Proof.
  intros h. induction h as [|c h IH] using rev_ind; intros g n k v.
  - cbn. unfold holds. split.
    + intros H. left. split; [ exact H | constructor ].
    + intros [[H _]|(b & c & a & E & _)]; [ exact H | ].
      destruct b; discriminate.
  - rewrite run_app. cbn [run fold_left]. rewrite step_In, IH. unfold holds. split.
    + intros [H|[[[H1 H2]|(b & c' & a & E & Hs & Ha)] Hn]].
      * right. exists h, c, []. auto.
      * left. split; [ exact H1 | ]. apply Forall_app. auto.
      * right. exists b, c', (a ++ [c]). split; [ | split; [ exact Hs | ] ].
        -- rewrite E, <- app_assoc. reflexivity.
        -- apply Forall_app. auto.
    + intros [[H1 H2]|(b & c' & a & E & Hs & Ha)].
      * apply Forall_app in H2 as [H2 H3]. inversion H3; subst.
        right. split; [ left; auto | assumption ].
      * destruct a as [|c2 a2 _] using rev_ind.
        -- apply app_inj_tail in E as [-> ->]. left. exact Hs.
        -- rewrite app_comm_cons, app_assoc in E. apply app_inj_tail in E as [-> ->].
           apply Forall_app in Ha as [Ha1 Ha2]. inversion Ha2; subst.
           right. split; [ | assumption ]. right. exists b, c', a2. auto.
Qed.

Lemma In_objects : forall order, arranges order -> forall g n k v,
  In v (g_objects order n k g) <-> In (n, k, v) g.
Proof.
  intros order Ho g n k v. unfold g_objects.
  transitivity (In v (map snd (filter (matches (Some n) (Some k) None) g))).
  { split; intros H; eapply Permutation_in; try exact H;
      [ apply Permutation_sym | ]; apply Ho. }
  rewrite in_map_iff. split.
  - intros [[[n' k'] v'] [E H]]. apply filter_In in H as [H M].
    apply matches_spec in M as (M1 & M2 & _).
    apply covers_some in M1, M2. cbn in E. subst. exact H.
  - intros H. exists (n, k, v). split; [ reflexivity | ]. apply filter_In.
    split; [ exact H | ]. apply matches_spec. rewrite !covers_some.
    auto using covers_none.
Qed.

Lemma NoDup_map_inj_in : forall {A B} (f : A -> B) l,
  (forall x y, In x l -> In y l -> f x = f y -> x = y) ->
  NoDup l -> NoDup (map f l).
Proof.
  intros A B f l Hinj Hl. induction Hl as [|x l Hx Hl IH]; cbn; [ constructor | ].
  constructor.
  - intros H. apply in_map_iff in H as [y [E Hy]].
    apply Hx. rewrite (Hinj x y); [ exact Hy | left; reflexivity | right; exact Hy | congruence ].
  - apply IH. intros. apply Hinj; [ right | right | ]; assumption.
Qed.

Lemma NoDup_objects : forall order, arranges order -> forall g n k,
  NoDup g -> NoDup (g_objects order n k g).
Proof.
  intros order Ho g n k Hg. unfold g_objects.
  eapply Permutation_NoDup; [ apply Ho | ].
  apply NoDup_map_inj_in; [ | apply NoDup_filter; exact Hg ].
  intros [[n1 k1] v1] [[n2 k2] v2] H1 H2 E.
  apply filter_In in H1 as [_ H1]. apply filter_In in H2 as [_ H2].
  apply matches_spec in H1 as (A1 & B1 & _). apply matches_spec in H2 as (A2 & B2 & _).
  apply covers_some in A1, B1, A2, B2. cbn in E. congruence.
Qed.

Lemma NoDup_step : forall g c, NoDup g -> NoDup (step g c).
Proof.
  intros g [n k v l|n k v l|n p o|n s p] H; cbn [step];
    unfold md_set, md_add, md_remove, md_unlink, g_set;
    auto using NoDup_add, NoDup_remove_.
Qed.

Lemma NoDup_run : forall h g, NoDup g -> NoDup (run g h).
Proof.
  induction h as [|c h IH]; intros g H; [ exact H | ]. cbn. apply IH, NoDup_step, H.
Qed.

(** [Metadata.get] without a language. *)
Theorem get_values : forall order, arranges order -> forall g0 h n k,
  exists vs, md_get order (run g0 h) n k None = Ok vs
    /\ (forall v, In v vs <-> holds g0 h n k v)
    /\ (NoDup g0 -> NoDup vs).
Proof.
  intros order Ho g0 h n k. eexists. split; [ reflexivity | ]. split.
  - intros v. rewrite In_objects by exact Ho. apply run_In.
  - intros H. apply NoDup_objects; [ exact Ho | ]. apply NoDup_run, H.
Qed.

(** Histories that do not concern a node and key. *)
Lemma filter_key_step : forall n k g c, ~ touches c n k ->
  filter (matches (Some n) (Some k) None) (step g c)
  = filter (matches (Some n) (Some k) None) g.
Proof.
  intros n k g c Ht.
  assert (A : forall n' k' o g', ~ (n' = n /\ k' = k) ->
    filter (matches (Some n) (Some k) None) (g_add (n', k', o) g')
    = filter (matches (Some n) (Some k) None) g').
  { intros n' k' o g' H. unfold g_add.
    destruct (existsb (triple_eqb (n', k', o)) g'); [ reflexivity | ].
    rewrite filter_app. cbn [filter].
    destruct (matches (Some n) (Some k) None (n', k', o)) eqn:E.
    - apply matches_spec in E as (E1 & E2 & _). apply covers_some in E1, E2.
      exfalso. apply H. auto.
    - apply app_nil_r. }
  assert (R : forall s p o g',
    (forall v, ~ (covers s n /\ covers p k /\ covers o v)) ->
    filter (matches (Some n) (Some k) None) (g_remove s p o g')
    = filter (matches (Some n) (Some k) None) g').
  { intros s p o g' H. unfold g_remove. induction g' as [|[[n' k'] v'] g' IH]; [ reflexivity | ].
    cbn [filter]. destruct (matches s p o (n', k', v')) eqn:E; cbn [negb].
    - destruct (matches (Some n) (Some k) None (n', k', v')) eqn:E2.
      + apply matches_spec in E. apply matches_spec in E2 as (X & Y & _).
        apply covers_some in X, Y. subst. exfalso. apply (H v'). exact E.
      + exact IH.
    - cbn [filter]. rewrite IH. reflexivity. }
  destruct c as [n' k' v' l|n' k' v' l|n' p o|n' s p]; cbn [step].
  - unfold md_set, g_set.
    assert (Hn : ~ (n' = n /\ k' = k)).
    { intros [-> ->]. apply Ht. left. eexists. constructor. }
    rewrite A by exact Hn. apply R. intros v. rewrite !covers_some. tauto.
  - unfold md_add. apply A. intros [-> ->]. apply Ht. left. eexists. constructor.
  - unfold md_remove. apply R. intros v [X [Y Z]]. apply covers_some in X. subst.
    apply Ht. right. exists v. constructor; assumption.
  - unfold md_unlink. apply R. intros v [X [Y Z]]. apply covers_some in Z. subst.
    apply Ht. right. exists v. constructor; assumption.
Qed.

Theorem get_untouched : forall order g h n k,
  Forall (fun c => ~ touches c n k) h ->
  forall lang, md_get order (run g h) n k lang = md_get order g n k lang.
Proof.
  intros order g h n k H lang.
  assert (E : filter (matches (Some n) (Some k) None) (run g h)
              = filter (matches (Some n) (Some k) None) g).
  { revert g. induction H as [|c h Hc H IH]; intros g; [ reflexivity | ].
    cbn [run fold_left]. fold (run (step g c) h). rewrite IH.
    apply filter_key_step. exact Hc. }
  unfold md_get, g_objects. rewrite E. reflexivity.
Qed.

(** Languages. *)
Lemma in_language_spec : forall l os,
  (forall o, In o os -> is_literal o) ->
  exists vs, in_language l os = Ok vs
    /\ forall v, In v vs <-> In v os /\ written_in l v.
Proof.
  intros l os. induction os as [|o os IH]; intros H.
  - exists []. split; [ reflexivity | ]. cbn. tauto.
  - destruct IH as [vs [E IH]]. { intros. apply H. right. assumption. }
    destruct (H o (or_introl eq_refl)) as (s & ol & d & ->). cbn.
    rewrite E. cbn. destruct (opt_eqb str_eqb ol (Some l)) eqn:L.
    + apply opt_str_eqb_eq in L. subst. eexists. split; [ reflexivity | ].
      intros v. cbn. rewrite IH. split.
      * intros [<-|[X Y]]; [ split; [ auto | ] | auto ]. exists s, d. reflexivity.
      * intros [[<-|X] Y]; auto.
    + eexists. split; [ reflexivity | ]. intros v. rewrite IH. cbn. split.
      * intros [X Y]. auto.
      * intros [[<-|X] Y]; [ | auto ]. destruct Y as (s' & d' & Y).
        injection Y as -> -> ->. exfalso.
        assert (opt_eqb str_eqb (Some l) (Some l) = true)
          by (apply opt_str_eqb_eq; reflexivity). congruence.
Qed.

Lemma in_language_err : forall l os,
  (exists o, In o os /\ ~ is_literal o) -> in_language l os = Err AttributeError.
Proof.
  intros l os. induction os as [|o os IH]; intros [x [Hx N]]; [ destruct Hx | ].
  destruct o as [s|n|s ol d]; cbn; try reflexivity.
  destruct Hx as [<-|Hx].
  - exfalso. apply N. exists s, ol, d. reflexivity.
  - rewrite IH by (exists x; auto). reflexivity.
Qed.

Theorem get_language : forall order, arranges order -> forall g0 h n k l,
  (forall v, holds g0 h n k v -> is_literal v) ->
  exists vs, md_get order (run g0 h) n k (Some l) = Ok vs
    /\ forall v, In v vs <-> holds g0 h n k v /\ written_in l v.
Proof.
  intros order Ho g0 h n k l H. cbn.
  destruct (in_language_spec l (g_objects order n k (run g0 h))) as [vs [E S]].
  { intros o Hin. apply H. apply run_In. apply In_objects in Hin; assumption. }
  exists vs. split; [ exact E | ]. intros v.
  rewrite S, In_objects, run_In by exact Ho. reflexivity.
Qed.

Theorem get_language_error : forall order, arranges order -> forall g0 h n k l,
  (exists v, holds g0 h n k v /\ ~ is_literal v) ->
  md_get order (run g0 h) n k (Some l) = Err AttributeError.
Proof.
  intros order Ho g0 h n k l [v [Hv N]]. cbn. apply in_language_err. exists v.
  split; [ | exact N ]. apply In_objects; [ exact Ho | ]. apply run_In. exact Hv.
Qed.

Lemma single_in_spec : forall l os d,
  (forall o, In o os -> is_literal o) ->
  exists r, single_in l d os = Ok r
    /\ ((exists v, r = Some v /\ In v os /\ written_in l v)
        \/ ((forall v, In v os -> ~ written_in l v)
            /\ r = match os with [] => d | _ => Some (last os (URI [])) end)).
Proof.
  intros l os. induction os as [|o os IH]; intros d H.
  - exists d. split; [ reflexivity | ]. right. split; [ intros v [] | reflexivity ].
  - destruct (H o (or_introl eq_refl)) as (s & ol & dt & ->).
    cbn [single_in language bind]. destruct (opt_eqb str_eqb ol (Some l)) eqn:L.
    + apply opt_str_eqb_eq in L. subst. eexists. split; [ reflexivity | ]. left.
      eexists. split; [ reflexivity | ]. split; [ left; reflexivity | ].
      exists s, dt. reflexivity.
    + destruct (IH (Some (Literal s ol dt))) as [r [E [(v & -> & X & Y)|[X Y]]]].
      { intros. apply H. right. assumption. }
      * exists (Some v). split; [ exact E | ]. left. exists v.
        split; [ reflexivity | ]. split; [ right; exact X | exact Y ].
      * exists r. split; [ exact E | ]. right. split.
        -- intros v [<-|Hv]; [ | apply X; exact Hv ]. intros (s' & d' & Z).
           injection Z as -> -> ->.
           assert (opt_eqb str_eqb (Some l) (Some l) = true)
             by (apply opt_str_eqb_eq; reflexivity). congruence.
        -- rewrite Y. destruct os; reflexivity.
Qed.

Lemma last_In : forall {A} (l : list A) d, l <> [] -> In (last l d) l.
Proof.
  intros A l d. induction l as [|a l IH]; intros H; [ congruence | ].
  destruct l as [|b l]; [ left; reflexivity | ]. right. apply IH. discriminate.
Qed.

(** [Metadata.get_single]. *)
Theorem single_language : forall order, arranges order -> forall g0 h n k l,
  (forall v, holds g0 h n k v -> is_literal v) ->
  exists r, md_get_single order (run g0 h) n k (Some l) = Ok r
    /\ match r with
       | None => forall v, ~ holds g0 h n k v
       | Some v => holds g0 h n k v
           /\ (written_in l v \/ forall w, holds g0 h n k w -> ~ written_in l w)
       end.
Proof.
  intros order Ho g0 h n k l H. cbn.
  assert (I : forall v, In v (g_objects order n k (run g0 h)) <-> holds g0 h n k v).
  { intros v. rewrite In_objects by exact Ho. apply run_In. }
  destruct (single_in_spec l (g_objects order n k (run g0 h)) None)
    as [r [E [(v & -> & X & Y)|[X Y]]]].
  { intros o Hin. apply H, I, Hin. }
  - exists (Some v). split; [ exact E | ]. split; [ apply I, X | left; exact Y ].
  - exists r. split; [ exact E | ]. destruct (g_objects order n k (run g0 h)) as [|o os] eqn:G.
    + subst r. intros v Hv. apply I in Hv. destruct Hv.
    + subst r. split.
      * apply I. apply last_In. discriminate.
      * right. intros w Hw. apply X. apply I. exact Hw.
Qed.

Theorem single_any : forall order, arranges order -> forall g0 h n k,
  exists r, md_get_single order (run g0 h) n k None = Ok r
    /\ match r with
       | None => forall v, ~ holds g0 h n k v
       | Some v => holds g0 h n k v
       end.
Proof.
  intros order Ho g0 h n k. cbn. eexists. split; [ reflexivity | ].
  assert (I : forall v, In v (g_objects order n k (run g0 h)) <-> holds g0 h n k v).
  { intros v. rewrite In_objects by exact Ho. apply run_In. }
  destruct (g_objects order n k (run g0 h)) as [|o os]; cbn.
  - intros v Hv. apply I in Hv. destruct Hv.
  - apply I. left. reflexivity.
Qed.

(** Labels. *)
Lemma label_in_single : forall l os d,
  label_in (Some l) d os = single_in l d os.
Proof.
  intros l os. induction os as [|o os IH]; intros d; [ reflexivity | ].
  cbn. destruct o as [s|n|s ol dt]; try reflexivity. cbn.
  destruct (opt_eqb str_eqb ol (Some l)); [ reflexivity | apply IH ].
Qed.

Theorem label_is_single : forall order g n lang,
  get_label order g n lang = md_get_single order g n rdfs_label lang.
Proof.
  intros order g n [l|]; unfold get_label, md_get_single.
  - apply label_in_single.
  - destruct (g_objects order n rdfs_label g); reflexivity.
Qed.

(** CTS properties. *)
Lemma lget_lset : forall l l' o d,
  lget l (lset l' o d)
  = if opt_eqb str_eqb l' l then Some o else lget l d.
Proof.
  intros l l' o d. induction d as [|[k v] d IH]; cbn.
  - destruct (opt_eqb str_eqb l' l); reflexivity.
  - destruct (opt_eqb str_eqb k l') eqn:E; cbn.
    + apply opt_str_eqb_eq in E. subst k.
      destruct (opt_eqb str_eqb l' l); reflexivity.
    + destruct (opt_eqb str_eqb k l) eqn:E2; [ | exact IH ].
      apply opt_str_eqb_eq in E2. subst k.
      destruct (opt_eqb str_eqb l' l) eqn:E3; [ | reflexivity ].
      apply opt_str_eqb_eq in E3. subst l'.
      assert (opt_eqb str_eqb l l = true) by (apply opt_str_eqb_eq; reflexivity).
      congruence.
Qed.

(** Every entry of the dictionary is a value in its language, every language
    of a value has an entry. *)
Lemma by_language_spec : forall os d,
  (forall o, In o os -> is_literal o) ->
  exists d', by_language d os = Ok d'
    /\ (forall l o, lget l d' = Some o ->
          lget l d = Some o \/ (In o os /\ language o = Ok l))
    /\ (forall l, lget l d <> None -> lget l d' <> None)
    /\ (forall o l, In o os -> language o = Ok l -> lget l d' <> None).
Proof.
  intros os. induction os as [|o os IH]; intros d H.
  - exists d. repeat split; auto; intros o l [].
  - destruct (H o (or_introl eq_refl)) as (s & ol & dt & ->). cbn [by_language language bind].
    destruct (IH (lset ol (Literal s ol dt) d)) as [d' (E & A & B & C)].
    { intros. apply H. right. assumption. }
    exists d'. split; [ exact E | ]. split; [ | split ].
    + intros l o Hl. destruct (A l o Hl) as [X|[X Y]].
      * rewrite lget_lset in X. destruct (opt_eqb str_eqb ol l) eqn:L; [ | auto ].
        apply opt_str_eqb_eq in L. subst l. injection X as <-.
        right. split; [ left; reflexivity | reflexivity ].
      * right. split; [ right; exact X | exact Y ].
    + intros l Hl. apply B. rewrite lget_lset.
      destruct (opt_eqb str_eqb ol l); congruence.
    + intros o l [<-|Hin] Hl.
      * cbn in Hl. injection Hl as <-. apply B. rewrite lget_lset.
        assert (opt_eqb str_eqb ol ol = true) by (apply opt_str_eqb_eq; reflexivity).
        rewrite H0. congruence.
      * apply (C o l); assumption.
Qed.

Lemma lget_head : forall d l o, lget l ((l, o) :: d) = Some o.
Proof.
  intros. cbn.
  assert (opt_eqb str_eqb l l = true) by (apply opt_str_eqb_eq; reflexivity).
  rewrite H. reflexivity.
Qed.

Theorem cts_property_language : forall order, arranges order ->
  forall g0 h n k l,
  (forall v, holds g0 h n k v -> is_literal v) ->
  match get_cts_property order (run g0 h) n k l with
  | Ok v => holds g0 h n k v
      /\ (written_in l v \/ forall w, holds g0 h n k w -> ~ written_in l w)
  | Err e => e = StopIteration /\ forall v, ~ holds g0 h n k v
  end.
Proof.
  intros order Ho g0 h n k l H. unfold get_cts_property, get_cts_property_all.
  assert (I : forall v, In v (g_objects order n k (run g0 h)) <-> holds g0 h n k v).
  { intros v. rewrite In_objects by exact Ho. apply run_In. }
  destruct (by_language_spec (g_objects order n k (run g0 h)) []) as [d (E & A & B & C)].
  { intros o Hin. apply H, I, Hin. }
  rewrite E. cbn [bind]. destruct (lget (Some l) d) as [o|] eqn:L.
  - destruct (A _ _ L) as [X|[X Y]]; [ discriminate | ]. split; [ apply I, X | ].
    left. destruct o as [s|m|s ol dt]; try discriminate. cbn in Y. injection Y as ->.
    exists s, dt. reflexivity.
  - destruct d as [|[l' o] d'].
    + split; [ reflexivity | ]. intros v Hv.
      destruct (H v Hv) as (s & ol & dt & ->). apply I in Hv.
      apply (C _ ol Hv eq_refl). reflexivity.
    + destruct (A l' o (lget_head _ _ _)) as [X|[X Y]]; [ discriminate | ].
      split; [ apply I, X | ]. right. intros w Hw (s & dt & ->).
      apply I in Hw. apply (C _ (Some l) Hw eq_refl). exact L.
Qed.

Theorem cts_property_table : forall order, arranges order ->
  forall g0 h n k,
  (forall v, holds g0 h n k v -> is_literal v) ->
  exists d, get_cts_property_all order (run g0 h) n k = Ok d
    /\ (forall l o, lget l d = Some o -> holds g0 h n k o /\ language o = Ok l)
    /\ (forall l, (exists o, holds g0 h n k o /\ language o = Ok l) ->
                  exists o, lget l d = Some o).
Proof.
  intros order Ho g0 h n k H. unfold get_cts_property_all.
  assert (I : forall v, In v (g_objects order n k (run g0 h)) <-> holds g0 h n k v).
  { intros v. rewrite In_objects by exact Ho. apply run_In. }
  destruct (by_language_spec (g_objects order n k (run g0 h)) []) as [d (E & A & B & C)].
  { intros o Hin. apply H, I, Hin. }
  exists d. split; [ exact E | ]. split.
  - intros l o L. destruct (A _ _ L) as [X|[X Y]]; [ discriminate | ].
    split; [ apply I, X | exact Y ].
  - intros l (o & X & Y). destruct (lget l d) as [v|] eqn:L; [ eauto | ].
    exfalso. apply (C o l); [ apply I, X | exact Y | exact L ].
Qed.

(** Exports: what is kept. *)
Lemma str_mem_In : forall s l, str_mem s l = true <-> In s l.
Proof.
  intros s l. unfold str_mem. rewrite existsb_exists. split.
  - intros [x [H E]]. apply str_eqb_eq in E. subst. exact H.
  - intros H. exists s. split; [ exact H | apply str_eqb_refl ].
Qed.

Lemma term_mem_In : forall t l, term_mem t l = true <-> In t l.
Proof.
  intros t l. induction l as [|x l IH]; cbn; [ split; [ discriminate | tauto ] | ].
  rewrite orb_true_iff, term_eqb_eq, IH. reflexivity.
Qed.

Lemma In_distinct : forall l t, In t (distinct l) <-> In t l.
Proof.
  intros l t. induction l as [|x l IH]; cbn; [ tauto | ].
  rewrite filter_In, IH, negb_true_iff.
  destruct (term_eqb x t) eqn:E.
  - apply term_eqb_eq in E. subst. tauto.
  - split; [ tauto | ]. intros [->|H]; [ | tauto ].
    rewrite term_eqb_refl in E. discriminate.
Qed.

Lemma In_predicates : forall n g p,
  In p (predicates_of n g) <-> exists o, In (n, p, o) g.
Proof.
  intros n g p. unfold predicates_of. rewrite In_distinct, in_map_iff. split.
  - intros [[[n' p'] o] [E H]]. apply filter_In in H as [H M].
    apply matches_spec in M as (M & _). apply covers_some in M. cbn in E. subst.
    exists o. exact H.
  - intros [o H]. exists (n, p, o). split; [ reflexivity | ]. apply filter_In.
    split; [ exact H | ]. apply matches_spec. rewrite covers_some.
    auto using covers_none.
Qed.

Lemma matches_node : forall n n' p o,
  matches (Some n) None None (n', p, o) = true <-> n' = n.
Proof.
  intros. rewrite matches_spec, covers_some. split; [ intros [-> _]; reflexivity | ].
  intros ->. auto using covers_none.
Qed.

Theorem kept_only_spec : forall ns n g only t,
  In t (kept ns n g (Some only) None)
  <-> In t g /\ exists p o, t = (n, p, o)
      /\ (In (FTerm p) only
          \/ (In (ns p) (map entry_text only) /\ ~ In (text_of p) (map entry_text only))).
Proof.
  intros ns n g only t. cbn. rewrite filter_In, andb_true_iff.
  destruct t as [[n' p] o]. rewrite matches_node. cbn [fst snd].
  rewrite existsb_exists. split.
  - intros [Hin [-> (e & He & Hp)]]. split; [ exact Hin | ].
    exists p, o. split; [ reflexivity | ].
    destruct e as [u|s]; cbn in Hp; [ | discriminate ]. apply term_eqb_eq in Hp. subst u.
    apply in_app_iff in He as [He|He]; [ left; exact He | ].
    apply in_map_iff in He as [u [E He]]. injection E as ->.
    apply filter_In in He as [_ He].
    apply andb_true_iff in He as [E1 E2]. apply negb_true_iff in E1.
    right. split; [ apply str_mem_In; exact E2 | ].
    intros X. apply str_mem_In in X. congruence.
  - intros [Hin (p' & o' & E & H)]. injection E as -> -> ->.
    split; [ exact Hin | ]. split; [ reflexivity | ].
    exists (FTerm p'). split; [ | cbn; apply term_eqb_refl ].
    apply in_app_iff. destruct H as [H|[H1 H2]]; [ left; exact H | ]. right.
    apply in_map_iff. exists p'. split; [ reflexivity | ]. apply filter_In.
    split; [ apply In_predicates; eauto | ].
    apply andb_true_iff. split.
    + apply negb_true_iff. apply not_true_iff_false. rewrite str_mem_In. exact H2.
    + apply str_mem_In. exact H1.
Qed.

Theorem kept_exclude_spec : forall ns n g exclude t,
  In t (kept ns n g None (Some exclude))
  <-> In t g /\ exists p o, t = (n, p, o)
      /\ ~ In (text_of p) (map entry_text exclude)
      /\ ~ In (ns p) (map entry_text exclude).
Proof.
  intros ns n g exclude t. cbn. unfold kept_exclude.
  rewrite filter_In, andb_true_iff.
  destruct t as [[n' p] o]. rewrite matches_node. cbn [fst snd].
  rewrite term_mem_In, filter_In, andb_true_iff, !negb_true_iff, In_predicates.
  assert (X : forall s l, str_mem s l = false <-> ~ In s l).
  { intros s l. rewrite <- str_mem_In. symmetry. apply not_true_iff_false. }
  rewrite !X. split.
  - intros [H [-> [_ [A B]]]]. split; [ exact H | ]. exists p, o. auto.
  - intros [H (p' & o' & E & A & B)]. injection E as -> -> ->.
    split; [ exact H | ]. split; [ reflexivity | ]. split; [ eauto | ]. auto.
Qed.

Theorem kept_all_spec : forall ns n g t,
  In t (kept ns n g None None) <-> In t g /\ exists p o, t = (n, p, o).
Proof.
  intros ns n g t. cbn. rewrite filter_In. destruct t as [[n' p] o].
  rewrite matches_node. split.
  - intros [H ->]. split; [ exact H | ]. eauto.
  - intros [H (p' & o' & E)]. injection E as -> -> ->. auto.
Qed.

(** The JSON export. *)
Lemma opt_eqb_refl : forall a : option str, opt_eqb str_eqb a a = true.
Proof. intros. apply opt_str_eqb_eq. reflexivity. Qed.

Lemma table_get_add : forall l l' s t,
  table_get l (add_text l' s t)
  = if opt_eqb str_eqb l' l then table_get l t ++ [s] else table_get l t.
Proof.
  intros l l' s t. induction t as [|[k ts] t IH]; cbn.
  - destruct (opt_eqb str_eqb l' l); reflexivity.
  - destruct (opt_eqb str_eqb k l') eqn:E; cbn.
    + apply opt_str_eqb_eq in E. subst k.
      destruct (opt_eqb str_eqb l' l); [ destruct ts; reflexivity | reflexivity ].
    + destruct (opt_eqb str_eqb k l) eqn:E2; [ | exact IH ].
      apply opt_str_eqb_eq in E2. subst k.
      destruct (opt_eqb str_eqb l' l) eqn:E3; [ | reflexivity ].
      apply opt_str_eqb_eq in E3. subst. rewrite opt_eqb_refl in E. discriminate.
Qed.

Lemma dget_dset : forall {A} k k' (v : A) d,
  dget k (dset k' v d) = if str_eqb k' k then Some v else dget k d.
Proof.
  intros A k k' v d. induction d as [|[x y] d IH]; cbn.
  - destruct (str_eqb k' k); reflexivity.
  - destruct (str_eqb x k') eqn:E; cbn.
    + apply str_eqb_eq in E. subst. destruct (str_eqb k' k); reflexivity.
    + destruct (str_eqb x k) eqn:E2; [ | exact IH ].
      apply str_eqb_eq in E2. subst.
      destruct (str_eqb k' k) eqn:E3; [ | reflexivity ].
      apply str_eqb_eq in E3. subst. rewrite str_eqb_refl in E. discriminate.
Qed.

Lemma exported_step : forall title k l t out,
  exported k l (std_step title out t) = exported k l out ++ contributes title k l t.
Proof.
  intros title k l [[n p] o] out. unfold exported, std_step. rewrite dget_dset.
  cbn [contributes]. destruct (str_eqb (text_of p) k) eqn:E.
  - apply str_eqb_eq in E. subst k. destruct (dget (text_of p) out) as [t|].
    + destruct o as [s|m|s l' d]; rewrite ?app_nil_r; try reflexivity.
      rewrite table_get_add. cbn [andb].
      destruct (opt_eqb str_eqb l' l); [ reflexivity | ]. rewrite app_nil_r. reflexivity.
    + destruct o as [s|m|s l' d]; reflexivity.
  - destruct o as [s|m|s l' d]; cbn; rewrite app_nil_r; reflexivity.
Qed.

Lemma exported_fold : forall title k l ts out,
  exported k l (fold_left (std_step title) ts out)
  = exported k l out ++ flat_map (contributes title k l) ts.
Proof.
  intros title k l ts. induction ts as [|t ts IH]; intros out; cbn.
  - rewrite app_nil_r. reflexivity.
  - rewrite IH, exported_step, <- app_assoc. reflexivity.
Qed.

Lemma Permutation_flat_map : forall {A B} (f : A -> list B) l l',
  Permutation l l' -> Permutation (flat_map f l) (flat_map f l').
Proof.
  intros A B f l l' H. induction H; cbn.
  - constructor.
  - apply Permutation_app_head. assumption.
  - rewrite !app_assoc. apply Permutation_app_tail, Permutation_app_comm.
  - etransitivity; eassumption.
Qed.

Theorem export_std_texts : forall title order, arranges order ->
  forall ts k l,
  Permutation (exported k l (export_std title order ts))
              (flat_map (contributes title k l) ts).
Proof.
  intros title order Ho ts k l. unfold export_std. rewrite exported_fold. cbn.
  apply Permutation_flat_map, Permutation_sym, Ho.
Qed.

Lemma dget_keys : forall {A} k (d : list (str * A)),
  dget k d <> None <-> In k (keys d).
Proof.
  intros A k d. induction d as [|[x y] d IH]; cbn; [ tauto | ].
  destruct (str_eqb x k) eqn:E.
  - apply str_eqb_eq in E. subst. split; [ auto | congruence ].
  - rewrite IH. split; [ auto | ]. intros [->|H]; [ | exact H ].
    rewrite str_eqb_refl in E. discriminate.
Qed.

Theorem export_std_keys : forall title order, arranges order ->
  forall ts k,
  In k (keys (export_std title order ts))
  <-> exists n p o, In (n, p, o) ts /\ text_of p = k.
Proof.
  intros title order Ho ts k. unfold export_std.
  assert (G : forall ts out, dget k (fold_left (std_step title) ts out) <> None
    <-> dget k out <> None \/ exists n p o, In (n, p, o) ts /\ text_of p = k).
  { clear. intros ts. induction ts as [|[[n p] o] ts IH]; intros out; cbn.
    - split; [ auto | ]. intros [H|(n & p & o & [] & _)]. exact H.
    - rewrite IH. unfold std_step. rewrite dget_dset.
      destruct (str_eqb (text_of p) k) eqn:E.
      + apply str_eqb_eq in E. split; [ | intros _; left; congruence ].
        intros _. right. exists n, p, o. auto.
      + split.
        * intros [H|(n' & p' & o' & H & X)]; [ auto | ]. right. exists n', p', o'. auto.
        * intros [H|(n' & p' & o' & [H|H] & X)]; [ auto | | ].
          -- injection H as -> -> ->. rewrite <- X, str_eqb_refl in E. discriminate.
          -- right. exists n', p', o'. auto. }
  rewrite <- dget_keys, G. cbn. split.
  - intros [H|(n & p & o & H & X)]; [ congruence | ]. exists n, p, o.
    split; [ | exact X ]. eapply Permutation_in; [ apply Permutation_sym, Ho | exact H ].
  - intros (n & p & o & H & X). right. exists n, p, o.
    split; [ | exact X ]. eapply Permutation_in; [ apply Ho | exact H ].
Qed.

(** Corollaries for single calls. *)
Lemma NoDup_single : forall {A} (l : list A) x,
  NoDup l -> (forall y, In y l <-> y = x) -> l = [x].
Proof.
  intros A l x Hl H. destruct l as [|a l].
  - exfalso. destruct (proj2 (H x) eq_refl).
  - assert (a = x) by (apply H; left; reflexivity). subst a. f_equal.
    destruct l as [|b l]; [ reflexivity | ]. exfalso.
    assert (b = x) by (apply H; right; left; reflexivity). subst b.
    inversion Hl as [|? ? Hx _]; subst. apply Hx. left. reflexivity.
Qed.

Theorem get_after_set : forall order, arranges order -> forall g0 h n k v lang,
  NoDup g0 ->
  md_get order (run g0 (h ++ [Set_ n k v lang])) n k None
  = Ok [stored_value v lang].
Proof.
  intros order Ho g0 h n k v lang Hg.
  rewrite run_app. cbn [run fold_left md_get]. f_equal. apply NoDup_single.
  - apply NoDup_objects; [ exact Ho | ]. apply (NoDup_step _ (Set_ n k v lang)), NoDup_run, Hg.
  - intros y. rewrite In_objects by exact Ho.
    rewrite step_In. split.
    + intros [H|[_ H]]; [ inversion H; reflexivity | ]. exfalso. apply H. constructor.
    + intros ->. left. constructor.
Qed.

Theorem get_after_add : forall order, arranges order -> forall g0 h n k v lang,
  exists before after,
    md_get order (run g0 h) n k None = Ok before
    /\ md_get order (run g0 (h ++ [Add n k v lang])) n k None = Ok after
    /\ forall w, In w after <-> In w before \/ w = stored_value v lang.
Proof.
  intros order Ho g0 h n k v lang. eexists _, _. split; [ reflexivity | ].
  split; [ reflexivity | ]. intros w. rewrite run_app.
  rewrite !In_objects by exact Ho. cbn [run fold_left].
  rewrite step_In. split.
  - intros [H|[H _]]; [ | auto ]. inversion H. auto.
  - intros [H| ->]; [ | left; constructor ]. right. split; [ exact H | ].
    intros X. inversion X.
Qed.

Theorem get_after_remove : forall order, arranges order -> forall g0 h n p o k,
  exists before after,
    md_get order (run g0 h) n k None = Ok before
    /\ md_get order (run g0 (h ++ [Remove n p o])) n k None = Ok after
    /\ forall w, In w after <-> In w before /\ ~ (covers p k /\ covers o w).
Proof.
  intros order Ho g0 h n p o k. eexists _, _. split; [ reflexivity | ].
  split; [ reflexivity | ]. intros w. rewrite run_app.
  rewrite !In_objects by exact Ho. cbn [run fold_left].
  rewrite step_In. split.
  - intros [H|[H X]]; [ inversion H | ]. split; [ exact H | ].
    intros [Y Z]. apply X. constructor; assumption.
  - intros [H X]. right. split; [ exact H | ]. intros Y. inversion Y; subst. auto.
Qed.

Theorem label_language : forall order, arranges order -> forall g0 h n l,
  (forall v, holds g0 h n rdfs_label v -> is_literal v) ->
  exists r, get_label order (run g0 h) n (Some l) = Ok r
    /\ match r with
       | None => forall v, ~ holds g0 h n rdfs_label v
       | Some v => holds g0 h n rdfs_label v
           /\ (written_in l v \/ forall w, holds g0 h n rdfs_label w -> ~ written_in l w)
       end.
Proof.
  intros order Ho g0 h n l H. rewrite label_is_single. apply single_language; assumption.
Qed.

Lemma set_label_In : forall g n s l m k w, l <> [] ->
  In (m, k, w) (set_label g n (PStr s) (Some l))
  <-> In (m, k, w) g
      \/ (m = n /\ (k = rdfs_label \/ k = skos_prefLabel) /\ w = Literal s (Some l) None).
Proof.
  intros g n s l m k w Hl. unfold set_label, md_add. rewrite !In_add.
  assert (E : mk_literal (PStr s) (Some l) = Literal s (Some l) None)
    by (destruct l; [ congruence | reflexivity ]).
  rewrite E. cbn [as_object mk_literal lang_tag]. split.
  - intros [H|[H|H]]; [ injection H as -> -> -> | injection H as -> -> -> | ]; auto.
  - intros [H|(-> & [->| ->] & ->)]; auto.
Qed.

Theorem set_label_values : forall order, arranges order -> forall g n s l m k,
  l <> [] ->
  exists before after,
    md_get order g m k None = Ok before
    /\ md_get order (set_label g n (PStr s) (Some l)) m k None = Ok after
    /\ forall w, In w after <-> In w before
         \/ (m = n /\ (k = rdfs_label \/ k = skos_prefLabel)
             /\ w = Literal s (Some l) None).
Proof.
  intros order Ho g n s l m k Hl. eexists _, _. split; [ reflexivity | ].
  split; [ reflexivity | ]. intros w. rewrite !In_objects by exact Ho.
  apply set_label_In. exact Hl.
Qed.

Theorem set_cts_property_values : forall order, arranges order ->
  forall g n title prop s l m k,
  l <> [] ->
  exists before after,
    md_get order g m k None = Ok before
    /\ md_get order (set_cts_property g n title prop (PStr s) (Some l)) m k None = Ok after
    /\ forall w, In w after <-> In w before
         \/ (m = n /\ w = Literal s (Some l) None
             /\ (k = prop
                 \/ (title = Some prop /\ (k = rdfs_label \/ k = skos_prefLabel)))).
Proof.
  intros order Ho g n title prop s l m k Hl. eexists _, _. split; [ reflexivity | ].
  split; [ reflexivity | ]. intros w. rewrite !In_objects by exact Ho.
  unfold set_cts_property.
  assert (E : mk_literal (PStr s) (Some l) = Literal s (Some l) None)
    by (destruct l; [ congruence | reflexivity ]).
  rewrite E. unfold md_add. rewrite In_add. cbn [as_object mk_literal lang_tag].
  assert (L : forall g', In (m, k, w) (set_label g' n (PTerm (Literal s (Some l) None)) (Some l))
    <-> In (m, k, w) (set_label g' n (PStr s) (Some l))).
  { intros g'. unfold set_label. cbn [mk_literal].
    destruct l; [ congruence | ]. reflexivity. }
  destruct title as [t|].
  - destruct (term_eqb prop t) eqn:T.
    + apply term_eqb_eq in T. subst t. rewrite L, set_label_In by exact Hl. split.
      * intros [H|[H|(-> & H & ->)]]; [ injection H as -> -> -> | | ]; auto 6.
      * intros [H|(-> & -> & [-> | [_ H]])]; auto 6.
    + split.
      * intros [H|H]; [ injection H as -> -> -> | ]; auto 6.
      * intros [H|(-> & -> & [-> | [H _]])]; auto. injection H as ->.
        rewrite term_eqb_refl in T. discriminate.
  - split.
    + intros [H|H]; [ injection H as -> -> -> | ]; auto 6.
    + intros [H|(-> & -> & [-> | [H _]])]; auto. discriminate.
Qed.
