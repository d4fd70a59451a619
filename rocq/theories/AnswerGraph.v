(** What asking does to the statements. *)

From Coq Require Import List NArith ZArith Arith Bool Lia Permutation.
From Verif Require Import PyStr PyStrFacts UrnModel UrnSpec MetaModel MetaSpec MetaProofs CollModel CollSpec CollProofs CollHist
  InvModel InvSpec InvExport LocalModel LocalSpec LocalProofs LoadModel LoadSpec AnswerModel AnswerSpec AnswerProofs.
Import ListNotations.

(** The statements of two states with a predicate. *)
Definition same_with (q : term) (st st' : state) : Prop :=
  forall g x y, In (x, q, y) (nth g (graphs st) []) <-> In (x, q, y) (nth g (graphs st') []).

Lemma same_refl : forall q st, same_with q st st.
Proof. intros q st g x y. reflexivity. Qed.
Lemma same_trans : forall q a b c, same_with q a b -> same_with q b c -> same_with q a c.
Proof. intros q a b c A B g x y. rewrite (A g x y). apply B. Qed.

Lemma nth_upd : forall {A} (l : list A) i f g d, nth g (upd l i f) d = if Nat.eqb i g && (g <? length l) then f (nth g l d) else nth g l d.
Proof.
  intros A l. induction l as [|a l IH]; intros i f g d; cbn [upd].
  - destruct g, (Nat.eqb i _); reflexivity.
  - destruct i as [|i], g as [|g]; cbn [nth Nat.eqb andb length]; try reflexivity. rewrite IH. reflexivity.
Qed.

Lemma same_graph : forall q st i f, (forall gr x y, In (x, q, y) (f gr) <-> In (x, q, y) gr) -> same_with q st (with_graph st i f).
Proof.
  intros q st i f H g x y. unfold with_graph. cbn [graphs]. rewrite nth_upd. destruct (_ && _); [rewrite H|]; reflexivity.
Qed.

Lemma same_new : forall q st k id urn, q <> rdf_type -> q <> dts_model -> same_with q st (fst (new_object st k id urn)).
Proof.
  intros q st k id urn N1 N2 g x y. unfold new_object. cbn [fst graphs]. apply (same_graph q st 0). intros gr u v. rewrite !In_g_set. split.
  - intros [E|[[E|[H _]] _]]; [congruence|congruence|exact H].
  - intros H. right. split; [right; split; [exact H|]|]; intros [_ E]; congruence.
Qed.

Lemma same_parent : forall q st c p, q <> cap_parent -> same_with q st (set_parent st c p).
Proof.
  intros q st c p N. unfold set_parent.
  set (st1 := with_obj st c (put_parent (Some p))). assert (S1 : same_with q st st1) by (intros g x y; reflexivity).
  apply (same_trans _ _ _ _ S1). set (st2 := with_graph st1 _ _). assert (S2 : same_with q st1 st2).
  { apply same_graph. intros gr x y. rewrite In_add. split; [intros [E|H]; [congruence|exact H]|auto]. }
  apply (same_trans _ _ _ _ S2). unfold add_member. destruct (dget _ _); [apply same_refl|]. intros g x y. reflexivity.
Qed.

Lemma same_lang : forall q st c l, q <> dc_language -> same_with q st (set_lang st c l).
Proof.
  intros q st c l N. apply same_graph. intros gr x y. rewrite In_g_set. split; [intros [E|[H _]]; [congruence|exact H]|].
  intros H. right. split; [exact H|]. intros [_ E]. congruence.
Qed.

(** Everything but languages. *)
Section Others.
Variable q : term.
Hypothesis N1 : q <> rdf_type.
Hypothesis N2 : q <> dts_model.
Hypothesis N3 : q <> cap_parent.
Hypothesis N4 : q <> dc_language.

Lemma others_cts : forall order st k urn p lang, same_with q st (fst (new_cts order st k urn (Some p) lang)).
Proof using N1 N2 N3 N4.
  intros order st k urn p lang. unfold new_cts. set (text := u <- urn_parse urn ;; to_str u).
  pose proof (same_new q st k urn (match text with Ok t => t | Err _ => [] end) N1 N2) as S1.
  destruct (new_object st k urn (match text with Ok t => t | Err _ => [] end)) as [st1 c]. cbn [fst] in S1.
  destruct text as [u|e]; [|exact S1].
  assert (S2 : same_with q st (match k, lang with KText _, Some l => set_lang st1 c l | _, _ => st1 end)).
  { apply (same_trans _ _ _ _ S1). destruct k; try apply same_refl. destruct lang; [apply same_lang; exact N4|apply same_refl]. }
  set (st2 := match k, lang with KText _, Some l => set_lang st1 c l | _, _ => st1 end) in *.
  assert (S3 : same_with q st (set_parent st2 c p)) by (apply (same_trans _ _ _ _ S2); apply same_parent; exact N3).
  destruct k; try exact S3. destruct lang; [exact S3|].
  destruct (get_lang order (set_parent st2 c p) p); [|exact S3]. cbn [fst]. apply (same_trans _ _ _ _ S3). apply same_lang. exact N4.
Qed.

Lemma others_ensure : forall order st k p urn, same_with q st (fst (ensure order st k p urn)).
Proof using N1 N2 N3 N4.
  intros order st k p urn. unfold ensure. destruct (dget _ _); [apply same_refl|].
  pose proof (others_cts order st k urn p None) as S1. destruct (new_cts order st k urn (Some p) None) as [st1 [c|e]]; cbn [fst] in *; [|exact S1].
  unfold child. destruct (dget _ _); [exact S1|]. destruct (c_kind (obj st1 p)); cbn [fst]; try exact S1;
    (apply (same_trans _ _ _ _ S1); apply same_new; assumption).
Qed.

Lemma others_rebuild : forall order inv t s, same_with q (s_state s) (s_state (fst (rebuild_text order inv t s))).
Proof using N1 N2 N3 N4.
  intros order inv t s. unfold rebuild_text. destruct (w <- up (s_state s) t ;; _) as [[[tg wk] tx]|e]; [|apply same_refl].
  unfold andthen at 1, on_state at 1. pose proof (others_ensure order (s_state s) KTextgroup inv tg) as S1.
  destruct (ensure order (s_state s) KTextgroup inv tg) as [st1 [g|e]]; cbn [fst s_state s_cites s_paths] in *; [|exact S1].
  unfold andthen at 1, on_state at 1. cbn [s_state s_cites s_paths]. pose proof (others_ensure order st1 KWork g wk) as S2.
  destruct (ensure order st1 KWork g wk) as [st2 [w|e]]; cbn [fst s_state s_cites s_paths] in *; [|exact (same_trans _ _ _ _ S1 S2)].
  pose proof (same_trans _ _ _ _ S1 S2) as S3. clear S1 S2.
  assert (LAST : forall k lang, same_with q (s_state s) (s_state (fst ((x <-- on_state (fun st => new_cts order st k tx (Some w) lang) ;; same_citation t x)
    (MkStore st2 (s_cites s) (s_paths s)))))).
  { intros k lang. unfold andthen, on_state. cbn [s_state s_cites s_paths]. pose proof (others_cts order st2 k tx w lang) as S4.
    destruct (new_cts order st2 k tx (Some w) lang) as [st3 [x|e]]; cbn [fst s_state same_citation set_citation] in *; exact (same_trans _ _ _ _ S3 S4). }
  destruct (c_kind (obj (s_state s) t)) as [|[| | |]| | | |]; try exact S3; [apply LAST| |];
    unfold andthen at 1, on_state at 1; cbn [s_state s_cites s_paths]; (destruct (get_lang order st2 t) as [lg|e]; [apply LAST|exact S3]).
Qed.

Lemma others_metadata : forall limit order root id s, same_with q (s_state s) (s_state (fst (resolver_metadata limit order root id s))).
Proof using N1 N2 N3 N4.
  intros limit order root [key|] s; [|apply same_refl]. unfold resolver_metadata. destruct (existsb _ _); [apply same_refl|].
  unfold andthen at 1, resolver_texts. destruct (list_texts _ _ _ _ _ _ _) as [found|e]; [|apply same_refl].
  unfold andthen at 1, on_state at 1. destruct (mapM _ _) as [names|e]; [|apply same_refl]. cbn [s_state s_cites s_paths].
  unfold andthen at 1, on_state at 1. cbn [s_state s_cites s_paths].
  pose proof (same_new q (s_state s) KInventory (inventory_name names) [] N1 N2) as S1.
  destruct (new_object (s_state s) KInventory (inventory_name names) []) as [st1 inv]. cbn [fst] in S1.
  assert (S2 : forall l s1, same_with q (s_state s1) (s_state (fst (for_each l (rebuild_text order inv) s1)))).
  { intros l. induction l as [|t l IH]; intros s1; [apply same_refl|]. cbn [for_each]. unfold andthen.
    pose proof (others_rebuild order inv t s1) as S2. destruct (rebuild_text order inv t s1) as [s2 [[]|e]]; cbn [fst] in *; [|exact S2].
    exact (same_trans _ _ _ _ S2 (IH s2)). }
  specialize (S2 (fst (fst found)) (MkStore st1 (s_cites s) (s_paths s))). unfold andthen at 1.
  destruct (for_each (fst (fst found)) (rebuild_text order inv) (MkStore st1 (s_cites s) (s_paths s))) as [s2 [[]|e]]; cbn [fst s_state on_state] in *; exact (same_trans _ _ _ _ S1 S2).
Qed.
End Others.

(** ** Languages *)

Definition one_language_in (st : state) (g : nat) (id l : str) : Prop :=
  forall o, In (URI id, dc_language, o) (nth g (graphs st) []) <-> o = Literal l None None.
Definition one_language (st : state) (id l : str) : Prop := one_language_in st 0 id l.

Lemma one_same_in : forall st st' g id l, same_with dc_language st st' -> one_language_in st g id l -> one_language_in st' g id l.
Proof. intros st st' g id l S H o. rewrite <- (S g (URI id) o). apply H. Qed.

Lemma one_same : forall st st' id l, same_with dc_language st st' -> one_language st id l -> one_language st' id l.
Proof. intros st st' id l. apply one_same_in. Qed.

Lemma lang_again : forall st c l, c_graph (obj st c) = 0 -> one_language st (c_id (obj st c)) l -> same_with dc_language st (set_lang st c l).
Proof.
  intros st c l G H g x y. unfold set_lang, with_graph. cbn [graphs]. rewrite G, nth_upd. destruct (Nat.eqb_spec 0 g) as [<-|X]; cbn [andb]; [|reflexivity].
  destruct (0 <? length (graphs st)); [|reflexivity]. rewrite In_g_set. unfold node. split.
  - intros I. destruct (term_eq_dec x (URI (c_id (obj st c)))) as [->|N].
    + apply H in I. subst y. left. reflexivity.
    + right. split; [exact I|]. intros [E _]. exact (N E).
  - intros [E|[I _]]; [|exact I]. injection E as -> ->. apply H. reflexivity.
Qed.

Lemma lang_read : forall order st c l l', arranges order -> one_language_in st (c_graph (obj st c)) (c_id (obj st c)) l ->
  get_lang order st c = Ok l' -> l' = l.
Proof.
  intros order st c l l' Ho H E. unfold get_lang in E. set (g0 := c_graph (obj st c)) in *.
  set (os := map snd (filter (matches (Some (node (obj st c))) (Some dc_language) None) (nth g0 (graphs st) []))) in *.
  assert (A : forall o, In o os <-> o = Literal l None None).
  { intros o. rewrite <- (H o). unfold os. rewrite in_map_iff. split.
    - intros ([[a b] d] & <- & I). apply filter_In in I. destruct I as [I M]. apply matches_spec in M. rewrite !covers_some in M.
      destruct M as (M1 & M2 & _). subst a b. exact I.
    - intros I. exists (URI (c_id (obj st c)), dc_language, o). split; [reflexivity|]. apply filter_In. split; [exact I|]. apply matches_spec. rewrite !covers_some. auto using covers_none. }
  assert (F : exists o, hd_error (g_objects order (node (obj st c)) dc_language (nth g0 (graphs st) [])) = Some o /\ In o os).
  { unfold g_objects. fold os. pose proof (Ho os) as P. destruct (order os) as [|o r] eqn:EO.
    - apply Permutation_sym, Permutation_nil in P. specialize (proj2 (A _) eq_refl). rewrite P. intros [].
    - exists o. split; [reflexivity|]. eapply Permutation_in; [apply Permutation_sym; exact P|left; reflexivity]. }
  destruct F as (o & F & I). rewrite F in E. apply A in I. subst o. destruct (c_kind (obj st c)); try discriminate; cbn in E; congruence.
Qed.

Lemma language_ne : dc_language <> rdf_type /\ dc_language <> dts_model /\ dc_language <> cap_parent.
Proof. repeat split; discriminate. Qed.

Lemma lang_cts : forall order st k urn p lang, arranges order -> p < length (objs st) ->
  (forall b, k = KText b -> exists l, one_language st urn l /\
     match lang with Some l' => l' = l | None => c_graph (obj st p) = 0 /\ one_language st (c_id (obj st p)) l end) ->
  same_with dc_language st (fst (new_cts order st k urn (Some p) lang)).
Proof.
  intros order st k urn p lang Ho Hp HL. destruct language_ne as (N1 & N2 & N3). unfold new_cts. set (text := u <- urn_parse urn ;; to_str u).
  pose proof (same_new dc_language st k urn (match text with Ok t => t | Err _ => [] end) N1 N2) as S1.
  destruct (new_object st k urn (match text with Ok t => t | Err _ => [] end)) as [st1 c] eqn:N. cbn [fst] in S1.
  assert (Ec : c = length (objs st)) by (unfold new_object in N; injection N as _ <-; reflexivity).
  assert (O1 : forall x, obj st1 x = if Nat.eqb x (length (objs st)) then MkColl k urn (match text with Ok t => t | Err _ => [] end) None [] 0 else obj st x).
  { intros x. rewrite <- (obj_new st k urn (match text with Ok t => t | Err _ => [] end) x), N. reflexivity. }
  assert (L1 : length (objs st1) = S (length (objs st))) by (unfold new_object in N; injection N as <- _; cbn [objs]; rewrite app_length; cbn; lia).
  clear N. subst c. destruct text as [u|e]; [|exact S1].
  assert (S2 : same_with dc_language st (match k, lang with KText _, Some l => set_lang st1 (length (objs st)) l | _, _ => st1 end)).
  { apply (same_trans _ _ _ _ S1). destruct k as [|b| | | |]; try apply same_refl. destruct lang as [l'|]; [|apply same_refl].
    destruct (HL b eq_refl) as (l & H1 & ->). apply lang_again; rewrite O1, Nat.eqb_refl; cbn; [reflexivity|]. eapply one_same; eassumption. }
  set (st2 := match k, lang with KText _, Some l => set_lang st1 (length (objs st)) l | _, _ => st1 end) in *.
  assert (O2 : objs st2 = objs st1) by (unfold st2; destruct k; try reflexivity; destruct lang; reflexivity).
  assert (S3 : same_with dc_language st (set_parent st2 (length (objs st)) p)) by (apply (same_trans _ _ _ _ S2); apply same_parent; exact N3).
  destruct k as [|b| | | |]; try exact S3. destruct lang as [l'|]; [exact S3|]. destruct (HL b eq_refl) as (l & H1 & H2 & H3).
  assert (OP : forall x, let y := obj st1 x in c_graph (obj (set_parent st2 (length (objs st)) p) x) = c_graph y /\ c_id (obj (set_parent st2 (length (objs st)) p) x) = c_id y).
  { intros x y. rewrite obj_set_parent by (rewrite O2; lia). cbv zeta. cbn [c_graph c_id]. unfold y, obj. rewrite O2. auto. }
  cbv zeta in OP. destruct (get_lang order (set_parent st2 (length (objs st)) p) p) as [l'|e] eqn:GL; [|exact S3]. cbn [fst].
  destruct (OP p) as [P1 P2]. rewrite O1 in P1, P2. destruct (Nat.eqb_spec p (length (objs st))) as [X|_]; [lia|].
  destruct (OP (length (objs st))) as [Q1 Q2]. rewrite O1, Nat.eqb_refl in Q1, Q2. cbn in Q1, Q2.
  assert (El : l' = l).
  { eapply lang_read; [exact Ho| |exact GL]. rewrite P1, P2, H2. eapply one_same; eassumption. }
  subst l'. apply (same_trans _ _ _ _ S3). apply lang_again; [exact Q1|]. rewrite Q2. eapply one_same; eassumption.
Qed.

Lemma lang_ensure : forall order st k p urn, arranges order -> p < length (objs st) -> (forall b, k <> KText b) ->
  same_with dc_language st (fst (ensure order st k p urn)).
Proof.
  intros order st k p urn Ho Hp NT. destruct language_ne as (N1 & N2 & N3). unfold ensure. destruct (dget _ _); [apply same_refl|].
  assert (S1 : same_with dc_language st (fst (new_cts order st k urn (Some p) None))) by (apply lang_cts; try assumption; intros b E; destruct (NT b E)).
  destruct (new_cts order st k urn (Some p) None) as [st1 [c|e]]; cbn [fst] in *; [|exact S1].
  unfold child. destruct (dget _ _); [exact S1|]. destruct (c_kind (obj st1 p)); cbn [fst]; try exact S1;
    (apply (same_trans _ _ _ _ S1); apply same_new; assumption).
Qed.

(** A text whose languages are in order. *)
Definition fit (s : store) (t : nat) : Prop :=
  forall w, c_parent (obj (s_state s) t) = Some w -> c_id (obj (s_state s) t) = c_urn (obj (s_state s) t) /\
    exists l, one_language (s_state s) (c_urn (obj (s_state s) t)) l /\ one_language_in (s_state s) (c_graph (obj (s_state s) t)) (c_urn (obj (s_state s) t)) l /\
      (c_kind (obj (s_state s) t) = KText Edition -> one_language (s_state s) (c_urn (obj (s_state s) w)) l).

Lemma lang_rebuild : forall n s0 s order inv t, arranges order -> kept_store n s0 s -> n <= inv < length (objs (s_state s)) ->
  t < n -> (forall w, c_parent (obj (s_state s0) t) = Some w -> w < n) -> fit s0 t -> same_with dc_language (s_state s0) (s_state s) ->
  same_with dc_language (s_state s0) (s_state (fst (rebuild_text order inv t s))).
Proof.
  intros n s0 s order inv t Ho K Hi Lt Lw FT S0. unfold rebuild_text.
  destruct (w <- up (s_state s) t ;; _) as [[[tg wk] tx]|e] eqn:U; [|exact S0].
  assert (Ux : exists w, c_parent (obj (s_state s) t) = Some w /\ wk = c_urn (obj (s_state s) w) /\ tx = c_urn (obj (s_state s) t)).
  { unfold up in U. destruct (c_parent (obj (s_state s) t)) as [w|]; [|discriminate]. cbn [bind] in U. destruct (c_parent (obj (s_state s) w)) as [g|]; [|discriminate].
    cbn [bind] in U. injection U as _ <- <-. eauto. }
  clear U. destruct Ux as (w0 & E0 & E1 & E2). pose proof (ks_old _ _ _ K t Lt) as Ot. rewrite Ot in E0, E2. specialize (Lw w0 E0).
  rewrite (ks_old _ _ _ K w0 Lw) in E1. destruct (FT w0 E0) as (I0 & l & F1 & F0 & F2). rewrite Ot.
  unfold andthen at 1, on_state at 1.
  destruct (more_ensure n (s_state s) order KTextgroup inv tg (ks_len _ _ _ K) (ks_graph _ _ _ K) (ks_kids _ _ _ K) Hi) as [M1 H1].
  assert (S1 : same_with dc_language (s_state s) (fst (ensure order (s_state s) KTextgroup inv tg))) by (apply lang_ensure; try assumption; [lia|discriminate]).
  apply (same_trans _ _ _ _ S0) in S1.
  destruct (ensure order (s_state s) KTextgroup inv tg) as [st1 [g|e]]; cbn [fst snd s_state s_cites s_paths] in *; [|exact S1].
  destruct (H1 g eq_refl) as [Hg _]. pose proof (kept_more _ _ _ _ _ _ K M1) as K1.
  unfold andthen at 1, on_state at 1. cbn [s_state s_cites s_paths].
  destruct (more_ensure n st1 order KWork g wk (ks_len _ _ _ K1) (ks_graph _ _ _ K1) (ks_kids _ _ _ K1) Hg) as [M2 H2].
  assert (S2 : same_with dc_language st1 (fst (ensure order st1 KWork g wk))) by (apply lang_ensure; try assumption; [lia|discriminate]).
  apply (same_trans _ _ _ _ S1) in S2.
  destruct (ensure order st1 KWork g wk) as [st2 [w|e]]; cbn [fst snd s_state s_cites s_paths] in *; [|exact S2].
  destruct (H2 w eq_refl) as [Hw Iw]. pose proof (kept_more _ _ _ _ _ _ K1 M2) as K2. cbn [s_state s_cites s_paths] in K2.
  assert (LAST : forall k lang, match lang with Some l' => l' = l | None => k = KText Edition /\ k = c_kind (obj (s_state s0) t) end ->
    same_with dc_language (s_state s0) (s_state (fst ((x <-- on_state (fun st => new_cts order st k tx (Some w) lang) ;; same_citation t x)
    (MkStore st2 (s_cites s) (s_paths s)))))).
  { intros k lang HL. unfold andthen, on_state. cbn [s_state s_cites s_paths].
    assert (S4 : same_with dc_language st2 (fst (new_cts order st2 k tx (Some w) lang))).
    { apply lang_cts; [exact Ho|lia|]. intros b Eb. exists l. split; [eapply one_same; [exact S2|]; rewrite E2; exact F1|]. destruct lang as [l'|]; [exact HL|].
      destruct HL as [Ek Ek']. split; [apply (ks_graph _ _ _ K2 w); cbn [s_state]; lia|]. rewrite Iw, E1. eapply one_same; [exact S2|]. apply F2. congruence. }
    apply (same_trans _ _ _ _ S2) in S4.
    destruct (new_cts order st2 k tx (Some w) lang) as [st3 [x|e]]; cbn [fst s_state same_citation set_citation] in *; exact S4. }
  assert (O2 : obj st2 t = obj (s_state s0) t) by exact (ks_old _ _ _ K2 t Lt).
  assert (LG : forall lg, get_lang order st2 t = Ok lg -> lg = l).
  { intros lg E. eapply lang_read; [exact Ho| |exact E]. rewrite O2, I0. eapply one_same_in; [exact S2|exact F0]. }
  destruct (c_kind (obj (s_state s0) t)) as [|[| | |]| | | |]; try exact S2; [apply LAST; auto| |];
    unfold andthen at 1, on_state at 1; cbn [s_state s_cites s_paths]; (destruct (get_lang order st2 t) as [lg|e]; [apply LAST; apply LG; reflexivity|exact S2]).
Qed.

Lemma lang_metadata : forall limit order root id s, arranges order ->
  (forall x, below (s_state s) root x -> text (s_state s) x -> fit s x /\ forall w, c_parent (obj (s_state s) x) = Some w -> w < length (objs (s_state s))) ->
  same_with dc_language (s_state s) (s_state (fst (resolver_metadata limit order root id s))).
Proof.
  intros limit order root [key|] s Ho HF; [|apply same_refl]. destruct language_ne as (N1 & N2 & N3). unfold resolver_metadata. destruct (existsb _ _); [apply same_refl|].
  unfold andthen at 1, resolver_texts, list_texts. destruct (find_texts _ _ _ _ _ _) as [l|e] eqn:FT; [|apply same_refl]. cbn [bind fst].
  unfold andthen at 1, on_state at 1. destruct (mapM _ _) as [names|e]; [|apply same_refl]. cbn [s_state s_cites s_paths].
  unfold andthen at 1, on_state at 1. cbn [s_state s_cites s_paths].
  pose proof (same_new dc_language (s_state s) KInventory (inventory_name names) [] N1 N2) as S1. pose proof (kept_refl s) as K0.
  pose proof (more_new _ _ (ks_len _ _ _ K0) (ks_graph _ _ _ K0) (ks_kids _ _ _ K0) KInventory (inventory_name names) []) as M.
  assert (L : length (objs (fst (new_object (s_state s) KInventory (inventory_name names) []))) = S (length (objs (s_state s)))) by (cbn; rewrite app_length; cbn; lia).
  destruct (new_object (s_state s) KInventory (inventory_name names) []) as [st1 inv] eqn:N.
  assert (Ei : inv = length (objs (s_state s))) by (unfold new_object in N; injection N as _ <-; reflexivity). cbn [fst] in M, L, S1.
  pose proof (kept_more _ _ _ _ _ _ K0 M) as K1.
  assert (TX : forall x, In x l -> below (s_state s) root x /\ text (s_state s) x) by exact (found_texts _ _ _ _ _ _ _ FT).
  assert (S2 : forall l' s1, incl l' l -> kept_store (length (objs (s_state s))) s s1 -> inv < length (objs (s_state s1)) -> same_with dc_language (s_state s) (s_state s1) ->
    same_with dc_language (s_state s) (s_state (fst (for_each l' (rebuild_text order inv) s1)))).
  { intros l'. induction l' as [|t l' IH]; intros s1 IN K Hi S; [exact S|]. cbn [for_each]. unfold andthen.
    destruct (TX t (IN t (or_introl eq_refl))) as [Bt Tt]. destruct (HF t Bt Tt) as [Ft Wt].
    assert (S3 : same_with dc_language (s_state s) (s_state (fst (rebuild_text order inv t s1)))).
    { eapply lang_rebuild; try eassumption; [lia|apply text_exists; exact Tt]. }
    destruct (rebuild_text_kept _ s s1 l order inv t K ltac:(lia)) as (A & B & _).
    destruct (rebuild_text order inv t s1) as [s2 [[]|e]]; cbn [fst] in *; [|exact S3].
    apply IH; try assumption; [intros x X; apply IN; right; exact X|lia]. }
  specialize (S2 l (MkStore st1 (s_cites s) (s_paths s)) (incl_refl l) K1). cbn [s_state] in S2. specialize (S2 ltac:(lia) S1). unfold andthen at 1.
  destruct (for_each l (rebuild_text order inv) (MkStore st1 (s_cites s) (s_paths s))) as [s2 [[]|e]]; cbn [fst s_state on_state] in *; exact S2.
Qed.
