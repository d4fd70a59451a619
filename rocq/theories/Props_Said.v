(** C73: what a loaded resolver says of its textgroups, works and texts is what the
    files say. *)

From Coq Require Import List NArith ZArith Arith Bool Lia Permutation.
From Verif Require Import PyStr PyStrFacts UrnModel UrnSpec UrnProofs XmlModel MetaModel MetaSpec MetaProofs CollModel CollSpec CollProofs CollHist CollLang
  UtilModel InvModel InvSpec InvProofs InvTrace InvTree InvDone Props_Inv LocalModel LocalSpec LocalProofs LoadModel LoadSpec LoadDict LoadRead LoadAll LoadBridge LoadMore Props_Load
  AnswerModel AnswerSpec AnswerGraph Props_Answer SaidSpec SaidProofs SaidLoad.
Import ListNotations.

(** The graph of the process after loading: what was said before and what the files
    say, nothing else; what was said before stays. *)
Theorem C73_statements : forall order leaf nsmap rp ru limit d texts files s s', arranges order ->
  (forall f, In f files -> named_file (snd f)) -> graphs_there s ->
  load order leaf nsmap rp ru limit d (map as_file files) texts s = (s', Ok tt) ->
  graphs_there s' /\
  forall n p o, plain_predicate p ->
    (says s' 0 (n, p, o) <-> says s 0 (n, p, o) \/ exists u, n = URI u /\ says_of leaf nsmap files u p o).
Proof.
  intros order leaf nsmap rp ru limit d texts files s s' Ho NF [NE GT] E.
  destruct (load_parts order Ho leaf nsmap files NF (fun u => u) rp ru limit d texts s s' E) as (s2 & G & B & S).
  assert (NE2 : graphs (s_state s2) <> []) by (eapply nonempty_length; [symmetry; apply (go_length _ _ _ _ _ _ G)|exact NE]).
  assert (W2 : graphs_ok (s_state s2)).
  { intros j J. rewrite (go_length _ _ _ _ _ _ G). destruct (go_news _ _ _ _ _ _ G) as (L & OL & NW).
    destruct (Nat.lt_ge_cases j (length (objs (s_state s)))) as [H|H].
    - destruct (OL j H) as (_ & _ & ->). apply GT. exact H.
    - destruct (NW j (conj H J)) as [-> _]. destruct (graphs (s_state s)); [congruence|cbn; lia]. }
  split.
  - destruct (S (URI []) ltac:(discriminate) W2) as (W' & L' & _). split; [|exact W'].
    destruct (graphs (s_state s2)); [congruence|]. destruct (graphs (s_state s')); [cbn in L'; lia|discriminate].
  - intros n p o P. assert (Q : p <> cap_parent) by apply P. destruct (S p Q W2) as (_ & _ & Z & _). unfold says. rewrite (Z n o). split.
    + intros H. apply (go_sound _ _ _ _ _ _ G) in H; [|exact P]. exact H.
    + intros [H|(u & -> & f & k & e & I & J & U & D)]; [apply (go_more _ _ _ _ _ _ G); assumption|].
      destruct (B f k e I J NE2) as [X _]. specialize (X k e p o (conj eq_refl eq_refl) P D).
      unfold the_urn in X. rewrite U in X. exact X.
Qed.
Print Assumptions C73_statements.

(** The statements about a collection may be in a copy of that graph, when it was
    merged into a textgroup.  Then too they are those of the graph of the process,
    unless they were in a copy before; then they are what they were. *)
Theorem C73_own : forall order leaf nsmap rp ru limit d texts files s s', arranges order ->
  (forall f, In f files -> named_file (snd f)) -> graphs_there s ->
  load order leaf nsmap rp ru limit d (map as_file files) texts s = (s', Ok tt) ->
  forall p j, plain_predicate p -> j < length (objs (s_state s')) ->
    (forall n o, says s' (c_graph (obj (s_state s') j)) (n, p, o) <-> says s' 0 (n, p, o)) \/
    exists i, i < length (objs (s_state s)) /\ c_graph (obj (s_state s) i) <> 0 /\
      c_kind (obj (s_state s') j) = c_kind (obj (s_state s) i) /\ c_id (obj (s_state s') j) = c_id (obj (s_state s) i) /\
      forall n o, says s' (c_graph (obj (s_state s') j)) (n, p, o) <-> says s (c_graph (obj (s_state s) i)) (n, p, o).
Proof.
  intros order leaf nsmap rp ru limit d texts files s s' Ho NF [NE GT] E p j P J.
  destruct (load_parts order Ho leaf nsmap files NF (fun u => u) rp ru limit d texts s s' E) as (s2 & G & B & S).
  destruct (go_news _ _ _ _ _ _ G) as (L & OL & NW).
  assert (W2 : graphs_ok (s_state s2)).
  { intros i I. rewrite (go_length _ _ _ _ _ _ G).
    destruct (Nat.lt_ge_cases i (length (objs (s_state s)))) as [H|H].
    - destruct (OL i H) as (_ & _ & ->). apply GT. exact H.
    - destruct (NW i (conj H I)) as [-> _]. destruct (graphs (s_state s)); [congruence|cbn; lia]. }
  assert (Q : p <> cap_parent) by apply P. destruct (S p Q W2) as (_ & _ & Z & M). destruct (M j J) as (i & I & K & D & A).
  destruct (Nat.eq_dec (c_graph (obj (s_state s2) i)) 0) as [C|C].
  - left. intros n o. unfold says. rewrite (A n o), C, (Z n o). reflexivity.
  - right. destruct (Nat.lt_ge_cases i (length (objs (s_state s)))) as [H|H].
    + destruct (OL i H) as (X1 & X2 & X3). rewrite X1 in K. rewrite X2 in D. rewrite X3 in C. exists i. split; [exact H|]. split; [exact C|]. split; [exact K|]. split; [exact D|].
      intros n o. unfold says. rewrite (A n o), X3, (go_others _ _ _ _ _ _ G _ C). reflexivity.
    + destruct (NW i (conj H I)) as [X _]. congruence.
Qed.
Print Assumptions C73_own.

(** So in a process where nothing was copied before, every textgroup, work and text
    says of its URN what was said and what the files say. *)
Theorem C73_told : forall order leaf nsmap rp ru limit d texts files s s', arranges order ->
  (forall f, In f files -> named_file (snd f)) -> graphs_there s ->
  (forall i, i < length (objs (s_state s)) -> c_graph (obj (s_state s) i) = 0) ->
  load order leaf nsmap rp ru limit d (map as_file files) texts s = (s', Ok tt) ->
  forall p o j, plain_predicate p -> j < length (objs (s_state s')) ->
    let u := c_id (obj (s_state s') j) in
    says s' (c_graph (obj (s_state s') j)) (URI u, p, o) <-> says s 0 (URI u, p, o) \/ says_of leaf nsmap files u p o.
Proof.
  intros order leaf nsmap rp ru limit d texts files s s' Ho NF GT Z E p o j P J u.
  destruct (C73_own order leaf nsmap rp ru limit d texts files s s' Ho NF GT E p j P J) as [H|(i & I & C & _)]; [|specialize (Z i I); congruence].
  rewrite (H (URI u) o). destruct (C73_statements order leaf nsmap rp ru limit d texts files s s' Ho NF GT E) as [_ X]. rewrite (X (URI u) p o P). split.
  - intros [Y|(v & V & Y)]; [left; exact Y|right]. injection V as <-. exact Y.
  - intros [Y|Y]; [left; exact Y|right; eauto].
Qed.
Print Assumptions C73_told.

(** ** Languages *)
Theorem C73_languages : forall order leaf nsmap rp ru limit d texts files F s s', arranges order ->
  (forall f, In f files -> named_file (snd f) /\ no_repeats (snd f)) -> languages_said leaf nsmap F files ->
  graphs_there s -> all_speak F s ->
  load order leaf nsmap rp ru limit d (map as_file files) texts s = (s', Ok tt) ->
  all_speak F s' /\
  forall f k e, In f files -> in_file (snd f) k e -> has_language k -> speaks s' (own_urn e) (F (own_urn e)).
Proof.
  intros order leaf nsmap rp ru limit d texts files F s s' Ho NR LS [NE GT] AS E.
  assert (NF : forall f, In f files -> named_file (snd f)) by (intros; apply NR; assumption).
  assert (O : orderly leaf nsmap files F) by (split; [exact LS|intros; apply NR; assumption]).
  destruct (load_parts order Ho leaf nsmap files NF F rp ru limit d texts s s' E) as (s2 & G & B & S).
  destruct (go_news _ _ _ _ _ _ G) as (L & OL & NW).
  assert (NE2 : graphs (s_state s2) <> []) by (eapply nonempty_length; [symmetry; apply (go_length _ _ _ _ _ _ G)|exact NE]).
  assert (W2 : graphs_ok (s_state s2)).
  { intros i I. rewrite (go_length _ _ _ _ _ _ G).
    destruct (Nat.lt_ge_cases i (length (objs (s_state s)))) as [H|H].
    - destruct (OL i H) as (_ & _ & ->). apply GT. exact H.
    - destruct (NW i (conj H I)) as [-> _]. destruct (graphs (s_state s)); [congruence|cbn; lia]. }
  destruct (S language ltac:(discriminate) W2) as (_ & _ & Z & M).
  assert (SP : forall f k e, In f files -> in_file (snd f) k e -> has_language k -> speaks s2 (own_urn e) (F (own_urn e))).
  { intros f k e I J K. destruct (B f k e I J NE2) as [_ X]. exact (X O k e (conj eq_refl eq_refl) K). }
  assert (LOW : forall f k e, In f files -> in_file (snd f) k e -> has_language k -> work_or_text (own_urn e)).
  { intros f k e I J K. destruct J as [|fo w J|fo w k e J J2]; [destruct K as [K|(b & K)]; discriminate| |].
    - eapply low_work; [exact NF|exact I|exact J|]. left. reflexivity.
    - eapply low_work; [exact NF|exact I|exact J|]. right. apply in_map. apply (in_map snd) in J2. exact J2. }
  split.
  - intros j J K u. destruct (M j J) as (i & I & K' & D & A). rewrite K' in K. subst u. rewrite D.
    assert (X : work_or_text (c_id (obj (s_state s2) i)) /\ speaks s2 (c_id (obj (s_state s2) i)) (F (c_id (obj (s_state s2) i))) /\
      speaks_in s2 (c_graph (obj (s_state s2) i)) (c_id (obj (s_state s2) i)) (F (c_id (obj (s_state s2) i)))).
    { destruct (Nat.lt_ge_cases i (length (objs (s_state s)))) as [H|H].
      - destruct (OL i H) as (X1 & X2 & X3). rewrite X1 in K. rewrite X2, X3. destruct (AS i H K) as (Y1 & Y2 & Y3). split; [exact Y1|].
        assert (Q : speaks s2 (c_id (obj (s_state s) i)) (F (c_id (obj (s_state s) i)))) by (apply (go_lang _ _ _ _ _ _ G O NE _ Y1); exact Y2).
        split; [exact Q|]. destruct (Nat.eq_dec (c_graph (obj (s_state s) i)) 0) as [C|C]; [rewrite C; exact Q|].
        intros o. unfold says. rewrite (go_others _ _ _ _ _ _ G _ C). apply Y3.
      - destruct (NW i (conj H I)) as [-> (f & e & I1 & I2 & ->)]. split; [eapply LOW; eassumption|]. split; eapply SP; eassumption. }
    destruct X as (X1 & X2 & X3). split; [exact X1|]. split; intros o; unfold says; [rewrite (Z _ o); apply X2|rewrite (A _ o); apply X3].
  - intros f k e I J K o. unfold says. rewrite (Z _ o). exact (SP f k e I J K o).
Qed.
Print Assumptions C73_languages.

Lemma language_read : forall order st c l, arranges order -> has_language (c_kind (obj st c)) ->
  (forall o, In (URI (c_id (obj st c)), language, o) (nth (c_graph (obj st c)) (graphs st) []) <-> o = Literal l None None) ->
  get_lang order st c = Ok l.
Proof.
  intros order st c l Ho K H. unfold get_lang, node.
  set (os := g_objects order (URI (c_id (obj st c))) dc_language (nth (c_graph (obj st c)) (graphs st) [])).
  assert (A : forall o, In o os <-> o = Literal l None None).
  { intros o. rewrite <- H. unfold os, g_objects. split.
    - intros I. apply (Permutation_in _ (Permutation_sym (Ho _))) in I. apply in_map_iff in I. destruct I as ([[a b] x] & <- & I).
      apply filter_In in I. destruct I as [I M]. apply matches_spec in M. rewrite !covers_some in M. destruct M as (M1 & M2 & _). subst a b. exact I.
    - intros I. apply (Permutation_in _ (Ho _)). apply in_map_iff. exists (URI (c_id (obj st c)), dc_language, o). split; [reflexivity|].
      apply filter_In. split; [exact I|]. apply matches_spec. rewrite !covers_some. auto using covers_none. }
  assert (E : match hd_error os with Some t => text_of t | None => #"None" end = l).
  { destruct os as [|x os'] eqn:E; [destruct (proj2 (A (Literal l None None)) eq_refl)|]. cbn [hd_error]. rewrite (proj1 (A x) (or_introl eq_refl)). reflexivity. }
  destruct K as [-> |(b & ->)]; rewrite E; reflexivity.
Qed.

(** Every work and text of a loaded resolver answers with its language. *)
Theorem C73_answers : forall order F s c, arranges order -> all_speak F s -> c < length (objs (s_state s)) ->
  has_language (c_kind (obj (s_state s) c)) -> get_lang order (s_state s) c = Ok (F (c_id (obj (s_state s) c))).
Proof. intros order F s c Ho AS C K. apply language_read; [exact Ho|exact K|]. apply (AS c C K). Qed.
Print Assumptions C73_answers.

(** ** Editions *)
Lemma merge_all : forall {A} (j : A -> A -> A) (P : str -> A -> Prop) d e, (forall k a b, P k a -> P k b -> P k (j a b)) ->
  (forall k x, In (k, x) d -> P k x) -> P (fst e) (snd e) -> forall k x, In (k, x) (merge_in j d e) -> P k x.
Proof.
  intros A j P d [k0 x0] Pj Pd Pe. induction d as [|[k1 x1] d IH]; intros k x I; cbn [merge_in fst snd] in *.
  - destruct I as [[= <- <-]|[]]. exact Pe.
  - destruct (str_eqb k1 k0) eqn:E.
    + apply str_eqb_eq in E. subst k1. destruct I as [[= <- <-]|I]; [apply Pj; [apply Pd; left; reflexivity|exact Pe]|apply Pd; right; exact I].
    + destruct I as [[= <- <-]|I]; [apply Pd; left; reflexivity|]. apply IH; [intros; apply Pd; right; assumption|exact I].
Qed.
Lemma merges_all : forall {A} (j : A -> A -> A) (P : str -> A -> Prop) new d, (forall k a b, P k a -> P k b -> P k (j a b)) ->
  (forall k x, In (k, x) d -> P k x) -> (forall k x, In (k, x) new -> P k x) -> forall k x, In (k, x) (fold_left (merge_in j) new d) -> P k x.
Proof.
  intros A j P. induction new as [|e new IH]; intros d Pj Pd Pn; [exact Pd|]. cbn [fold_left]. apply IH; [exact Pj| |intros; apply Pn; right; assumption].
  apply merge_all; [exact Pj|exact Pd|]. apply Pn. left. destruct e. reflexivity.
Qed.
Lemma firsts_sub : forall {A} (l : list (str * A)) e, In e (firsts_of l) -> In e l.
Proof.
  intros A. induction l as [|[k v] l IH]; intros e I; [exact I|]. cbn [firsts_of] in I. destruct I as [<-|I]; [left; reflexivity|].
  apply filter_In in I. right. apply IH. apply I.
Qed.

Definition fit_texts (F : str -> str) (k2 : str) (ts : work_of source) : Prop := forall u x, In (u, x) ts -> src_kind x = Edition -> F u = F k2.
Definition fit_works (F : str -> str) (k : str) (ws : group_of source) : Prop := forall k2 ts, In (k2, ts) ws -> fit_texts F k2 ts.

Lemma fit_join_texts : forall F k a b, fit_texts F k a -> fit_texts F k b -> fit_texts F k (join_works a b).
Proof.
  intros F k a b A B. unfold fit_texts, join_works. apply (merges_all (fun _ t => t) (fun u x => src_kind x = Edition -> F u = F k)); [auto|exact A|exact B].
Qed.
Lemma fit_join_works : forall F k a b, fit_works F k a -> fit_works F k b -> fit_works F k (join_groups a b).
Proof.
  intros F k a b A B. unfold fit_works, join_groups. apply (merges_all join_works (fit_texts F)); [apply fit_join_texts|exact A|exact B].
Qed.

Lemma fit_file : forall leaf nsmap F files f, languages_said leaf nsmap F files -> In f files -> fit_works F (own_urn (fst (snd f))) (snd (group_says (snd f))).
Proof.
  intros leaf nsmap F files f LS I k2 ts J u x U K. cbn [group_says snd] in J. apply firsts_sub in J. apply in_map_iff in J. destruct J as ([fo w] & J & W).
  cbn [fst snd] in J. unfold work_says in J. injection J as <- <-. apply firsts_sub in U. apply in_map_iff in U. destruct U as ([b e] & U & V). cbn [fst snd] in U.
  injection U as <- <-. cbn [src_kind] in K. subst b. destruct (LS f fo w I W) as (L & _ & T). destruct (T Edition e V) as [T1 _]. rewrite <- T1.
  unfold text_language, work_language. rewrite L. reflexivity.
Qed.

Theorem C73_editions : forall leaf nsmap F tests files L, languages_said leaf nsmap F files -> editions_fit F L ->
  editions_fit F (shelved_by tests files L).
Proof.
  intros leaf nsmap F tests files L LS.
  assert (H : forall fs L, (forall f, In f fs -> In f files) -> editions_fit F L -> editions_fit F (shelved_by tests fs L)).
  { clear L. induction fs as [|f fs IH]; intros L SUB EF; [exact EF|]. unfold shelved_by. cbn [map fold_left].
    apply IH; [intros; apply SUB; right; assumption|]. unfold shelve_at, shelve. destruct (place _ _ _) as [n0|]; [|exact EF].
    intros n l k ws k2 ts u x I1 I2 I3 I4 K. apply in_map_iff in I1. destruct I1 as ([n1 l1] & E & I1). cbn [fst snd] in E.
    destruct (str_eqb n1 n0).
    - injection E as <- <-. revert I3 u x I4 K. revert k2 ts. change (fit_works F k ws). revert k ws I2. unfold add_group.
      apply (merge_all join_groups (fit_works F)); [apply fit_join_works| |apply (fit_file leaf nsmap F files f LS); apply SUB; left; reflexivity].
      intros k ws I2 k2 ts I3 u x I4 K. exact (EF n1 l1 k ws k2 ts u x I1 I2 I3 I4 K).
    - injection E as <- <-. exact (EF n1 l1 k ws k2 ts u x I1 I2 I3 I4 K). }
  apply H. auto.
Qed.
Print Assumptions C73_editions.

(** So the languages of a loaded resolver are in order, as C72 wants them. *)
Theorem C73_fit : forall texts F s root L, resolver_shows texts s root L -> all_speak F s -> editions_fit F L -> languages_fit s root.
Proof.
  intros texts F s root L RS AS EF x w g (i & [_ [k1 A1]] & [_ [k2 A2]] & [_ [k3 A3]] & [_ [k4 A4]]).
  destruct (F2_in_l _ _ _ _ (rs_shown _ _ _ _ RS) A1) as ([n l] & I1 & _ & _ & _ & _ & _ & S1). cbn [fst snd] in S1.
  destruct (F2_in_l _ _ _ _ S1 A2) as ([kg ws] & I2 & _ & S2). cbn [fst snd] in S2.
  destruct (F2_in_l _ _ _ _ S2 A3) as ([kw ts] & I3 & (_ & LW & KW & DW & UW & _) & S3). cbn [fst snd] in *.
  destruct (F2_in_l _ _ _ _ S3 A4) as ([u src] & I4 & (_ & LX & KX & DX & UX & _) & _ & _). cbn [fst snd] in *.
  destruct (AS x LX ltac:(right; eauto)) as (_ & X1 & X2). rewrite DX in X1, X2. destruct (AS w LW ltac:(left; exact KW)) as (_ & W1 & _). rewrite DW in W1.
  exists (F u). rewrite UX, UW. split; [exact X1|]. split; [exact X2|]. intros K. rewrite KX in K. injection K as K.
  rewrite (EF n l kg ws kw ts u src I1 I2 I3 I4 K). exact W1.
Qed.
Print Assumptions C73_fit.

(** All together: after a loading that goes on from a resolver in order, questions
    leave the languages alone. *)
Theorem C73_questions : forall order leaf nsmap rp ru texts limit d root tests files s L F,
  arranges order -> sound_texts texts -> d_root d = root -> filters_by_name d tests ->
  (forall f, In f files -> named_file (snd f) /\ no_repeats (snd f)) -> resolver_shows texts s root L ->
  (forall f n, In f files -> choice_of tests (fst f) (own_urn (fst (snd f))) = Some n -> In n (keys L)) ->
  (ru = true -> placed tests files L) -> graphs_there s ->
  languages_said leaf nsmap F files -> all_speak F s -> editions_fit F L ->
  exists s', load order leaf nsmap rp ru (5 + limit) d (map as_file files) texts s = (s', Ok tt) /\
    graphs_there s' /\ all_speak F s' /\ resolver_shows texts s' root (shelved_by tests files L) /\
    editions_fit F (shelved_by tests files L) /\
    (forall u x, held (shelved_by tests files L) u x -> exists t,
      getitem (5 + limit) (s_state s') root u = Ok t /\ get_lang order (s_state s') t = Ok (F u)) /\
    forall id g y z, says (fst (resolver_metadata limit order root id s')) g (y, language, z) <-> says s' g (y, language, z).
Proof.
  intros order leaf nsmap rp ru texts limit d root tests files s L F Ho ST DR FB NR RS CH PL GT LS AS EF.
  assert (NF : forall f, In f files -> named_file (snd f)) by (intros; apply NR; assumption).
  destruct (C59_loading order leaf nsmap rp ru texts limit d root tests files s L Ho ST DR FB NF RS CH PL) as (s' & E & RS'). exists s'. split; [exact E|].
  destruct (C73_statements _ _ _ _ _ _ _ _ _ _ _ Ho NF GT E) as [GT' _]. split; [exact GT'|].
  destruct (C73_languages _ _ _ _ _ _ _ _ _ F _ _ Ho NR LS GT AS E) as [AS' _]. split; [exact AS'|]. split; [exact RS'|].
  pose proof (C73_editions leaf nsmap F tests files L LS EF) as EF'. split; [exact EF'|]. split.
  - intros u x H. destruct (found texts s' root _ u x limit RS' H) as (t & T & B & D & K & _). exists t. split; [exact T|].
    rewrite <- D. apply C73_answers; [exact Ho|exact AS'| |right; eauto].
    destruct (Nat.lt_ge_cases t (length (objs (s_state s')))) as [H0|H0]; [exact H0|]. exfalso.
    unfold obj in K. rewrite nth_overflow in K by exact H0. discriminate K.
  - intros id g y z. apply C72_languages; [exact Ho|eapply C59_library; exact RS'|]. eapply C73_fit; eassumption.
Qed.
Print Assumptions C73_questions.

(** A resolver without a dispatcher in a new process: it has exactly the texts of
    the files, each with its language, and of each it says what the files say. *)
Theorem C73_default : forall order leaf nsmap rp ru texts limit files F,
  arranges order -> sound_texts texts -> (forall f, In f files -> named_file (snd f) /\ no_repeats (snd f)) ->
  languages_said leaf nsmap F files ->
  exists s1 d s', default_resolver blank = (s1, Ok d) /\
    load order leaf nsmap rp ru (5 + limit) d (map as_file files) texts s1 = (s', Ok tt) /\
    languages_fit s' (d_root d) /\
    forall u x, held [(#"default", fold_left add_group (map (fun f => group_says (snd f)) files) [])] u x -> exists t,
      getitem (5 + limit) (s_state s') (d_root d) u = Ok t /\ c_id (obj (s_state s') t) = u /\
      get_lang order (s_state s') t = Ok (F u) /\
      forall p o, plain_predicate p ->
        (says s' (c_graph (obj (s_state s') t)) (URI u, p, o) <-> says_of leaf nsmap files u p o).
Proof.
  intros order leaf nsmap rp ru texts limit files F Ho ST NR LS.
  assert (NF : forall f, In f files -> named_file (snd f)) by (intros; apply NR; assumption).
  destruct (C59_default order leaf nsmap rp ru texts limit files blank Ho ST ltac:(intros t path []) NF) as (s1 & d & s' & E1 & _ & E2 & RS).
  exists s1, d, s'. split; [exact E1|]. split; [exact E2|].
  assert (X : graphs_there s1 /\ all_speak F s1 /\ (forall i, i < length (objs (s_state s1)) -> c_graph (obj (s_state s1) i) = 0) /\
    forall n p o, plain_predicate p -> says s1 0 (n, p, o) -> n = URI #"default").
  { unfold default_resolver in E1. vm_compute in E1. injection E1 as <- <-. split; [|split; [|split]].
    - split; [discriminate|]. intros [|[|j]] J; [exact (Nat.lt_0_succ _)|exact (Nat.lt_0_succ _)|]. cbn [s_state objs length] in J. lia.
    - intros [|[|j]] J K; cbn [s_state objs length] in J; [| |lia]; destruct K as [K|[b K]]; discriminate.
    - intros [|[|j]] J; [reflexivity|reflexivity|]. cbn [s_state objs length] in J. lia.
    - intros n p o [P1 P2] I. unfold says in I. cbn [s_state graphs nth] in I.
      repeat (destruct I as [I|I]; [first [apply (f_equal (fun t : triple => fst (fst t))) in I; cbn [fst] in I; exact (eq_sym I) |
        exfalso; apply (f_equal (fun t : triple => snd (fst t))) in I; cbn [fst snd] in I; subst p];
        first [exact (P2 eq_refl) | apply P1; unfold single_valued; left; reflexivity | apply P1; unfold single_valued; right; left; reflexivity]|]). destruct I. }
  destruct X as (GT & AS & Z & NO).
  destruct (C73_languages _ _ _ _ _ _ _ _ _ F _ _ Ho NR LS GT AS E2) as [AS' _].
  assert (EF : editions_fit F [(#"default", fold_left add_group (map (fun f => group_says (snd f)) files) [])]).
  { assert (FW : forall k ws, In (k, ws) (fold_left add_group (map (fun f => group_says (snd f)) files) []) -> fit_works F k ws).
    { apply (merges_all join_groups (fit_works F)); [apply fit_join_works|intros k ws []|]. intros k ws I. apply in_map_iff in I. destruct I as (f & I & J).
      pose proof (fit_file leaf nsmap F files f LS J) as Q. rewrite I in Q. exact Q. }
    intros n l k ws k2 ts u x [[= <- <-]|[]] I2 I3 I4 K. exact (FW k ws I2 k2 ts I3 u x I4 K). }
  split; [eapply C73_fit; eassumption|].
  intros u x H. destruct (found texts s' (d_root d) _ u x limit RS H) as (t & T & B & D & K & _). exists t. split; [exact T|]. split; [exact D|].
  assert (LT : t < length (objs (s_state s'))).
  { destruct (Nat.lt_ge_cases t (length (objs (s_state s')))) as [H0|H0]; [exact H0|]. exfalso.
    unfold obj in K. rewrite nth_overflow in K by exact H0. discriminate K. }
  split.
  - rewrite <- D. apply C73_answers; [exact Ho|exact AS'|exact LT|right; eauto].
  - intros p o P. pose proof (C73_told _ _ _ _ _ _ _ _ _ _ _ Ho NF GT Z E2 p o t P LT) as Q. cbv zeta in Q. rewrite D in Q. rewrite Q. split; [|auto].
    intros [Y|Y]; [|exact Y]. exfalso. apply (NO _ _ _ P) in Y. injection Y as Y. destruct (AS' t LT ltac:(right; eauto)) as ((ns & cts & q & _ & _ & _ & _ & W) & _).
    rewrite D, Y in W. discriminate W.
Qed.
Print Assumptions C73_default.

(** ** The hypotheses can be met *)
Lemma without_braces : forall e ns name, qualified e ns name ->
  filter (fun c => negb (c =? 123)%N && negb (c =? 125)%N) (n_tag e) = filter (fun c => negb (c =? 123)%N && negb (c =? 125)%N) (ns ++ name).
Proof. intros e ns name [E _]. rewrite E, !filter_app. reflexivity. Qed.
Definition martial_languages (u : str) : str := if str_eqb u #"urn:cts:latinLit:phi1294.phi002.perseus-eng2" then #"eng" else #"lat".
Example C73_meets : (forall f, In f [martial_file; second_file] -> named_file (snd f) /\ no_repeats (snd f)) /\
  languages_said by_text no_ns martial_languages [martial_file; second_file].
Proof.
  split; [exact example_named|]. intros f folder w [<-|[<-|[]]] [[= <- <-]|[]].
  - split; [reflexivity|]. split; [intros m ns name o []|]. intros k e [[= <- <-]|[[= <- <-]|[[= <- <-]|[]]]].
    + split; [reflexivity|]. intros m ns name o I Q E V. cbn in I.
      destruct I as [<-|[<-|[<-|[<-|[<-|[]]]]]].
      5: { inversion V; subst; try discriminate; try reflexivity; exfalso. destruct H as (q & r & [<-|[<-|[<-|[<-|[]]]]] & X); discriminate X. }
      all: exfalso; apply without_braces in Q; rewrite E in Q; vm_compute in Q; discriminate Q.
    + split; [reflexivity|]. intros m ns name o [].
    + split; [reflexivity|]. intros m ns name o [].
  - split; [reflexivity|]. split; [intros m ns name o []|]. intros k e [[= <- <-]|[]]. split; [reflexivity|]. intros m ns name o [].
Qed.

(** Two files of one textgroup: the work of the second is copied when it is
    merged, with its statements. *)
Definition priapea (title : str) : described_group :=
  (martial, [(#"other/phi1294/phi001",
              cel #"work" [(#"urn", #"urn:cts:latinLit:phi1294.phi001"); lang_attr #"lat"] []
                [cel #"title" [lang_attr #"eng"] title [];
                 cel #"edition" [(#"urn", #"urn:cts:latinLit:phi1294.phi001.perseus-lat2")] [] []])]).
Definition priapea_file (title : str) : located_group := (#"other/phi1294/__cts__.xml", priapea title).
Definition loaded_once : store * nat :=
  match default_resolver blank with
  | (s, Ok d) => (fst (load same_order by_text no_ns true true 5 d (map as_file [martial_file; priapea_file #"Spectacles"]) martial_disk s), d_root d)
  | (s, Err _) => (s, 0)
  end.
Definition title_says (u title : str) : triple := (URI u, cts #"title", Literal title (Some #"eng") None).

Lemma priapea_named : forall title, named_file (priapea title) /\ no_repeats (priapea title).
Proof.
  intros title. split.
  - split; [apply clark_by_test; vm_compute; reflexivity|]. split; [intros dw [<-|[]]; apply clark_by_test; vm_compute; reflexivity|].
    exists #"cts", #"latinLit", #"phi1294". split; [plain_all|]. split; [plain_all|]. split; [plain_all|]. split; [reflexivity|].
    intros fw [<-|[]]. exists #"phi001". split; [plain_all|]. split; [reflexivity|].
    intros k e [E|[]]; injection E as <- <-. split; [exists #"perseus-lat2"; split; [plain_all|reflexivity]|]. intros a [].
  - split; [repeat constructor; intros []|]. intros fw [<-|[]]. cbn.
    repeat constructor; cbn; intros X; repeat (destruct X as [X|X]; [discriminate X|]); exact X.
Qed.

Definition has_statement (s : store) (g : nat) (t : triple) : bool := existsb (triple_eqb t) (nth g (graphs (s_state s)) []).
Lemma has_says : forall s g t, has_statement s g t = true <-> says s g t.
Proof.
  intros s g t. unfold has_statement, says. rewrite existsb_exists. split.
  - intros (x & I & E). apply triple_eqb_eq in E. subst x. exact I.
  - intros I. exists t. split; [exact I|]. apply triple_eqb_eq. reflexivity.
Qed.

Lemma says_now : forall s g t, has_statement s g t = true -> says s g t.
Proof. intros s g t. apply has_says. Qed.
Lemma says_not : forall s g t, has_statement s g t = false -> ~ says s g t.
Proof. intros s g t H X. apply has_says in X. congruence. Qed.

Example C73_sample : exists w, getitem 5 (s_state (fst loaded_once)) (snd loaded_once) #"urn:cts:latinLit:phi1294.phi001" = Ok w /\
  c_graph (obj (s_state (fst loaded_once)) w) <> 0 /\
  says (fst loaded_once) (c_graph (obj (s_state (fst loaded_once)) w)) (title_says #"urn:cts:latinLit:phi1294.phi001" #"Spectacles") /\
  says (fst loaded_once) 0 (title_says #"urn:cts:latinLit:phi1294.phi001" #"Spectacles").
Proof.
  eexists. split; [vm_compute; reflexivity|]. split; [vm_compute; discriminate|].
  split; (apply says_now; vm_compute; reflexivity).
Qed.

(** A finding: a file read later gives the work another title.  The graph of the
    process has it; the work of the resolver, whose statements were copied, never
    learns of it. *)
Theorem C73_later_title_refuted : exists s' w, (forall f, In f [priapea_file #"On the Games"] -> named_file (snd f) /\ no_repeats (snd f)) /\
  load same_order by_text no_ns true true 5 (MkDispatcher (snd loaded_once) [(#"default", fun _ _ _ => Ok true)])
    (map as_file [priapea_file #"On the Games"]) martial_disk (fst loaded_once) = (s', Ok tt) /\
  getitem 5 (s_state s') (snd loaded_once) #"urn:cts:latinLit:phi1294.phi001" = Ok w /\
  says s' 0 (title_says #"urn:cts:latinLit:phi1294.phi001" #"On the Games") /\
  ~ says s' (c_graph (obj (s_state s') w)) (title_says #"urn:cts:latinLit:phi1294.phi001" #"On the Games").
Proof.
  eexists _, _. split; [intros f [<-|[]]; apply priapea_named|]. split; [vm_compute; reflexivity|]. split; [vm_compute; reflexivity|].
  split; [apply says_now; vm_compute; reflexivity|]. apply says_not. vm_compute. reflexivity.
Qed.
Print Assumptions C73_later_title_refuted.

(** A text described again keeps what the earlier file said: the description now
    shown has both. *)
Definition reload (l : list located_group) : store * nat :=
  match default_resolver blank with
  | (s, Ok d) => (fst (load same_order by_text no_ns true true 5 d (map as_file l) martial_disk s), d_root d)
  | (s, Err _) => (s, 0)
  end.
Definition label_says : triple :=
  (URI #"urn:cts:latinLit:phi1294.phi002.perseus-lat2", cts #"label", Literal #"Epigrammata" (Some #"eng") None).
Theorem C73_earlier_label_refuted :
  held (shelved_by [(#"default", fun _ _ => true)] [martial_file; second_file] [(#"default", [])]) #"urn:cts:latinLit:phi1294.phi002.perseus-lat2"
    (MkSource Edition (cel #"edition" [(#"urn", #"urn:cts:latinLit:phi1294.phi002.perseus-lat2")] [] []) (Some #"more/phi1294/phi002")) /\
  exists t, getitem 5 (s_state (fst (reload [martial_file; second_file]))) (snd (reload [martial_file; second_file])) #"urn:cts:latinLit:phi1294.phi002.perseus-lat2" = Ok t /\
  citation_of (fst (reload [martial_file; second_file])) t = Some [] /\
  says (fst (reload [martial_file; second_file])) (c_graph (obj (s_state (fst (reload [martial_file; second_file]))) t)) label_says.
Proof.
  split.
  - eexists _, _, _, _, _, _. split; [left; reflexivity|]. split; [left; reflexivity|]. split; [left; reflexivity|]. left. reflexivity.
  - eexists. split; [vm_compute; reflexivity|]. split; [vm_compute; reflexivity|]. apply says_now. vm_compute. reflexivity.
Qed.
Print Assumptions C73_earlier_label_refuted.
