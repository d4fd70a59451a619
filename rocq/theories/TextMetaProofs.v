(** Proofs about the metadata of passages and texts. *)

From Coq Require Import List NArith ZArith Arith Bool Lia Permutation.
From Verif Require Import PyStr PyStrFacts RefModel XmlModel XmlSpec XmlProofs UrnModel MetaModel MetaSpec MetaProofs CollModel CollSpec
  InvModel InvSpec InvTree LocalModel LocalSpec PassageModel TeiModel TeiSpec TeiProofs ServeModel HttpModel RemoteModel RemoteSpec RemoteProofs
  TextMetaModel TextMetaSpec.
Import ListNotations.

Lemma stated_object : forall s l, as_object (PStr s) l = stated s l.
Proof. intros s [l|]; reflexivity. Qed.

Lemma In_note : forall n name also s l g x,
  In x (note n name also s l g) <-> In x g \/ exists k, (k = in_cts name \/ k = in_dc also) /\ x = (n, k, stated s l).
Proof.
  intros. unfold note, md_add. rewrite !In_add, !stated_object. split.
  - intros [->|[->|H]]; [right; exists (in_dc also)|right; exists (in_cts name)|left; exact H]; split; auto.
  - intros [H|(k & [->| ->] & ->)]; auto.
Qed.

(** ** From the collections *)

Section Local.
Variable order : list term -> list term.
Hypothesis Ho : arranges order.

(** What changes from a state to another when values are noted. *)
Definition noted (st st' : state) (n : term) (name also : str) (values : term -> Prop) : Prop :=
  objs st' = objs st /\ length (graphs st') = length (graphs st) /\
  (forall i, i <> 0 -> nth i (graphs st') [] = nth i (graphs st) []) /\
  forall x, In x (nth 0 (graphs st') []) <-> In x (nth 0 (graphs st) []) \/
    exists k s l d, (k = in_cts name \/ k = in_dc also) /\ values (Literal s l d) /\ x = (n, k, stated s l).

Lemma note_all_noted : forall n name also os st, 0 < length (graphs st) -> (forall o, In o os -> is_literal o) ->
  exists st', note_all n name also os st = (st', Ok tt) /\ noted st st' n name also (fun v => In v os).
Proof using.
  intros n name also os. induction os as [|o os IH]; intros st Hg L.
  - exists st. split; [reflexivity|]. repeat split; auto. intros [H|(k & s & l & d & _ & [] & _)]. exact H.
  - destruct (L o (or_introl eq_refl)) as (s & l & d & ->). cbn [note_all language].
    set (st1 := with_graph st 0 (note n name also s l)).
    change (MetaModel.text_of (Literal s l d)) with s. fold st1.
    assert (G1 : exists g0 gs, graphs st = g0 :: gs) by (destruct (graphs st); [cbn in Hg; lia|eauto]).
    destruct G1 as (g0 & gs & G1).
    assert (G2 : graphs st1 = note n name also s l g0 :: gs) by (unfold st1, with_graph; cbn [graphs]; rewrite G1; reflexivity).
    destruct (IH st1) as (st' & E & A1 & A2 & A3 & A4); [rewrite G2; cbn; lia|intros; apply L; right; assumption|].
    exists st'. split; [exact E|]. split; [rewrite A1; reflexivity|]. split; [rewrite A2, G1, G2; reflexivity|]. split.
    + intros i Hi. rewrite (A3 i Hi), G1, G2. destruct i; [contradiction|reflexivity].
    + intros x. rewrite A4, G1, G2. cbn [nth]. rewrite In_note. split.
      * intros [[H|(k & K & ->)]|(k & s' & l' & d' & K & I & ->)]; [left; exact H| |].
        -- right. exists k, s, l, d. split; [exact K|]. split; [left; reflexivity|reflexivity].
        -- right. exists k, s', l', d'. split; [exact K|]. split; [right; exact I|reflexivity].
      * intros [H|(k & s' & l' & d' & K & [I|I] & ->)]; [left; left; exact H| |].
        -- injection I as <- <- <-. left. right. exists k. auto.
        -- right. exists k, s', l', d'. auto.
Qed.

Lemma says_kept : forall st st' b name also values c name' v, noted st st' (BNode b) name also values ->
  says_of_itself st' c name' v <-> says_of_itself st c name' v.
Proof using.
  intros st st' b name also values c name' v (A1 & A2 & A3 & A4). unfold says_of_itself, obj. rewrite A1.
  destruct (Nat.eq_dec (c_graph (nth c (objs st) nowhere)) 0) as [E|E].
  - rewrite E, A4. split; [|auto]. intros [H|(k & s & l & d & _ & _ & X)]; [exact H|discriminate X].
  - rewrite A3 by exact E. reflexivity.
Qed.

Lemma note_from_noted : forall b name also c st, 0 < length (graphs st) -> (forall v, says_of_itself st c name v -> is_literal v) ->
  exists st', note_from order (BNode b) name also c st = (st', Ok tt) /\ noted st st' (BNode b) name also (says_of_itself st c name).
Proof using Ho.
  intros b name also c st Hg L. unfold note_from.
  destruct (note_all_noted (BNode b) name also
    (g_objects order (CollModel.node (obj st c)) (cts_term name) (nth (c_graph (obj st c)) (graphs st) [])) st Hg) as (st' & E & A1 & A2 & A3 & A4).
  { intros o I. apply L. unfold says_of_itself. apply (In_objects order Ho) in I. exact I. }
  exists st'. split; [exact E|]. split; [exact A1|]. split; [exact A2|]. split; [exact A3|].
  intros x. rewrite A4. split.
  - intros [H|(k & s & l & d & K & I & ->)]; [left; exact H|]. right. exists k, s, l, d. split; [exact K|]. split; [|reflexivity].
    apply (In_objects order Ho) in I. exact I.
  - intros [H|(k & s & l & d & K & I & ->)]; [left; exact H|]. right. exists k, s, l, d. split; [exact K|]. split; [|reflexivity].
    apply (In_objects order Ho). exact I.
Qed.

(** The citation of the passage afterwards. *)
Definition citation_after (s : store) (own : list level) (t : nat) : result (list level) :=
  if citation_set own then Ok own
  else c <- edition_citation s t ;; Ok (if citation_set c then c else own).

Lemma set_metadata_spec : forall fuel s b own t w g rest,
  parents fuel (s_state s) t = Ok (w :: g :: rest) -> 0 < length (graphs (s_state s)) ->
  (forall name v, tells (s_state s) t w g name v -> is_literal v) ->
  exists st', set_metadata order fuel s (BNode b) own t = (MkStore st' (s_cites s) (s_paths s), citation_after s own t) /\
    objs st' = objs (s_state s) /\ (forall i, i <> 0 -> nth i (graphs st') [] = nth i (graphs (s_state s)) []) /\
    informed (nth 0 (graphs (s_state s)) []) (nth 0 (graphs st') []) (BNode b) (tells (s_state s) t w g).
Proof using Ho.
  intros fuel s b own t w g rest P Hg L. set (st := s_state s) in *.
  destruct (note_from_noted b #"groupname" #"creator" g st Hg) as (st1 & E1 & N1).
  { intros v H. apply (L #"groupname"). constructor. exact H. }
  pose proof N1 as (A1 & A2 & A3 & A4).
  destruct (note_from_noted b #"title" #"title" w st1) as (st2 & E2 & N2); [rewrite A2; exact Hg| |].
  { intros v H. apply (says_kept _ _ _ _ _ _ _ _ _ N1) in H. apply (L #"title"). constructor. exact H. }
  pose proof N2 as (B1 & B2 & B3 & B4).
  destruct (note_from_noted b #"label" #"subject" t st2) as (st3 & E3 & N3); [rewrite B2, A2; exact Hg| |].
  { intros v H. apply (says_kept _ _ _ _ _ _ _ _ _ N2), (says_kept _ _ _ _ _ _ _ _ _ N1) in H. apply (L #"label"). constructor. exact H. }
  pose proof N3 as (C1 & C2 & C3 & C4).
  destruct (note_from_noted b #"description" #"description" t st3) as (st4 & E4 & N4); [rewrite C2, B2, A2; exact Hg| |].
  { intros v H. apply (says_kept _ _ _ _ _ _ _ _ _ N3), (says_kept _ _ _ _ _ _ _ _ _ N2), (says_kept _ _ _ _ _ _ _ _ _ N1) in H.
    apply (L #"description"). constructor. exact H. }
  pose proof N4 as (D1 & D2 & D3 & D4).
  exists st4. unfold set_metadata. fold st. rewrite P. unfold then_. rewrite E1. cbn [fst snd]. rewrite E2. cbn [fst snd]. rewrite E3. cbn [fst snd].
  rewrite E4. split; [reflexivity|]. split; [congruence|]. split.
  { intros i Hi. rewrite D3, C3, B3, A3 by exact Hi. reflexivity. }
  intros a k v. rewrite D4, C4, B4, A4. split.
  - intros [[[[H|H]|H]|H]|H]; [left; exact H| | | |]; right; destruct H as (k' & s' & l & d & K & V & X); injection X as -> -> ->; (split; [reflexivity|]).
    + exists #"groupname", s', l, d. split; [destruct K as [->| ->]; constructor|]. split; [|reflexivity]. constructor. exact V.
    + exists #"title", s', l, d. split; [destruct K as [->| ->]; constructor|]. split; [|reflexivity].
      constructor. apply (says_kept _ _ _ _ _ _ _ _ _ N1) in V. exact V.
    + exists #"label", s', l, d. split; [destruct K as [->| ->]; constructor|]. split; [|reflexivity].
      constructor. apply (says_kept _ _ _ _ _ _ _ _ _ N2), (says_kept _ _ _ _ _ _ _ _ _ N1) in V. exact V.
    + exists #"description", s', l, d. split; [destruct K as [->| ->]; constructor|]. split; [|reflexivity].
      constructor. apply (says_kept _ _ _ _ _ _ _ _ _ N3), (says_kept _ _ _ _ _ _ _ _ _ N2), (says_kept _ _ _ _ _ _ _ _ _ N1) in V. exact V.
  - intros [H|(-> & name & s' & l & d & K & T & ->)]; [left; left; left; left; exact H|].
    inversion T as [v V Ename|v V Ename|v V Ename|v V Ename]; subst name v.
    + left. left. left. right. exists k, s', l, d. split; [inversion K; subst; auto; discriminate|]. split; [exact V|reflexivity].
    + left. left. right. exists k, s', l, d. split; [inversion K; subst; auto; discriminate|]. split; [|reflexivity].
      apply (says_kept _ _ _ _ _ _ _ _ _ N1). exact V.
    + left. right. exists k, s', l, d. split; [inversion K; subst; auto; discriminate|]. split; [|reflexivity].
      apply (says_kept _ _ _ _ _ _ _ _ _ N2), (says_kept _ _ _ _ _ _ _ _ _ N1). exact V.
    + right. exists k, s', l, d. split; [inversion K; subst; auto; discriminate|]. split; [|reflexivity].
      apply (says_kept _ _ _ _ _ _ _ _ _ N3), (says_kept _ _ _ _ _ _ _ _ _ N2), (says_kept _ _ _ _ _ _ _ _ _ N1). exact V.
Qed.
End Local.

(** ** Getters *)
Lemma single_chosen : forall order, arranges order -> forall g n k lang (values : term -> Prop),
  (forall v, In (n, k, v) g <-> values v) -> (forall v, values v -> is_literal v) ->
  exists r, md_get_single order g n k lang = Ok r /\ chosen values lang r.
Proof.
  intros order Ho g n k lang values V L. destruct lang as [l|].
  - destruct (single_language order Ho g [] n k l) as (r & E & X).
    { intros v [[H _]|(b & c & a & H & _)]; [apply L, V, H|destruct b; discriminate]. }
    assert (Q : forall v, holds g [] n k v <-> values v).
    { intros v. rewrite <- V. split.
      - intros [[H _]|(b & c & a & H & _)]; [exact H|destruct b; discriminate].
      - intros H. left. split; [exact H|constructor]. }
    exists r. split; [exact E|]. destruct r as [v|]; cbn.
    + destruct X as [X Y]. split; [apply Q, X|]. intros l' [= <-]. destruct Y as [Y|Y]; [left; exact Y|right].
      intros u Hu. apply Y, Q, Hu.
    + intros v Hv. apply (X v), Q, Hv.
  - exists (hd_error (g_objects order n k g)). split; [reflexivity|].
    destruct (g_objects order n k g) as [|v os] eqn:E; cbn.
    + intros v Hv. apply V in Hv. apply (In_objects order Ho) in Hv. rewrite E in Hv. destruct Hv.
    + split; [|discriminate]. apply V. apply (In_objects order Ho). rewrite E. left. reflexivity.
Qed.

(** ** From the replies *)

Lemma everywhere_order : forall e, everywhere e = document_order e.
Proof. reflexivity. Qed.
Lemma below_order : forall e, flat_map everywhere (n_kids e) = tl (document_order e).
Proof. intros [t a x y kids]. cbn. apply flat_map_ext. exact everywhere_order. Qed.

Lemma In_inside : forall name e k, In k (inside name e) <-> in_reply e name k.
Proof.
  intros. unfold inside, in_reply. rewrite filter_In, below_order, str_eqb_eq. reflexivity.
Qed.

Lemma In_note_replies : forall n name also e, (forall k, In k (document_order e) -> get_attr #"xml:lang" (n_attrs k) = None) ->
  forall g x, In x (note_replies n name also e g) <-> In x g \/
    exists k c, (k = in_cts name \/ k = in_dc also) /\ in_reply e name c /\
      x = (n, k, Literal (match n_text c with [] => #"None" | s => s end) (Some #"eng") None).
Proof.
  intros n name also e H.
  assert (Q : forall l, (forall k, In k l -> in_reply e name k) -> forall g x,
    In x (fold_left (fun g k => note n name also (text_or_none k) (Some (reply_language k)) g) l g) <-> In x g \/
    exists k c, (k = in_cts name \/ k = in_dc also) /\ In c l /\
      x = (n, k, Literal (match n_text c with [] => #"None" | s => s end) (Some #"eng") None)).
  { intros l. induction l as [|c l IH]; intros A g x.
    - cbn. split; [auto|]. intros [X|(k & c & _ & [] & _)]. exact X.
    - cbn [fold_left]. rewrite IH by (intros; apply A; right; assumption). rewrite In_note.
      assert (L : reply_language c = #"eng").
      { unfold reply_language. rewrite H; [reflexivity|]. destruct (A c (or_introl eq_refl)) as [I _].
        destruct (document_order e); [destruct I|right; exact I]. }
      rewrite L. split.
      + intros [[X|(k & K & ->)]|(k & c' & K & I & ->)]; [left; exact X| |].
        * right. exists k, c. split; [exact K|]. split; [left; reflexivity|]. reflexivity.
        * right. exists k, c'. split; [exact K|]. split; [right; exact I|]. reflexivity.
      + intros [X|(k & c' & K & [<-|I] & ->)]; [left; left; exact X| |].
        * left. right. exists k. split; [exact K|]. reflexivity.
        * right. exists k, c'. auto. }
  intros g x. unfold note_replies. rewrite Q by (intros k; apply In_inside). split.
  - intros [X|(k & c & K & I & ->)]; [left; exact X|right]. exists k, c. apply In_inside in I. auto.
  - intros [X|(k & c & K & I & ->)]; [left; exact X|right]. exists k, c. apply In_inside in I. auto.
Qed.

Lemma parse_request_informed : forall doc tags e n own g,
  (forall k, In k (document_order e) -> get_attr #"xml:lang" (n_attrs k) = None) ->
  informed g (fst (parse_request doc (tags, e) n own g)) n (replies e).
Proof.
  intros doc tags e n own g H a k v. unfold parse_request. cbn [fst snd].
  rewrite !(In_note_replies _ _ _ _ H). split.
  - intros [[[[X|X]|X]|X]|X]; [left; exact X| | | |]; right; destruct X as (k' & c & K & I & X); injection X as -> -> ->; (split; [reflexivity|]);
      eexists _, _, (Some #"eng"), None.
    + split; [|split; [apply replies_with; [left; reflexivity|exact I]|reflexivity]]. destruct K as [->| ->]; constructor.
    + split; [|split; [apply replies_with; [right; left; reflexivity|exact I]|reflexivity]]. destruct K as [->| ->]; constructor.
    + split; [|split; [apply replies_with; [right; right; left; reflexivity|exact I]|reflexivity]]. destruct K as [->| ->]; constructor.
    + split; [|split; [apply replies_with; [right; right; right; left; reflexivity|exact I]|reflexivity]]. destruct K as [->| ->]; constructor.
  - intros [X|(-> & name & s & l & d & K & R & ->)]; [left; left; left; left; exact X|].
    inversion R as [name' c N I En Ev]. subst name' l d.
    assert (Q : forall u, k = in_cts name \/ k = in_dc u -> exists k0 c0,
      (k0 = in_cts name \/ k0 = in_dc u) /\ in_reply e name c0 /\
      (n, k, stated (match n_text c with [] => #"None" | s => s end) (Some #"eng")) =
      (n, k0, Literal (match n_text c0 with [] => #"None" | s => s end) (Some #"eng") None)).
    { intros u U. exists k, c. split; [exact U|]. split; [exact I|reflexivity]. }
    destruct N as [<-|[<-|[<-|[<-|[]]]]].
    + left. left. left. right. apply Q. inversion K; subst; auto; discriminate.
    + left. left. right. apply Q. inversion K; subst; auto; discriminate.
    + left. right. apply Q. inversion K; subst; auto; discriminate.
    + right. apply Q. inversion K; subst; auto; discriminate.
Qed.

(** ** Where the replies are read *)

Lemma trail_at : forall n p ts, trail n p ts -> exists m, at_position n p m.
Proof.
  intros n p ts H. induction H as [n|n i k p ts Hk Hp [m IH]]; [eexists; constructor|]. exists m. econstructor; eassumption.
Qed.

Lemma first_element : forall (test : list str -> bool) (kind : list str -> Prop) x, (forall ts, test (rev ts) = true <-> kind ts) ->
  match filter (fun e => test (fst e)) (elements [] x) with
  | [] => nowhere_at x kind
  | e :: _ => exists p, first_at x kind p (snd e) /\ fst e = rev (tags_to x p)
  end.
Proof.
  intros test kind x HT. destruct (filter _ _) as [|e l] eqn:E.
  - intros p ts T K. destruct (trail_at _ _ _ T) as [m Hm]. apply positions_at in Hm.
    pose proof (in_map (fun pn => (rev (tags_to x (fst pn)) ++ [], snd pn)) _ _ Hm) as H'. rewrite <- elements_positions in H'. cbn [fst snd] in H'.
    rewrite app_nil_r, <- (trail_unique _ _ _ T) in H'.
    assert (X : In (rev ts, m) (filter (fun e => test (fst e)) (elements [] x))) by (apply filter_In; split; [exact H'|apply HT; exact K]).
    rewrite E in X. destruct X.
  - assert (AT : forall p m, In (p, m) (positions x) -> trail x p (tags_to x p)) by (intros p m H; apply positions_at in H; eapply trail_tags; exact H).
    rewrite elements_positions in E. unfold first_at.
    induction (positions x) as [|[p m] ps IH]; [discriminate|]. cbn [map filter fst snd] in E. rewrite app_nil_r in E.
    pose proof (AT _ _ (or_introl eq_refl)) as T0.
    destruct (test (rev (tags_to x p))) eqn:Et.
    + injection E as <- <-. cbn [fst snd]. exists p. split; [|reflexivity]. exists [], ps. split; [reflexivity|]. split; [|constructor].
      exists (tags_to x p). split; [exact T0|]. apply HT. exact Et.
    + destruct (IH E (fun p m H => AT p m (or_intror H))) as (P & (b & a & Eb & K & F) & Q). exists P. split; [|exact Q].
      exists ((p, m) :: b), a. split; [rewrite Eb; reflexivity|]. split; [exact K|]. constructor; [|exact F].
      cbn [fst]. intros ts T X. rewrite (trail_unique _ _ _ T) in X. apply HT in X. congruence.
Qed.

Lemma test_two : forall t u ts, tag_in t u (rev ts) = true <-> exists l, ts = l ++ [u; t].
Proof.
  intros t u ts. split.
  - destruct (rev ts) as [|a [|b r]] eqn:E; try discriminate. cbn [tag_in]. intros H. apply andb_true_iff in H. destruct H as [H1 H2].
    apply str_eqb_eq in H1, H2. subst. exists (rev r). apply rev_two. exact E.
  - intros (l & ->). rewrite rev_app_distr. cbn [rev app tag_in]. rewrite !str_eqb_refl. reflexivity.
Qed.
Lemma test_one : forall t ts, tag_is t (rev ts) = true <-> exists l, ts = l ++ [t].
Proof.
  intros t ts. split.
  - destruct (rev ts) as [|a r] eqn:E; try discriminate. cbn [tag_is]. intros H. apply str_eqb_eq in H. subst.
    exists (rev r). apply (f_equal (@rev str)) in E. rewrite rev_involutive in E. exact E.
  - intros (l & ->). rewrite rev_app_distr. cbn [rev app tag_is]. apply str_eqb_refl.
Qed.

(** ** Citations in the replies *)
Definition cit : str := cts_name #"citation".
Definition top_test (x : list str * XmlModel.node) : bool := tag_is cit (fst x) && negb (existsb (str_eqb cit) (tl (fst x))).
Definition cit_test (k : XmlModel.node) : bool := str_eqb (n_tag k) cit.

Lemma hd_app : forall {A} (a b : list A), hd_error (a ++ b) = match hd_error a with Some x => Some x | None => hd_error b end.
Proof. intros A [|x a] b; reflexivity. Qed.
Lemma hd_map : forall {A B} (f : A -> B) l, hd_error (map f l) = option_map f (hd_error l).
Proof. intros A B f [|x l]; reflexivity. Qed.

Lemma inside_none : forall tags n, existsb (str_eqb cit) tags = true -> filter top_test (elements tags n) = [].
Proof.
  intros tags n. revert tags. induction n as [t a x y kids IH] using node_ind'. intros tags H. cbn [elements filter].
  unfold top_test at 1. cbn [fst tl]. rewrite H, andb_false_r. cbn [negb].
  assert (H' : existsb (str_eqb cit) (t :: tags) = true) by (cbn [existsb]; rewrite H; apply orb_true_r).
  induction IH as [|k kids Hk IH IHk]; [reflexivity|]. cbn [flat_map]. rewrite filter_app, (Hk _ H'), IHk. reflexivity.
Qed.
Lemma inside_first : forall tags n, existsb (str_eqb cit) tags = false ->
  option_map snd (hd_error (filter top_test (elements tags n))) = hd_error (filter cit_test (document_order n)).
Proof.
  intros tags n. revert tags. induction n as [t a x y kids IH] using node_ind'. intros tags H. cbn [elements document_order filter].
  unfold top_test at 1, cit_test at 1. cbn [fst tl tag_is n_tag]. rewrite H, andb_true_r.
  destruct (str_eqb t cit) eqn:Et; [reflexivity|].
  assert (H' : existsb (str_eqb cit) (t :: tags) = false).
  { cbn [existsb]. rewrite H, orb_false_r. destruct (str_eqb cit t) eqn:E; [|reflexivity]. apply str_eqb_eq in E. subst t. rewrite str_eqb_refl in Et. discriminate. }
  induction IH as [|k kids Hk IH IHk]; [reflexivity|]. cbn [flat_map]. rewrite !filter_app, !hd_app, <- (Hk _ H'), <- IHk.
  destruct (hd_error (filter top_test (elements (t :: tags) k))); reflexivity.
Qed.

Lemma top_first : forall tags e, existsb (str_eqb cit) tags = false ->
  hd_error (top_citations (tags, e)) = hd_error (filter cit_test (tl (document_order e))).
Proof.
  intros tags [t a x y kids] H. unfold top_citations. cbn [fst snd n_kids document_order tl].
  change (fun x0 : list str * XmlModel.node => tag_is (ti #"citation") (fst x0) && negb (existsb (str_eqb (ti #"citation")) (tl (fst x0)))) with top_test.
  rewrite hd_map. induction kids as [|k kids IH]; [reflexivity|]. cbn [flat_map]. rewrite !filter_app, !hd_app, <- (inside_first tags k H), <- IH.
  destruct (hd_error (filter top_test (elements tags k))); reflexivity.
Qed.
Lemma top_none : forall tags e, existsb (str_eqb cit) tags = true -> top_citations (tags, e) = [].
Proof.
  intros tags [t a x y kids] H. unfold top_citations. cbn [fst snd n_kids].
  change (fun x0 : list str * XmlModel.node => tag_is (ti #"citation") (fst x0) && negb (existsb (str_eqb (ti #"citation")) (tl (fst x0)))) with top_test.
  induction kids as [|k kids IH]; [reflexivity|]. cbn [flat_map]. rewrite filter_app, map_app, IH, inside_none by exact H. reflexivity.
Qed.

Lemma first_filter : forall e, match filter cit_test (tl (document_order e)) with [] => forall c, ~ first_below e c | c :: _ => first_below e c end.
Proof.
  intros e. unfold first_below. destruct (filter cit_test (tl (document_order e))) as [|c l] eqn:E.
  - intros c (b & a & Eb & T & _). assert (I : In c (filter cit_test (tl (document_order e)))).
    { apply filter_In. split; [rewrite Eb; apply in_or_app; right; left; reflexivity|]. apply str_eqb_eq. exact T. }
    rewrite E in I. destruct I.
  - induction (tl (document_order e)) as [|k ks IH]; [discriminate|]. cbn [filter] in E. destruct (cit_test k) eqn:K.
    + injection E as -> _. exists [], ks. split; [reflexivity|]. split; [apply str_eqb_eq; exact K|constructor].
    + destruct (IH E) as (b & a & -> & T & F). exists (k :: b), a. split; [reflexivity|]. split; [exact T|]. constructor; [|exact F].
      intros X. unfold cit_test in K. rewrite X in K. unfold cit in K. rewrite str_eqb_refl in K. discriminate.
Qed.

Lemma citation_set_spec : forall c, citation_set c = true <-> is_set c.
Proof.
  intros c. split.
  - destruct c as [|[name [rd|]] l]; try discriminate. intros _. exists name, rd, l. reflexivity.
  - intros (name & rd & l & ->). reflexivity.
Qed.

Lemma ingest_learns : forall doc p e own, (exists m, at_position doc p m) ->
  learns doc p e own (ingest_top doc (rev (tags_to doc p), e) own).
Proof.
  intros doc p e own [m Hm]. unfold ingest_top. pose proof (citation_set_spec own) as S.
  pose proof (existsb_tag (ti #"citation") doc) as X.
  destruct (citation_set own); cbn [negb andb]; [apply learns_nothing; left; apply S; reflexivity|].
  assert (NS : ~ is_set own) by (intros H; apply S in H; discriminate).
  destruct (existsb _ (elements [] doc)); [|apply learns_nothing; right; intros H; apply X in H; discriminate].
  assert (HT : has_tag doc (cts_name #"citation")) by (apply X; reflexivity).
  pose proof (trail_tags _ _ _ Hm) as T.
  destruct (existsb (str_eqb cit) (rev (tags_to doc p))) eqn:C.
  - rewrite (top_none _ _ C). apply learns_refused; [exact NS|exact HT|]. left. exists (tags_to doc p). split; [exact T|].
    apply existsb_exists in C. destruct C as (t & I & E). apply str_eqb_eq in E. subst t. apply in_rev. exact I.
  - pose proof (top_first _ e C) as F. pose proof (first_filter e) as FF.
    destruct (top_citations (rev (tags_to doc p), e)) as [|c l]; destruct (filter cit_test (tl (document_order e))) as [|c' l']; try discriminate.
    + apply learns_refused; [exact NS|exact HT|]. right. exact FF.
    + injection F as <-. eapply learns_first; [exact NS| |exact FF|apply chain_levels].
      intros (ts & T' & I). rewrite (trail_unique _ _ _ T') in I.
      assert (existsb (str_eqb cit) (rev (tags_to doc p)) = true).
      { apply existsb_exists. exists (cts_name #"citation"). split; [apply in_rev in I; exact I|apply str_eqb_refl]. }
      congruence.
Qed.

(** ** The replies *)
Lemma order_positions : forall n, map snd (positions n) = document_order n.
Proof.
  induction n as [t a x y kids IH] using node_ind'. rewrite positions_unfold. cbn [map snd document_order n_kids]. f_equal.
  generalize 0. induction IH as [|k l Hk IH IHl]; intros i; [reflexivity|]. cbn [positions_from flat_map]. rewrite map_app, IHl, map_map. cbn [snd].
  rewrite <- Hk. reflexivity.
Qed.
Lemma order_trans : forall x e k, In e (document_order x) -> In k (document_order e) -> In k (document_order x).
Proof.
  induction x as [t a y z kids IH] using node_ind'. intros e k. cbn [document_order]. intros [<-|H] K; [exact K|].
  right. apply in_flat_map in H. destruct H as (c & C & H). apply in_flat_map. exists c. split; [exact C|].
  rewrite Forall_forall in IH. exact (IH c C _ _ H K).
Qed.
Lemma first_in : forall x kind p e, first_at x kind p e -> In e (document_order x) /\ at_position x p e.
Proof.
  intros x kind p e (b & a & E & _). assert (I : In (p, e) (positions x)) by (rewrite E; apply in_or_app; right; left; reflexivity).
  split; [rewrite <- order_positions; apply (in_map snd) in I; exact I|apply positions_at; exact I].
Qed.

Lemma parse_at : forall doc kind p e n own g, no_prefixed_lang doc -> first_at doc kind p e ->
  informed g (fst (parse_request doc (rev (tags_to doc p), e) n own g)) n (replies e) /\
  learns doc p e own (snd (parse_request doc (rev (tags_to doc p), e) n own g)).
Proof.
  intros doc kind p e n own g L F. destruct (first_in _ _ _ _ F) as [I A]. split.
  - apply parse_request_informed. intros k K. apply L. eapply order_trans; eassumption.
  - apply ingest_learns. eauto.
Qed.

Lemma label_reads : forall doc n own g, no_prefixed_lang doc -> reads_at reply_label doc n own g (get_label_reply doc n own g).
Proof.
  intros doc n own g L. unfold get_label_reply.
  pose proof (first_element (tag_in (ti #"label") (ti #"reply")) reply_label doc (test_two _ _)) as F.
  destruct (filter _ _) as [|[tags e] l]; [right; auto|]. left. destruct F as (p & F & T). cbn [fst snd] in F, T. subst tags.
  exists p, e. split; [exact F|]. eapply parse_at; eassumption.
Qed.
Lemma request_reads : forall doc n own g, no_prefixed_lang doc -> reads_at request doc n own g (get_request_reply doc n own g).
Proof.
  intros doc n own g L. unfold get_request_reply.
  pose proof (first_element (tag_is (ti #"request")) request doc (test_one _)) as F.
  destruct (filter _ _) as [|[tags e] l]; [right; auto|]. left. destruct F as (p & F & T). cbn [fst snd] in F, T. subst tags.
  exists p, e. split; [exact F|]. eapply parse_at; eassumption.
Qed.

Lemma first_once : forall x kind p e p' e', first_at x kind p e -> first_at x kind p' e' -> p = p' /\ e = e'.
Proof.
  intros x kind p e p' e' (b1 & a1 & P1 & (t1 & T1 & K1) & Fo1) (b2 & a2 & P2 & (t2 & T2 & K2) & Fo2).
  rewrite P1 in P2. clear P1. revert b2 P2 Fo2. induction b1 as [|[q m] b1 IHb]; intros b2 P2 Fo2; destruct b2 as [|[q' m'] b2].
  - injection P2 as -> -> _. auto.
  - injection P2 as -> -> _. inversion Fo2 as [|? ? X _]; subst. cbn in X. exfalso. exact (X _ T1 K1).
  - injection P2 as -> -> _. inversion Fo1 as [|? ? X _]; subst. cbn in X. exfalso. exact (X _ T2 K2).
  - injection P2 as -> -> P2. inversion Fo1; inversion Fo2; subst. eapply IHb; eauto.
Qed.
Lemma split_once : forall (P : XmlModel.node -> Prop) b1 a1 c1 b2 a2 c2, b1 ++ c1 :: a1 = b2 ++ c2 :: a2 -> P c1 -> P c2 ->
  Forall (fun k => ~ P k) b1 -> Forall (fun k => ~ P k) b2 -> c1 = c2.
Proof.
  intros P b1. induction b1 as [|k b1 IH]; intros a1 c1 [|k' b2] a2 c2 E P1 P2 F1 F2; cbn [app] in E.
  - injection E as E _. exact E.
  - injection E as -> _. inversion F2; subst. contradiction.
  - injection E as -> _. inversion F1; subst. contradiction.
  - injection E as -> E. inversion F1; inversion F2; subst. eapply IH; eauto.
Qed.
Lemma levels_once : forall e l, levels e l -> forall l', levels e l' -> l = l'.
Proof.
  intros e l H. induction H as [e N|e c l (b & a & E & T & F) H IH]; intros l' H'; inversion H' as [? N'|? c' l2 (b' & a' & E' & T' & F') H2]; subst; [reflexivity| | |].
  - exfalso. assert (I : In c' (named #"citation" e)).
    { apply filter_In. split; [rewrite E'; apply in_or_app; right; left; reflexivity|apply str_eqb_eq; exact T']. }
    rewrite N in I. destruct I.
  - exfalso. assert (I : In c (named #"citation" e)).
    { apply filter_In. split; [rewrite E; apply in_or_app; right; left; reflexivity|apply str_eqb_eq; exact T]. }
    rewrite N' in I. destruct I.
  - f_equal. rewrite E in E'. assert (c = c').
    { eapply (split_once (fun k => n_tag k = InvSpec.cts_tag #"citation")); [exact E'|exact T|exact T'| |]; apply Forall_forall; auto. }
    subst c'. apply IH. exact H2.
Qed.
Lemma learns_once : forall doc p e own r r', at_position doc p e -> learns doc p e own r -> learns doc p e own r' -> r = r'.
Proof.
  intros doc p e own r r' A H H'.
  assert (FT : forall c, first_below e c -> has_tag doc (cts_name #"citation")).
  { intros c (b & a & E & T & _). assert (I : In c (document_order e)).
    { destruct (document_order e); [destruct b; discriminate E|]. right. cbn in E. rewrite E. apply in_or_app. right. left. reflexivity. }
    assert (J : In c (document_order doc)).
    { eapply order_trans; [|exact I]. rewrite <- order_positions. apply positions_at in A. apply (in_map snd) in A. exact A. }
    rewrite <- order_positions in J. apply in_map_iff in J. destruct J as ([q m] & Em & J). cbn in Em. subst m. apply positions_at in J.
    exists q, c. auto. }
  destruct H as [D|c l NS NP F Le|NS HT D]; destruct H' as [D'|c' l' NS' NP' F' Le'|NS' HT' D']; try reflexivity;
    try (destruct D as [D|D]; [contradiction|destruct D; eauto]; fail); try (destruct D' as [D'|D']; [contradiction|destruct D'; eauto]; fail).
  - f_equal. assert (c = c').
    { destruct F as (b & a & E & T & Fo). destruct F' as (b' & a' & E' & T' & Fo'). rewrite E in E'.
      eapply (split_once (fun k => n_tag k = cts_name #"citation")); eassumption. }
    subst c'. eapply levels_once; eassumption.
  - exfalso. destruct D' as [D'|D']; [contradiction|]. exact (D' _ F).
  - exfalso. destruct D as [D|D]; [contradiction|]. exact (D _ F').
Qed.

Lemma root_learns : forall doc own, learns doc [] doc own (ingest_top doc ([n_tag doc], doc) own).
Proof.
  intros doc own. assert (E : [n_tag doc] = rev (tags_to doc [])) by (destruct doc; reflexivity). rewrite E.
  apply ingest_learns. exists doc. constructor.
Qed.

Lemma informed_both : forall g0 g1 g2 n i1 i2, informed g0 g1 n i1 -> informed g1 g2 n i2 -> informed g0 g2 n (fun name v => i1 name v \/ i2 name v).
Proof.
  intros g0 g1 g2 n i1 i2 H1 H2 a k v. rewrite (H2 a k v), (H1 a k v). split.
  - intros [[H|(-> & name & s & l & d & K & I & ->)]|(-> & name & s & l & d & K & I & ->)]; [left; exact H| |]; right; split; try reflexivity; exists name, s, l, d; auto.
  - intros [H|(-> & name & s & l & d & K & [I|I] & ->)]; [left; left; exact H|left; right|right]; split; try reflexivity; exists name, s, l, d; auto.
Qed.
Lemma informed_none : forall g n, informed g g n (fun _ _ => False).
Proof. intros g n a k v. split; [auto|]. intros [H|(_ & name & s & l & d & _ & [] & _)]. exact H. Qed.
Lemma informed_ext : forall g g' n (i1 i2 : str -> term -> Prop), (forall name v, i1 name v <-> i2 name v) -> informed g g' n i1 -> informed g g' n i2.
Proof.
  intros g g' n i1 i2 H H1 a k v. rewrite (H1 a k v). split; (intros [X|(-> & name & s & l & d & K & I & ->)]; [left; exact X|]); right; (split; [reflexivity|]);
    exists name, s, l, d; apply H in I; auto.
Qed.

Lemma reffs_listed : forall valid n own k i g, is_set own -> (forall j, i <= j < i + k -> no_prefixed_lang (valid j) /\ has_tag (valid j) (cts_name #"request")) ->
  exists g' ls, reffs_from valid n own i k g = (g', Ok (concat ls)) /\
    Forall2 (fun j l => identifiers (fun ts => exists a b, ts = a ++ [cts_name #"reply"] ++ b ++ [cts_name #"urn"]) (valid j) l) (seq i k) ls /\
    informed g g' n (fun name v => exists j p e, i <= j < i + k /\ first_at (valid j) request p e /\ replies e name v).
Proof.
  intros valid n own k. induction k as [|k IH]; intros i g IS H.
  - exists g, []. split; [reflexivity|]. split; [constructor|]. eapply informed_ext; [|apply informed_none].
    intros name v. split; [intros []|intros (j & p & e & X & _); lia].
  - destruct (H i ltac:(lia)) as [L R].
    assert (RR : exists l, read_reffs (valid i) = Ok l /\ identifiers (fun ts => exists a b, ts = a ++ [cts_name #"reply"] ++ b ++ [cts_name #"urn"]) (valid i) l).
    { apply (proj1 (read_reffs_spec (valid i))). exact R. }
    destruct RR as (l & E1 & I1).
    cbn [reffs_from]. pose proof (request_reads (valid i) n own g L) as Q.
    destruct (get_request_reply (valid i) n own g) as [g1 r1].
    destruct Q as [(p & e & F & I & Le)|[N _]].
    + cbn [fst snd] in I, Le.
      assert (r1 = Ok own) by (inversion Le; subst; [reflexivity|contradiction|contradiction]). subst r1.
      cbn [bind]. rewrite E1. cbn [bind].
      destruct (IH (S i) g1 IS) as (g' & ls & E2 & F2 & I2); [intros j Hj; apply H; lia|].
      rewrite E2. exists g', (l :: ls). split; [reflexivity|]. split; [constructor; assumption|].
      eapply informed_ext; [|eapply informed_both; [exact I|exact I2]]. intros name v. split.
      * intros [X|(j & p' & e' & B & F' & X)]; [exists i, p, e; split; [lia|]; auto|exists j, p', e'; split; [lia|]; auto].
      * intros (j & p' & e' & B & F' & X). destruct (Nat.eq_dec j i) as [->|D].
        -- left. destruct (first_once _ _ _ _ _ _ F F') as [_ ->]. exact X.
        -- right. exists j, p', e'. split; [lia|]. auto.
    + exfalso. destruct R as (P & m & A & T). pose proof (trail_tags _ _ _ A) as TT.
      apply (N P _ TT). clear -A T. unfold request. induction A as [n0|n0 i0 p k0 m Hk A IH].
      * exists []. cbn. rewrite T. destruct n0; reflexivity.
      * destruct (IH T) as (l & E). exists (n_tag n0 :: l). cbn [tags_to]. rewrite Hk, E. reflexivity.
Qed.

(** ** Values under a key *)
Lemma values_under : forall g g' n info name k, informed g g' n info -> kept_under name k ->
  (forall name', kept_under name' k -> (exists s l d, info name' (Literal s l d)) -> name' = name) -> (forall v, ~ In (n, k, v) g) ->
  forall v, In (n, k, v) g' <-> exists s l d, info name (Literal s l d) /\ v = stated s l.
Proof.
  intros g g' n info name k H K U N v. rewrite (H n k v). split.
  - intros [X|(_ & name' & s & l & d & K' & I & ->)]; [destruct (N _ X)|]. exists s, l, d. split; [|reflexivity].
    rewrite <- (U name' K'); [exact I|eauto].
  - intros (s & l & d & I & ->). right. split; [reflexivity|]. exists name, s, l, d. auto.
Qed.

Lemma getter_chosen : forall order, arranges order -> forall g g' n info name k lang, informed g g' n info -> kept_under name k ->
  (forall name', kept_under name' k -> name' = name) -> (forall v, ~ In (n, k, v) g) ->
  exists r, md_get_single order g' n k lang = Ok r /\ chosen (fun v => exists s l d, info name (Literal s l d) /\ v = stated s l) lang r.
Proof.
  intros order Ho g g' n info name k lang H K U N. apply single_chosen; [exact Ho| |].
  - intros v. eapply values_under; eauto.
  - intros v (s & l & d & _ & ->). eexists _, _, _. reflexivity.
Qed.

(** ** The resolver *)
Lemma placed_parents : forall st root t w g fuel, library st root -> placed st root t w g -> c_parent (obj st root) = None ->
  exists i, parents (4 + fuel) st t = Ok [w; g; i; root].
Proof.
  intros st root t w g fuel L (i & M1 & M2 & M3 & M4) R. exists i.
  assert (Bi : below st root i) by (constructor; exact M1).
  assert (Bg : below st root g) by (eapply below_more; [exact M1|constructor; exact M2]).
  assert (Bw : below st root w) by (eapply below_more; [exact M1|eapply below_more; [exact M2|constructor; exact M3]]).
  pose proof (tree_parent _ _ (lib_tree _ _ L)) as TP. unfold parents.
  rewrite (TP w t (or_intror Bw) M4). cbn [Nat.add parents_from]. rewrite (TP g w (or_intror Bg) M3). cbn [parents_from].
  rewrite (TP i g (or_intror Bi) M2). cbn [parents_from]. rewrite (TP root i (or_introl eq_refl) M1). cbn [parents_from]. rewrite R.
  destruct fuel; reflexivity.
Qed.
