(** Property C70: the fields of a collection. *)

From Coq Require Import List NArith ZArith Arith Bool Lia Permutation.
From Verif Require Import PyStr PyStrFacts MetaModel MetaSpec MetaProofs UrnModel
  CollModel CollSpec CollProofs CollHist CollLang InvModel FieldModel FieldSpec FieldProofs.
Import ListNotations.

(** What the graphs hold after any history of creations and assignments: exactly
    what was said, or there from the start, and not taken back since. *)
Theorem C70_statements : forall st h, housed st -> proper st h ->
  forall gi n p o, gi < length (graphs st) ->
  (In (n, p, o) (nth gi (graphs (after st h)) []) <-> stands st h (gi, n) p o).
Proof. intros st h Hs P gi n p o Hg. apply values_after; assumption. Qed.
Print Assumptions C70_statements.

(** Reading the fields of an object gives what stands. *)
Theorem C70_read : forall order, arranges order -> forall st h, housed st -> proper st h ->
  forall c, c < length (objs (after st h)) ->
  let st' := after st h in
  let values := stands st h (place st' c) in
  match version order st' c with Some o => values (in_dts #"version") o | None => forall o, ~ values (in_dts #"version") o end /\
  match type_of order st' c with Ok o => values a_type o | Err e => e = IndexError /\ forall o, ~ values a_type o end /\
  match model_of order st' c with Ok o => values (in_dts #"model") o | Err e => e = IndexError /\ forall o, ~ values (in_dts #"model") o end /\
  (has_lang (c_kind (obj st' c)) ->
   (exists o, values a_language o /\ get_lang order st' c = Ok (text_form o)) \/
   (forall o, ~ values a_language o) /\ get_lang order st' c = Ok #"None") /\
  (forall p, cts_kind (c_kind (obj st' c)) -> exists l, get_link order st' c p = Ok l /\ forall o, In o l <-> values p o).
Proof.
  intros order Ho st h Hs P c Hc st' values.
  assert (V : forall p o, In o (g_objects order (node (obj st' c)) p (graph_of st' c)) <-> values p o).
  { intros p o. rewrite (In_objects order Ho). unfold graph_of, values, place. apply values_after; [ exact Hs | exact P | ].
    rewrite <- (proj1 (keeps_after h st)). apply (housed_after h st Hs), Hc. }
  split; [ | split; [ | split; [ | split ] ] ].
  - unfold version. specialize (V dts_version). change (in_dts #"version") with dts_version.
    destruct (g_objects _ _ _ _) as [|o os]; cbn [hd_error].
    + intros o Ho'. apply V in Ho'. destruct Ho'.
    + apply V. left. reflexivity.
  - unfold type_of. specialize (V rdf_type). change a_type with rdf_type.
    destruct (g_objects _ _ _ _) as [|o os]; cbn [first_of].
    + split; [ reflexivity | ]. intros o Ho'. apply V in Ho'. destruct Ho'.
    + apply V. left. reflexivity.
  - unfold model_of. specialize (V dts_model). change (in_dts #"model") with dts_model.
    destruct (g_objects _ _ _ _) as [|o os]; cbn [first_of].
    + split; [ reflexivity | ]. intros o Ho'. apply V in Ho'. destruct Ho'.
    + apply V. left. reflexivity.
  - intros Hl. unfold get_lang. specialize (V dc_language). change a_language with dc_language.
    assert (E : match c_kind (obj st' c) with
                | KText _ | KWork => Ok match hd_error (g_objects order (node (obj st' c)) dc_language (nth (c_graph (obj st' c)) (graphs st') [])) with
                                        | Some t => text_of t | None => #"None" end
                | _ => Err AttributeError end =
                Ok match hd_error (g_objects order (node (obj st' c)) dc_language (graph_of st' c)) with Some t => text_of t | None => #"None" end).
    { destruct Hl as [->|[sub ->]]; reflexivity. }
    rewrite E. clear E. destruct (g_objects _ _ _ _) as [|o os]; cbn [hd_error].
    + right. split; [ intros o Ho'; apply V in Ho'; destruct Ho' | reflexivity ].
    + left. exists o. split; [ apply V; left; reflexivity | destruct o; reflexivity ].
  - intros p Hk. unfold get_link. apply is_cts_kind in Hk. rewrite Hk. unfold md_get.
    exists (g_objects order (node (obj st' c)) p (graph_of st' c)). split; [ reflexivity | apply V ].
Qed.
Print Assumptions C70_read.

(** A field that was assigned, and left alone by what came later, reads as
    assigned, whatever happened before and to other collections.  [d] is the same
    collection, or another with the same identifier in the same graph. *)
Definition reads_back (kinds : nat -> kind) (w : write) (order : list term -> list term) (st' : state) (d : nat) : Prop :=
  match w with
  | WVersion c v => version order st' d = Some (literal_of v None)
  | WType c v => forall u, uri_of v u -> type_of order st' d = Ok u
  | WModel c v => forall u, uri_of v u -> model_of order st' d = Ok u
  | WLang c l => has_lang (kinds c) -> has_lang (c_kind (obj st' d)) -> get_lang order st' d = Ok l
  | _ => False
  end.
Definition field_of (w : write) : option (nat * term) :=
  match w with
  | WVersion c _ => Some (c, in_dts #"version")
  | WType c _ => Some (c, a_type)
  | WModel c _ => Some (c, in_dts #"model")
  | WLang c _ => Some (c, a_language)
  | _ => None
  end.
Theorem C70_assigned : forall order, arranges order -> forall st h1 w h2, housed st -> proper st (h1 ++ [w] ++ h2) ->
  forall c p, field_of w = Some (c, p) ->
  quiet (after st (h1 ++ [w])) (place (after st h1) c) p h2 ->
  forall d, d < length (objs (after st (h1 ++ [w] ++ h2))) ->
  place (after st (h1 ++ [w] ++ h2)) d = place (after st h1) c ->
  reads_back (fun x => c_kind (obj (after st h1) x)) w order (after st (h1 ++ [w] ++ h2)) d.
Proof.
  intros order Ho st h1 w h2 Hs P c p F Q d Hd Pd.
  rewrite app_assoc in P, Hd, Pd |- *. rewrite after_app in Hd, Pd |- *. rewrite after_app in Hd, Pd, Q |- *.
  assert (P2 : forall a b, proper st (a ++ b) -> proper st a /\ proper (after st a) b).
  { intros a b. induction b as [|x b IH] using rev_ind; intros X; [ rewrite app_nil_r in X; split; [ exact X | constructor ] | ].
    rewrite app_assoc in X. apply proper_snoc in X as [X Y]. destruct (IH X) as [X1 X2]. split; [ exact X1 | ].
    constructor; [ exact X2 | ]. rewrite <- after_app. exact Y. }
  apply P2 in P as [P P3]. apply P2 in P as [P1 P2']. rewrite after_app in P3.
  set (s1 := after st h1) in *. assert (Hs1 : housed s1) by apply housed_after, Hs.
  change (after s1 [w]) with (do_write s1 w) in *. set (s2 := do_write s1 w) in *. set (s3 := after s2 h2) in *.
  assert (Hs2 : housed s2) by apply housed_write, Hs1.
  assert (A : c < length (objs s1)).
  { change [w] with ([] ++ [w]) in P2'. apply proper_snoc in P2' as [_ P2']. cbn [after fold_left] in P2'.
    destruct w; try discriminate F; injection F as <- <-; inversion P2'; assumption. }
  pose proof (proj2 Hs1 c A) as Hg.
  unfold place in Pd. injection Pd as Pg Pi.
  pose proof (quiet_objects order (place s1 c) p h2 s2 Hs2 P3 Q) as E. fold s3 in E. cbn [place fst snd] in E.
  assert (X : forall f, nth (c_graph (obj s1 c)) (graphs (in_graph s1 c f)) [] = f (nth (c_graph (obj s1 c)) (graphs s1) [])).
  { intros f. rewrite nth_graph by exact Hg. rewrite Nat.eqb_refl. reflexivity. }
  destruct w as [|?|c' v|c' v|c' v|c' l| | | |]; try discriminate F; injection F as <- <-; cbn [reads_back].
  - unfold version, graph_of, node. rewrite Pi, Pg. etransitivity; [ exact (f_equal (@hd_error term) E) | ]. unfold s2. cbn [do_write]. unfold set_version.
    rewrite version_value, X. etransitivity; [ apply f_equal; exact (objects_set order Ho _ _ _ _) | ]. reflexivity.
  - intros u U. apply as_uri_of in U. unfold type_of, graph_of, node. rewrite Pi, Pg. etransitivity; [ exact (f_equal first_of E) | ]. unfold s2. cbn [do_write]. unfold set_type.
    rewrite U. cbn [fst]. rewrite X. etransitivity; [ apply f_equal; exact (objects_set order Ho _ _ _ _) | ]. reflexivity.
  - intros u U. apply as_uri_of in U. unfold model_of, graph_of, node. rewrite Pi, Pg. etransitivity; [ exact (f_equal first_of E) | ]. unfold s2. cbn [do_write]. unfold set_model.
    rewrite U. cbn [fst]. rewrite X. etransitivity; [ apply f_equal; exact (objects_set order Ho _ _ _ _) | ]. reflexivity.
  - intros K Kd.
    assert (S2 : s2 = in_graph s1 c' (g_set (URI (c_id (obj s1 c')), a_language, Literal l None None))).
    { unfold s2. cbn [do_write]. unfold assign_lang. destruct K as [->|[sub ->]]; reflexivity. }
    assert (G : get_lang order s3 d = Ok match hd_error (g_objects order (URI (c_id (obj s3 d))) a_language (nth (c_graph (obj s3 d)) (graphs s3) [])) with
                                         | Some t => text_of t | None => #"None" end).
    { unfold get_lang. destruct Kd as [->|[sub ->]]; reflexivity. }
    rewrite G, Pi, Pg, E, S2, X, objects_set by exact Ho. reflexivity.
Qed.
Print Assumptions C70_assigned.

(** A field that is left alone reads as before, in every order. *)
Theorem C70_untouched : forall order st h c p, housed st -> proper st h -> c < length (objs st) ->
  quiet st (place st c) p h ->
  let st' := after st h in
  (p = in_dts #"version" -> version order st' c = version order st c) /\
  (p = a_type -> type_of order st' c = type_of order st c) /\
  (p = in_dts #"model" -> model_of order st' c = model_of order st c) /\
  (p = a_language -> get_lang order st' c = get_lang order st c) /\
  (p = a_label -> forall lang, label_of order st' c lang = label_of order st c lang) /\
  get_link order st' c p = get_link order st c p.
Proof.
  intros order st h c p Hs P Hc Q st'.
  pose proof (quiet_objects order (place st c) p h st Hs P Q) as E. fold st' in E. cbn [place fst snd] in E.
  destruct (keeps_after h st) as (_ & _ & K). destruct (K c Hc) as [K1 K2]. fold st' in K1, K2.
  unfold place in K2. injection K2 as K2 K3.
  split; [ | split; [ | split; [ | split; [ | split ] ] ] ].
  - intros ->. unfold version, graph_of, node. rewrite K2, K3. change dts_version with (in_dts #"version"). rewrite E. reflexivity.
  - intros ->. unfold type_of, graph_of, node. rewrite K2, K3. change rdf_type with a_type. rewrite E. reflexivity.
  - intros ->. unfold model_of, graph_of, node. rewrite K2, K3. change dts_model with (in_dts #"model"). rewrite E. reflexivity.
  - intros ->. unfold get_lang, node. rewrite K1, K2, K3. change dc_language with a_language. rewrite E. reflexivity.
  - intros -> lang. unfold label_of, graph_of, node, get_label. rewrite K2, K3. change rdfs_label with a_label. rewrite E. reflexivity.
  - unfold get_link, graph_of, node, md_get. rewrite K1, K2, K3, E. reflexivity.
Qed.
Print Assumptions C70_untouched.

(** The description and the subject of a text: a choice among its descriptions and
    among its labels. *)
Theorem C70_dublin_core : forall order, arranges order -> forall st h, housed st -> proper st h ->
  forall c lang, c < length (objs (after st h)) ->
  let st' := after st h in
  let values := stands st h (place st' c) in
  ((lang <> None -> forall o, values (in_cts #"description") o -> is_literal o) ->
   exists r, text_description order st' c lang = Ok r /\ picked (values (in_cts #"description")) lang r) /\
  ((lang <> None -> forall o, values a_label o -> is_literal o) ->
   exists r, text_subject order st' c lang = Ok r /\ picked (values a_label) lang r).
Proof.
  intros order Ho st h Hs P c lang Hc st' values.
  assert (V : forall p o, In (URI (c_id (obj st' c)), p, o) (graph_of st' c) <-> values p o).
  { intros p o. unfold graph_of, values, place. apply values_after; [ exact Hs | exact P | ].
    rewrite <- (proj1 (keeps_after h st)). apply (housed_after h st Hs), Hc. }
  assert (Pk : forall p r, picked (fun v => In (URI (c_id (obj st' c)), p, v) (graph_of st' c)) lang r -> picked (values p) lang r).
  { intros p [v|]; cbn [picked].
    - intros [A B]. split; [ apply V, A | ]. intros l L. destruct (B l L) as [X|X]; [ auto | right ]. intros w Hw. apply X, V, Hw.
    - intros A v Hv. apply (A v), V, Hv. }
  split; intros L.
  - destruct (get_single_picked order Ho (graph_of st' c) (URI (c_id (obj st' c))) (in_cts #"description") lang) as (r & E & R).
    + intros N o Ho'. apply (L N), V, Ho'.
    + exists r. split; [ exact E | apply Pk, R ].
  - destruct (get_label_picked order Ho (graph_of st' c) (URI (c_id (obj st' c))) lang) as (r & E & R).
    + intros N o Ho'. apply (L N), V, Ho'.
    + exists r. split; [ exact E | apply Pk, R ].
Qed.
Print Assumptions C70_dublin_core.

(** Finding: the creator and the title of a text cannot be read: the names of the
    textgroup and of the work are asked from an object that does not give them. *)
Theorem C70_creator_refuted : forall st c lang,
  text_creator st c lang = Err AttributeError /\ text_title st c lang = Err AttributeError.
Proof.
  intros st c lang. unfold text_creator, text_title, parent_attr. cbn [bind].
  destruct (c_parent (obj st c)) as [p|]; cbn [bind]; [ | auto ]. destruct (c_parent (obj st p)); auto.
Qed.
Print Assumptions C70_creator_refuted.

(** A value of another type is turned into the right one, but for a number given
    as a type or a model, which is refused without a trace. *)
Theorem C70_number : forall st c z,
  set_type st c (PInt z) = (st, Err TypeError) /\ set_model st c (PInt z) = (st, Err TypeError).
Proof. intros. split; reflexivity. Qed.
Print Assumptions C70_number.

(** ** An inventory to try this on *)
Definition small_house : state :=
  after (MkState [] [[]])
    [ WNew KTextgroup #"urn:cts:latinLit:phi1294" #"urn:cts:latinLit:phi1294";
      WNew KWork #"urn:cts:latinLit:phi1294.phi002" #"urn:cts:latinLit:phi1294.phi002";
      WNew (KText Edition) #"urn:cts:latinLit:phi1294.phi002.e" #"urn:cts:latinLit:phi1294.phi002.e";
      WParent 1 0; WParent 2 1; WProperty 0 #"groupname" (PStr #"Martial") (Some #"eng");
      WProperty 1 #"title" (PStr #"Epigrammata") (Some #"lat"); WLang 1 #"lat"; WLang 2 #"lat" ].

Fixpoint all_proper (st : state) (h : list write) : bool :=
  match h with
  | [] => true
  | w :: h' => forallb (fun c => Nat.ltb c (length (objs st))) (about w) && all_proper (do_write st w) h'
  end.
Lemma proper_cons : forall h st w, Forall (fun c => c < length (objs st)) (about w) -> proper (do_write st w) h -> proper st (w :: h).
Proof.
  induction h as [|x h IH] using rev_ind; intros st w A P.
  - change [w] with ([] ++ [w]). constructor; [ constructor | exact A ].
  - apply proper_snoc in P as [P B]. change (w :: h ++ [x]) with ((w :: h) ++ [x]). constructor; [ apply IH; assumption | exact B ].
Qed.
Lemma proper_check : forall h st, all_proper st h = true -> proper st h.
Proof.
  induction h as [|w h IH]; intros st H; [ constructor | ]. cbn in H. apply andb_true_iff in H as [A B].
  apply proper_cons; [ | apply IH, B ]. apply Forall_forall. intros c Hc. rewrite forallb_forall in A. apply Nat.ltb_lt, A, Hc.
Qed.
Lemma housed_start : housed (MkState [] [[]]).
Proof. split; [ cbn; lia | ]. intros c H. cbn in H. lia. Qed.
Example C70_meets : housed small_house /\ proper small_house [WVersion 2 (PStr #"1.0"); WType 2 (PStr #"http://x/t"); WVersion 1 (PInt 2)].
Proof. split; [ apply housed_after, housed_start | apply proper_check; vm_compute; reflexivity ]. Qed.

Definition as_is (l : list term) : list term := l.
Example C70_example :
  let st := after small_house [WVersion 2 (PStr #"1.0"); WType 2 (PStr #"http://x/t"); WVersion 1 (PInt 2); WVersion 2 (PStr #"1.1");
                               WLink 2 (in_cts #"about") (PStr #"urn:cts:latinLit:phi1294.phi002")] in
  version as_is st 2 = Some (Literal #"1.1" None None) /\ type_of as_is st 2 = Ok (URI #"http://x/t") /\
  model_of as_is st 2 = Ok (URI #"https://w3id.org/dts/api#resource") /\ version as_is st 0 = None /\
  get_link as_is st 2 (in_cts #"about") = Ok [URI #"urn:cts:latinLit:phi1294.phi002"] /\
  get_link as_is st 1 (in_cts #"about") = Ok [] /\ get_lang as_is st 2 = Ok #"lat".
Proof. vm_compute. repeat split. Qed.
(** The assignment above is followed by writes that leave it alone. *)
Example C70_quiet : exists h1 h2 v,
  h1 ++ [WVersion 2 v] ++ h2 = [WVersion 2 (PStr #"1.0"); WVersion 2 (PStr #"1.1"); WVersion 1 (PInt 2); WType 2 (PStr #"t")] /\ h2 <> [] /\
  quiet (after small_house (h1 ++ [WVersion 2 v])) (place (after small_house h1) 2) (in_dts #"version") h2.
Proof.
  exists [WVersion 2 (PStr #"1.0")], [WVersion 1 (PInt 2); WType 2 (PStr #"t")], (PStr #"1.1").
  split; [ reflexivity | ]. split; [ discriminate | ].
  change [WVersion 1 (PInt 2); WType 2 (PStr #"t")] with (([] ++ [WVersion 1 (PInt 2)]) ++ [WType 2 (PStr #"t")]).
  constructor; [ constructor; [ constructor | ] | ].
  - intros o. split; intros H; inversion H as [x|x|x|? ? E|x|x|x|x|x|x|x] || inversion H; subst; vm_compute in *; congruence.
  - intros o. split; intros H; inversion H; subst; vm_compute in *; congruence.
Qed.

(** Finding: fields belong to the identifier.  Making a second collection with the
    identifier of another puts the type of the first back to that of its class,
    and a language assigned to one is the language of the other. *)
Theorem C70_shared_refuted : exists st,
  housed st /\ type_of as_is st 2 = Ok (URI #"http://x/t") /\
  let id := #"urn:cts:latinLit:phi1294.phi002.e" in
  let st' := after st [WNew (KText Edition) id id; WLang 3 #"grc"] in
  type_of as_is st' 2 = Ok (URI #"http://chs.harvard.edu/xmlns/cts/edition") /\
  get_lang as_is st 2 = Ok #"lat" /\ get_lang as_is st' 2 = Ok #"grc".
Proof.
  exists (after small_house [WType 2 (PStr #"http://x/t")]). split; [ apply housed_after, housed_after, housed_start | ].
  vm_compute. repeat split.
Qed.
Print Assumptions C70_shared_refuted.

(** Finding: [set_link] and [type] share the statements: a link under the type is a
    second type, and the first read is not determined. *)
Theorem C70_type_link_refuted : exists st order order', housed st /\ arranges order /\ arranges order' /\
  type_of order st 2 = Ok (URI #"http://chs.harvard.edu/xmlns/cts/edition") /\ type_of order' st 2 = Ok (URI #"http://x/t").
Proof.
  exists (after small_house [WLink 2 a_type (PStr #"http://x/t")]), as_is, (@rev term).
  split; [ apply housed_after, housed_after, housed_start | ]. split; [ intros l; apply Permutation_refl | ]. split; [ intros l; apply Permutation_rev | ].
  vm_compute. repeat split.
Qed.
Print Assumptions C70_type_link_refuted.
