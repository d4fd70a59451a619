(** C60: the local resolver answers from the files of its texts.

    [serves docs s root u levels doc]: the resolver has the text [u], described in a
    folder, where the file called after its URN is the document [doc], whose
    declaration for CTS has the patterns [levels].  What the references and passages
    of a document are is said in PassageSpec.v, independently of resolvers. *)

From Coq Require Import List NArith ZArith Arith Bool Lia.
From Verif Require Import PyStr PyStrFacts RefModel UrnModel UrnSpec UrnProofs CiteModel CiteSpec SchemeModel XPathModel TemplateSpec
  MetaModel MetaSpec CollModel CollSpec InvModel InvSpec Props_Inv LocalModel LocalSpec LocalProofs LoadModel LoadSpec LoadBridge LoadMore Props_Load
  XmlModel XmlSpec PassageModel PassageSpec PassageApi PassageWords PassageFinal PassageCheck ServeModel ServeSpec ServeProofs.
Import ListNotations.

(** ** The references of a text, and those below one of them *)
Theorem C60_references : forall limit docs same s root u levels doc k, serves docs s root u levels doc ->
  Forall wf_level levels -> length levels <= 999 -> plain_units levels doc -> 0 < k ->
  answers_level levels doc [] k (resolver_reffs (5 + limit) docs same s root u (Z.of_nat k) None).
Proof.
  intros limit docs same s root u levels doc k S W N P K. destruct (served docs s root u levels doc limit S) as (v & t & _ & O).
  rewrite (listing _ _ _ _ _ _ _ same _ _ _ O).
  pose proof (reffs_text_full levels doc same (Some v) _ k W N P K (or_introl eq_refl)) as H.
  unfold answers_level. destruct (get_reffs _ _ _ _ _) as [l|e]; [exact H|]. destruct e; try exact H.
  destruct H as [H1 H2]. split; [exact H1|]. intros comps p Hc _. exact (H2 comps p Hc).
Qed.
Print Assumptions C60_references.

Theorem C60_below : forall limit docs same s root u levels doc d l parts g level k, serves docs s root u levels doc ->
  clear_text levels doc d -> 0 < d -> resolver_reffs (5 + limit) docs same s root u (Z.of_nat d) None = Ok l ->
  In (Some (reference_to parts)) l -> gives g (reference_to parts) ->
  parts <> [] -> Forall plain parts -> Z.of_nat k = Z.max level (Z.of_nat (length parts) + 1) ->
  answers_level levels doc parts k (resolver_reffs (5 + limit) docs same s root u level (Some g)).
Proof.
  intros limit docs same s root u levels doc d l parts g level k S C D L I G NE PL K.
  destruct (served docs s root u levels doc limit S) as (v & t & V & O).
  rewrite (listing _ _ _ _ _ _ _ same _ _ _ O) in L.
  rewrite (reffs_given _ _ same _ _ _ _ _ level g _ O G (listed_writable _ _ _ _ _ _ _ C D L I)). cbn [op_scheme op_text].
  destruct (read_listed levels doc d same (Some v) l _ C D (version_good _ _ V) L I) as (comps & P & e & R & u' & _ & _ & _ & E & _).
  rewrite E. cbn [bind].
  destruct C as ((W & N & _) & GU & _).
  pose proof (reffs_single_full levels doc same (OPass (reference_to parts) R (OText doc (Some v)) u') (Some level) parts k W N
    (good_units_plain _ _ GU) eq_refl NE PL K) as H.
  unfold answers_level. destruct (get_reffs _ _ _ _ _) as [l'|er]; [exact H|]. destruct er; exact H.
Qed.
Print Assumptions C60_below.

(** ** Passages *)

(** The passage of every reference that is listed, given as an object or as a
    string, is the element it names. *)
Theorem C60_passage : forall limit docs same s root u levels doc d l r g, serves docs s root u levels doc ->
  clear_text levels doc d -> 0 < d -> resolver_reffs (5 + limit) docs same s root u (Z.of_nat d) None = Ok l ->
  In (Some r) l -> gives g r ->
  exists v comps P e R u', urn_parse u = Ok v /\ r = reference_to comps /\ cites_only levels doc comps P /\ at_position (document doc) P e /\
    resolver_node (5 + limit) docs same s root u (Some g) = Ok (Passage (OPass r R (OText doc (Some v)) u')) /\
    text_of R = text_of e /\ lines 0 R = passage_lines (part_of (tl P) (tl P)) doc.
Proof.
  intros limit docs same s root u levels doc d l r g S C D L I G.
  destruct (served docs s root u levels doc limit S) as (v & t & V & O).
  rewrite (listing _ _ _ _ _ _ _ same _ _ _ O) in L.
  rewrite (node_given _ _ same _ _ _ _ _ g _ O G (listed_writable _ _ _ _ _ _ _ C D L I)). cbn [op_scheme op_text].
  destruct (read_listed levels doc d same (Some v) l _ C D (version_good _ _ V) L I) as (comps & P & e & R & u' & A1 & A2 & A3 & E & A4 & A5 & _).
  rewrite E. cbn [bind]. exists v, comps, P, e, R, u'. split; [exact (version_parsed _ _ V)|]. repeat (split; [assumption|]). split; [reflexivity|]. auto.
Qed.
Print Assumptions C60_passage.

(** The passage of a range. *)
Theorem C60_range : forall limit docs s root u levels doc a b P1 P2 g, serves docs s root u levels doc ->
  usable_scheme levels -> a <> [] -> Forall good_id a -> length a <= length levels -> b <> [] -> Forall good_id b -> length b <= length levels ->
  cites_only levels doc a P1 -> cites_only levels doc b P2 -> is_prefix P1 P2 = true \/ precedes P1 P2 = true ->
  gives g (range_to a b) ->
  exists v R u', urn_parse u = Ok v /\
    resolver_node (5 + limit) docs identity_only s root u (Some g) = Ok (Passage (OPass (range_to a b) R (OText doc (Some v)) u')) /\
    lines 0 R = passage_lines (part_of (tl P1) (tl (if is_prefix P1 P2 then P1 else P2))) doc.
Proof.
  intros limit docs s root u levels doc a b P1 P2 g S U Na Ga La Nb Gb Lb C1 C2 Ho G.
  destruct (served docs s root u levels doc limit S) as (v & t & V & O).
  rewrite (node_given _ _ identity_only _ _ _ _ _ g _ O G (writable_range a b Na Ga Nb Gb)). cbn [op_scheme op_text].
  destruct (read_span levels doc (OText doc (Some v)) a b P1 P2 U eq_refl (version_good _ _ V) Na Ga La Nb Gb Lb C1 C2 Ho) as (R & u' & E & H).
  rewrite E. exists v, R, u'. split; [exact (version_parsed _ _ V)|]. split; [reflexivity|exact H].
Qed.
Print Assumptions C60_range.

(** Without a reference, the whole document. *)
Theorem C60_whole : forall limit docs same s root u levels doc, serves docs s root u levels doc ->
  exists p v, urn_parse u = Ok v /\ resolver_node (5 + limit) docs same s root u None = Ok (Whole p) /\
    sp_ref p = None /\ sp_doc p = doc /\ at_position (document doc) (sp_path p) doc /\ sp_urn p = Some v.
Proof.
  intros limit docs same s root u levels doc S. destruct (served docs s root u levels doc limit S) as (v & t & V & O).
  exists (whole_node (OText doc (Some v))), v. split; [exact (version_parsed _ _ V)|]. unfold resolver_node. rewrite O. cbn [bind the_text fst node_of op_text].
  split; [reflexivity|]. split; [reflexivity|]. split; [reflexivity|]. split; [|reflexivity].
  eapply at_below; [reflexivity|apply at_here].
Qed.
Print Assumptions C60_whole.

(** A reference to nothing. *)
Theorem C60_unknown_reference : forall limit docs same s root u levels doc a r g, serves docs s root u levels doc ->
  usable_scheme levels -> proper_root levels doc -> a <> [] -> Forall good_id a -> length a <= length levels ->
  (forall p, ~ cites levels doc a p) ->
  r = reference_to a \/ (exists b, b <> [] /\ Forall good_id b /\ length b <= length levels /\ (r = range_to a b \/ r = range_to b a)) -> gives g r ->
  resolver_node (5 + limit) docs same s root u (Some g) = Err IndexError /\
  resolver_siblings (5 + limit) docs same s root u g = Err IndexError /\
  forall level, resolver_reffs (5 + limit) docs same s root u level (Some g) = Err IndexError.
Proof.
  intros limit docs same s root u levels doc a r g S U PR Na Ga La No Hr G.
  destruct (served docs s root u levels doc limit S) as (v & t & V & O).
  assert (W : writable r /\ get_node (write_scheme levels) same (OText doc (Some v)) r = Err IndexError).
  { destruct Hr as [->|(b & Nb & Gb & Lb & [->| ->])].
    - split; [apply writable_single; assumption|]. eapply read_unknown_one; try eassumption; reflexivity.
    - split; [apply writable_range; assumption|]. eapply read_unknown; try eassumption; try reflexivity. left. exact No.
    - split; [apply writable_range; assumption|]. eapply read_unknown; try eassumption; try reflexivity. right. exact No. }
  destruct W as [W E].
  split; [rewrite (node_given _ _ same _ _ _ _ _ g _ O G W); cbn [op_scheme op_text]; rewrite E; reflexivity|].
  split; [rewrite (siblings_given _ _ same _ _ _ _ _ g _ O G W); cbn [op_scheme op_text]; rewrite E; reflexivity|].
  intros level. rewrite (reffs_given _ _ same _ _ _ _ _ level g _ O G W). cbn [op_scheme op_text]. rewrite E. reflexivity.
Qed.
Print Assumptions C60_unknown_reference.

(** ** Siblings: the references before and after in the list *)
Theorem C60_siblings : forall limit docs same s root u levels doc d l i r g, serves docs s root u levels doc ->
  clear_text levels doc d -> 0 < d -> resolver_reffs (5 + limit) docs same s root u (Z.of_nat d) None = Ok l ->
  nth_error l i = Some (Some r) -> gives g r ->
  resolver_siblings (5 + limit) docs same s root u g = Ok (match i with 0 => None | S i' => entry l i' end, entry l (S i)).
Proof.
  intros limit docs same s root u levels doc d l i r g S C D L I G.
  destruct (served docs s root u levels doc limit S) as (v & t & V & O).
  rewrite (listing _ _ _ _ _ _ _ same _ _ _ O) in L. pose proof (nth_error_In _ _ I) as J.
  rewrite (siblings_given _ _ same _ _ _ _ _ g _ O G (listed_writable _ _ _ _ _ _ _ C D L J)). cbn [op_scheme op_text].
  destruct (read_listed levels doc d same (Some v) l _ C D (version_good _ _ V) L J) as (comps & P & e & R & u' & _ & _ & _ & E & _).
  rewrite E. cbn [bind]. eapply siblings_single; eassumption.
Qed.
Print Assumptions C60_siblings.

(** ** Which text is read *)

(** The URN of a work, with or without a reference, stands for the edition that
    C37 speaks of: all answers are those for the URN of that edition. *)
Theorem C60_work : forall limit docs same s root ns cts tg wk q o t, library (s_state s) root ->
  plain_ns ns -> plain_ns cts -> plain_part (Work tg wk) -> ref_read q o ->
  let w := write_urn ns cts (Work tg wk) q in
  let u := c_id (obj (s_state s) t) in
  get_text (5 + limit) (s_state s) root w = Ok t ->
  (forall sub, resolver_node (5 + limit) docs same s root w sub = resolver_node (5 + limit) docs same s root u sub) /\
  (forall g, resolver_siblings (5 + limit) docs same s root w g = resolver_siblings (5 + limit) docs same s root u g) /\
  (forall level sub, resolver_reffs (5 + limit) docs same s root w level sub = resolver_reffs (5 + limit) docs same s root u level sub).
Proof.
  intros limit docs same s root ns cts tg wk q o t L H1 H2 H3 H4 w u G.
  pose proof (work_opened _ docs s root w u (work_read limit s root ns cts tg wk q o t L H1 H2 H3 H4 G)) as E.
  unfold resolver_node, resolver_siblings, resolver_reffs. rewrite E. auto.
Qed.
Print Assumptions C60_work.

(** Folders that are loaded: the document that answers is the file next to the last
    description of the text. *)
Theorem C60_loaded : forall order leaf nsmap raise_parsing raise_undispatched docs limit s pre f post u x dir path levels doc,
  arranges order -> sound_texts (texts_at docs) -> paths_known s ->
  (forall f', In f' (pre ++ f :: post) -> named_file (snd f') /\ no_repeats (snd f')) ->
  describes (snd f) u x -> (forall f' y, In f' post -> ~ describes (snd f') u y) ->
  src_folder x = Some dir -> expected_at dir (src_element x) path -> docs path = Some (Ok doc) -> cited_by levels doc ->
  exists s1 d s', default_resolver s = (s1, Ok d) /\
    load order leaf nsmap raise_parsing raise_undispatched (5 + limit) d (map as_file (pre ++ f :: post)) (texts_at docs) s1 = (s', Ok tt) /\
    serves docs s' (d_root d) u levels doc.
Proof.
  intros order leaf nsmap rp ru docs limit s pre f post u x dir path levels doc Ho ST PK NF DE LA FO XA DO CI.
  destruct (LoadMore.default_ok (texts_at docs) s PK) as (s1 & d & E & _ & M & RS).
  assert (Hf : filters_by_name d [(#"default", fun _ _ => true)]).
  { unfold filters_by_name. rewrite M. constructor; [split; reflexivity|constructor]. }
  destruct (C59_latest order leaf nsmap rp ru (texts_at docs) limit d (d_root d) _ (pre ++ f :: post) s1 _ Ho ST eq_refl Hf NF RS) as (s' & L' & E' & RS' & HL).
  - intros f' n _ C. injection C as <-. left. reflexivity.
  - apply (one_placed #"default" (pre ++ f :: post) []).
  - exists s1, d, s'. split; [exact E|]. split; [exact E'|]. exists (texts_at docs), path. split; [|split; assumption].
    exists L', x, dir. split; [exact RS'|]. split; [|split; assumption]. apply HL. left. exists pre, f, post. auto.
Qed.
Print Assumptions C60_loaded.

(** ** What is missing *)

(** A text whose file is not there. *)
Theorem C60_no_file : forall limit docs same s root texts u path, expects texts s root u path -> docs path = None ->
  resolver_node (5 + limit) docs same s root u None = Err AttributeError /\
  (forall g r, gives g r -> writable r -> resolver_node (5 + limit) docs same s root u (Some g) = Err AttributeError /\
     resolver_siblings (5 + limit) docs same s root u g = Err AttributeError) /\
  (forall level sub, resolver_reffs (5 + limit) docs same s root u level sub = Err AttributeError).
Proof.
  intros limit docs same s root texts u path X D. destruct (opening texts s root u path limit X) as (v & t & _ & _ & O). specialize (O docs). rewrite D in O.
  unfold resolver_node, resolver_siblings, resolver_reffs. rewrite O. cbn [bind]. split; [reflexivity|]. split.
  - intros g r G W. rewrite (gives_reference g r G W). split; reflexivity.
  - intros level [[r|[|c n]]|]; reflexivity.
Qed.
Print Assumptions C60_no_file.

(** A file that cannot be parsed, or has no declaration for CTS: every question
    raises the same. *)
Theorem C60_bad_file : forall limit docs same s root texts u path e, expects texts s root u path ->
  docs path = Some (Err e) \/ (exists doc, docs path = Some (Ok doc) /\ (forall d, ~ declaration doc d) /\ e = MissingRefsDecl) ->
  (forall sub, resolver_node (5 + limit) docs same s root u sub = Err e) /\
  (forall g, resolver_siblings (5 + limit) docs same s root u g = Err e) /\
  (forall level sub, resolver_reffs (5 + limit) docs same s root u level sub = Err e).
Proof.
  intros limit docs same s root texts u path e X D. destruct (opening texts s root u path limit X) as (v & t & _ & _ & O). specialize (O docs).
  assert (E : open_text (5 + limit) docs s root u = Err e).
  { rewrite O. destruct D as [-> |(doc & -> & N & ->)]; [reflexivity|]. cbn [bind]. unfold citation_levels. rewrite (declarations_none doc N). reflexivity. }
  unfold resolver_node, resolver_siblings, resolver_reffs. rewrite E. auto.
Qed.
Print Assumptions C60_bad_file.

(** A text described in the textgroup file itself has no folder: it is in the
    inventory, and cannot be read, whatever the files. *)
Theorem C60_no_folder : forall limit docs same texts s root L u x, resolver_shows texts s root L -> held L u x -> src_folder x = None ->
  (exists t, getitem (5 + limit) (s_state s) root u = Ok t /\ c_kind (obj (s_state s) t) = KText (src_kind x)) /\
  (forall sub, resolver_node (5 + limit) docs same s root u sub = Err TypeError) /\
  (forall g, resolver_siblings (5 + limit) docs same s root u g = Err TypeError) /\
  (forall level sub, resolver_reffs (5 + limit) docs same s root u level sub = Err TypeError).
Proof.
  intros limit docs same texts s root L u x RS H FO.
  assert (HE : exists t, getitem (5 + limit) (s_state s) root u = Ok t /\ c_kind (obj (s_state s) t) = KText (src_kind x) /\
    open_text (5 + limit) docs s root u = Err TypeError).
  { destruct (found texts s root L u x limit RS H) as (t & G & B & ID & KI & U & _ & K). unfold kept_at in K. rewrite FO in K.
    exists t. split; [exact G|]. split; [exact KI|].
    assert (V : exists ns cts tg wk vs, plain_ns ns /\ plain_ns cts /\ plain_part (Version tg wk vs) /\ u = write_urn ns cts (Version tg wk vs) None).
    { destruct H as (n & l & k & ws & k2 & ts & I1 & I2 & I3 & I4).
      destruct (io_urns _ _ (rs_order _ _ _ _ RS) n l k ws I1 I2) as (ns & cts & tg & A1 & A2 & A3 & _ & (_ & F)).
      destruct (F k2 ts I3) as (wk & _ & _ & _ & F2). destruct (F2 u x I4) as (vs & A4 & A5). exists ns, cts, tg, wk, vs. auto. }
    destruct V as (ns & cts & tg & wk & vs & A1 & A2 & A3 & E).
    destruct (version_read (5 + limit) (s_state s) root ns cts tg wk vs A1 A2 A3) as (v & P & R & S). cbv zeta in *. rewrite <- E in P, R, S.
    unfold open_text. rewrite R. cbn [bind]. rewrite S. cbn [bind]. rewrite G. cbn [bind]. unfold path_attr.
    unfold path_of in K. destruct (find _ (s_paths s)); [discriminate|]. rewrite KI. reflexivity. }
  destruct HE as (t & G & KI & E). split; [eauto|]. unfold resolver_node, resolver_siblings, resolver_reffs. rewrite E. auto.
Qed.
Print Assumptions C60_no_folder.

(** ** The poems of Martial, with a header

    The scheme for another purpose comes first, and does not count. *)
Definition tei_el (name : str) (attrs : list (str * str)) (kids : list node) : node := Elem (clark (#"tei:" ++ name)) attrs #"" #"" kids.
Definition c_ref (n p : str) : node := tei_el #"cRefPattern" [(#"n", n); (#"matchPattern", #"(.+)"); (#"replacementPattern", #"#xpath(" ++ p ++ #")")] [].
Definition poem_pattern : str := Eval vm_compute in nth 0 (write_scheme poem_scheme) [].
Definition line_pattern : str := Eval vm_compute in nth 1 (write_scheme poem_scheme) [].
Definition header : node :=
  tei_el #"teiHeader" [] [tei_el #"encodingDesc" []
    [tei_el #"refsDecl" [(#"n", #"TEI.2")] [c_ref #"page" #"//tei:pb[@n='$1']"];
     tei_el #"refsDecl" [(#"n", #"CTS")] [c_ref #"line" line_pattern; c_ref #"poem" poem_pattern]]].
Definition epigrams : node := Elem (clark #"tei:TEI") [] #"" #"" (header :: n_kids poems).
Definition epigrams_at : str := #"data/phi1294/phi002/phi1294.phi002.perseus-lat2.xml".
Definition epigrams_urn : str := #"urn:cts:latinLit:phi1294.phi002.perseus-lat2".
Definition epigrams_only : documents := fun path => if str_eqb path epigrams_at then Some (Ok epigrams) else None.

Lemma epigrams_declares : declares epigrams [(Some #"poem", poem_pattern); (Some #"line", line_pattern)].
Proof.
  exists (tei_el #"refsDecl" [(#"n", #"CTS")] [c_ref #"line" line_pattern; c_ref #"poem" poem_pattern]). split.
  - exists (firstn 5 (document_order epigrams)), (skipn 6 (document_order epigrams)). split; [vm_compute; reflexivity|].
    split; [split; vm_compute; reflexivity|].
    apply Forall_forall. intros e I X. apply for_cts_test in X.
    assert (Y : existsb (fun e => str_eqb (n_tag e) (ServeModel.tei #"refsDecl") && (match get_attr #"n" (n_attrs e) with Some v => str_eqb v #"CTS" | None => false end))
      (firstn 5 (document_order epigrams)) = true) by (apply existsb_exists; eauto). vm_compute in Y. discriminate.
  - vm_compute. repeat constructor.
Qed.
Lemma epigrams_cited : cited_by poem_scheme epigrams.
Proof. exists [(Some #"poem", poem_pattern); (Some #"line", line_pattern)]. split; [exact epigrams_declares|]. split; [reflexivity|discriminate]. Qed.
Lemma epigrams_clear : forall k, 0 < k <= 2 -> clear_text poem_scheme epigrams k.
Proof.
  intros k Hk. apply check_clear; [exact poem_scheme_usable|cbn; lia|vm_compute; reflexivity| |];
    destruct k as [|[|[|k]]]; try lia; vm_compute; reflexivity.
Qed.
Lemma epigrams_sound : sound_texts (texts_at epigrams_only).
Proof.
  intros path ls H. unfold texts_at, epigrams_only in H. destruct (str_eqb path _); [|discriminate]. cbn [option_map bind] in H.
  rewrite (levels_declared _ _ epigrams_declares) in H by discriminate. injection H as <-. left.
  assert (W1 : wf_step (1, #"tei:TEI")) by wf_now. assert (W2 : wf_step (2, #"tei:div[@type='poem'][@n='?']")) by wf_now.
  assert (W3 : wf_step (2, #"tei:l[@n='?']")) by wf_now.
  intros l [<-|[<-|[]]].
  - exists [(1, #"tei:TEI")], (2, #"tei:div[@type='poem'][@n='?']"). split; [constructor; [exact W1|constructor]|]. split; [exact W2|reflexivity].
  - exists [(1, #"tei:TEI"); (2, #"tei:div[@type='poem'][@n='?']")], (2, #"tei:l[@n='?']").
    split; [exact (Forall_cons _ W1 (Forall_cons _ W2 (Forall_nil _)))|]. split; [exact W3|reflexivity].
Qed.

(** The folder and the document meet the hypotheses of C60_loaded and of the others. *)
Example C60_meets : exists s1 d s', default_resolver blank = (s1, Ok d) /\
  load same_order by_text no_ns true true 5 d (map as_file [martial_file]) (texts_at epigrams_only) s1 = (s', Ok tt) /\
  serves epigrams_only s' (d_root d) epigrams_urn poem_scheme epigrams /\ clear_text poem_scheme epigrams 2 /\ proper_root poem_scheme epigrams.
Proof.
  destruct (C60_loaded same_order by_text no_ns true true epigrams_only 0 blank [] martial_file [] epigrams_urn
    (MkSource Edition example_edition (Some #"data/phi1294/phi002")) #"data/phi1294/phi002" epigrams_at poem_scheme epigrams) as (s1 & d & s' & A & B & C).
  - exact same_arranges.
  - exact epigrams_sound.
  - intros t path [].
  - intros f [<-|[]]. apply example_named. left. reflexivity.
  - eexists _, _, _, _. split; [left; reflexivity|]. split; [left; reflexivity|]. split; reflexivity.
  - intros f y [].
  - reflexivity.
  - exists #"cts", #"latinLit", #"phi1294", #"phi002", #"perseus-lat2". split; [plain_all|]. split; [plain_all|]. split; [plain_all|]. split; reflexivity.
  - reflexivity.
  - exact epigrams_cited.
  - exists s1, d, s'. split; [exact A|]. split; [exact B|]. split; [exact C|]. split; [apply epigrams_clear; lia|].
    intros st rest comps Hc E. destruct comps as [|c comps]; [congruence|]. cbn in E. injection E as <- _. split; [intros t [= <-]; reflexivity|intros g t []].
Qed.

(** What the resolver answers. *)
Definition loaded_epigrams : store := Eval vm_compute in
  fst (load same_order by_text no_ns true true 5 (match snd (default_resolver blank) with Ok d => d | Err _ => MkDispatcher 0 [] end)
    (map as_file [martial_file]) (texts_at epigrams_only) (fst (default_resolver blank))).
Example C60_sample :
  resolver_reffs 5 epigrams_only identity_only loaded_epigrams 0 epigrams_urn 2 None =
    Ok (map (fun c => Some (reference_to c)) [[#"1"; #"1"]; [#"1"; #"2"]; [#"1"; #"3"]; [#"2"; #"1"]; [#"2"; #"2a"]]) /\
  resolver_reffs 5 epigrams_only identity_only loaded_epigrams 0 epigrams_urn 1 (Some (GivenStr #"2")) =
    Ok (map (fun c => Some (reference_to c)) [[#"2"; #"1"]; [#"2"; #"2a"]]) /\
  (exists R u v, resolver_node 5 epigrams_only identity_only loaded_epigrams 0 epigrams_urn (Some (GivenStr #"1.3-2")) =
     Ok (Passage (OPass (range_to [#"1"; #"3"] [#"2"]) R u (Some v))) /\ text_of R = #"cd.e.." /\
     to_str v = Ok (epigrams_urn ++ #":1.3-2")) /\
  resolver_siblings 5 epigrams_only identity_only loaded_epigrams 0 epigrams_urn (GivenStr #"1.3") =
    Ok (Some (reference_to [#"1"; #"2"]), Some (reference_to [#"2"; #"1"])) /\
  resolver_siblings 5 epigrams_only identity_only loaded_epigrams 0 #"urn:cts:latinLit:phi1294.phi002" (GivenStr #"1.3") =
    Ok (Some (reference_to [#"1"; #"2"]), Some (reference_to [#"2"; #"1"])) /\
  resolver_reffs 5 epigrams_only identity_only loaded_epigrams 0 epigrams_urn 1 (Some (GivenStr #"7")) = Err IndexError /\
  resolver_reffs 5 epigrams_only identity_only loaded_epigrams 0 #"urn:cts:latinLit:phi1294.phi002.perseus-eng2" 1 None = Err AttributeError.
Proof.
  split; [vm_compute; reflexivity|]. split; [vm_compute; reflexivity|].
  split; [eexists _, _, _; split; [vm_compute; reflexivity|split; vm_compute; reflexivity]|]. repeat split; vm_compute; reflexivity.
Qed.

(** A text in the textgroup file itself, and a file without a declaration. *)
Example C60_no_folder_sample : exists L x, held L epigrams_urn x /\ src_folder x = None /\ named_file (example_group, []) /\ L = [(#"default", fold_left add_group (map group_says [(example_group, [])]) [])].
Proof.
  eexists _, (MkSource Edition example_edition None). split; [|split; [reflexivity|split; [|reflexivity]]].
  - eexists _, _, _, _, _, _. split; [left; reflexivity|]. split; [left; reflexivity|]. split; [left; reflexivity|]. left. reflexivity.
  - split; [apply clark_by_test; vm_compute; reflexivity|]. split; [intros dw []|].
    exists #"cts", #"latinLit", #"phi1294". split; [plain_all|]. split; [plain_all|]. split; [plain_all|]. split; [reflexivity|].
    intros fw [<-|[<-|[]]].
    + exists #"phi002". split; [plain_all|]. split; [reflexivity|].
      intros k e [E|[E|[E|[]]]]; injection E as <- <-.
      * split; [exists #"perseus-lat2"; split; [plain_all|reflexivity]|]. intros a [].
      * split; [exists #"perseus-eng2"; split; [plain_all|reflexivity]|]. intros a [].
      * split; [exists #"comm-1"; split; [plain_all|reflexivity]|]. intros a [<-|[]]. discriminate.
    + exists #"phi003". split; [plain_all|]. split; [reflexivity|]. intros k e [].
Qed.
Example C60_bad_file_sample : forall d, ~ declaration poems d.
Proof.
  intros d (before & after & E & D & _). assert (I : In d (document_order poems)) by (rewrite E; apply in_elt).
  apply for_cts_test in D.
  assert (Y : existsb (fun e => str_eqb (n_tag e) (ServeModel.tei #"refsDecl") && (match get_attr #"n" (n_attrs e) with Some v => str_eqb v #"CTS" | None => false end))
      (document_order poems) = true) by (apply existsb_exists; eauto). vm_compute in Y. discriminate.
Qed.
