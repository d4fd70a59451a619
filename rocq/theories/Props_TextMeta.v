(** Property C61: what passages and texts say about themselves. *)

From Coq Require Import List NArith ZArith Arith Bool Lia.
From Verif Require Import PyStr PyStrFacts RefModel UrnModel UrnSpec MetaModel MetaSpec CollModel CollSpec InvModel InvSpec LocalModel LocalSpec
  ServeModel HttpModel RemoteModel RemoteSpec RemoteProofs Props_Local TextMetaModel TextMetaSpec TextMetaProofs Props_Serve.
From Verif Require Import XmlModel XmlSpec PassageModel PassageSpec.
Import ListNotations.

(** A passage that gets the metadata of its text is told the names of the
    textgroup, the titles of the work, the labels and descriptions of the text, in
    their languages; it keeps what it had, and nothing else is said of anything.
    Its citation is kept if it has one, else it is that of the text. *)
Theorem C61_copied : forall order fuel s b own t w g rest, arranges order ->
  parents fuel (s_state s) t = Ok (w :: g :: rest) -> 0 < length (graphs (s_state s)) ->
  (forall name v, tells (s_state s) t w g name v -> is_literal v) ->
  exists st' r, set_metadata order fuel s (BNode b) own t = (MkStore st' (s_cites s) (s_paths s), r) /\
    objs st' = objs (s_state s) /\ (forall i, i <> 0 -> nth i (graphs st') [] = nth i (graphs (s_state s)) []) /\
    informed (nth 0 (graphs (s_state s)) []) (nth 0 (graphs st') []) (BNode b) (tells (s_state s) t w g) /\
    (is_set own -> r = Ok own) /\
    (~ is_set own -> forall c, citation_of s t = Some c -> is_set c -> r = Ok c) /\
    (~ is_set own -> forall c, citation_of s t = Some c -> ~ is_set c -> c <> [] -> r = Ok own) /\
    (~ is_set own -> (citation_of s t = None \/ citation_of s t = Some []) -> r = Err AttributeError).
Proof.
  intros order fuel s b own t w g rest Ho P Hg L.
  destruct (set_metadata_spec order Ho fuel s b own t w g rest P Hg L) as (st' & E & A1 & A2 & A3).
  exists st', (citation_after s own t). split; [exact E|]. split; [exact A1|]. split; [exact A2|]. split; [exact A3|].
  unfold citation_after, edition_citation, citation_of. pose proof (citation_set_spec own) as S.
  destruct (citation_set own).
  - split; [reflexivity|]. assert (is_set own) by (apply S; reflexivity). repeat split; intros; contradiction.
  - split; [intros H; apply S in H; discriminate|].
    destruct (find (fun e => Nat.eqb (fst e) t) (s_cites s)) as [[i c]|]; cbn [option_map snd].
    + pose proof (citation_set_spec c) as S'. split; [|split].
      * intros _ c' [= <-] H. pose proof H as (name & rd & l & ->). reflexivity.
      * intros _ c' [= <-] H H'. destruct c as [|lv l]; [contradiction|]. cbn [bind]. destruct (citation_set (lv :: l)); [|reflexivity].
        destruct H. apply S'. reflexivity.
      * intros _ [H|H]; [discriminate|]. injection H as ->. reflexivity.
    + split; [|split]; [intros _ c' H; discriminate| |reflexivity]. intros _ c' H. discriminate.
Qed.
Print Assumptions C61_copied.

(** The getters then give a value in the language asked for whenever there is one,
    another value if there is none, and nothing if there is no value at all; an
    empty title counts as none. *)
Theorem C61_getters : forall order g g' b info lang, arranges order -> informed g g' (BNode b) info ->
  (forall k v, (exists name, kept_under name k) \/ k = URI #"http://purl.org/dc/terms/title" -> ~ In (BNode b, k, v) g) ->
  let values := fun name v => exists s l d, info name (Literal s l d) /\ v = stated s l in
  (exists r, get_creator order g' (BNode b) lang = Ok r /\ chosen (values #"groupname") lang r) /\
  (exists r, get_title order g' (BNode b) lang = Ok (match r with Some (Literal [] _ _) => None | _ => r end) /\ chosen (values #"title") lang r) /\
  (exists r, get_subject order g' (BNode b) lang = Ok r /\ chosen (values #"label") lang r) /\
  (exists r, get_description order g' (BNode b) lang = Ok r /\ chosen (values #"description") lang r) /\
  (forall name, exists r, get_cts_metadata order g' (BNode b) name lang = Ok r /\ chosen (values name) lang r).
Proof.
  intros order g g' b info lang Ho H N values.
  assert (G : forall name k, kept_under name k -> (forall name', kept_under name' k -> name' = name) ->
    exists r, md_get_single order g' (BNode b) k lang = Ok r /\ chosen (values name) lang r).
  { intros name k K U. eapply getter_chosen; eauto. }
  assert (T : md_get_single order g' (BNode b) (dcterms #"title") lang = Ok None).
  { destruct (single_chosen order Ho g' (BNode b) (dcterms #"title") lang (fun _ => False)) as (r & E & C).
    - intros v. split; [|intros []]. intros X. apply H in X. destruct X as [X|(_ & name & s & l & d & K & _)].
      + exact (N _ _ (or_intror eq_refl) X).
      + inversion K.
    - intros v [].
    - rewrite E. f_equal. destruct r as [v|]; [destruct C as [[] _]|reflexivity]. }
  split; [apply (G #"groupname"); [constructor|intros name' K; inversion K; reflexivity]|].
  split.
  { destruct (G #"title" (in_dc #"title")) as (r & E & C); [constructor|intros name' K; inversion K; reflexivity|].
    exists r. split; [|exact C]. unfold get_title. change (dc #"title") with (in_dc #"title"). rewrite E. cbn [bind].
    destruct r as [v|]; [|exact T]. destruct C as [(s & l & d & _ & ->) _]. destruct s; [exact T|reflexivity]. }
  split; [apply (G #"label"); [constructor|intros name' K; inversion K; reflexivity]|].
  split; [apply (G #"description"); [constructor|intros name' K; inversion K; reflexivity]|].
  intros name. apply (G name (in_cts name)); [constructor|]. intros name' K.
  assert (Q : forall k, kept_under name' k -> k = in_cts name -> name' = name); [|exact (Q _ K eq_refl)].
  intros k [n1| | | |] E; try discriminate E. unfold in_cts in E. injection E as E. exact E.
Qed.
Print Assumptions C61_getters.

(** The local resolver: asking for the metadata too changes nothing in the passage
    that is given; the passage is told what the text, its work and its textgroup say. *)
Theorem C61_resolver : forall order fuel limit docs same s root urn sub p b own t w g, arranges order ->
  library (s_state s) root -> c_parent (obj (s_state s) root) = None -> 0 < length (graphs (s_state s)) ->
  get_text limit (s_state s) root urn = Ok t -> placed (s_state s) root t w g ->
  (forall name v, tells (s_state s) t w g name v -> is_literal v) -> is_set own ->
  ServeModel.resolver_node limit docs same s root urn sub = Ok p ->
  exists st', resolver_node_metadata order (4 + fuel) limit docs same s root urn sub (BNode b) own
      = (MkStore st' (s_cites s) (s_paths s), Ok (p, own)) /\
    objs st' = objs (s_state s) /\
    informed (nth 0 (graphs (s_state s)) []) (nth 0 (graphs st') []) (BNode b) (tells (s_state s) t w g).
Proof.
  intros order fuel limit docs same s root urn sub p b own t w g Ho L R Hg T P Li IS N.
  destruct (placed_parents _ _ _ _ _ fuel L P R) as (i & PP).
  destruct (C61_copied order (4 + fuel) s b own t w g [i; root] Ho PP Hg Li) as (st' & r & E & A1 & _ & A3 & A4 & _).
  exists st'. split; [|split; assumption]. rewrite (A4 IS) in E.
  unfold ServeModel.resolver_node in N. unfold resolver_node_metadata.
  assert (O : forall o x, open_text limit docs s root urn = Ok (o, x) -> x = t).
  { intros o x. unfold open_text, get_text in *. destruct (read_urn limit (s_state s) root urn) as [u|e]; [|discriminate]. cbn [bind] in *.
    destruct (to_str u) as [m|e]; [|discriminate]. cbn [bind] in *. rewrite T. cbn [bind].
    destruct (path_attr s t) as [pa|e]; [|discriminate]. cbn [bind]. destruct (docs pa) as [doc|]; [|congruence].
    destruct doc as [d|e]; [|discriminate]. cbn [bind]. destruct (citation_levels d); [|discriminate]. cbn [bind]. congruence. }
  destruct (open_text limit docs s root urn) as [[o x]|e]; [|discriminate]. cbn [bind] in N |- *. specialize (O o x eq_refl). subst x.
  destruct (match sub with Some g0 => as_reference g0 | None => Ok None end) as [rf|e]; [|discriminate]. cbn [bind] in N |- *.
  destruct (the_text (o, t)) as [x|e]; [|discriminate]. cbn [bind] in N |- *.
  destruct (node_of same x rf) as [q|e]; [|discriminate]. injection N as ->. cbn [bind snd]. rewrite E. reflexivity.
Qed.
Print Assumptions C61_resolver.

(** A text that does not stand in a work of a textgroup is refused, and nothing is
    changed. *)
Theorem C61_unplaced : forall order fuel s b own t ps, parents fuel (s_state s) t = Ok ps -> length ps < 2 ->
  set_metadata order fuel s (BNode b) own t = (s, Err ValueError).
Proof.
  intros order fuel s b own t ps P H. unfold set_metadata. rewrite P. destruct ps as [|w [|g ps]]; [reflexivity|reflexivity|cbn in H; lia].
Qed.
Print Assumptions C61_unplaced.

(** ** Endpoints *)

(** The label of a text: what the first label of a reply holds is told, in English,
    and the first citation of the label is the citation, if there was none. *)
Theorem C61_label : forall doc n own g, no_prefixed_lang doc -> reads_at reply_label doc n own g (get_label_reply doc n own g).
Proof. exact label_reads. Qed.
Print Assumptions C61_label.

(** Listings and passages: the same, from the request that the reply repeats. *)
Theorem C61_request : forall doc n own g, no_prefixed_lang doc -> reads_at request doc n own g (get_request_reply doc n own g).
Proof. exact request_reads. Qed.
Print Assumptions C61_request.

(** A passage with its context. *)
Theorem C61_plus : forall doc n g, no_prefixed_lang doc ->
  (exists p x r0, first_at doc passage_tei p x /\ learns doc [] doc [(None, None)] r0 /\
     match r0 with
     | Err e => passage_plus doc n g = (g, Err e)
     | Ok c => exists g' r1, reads_at reply_label doc n c g (g', r1) /\ passage_plus doc n g = (g', c' <- r1 ;; Ok (x, c'))
     end) \/
  (nowhere_at doc passage_tei /\ passage_plus doc n g = (g, Err IndexError)).
Proof.
  intros doc n g L. unfold passage_plus, new_remote.
  pose proof (first_element (tag_in (tei #"TEI") (ti #"passage")) passage_tei doc (test_two _ _)) as F.
  destruct (filter _ _) as [|[tags x] l]; [right; auto|]. left. destruct F as (p & F & _). cbn [fst snd] in *.
  exists p, x, (ingest_top doc ([n_tag doc], doc) unset). split; [exact F|]. split; [apply root_learns|].
  destruct (ingest_top doc ([n_tag doc], doc) unset) as [c|e]; cbn [bind]; [|reflexivity].
  pose proof (label_reads doc n c g L) as Q. destruct (get_label_reply doc n c g) as [g' r1]. exists g', r1. split; [exact Q|reflexivity].
Qed.
Print Assumptions C61_plus.

(** All references of a text: those of each level of its citation, which is learnt
    from its label when it is not known. *)
Theorem C61_reffs : forall label valid n own c g, no_prefixed_lang label -> is_set c ->
  (is_set own /\ c = own \/
   ~ is_set own /\ exists p e, first_at label reply_label p e /\ learns label p e own (Ok c)) ->
  (forall i, 1 <= i <= length c -> no_prefixed_lang (valid i) /\ has_tag (valid i) (cts_name #"request")) ->
  exists g' ls, text_reffs label valid n own g = (g', Ok (concat ls)) /\
    Forall2 (fun i l => identifiers (fun ts => exists a b, ts = a ++ [cts_name #"reply"] ++ b ++ [cts_name #"urn"]) (valid i) l)
      (seq 1 (length c)) ls.
Proof.
  intros label valid n own c g L S C V. unfold text_reffs. pose proof (citation_set_spec own) as SO.
  assert (V' : forall j, 1 <= j < 1 + length c -> no_prefixed_lang (valid j) /\ has_tag (valid j) (cts_name #"request")) by (intros; apply V; lia).
  destruct C as [[IS ->]|(NS & p0 & e0 & F0 & U)].
  - rewrite (proj2 SO IS). destruct (reffs_listed valid n own (length own) 1 g IS V') as (g' & ls & E & F & _). exists g', ls. auto.
  - destruct (citation_set own) eqn:CS; [destruct NS; apply SO; reflexivity|].
    pose proof (label_reads label n own g L) as Q. destruct (get_label_reply label n own g) as [g1 r1].
    destruct Q as [(p & e & F & _ & Le)|[X _]].
    + cbn [snd] in Le. destruct (first_once _ _ _ _ _ _ F0 F) as [<- <-]. destruct (first_in _ _ _ _ F) as [_ A].
      rewrite (learns_once _ _ _ _ _ _ A Le U).
      destruct (reffs_listed valid n c (length c) 1 g1 S V') as (g' & ls & E & Fs & _). exists g', ls. auto.
    + destruct F0 as (b & a & _ & (ts & T & K) & _). destruct (X _ _ T K).
Qed.
Print Assumptions C61_reffs.

(** ** Cases *)

(** The shelf of Props_Local, with names, and the file of its edition. *)
Definition says_triple (id name s l : str) : triple := (URI id, URI (#"http://chs.harvard.edu/xmlns/cts/" ++ name), Literal s (Some l) None).
Definition shelf_graph : graph :=
  [ says_triple name_tg #"groupname" #"Martial" #"eng"; says_triple name_tg #"groupname" #"Martialis" #"lat";
    says_triple name_w10 #"title" #"Epigrammata" #"lat"; says_triple name_e #"label" #"Epigrams, ed." #"eng";
    says_triple name_w1 #"title" #"Another" #"eng"; says_triple name_og #"groupname" #"Somebody" #"eng" ].
Definition named_shelf : store := MkStore (shelf_with [shelf_graph]) [] [(5, epigrams_at)].
Definition poem_levels : list level := [(Some #"poem", Some #"/x")].
Definition as_given {A} (l : list A) : list A := l.

Ltac in_graph H := cbn in H; repeat (destruct H as [H|H]; [try discriminate H|]); try contradiction.

Lemma named_literal : forall name v, tells (s_state named_shelf) 5 3 2 name v -> is_literal v.
Proof.
  assert (Q : forall a k v, In (a, k, v) shelf_graph -> is_literal v).
  { intros a k v H. unfold shelf_graph, says_triple in H. cbn [In] in H.
    repeat (destruct H as [H|H]; [injection H as _ _ <-; eexists _, _, _; reflexivity|]). destruct H. }
  intros name v T. destruct T as [v H|v H|v H|v H]; exact (Q _ _ _ H).
Qed.

Example C61_meets : exists p st',
  ServeModel.resolver_node 5 epigrams_only identity_only named_shelf 0 name_e (Some (GivenStr #"1.3")) = Ok p /\
  resolver_node_metadata as_given 4 5 epigrams_only identity_only named_shelf 0 name_e (Some (GivenStr #"1.3")) (BNode 7) poem_levels
    = (MkStore st' [] [(5, epigrams_at)], Ok (p, poem_levels)) /\
  informed shelf_graph (nth 0 (graphs st') []) (BNode 7) (tells (s_state named_shelf) 5 3 2) /\
  tells (s_state named_shelf) 5 3 2 #"groupname" (Literal #"Martialis" (Some #"lat") None) /\
  get_creator as_given (nth 0 (graphs st') []) (BNode 7) (Some #"lat") = Ok (Some (Literal #"Martialis" (Some #"lat") None)) /\
  get_title as_given (nth 0 (graphs st') []) (BNode 7) (Some #"eng") = Ok (Some (Literal #"Epigrammata" (Some #"lat") None)) /\
  get_subject as_given (nth 0 (graphs st') []) (BNode 7) None = Ok (Some (Literal #"Epigrams, ed." (Some #"eng") None)) /\
  get_description as_given (nth 0 (graphs st') []) (BNode 7) None = Ok None.
Proof.
  destruct (ServeModel.resolver_node 5 epigrams_only identity_only named_shelf 0 name_e (Some (GivenStr #"1.3"))) as [p|e] eqn:E;
    [|vm_compute in E; discriminate E].
  destruct (C61_resolver as_given 0 5 epigrams_only identity_only named_shelf 0 name_e (Some (GivenStr #"1.3")) p 7%N poem_levels 5 3 2)
    as (st' & M & _ & I).
  - intros l. apply Permutation.Permutation_refl.
  - apply shelf_library.
  - reflexivity.
  - cbn. auto.
  - vm_compute. reflexivity.
  - exists 1. split; [|split; [|split]]; (split; [intros [k X]; discriminate X|eexists; cbn; eauto]).
  - exact named_literal.
  - eexists _, _, _. reflexivity.
  - exact E.
  - exists p, st'. split; [reflexivity|]. split; [exact M|]. split; [exact I|]. split.
    { constructor. unfold says_of_itself. cbn. auto. }
    pose proof (f_equal (fun x => s_state (fst x)) M) as S. cbv beta in S. change (s_state (fst (MkStore st' (s_cites named_shelf) (s_paths named_shelf), Ok (p, poem_levels)))) with st' in S.
    rewrite <- S. repeat split; vm_compute; reflexivity.
Qed.

(** A reply about a label, as endpoints write them. *)
Definition el (name : str) (attrs : list (str * str)) (text : str) (kids : list XmlModel.node) : XmlModel.node :=
  Elem (cts_name name) attrs text [] kids.
Definition latin : list (str * str) := [(#"{http://www.w3.org/XML/1998/namespace}lang", #"lat")].
Definition the_citation : XmlModel.node :=
  el #"citation" [(#"label", #"book"); (#"scope", #"/t"); (#"xpath", #"/d")] [] [el #"citation" [(#"label", #"line"); (#"scope", #"/t/d"); (#"xpath", #"/l")] [] []].
Definition the_title : XmlModel.node := el #"title" latin #"Epigrammata" [].
Definition label_reply : XmlModel.node :=
  el #"GetLabel" [] [] [el #"request" [] [] []; el #"reply" [] []
    [el #"label" [] [] [el #"groupname" latin #"Martialis" []; the_title; el #"label" [] [] []; the_citation]]].
Definition valid_reply (i : nat) : XmlModel.node :=
  el #"GetValidReff" [] [] [el #"request" [] [] []; el #"reply" [] [] [el #"reff" [] []
    (match i with
     | 1 => [el #"urn" [] #"urn:cts:x:a.b.c:1" []; el #"urn" [] #"urn:cts:x:a.b.c:2" []]
     | _ => [el #"urn" [] #"urn:cts:x:a.b.c:1.1" []; el #"urn" [] #"urn:cts:x:a.b.c:2.1" []]
     end)]].

Example C61_label_sample : no_prefixed_lang label_reply /\
  exists g' c, get_label_reply label_reply (BNode 3) unset [] = (g', Ok c) /\ length c = 2 /\ is_set c /\
    get_creator as_given g' (BNode 3) None = Ok (Some (Literal #"Martialis" (Some #"eng") None)) /\
    get_subject as_given g' (BNode 3) None = Ok (Some (Literal #"None" (Some #"eng") None)).
Proof.
  split.
  - intros e H. unfold label_reply, the_citation, the_title in H. cbn [el document_order flat_map app] in H. unfold el in H. cbn [document_order flat_map app In] in H.
    repeat (destruct H as [<-|H]; [reflexivity|]). destruct H.
  - eexists _, _. split; [vm_compute; reflexivity|]. split; [reflexivity|]. split; [eexists _, _, _; reflexivity|].
    split; vm_compute; reflexivity.
Qed.
Example C61_reffs_meets : exists c, is_set c /\ length c = 2 /\
  (exists p e, first_at label_reply reply_label p e /\ learns label_reply p e unset (Ok c)) /\
  (forall i, no_prefixed_lang (valid_reply i) /\ has_tag (valid_reply i) (cts_name #"request")) /\
  exists g', text_reffs label_reply valid_reply (BNode 3) unset [] = (g', Ok [#"1"; #"2"; #"1.1"; #"2.1"]).
Proof.
  destruct C61_label_sample as (L & g' & c & E & Len & IS & _). exists c. split; [exact IS|]. split; [exact Len|]. split; [|split].
  - destruct (C61_label label_reply (BNode 3) unset [] L) as [(p & e & F & _ & Le)|[N X]].
    + exists p, e. split; [exact F|]. rewrite E in Le. exact Le.
    + rewrite E in X. discriminate X.
  - intros i. split.
    + intros e H. unfold valid_reply, el in H. destruct i as [|[|i]]; cbn [document_order flat_map app In] in H;
        repeat (destruct H as [<-|H]; [reflexivity|]); destruct H.
    + exists [0], (el #"request" [] [] []). split; [|reflexivity]. econstructor; [reflexivity|constructor].
  - eexists. vm_compute. reflexivity.
Qed.

(** The language an endpoint declares for a title is lost: it is told in English. *)
Theorem C61_language_refuted : exists doc p e k s, no_prefixed_lang doc /\ first_at doc reply_label p e /\ in_reply e #"title" k /\
  lang_of k = Some #"lat" /\ n_text k = s /\ s <> [] /\ forall n own,
    ~ In (n, in_dc #"title", Literal s (Some #"lat") None) (fst (get_label_reply doc n own [])) /\
    In (n, in_dc #"title", Literal s (Some #"eng") None) (fst (get_label_reply doc n own [])).
Proof.
  destruct C61_label_sample as [L _].
  destruct (C61_label label_reply (BNode 0) unset [] L) as [(p & e & F & _)|[N _]].
  2: { vm_compute in N. exfalso. eapply (N [1; 0]); [|exists [cts_name #"GetLabel"]; reflexivity].
       do 2 (econstructor; [reflexivity|]). constructor. }
  exists label_reply, p, e, the_title, #"Epigrammata". split; [exact L|]. split; [exact F|].
  assert (E : e = el #"label" [] [] [el #"groupname" latin #"Martialis" []; the_title; el #"label" [] [] []; the_citation]).
  { pose proof F as (b & a & P & (ts & T & (l & K)) & Fo). pose proof (first_in _ _ _ _ F) as [_ A].
    assert (Q : In (p, e) (positions label_reply)) by (rewrite P; apply in_or_app; right; left; reflexivity).
    vm_compute in Q. rewrite (trail_unique _ _ _ T) in K.
    repeat (destruct Q as [Q|Q]; [injection Q as <- <-; first [reflexivity | exfalso; apply (f_equal (@rev str)) in K; rewrite rev_app_distr in K; vm_compute in K; discriminate K]|]).
    destruct Q. }
  subst e. split; [split; [right; left; reflexivity|reflexivity]|]. split; [reflexivity|]. split; [reflexivity|]. split; [discriminate|].
  intros n own. destruct (C61_label label_reply n own [] L) as [(p' & e' & F' & I & _)|[N _]].
  - assert (X : forall v, In (n, in_dc #"title", v) (fst (get_label_reply label_reply n own [])) <-> v = Literal #"Epigrammata" (Some #"eng") None).
    { intros v. unfold get_label_reply. vm_compute filter. cbv beta iota zeta. unfold parse_request. cbn [fst snd].
      assert (L0 : forall c, In c (document_order (el #"label" [] [] [el #"groupname" latin #"Martialis" []; the_title; el #"label" [] [] []; the_citation])) -> get_attr #"xml:lang" (n_attrs c) = None).
      { intros c H. apply L. unfold label_reply. unfold el at 1 2 3. cbn [document_order flat_map app]. right. right. right. apply in_or_app. left. apply in_or_app. left. exact H. }
      match goal with |- In _ (note_replies _ _ _ ?e0 _) <-> _ => change e0 with (el #"label" [] [] [el #"groupname" latin #"Martialis" []; the_title; el #"label" [] [] []; the_citation]) end.
      rewrite !(In_note_replies _ _ _ _ L0). split.
      - intros [[[[[]|X]|X]|X]|X]; destruct X as (k & c & [->| ->] & [I1 I2] & E); try discriminate E. injection E as ->.
        cbn in I1. repeat (destruct I1 as [<-|I1]; [first [reflexivity | discriminate I2]|]). destruct I1.
      - intros ->. left. left. right. exists (in_dc #"title"), the_title. split; [right; reflexivity|]. split; [split; [right; left; reflexivity|reflexivity]|reflexivity]. }
    split; [rewrite X; discriminate|apply X; reflexivity].
  - exfalso. destruct F as (b & a & _ & (ts & T & K) & _). exact (N _ _ T K).
Qed.
Print Assumptions C61_language_refuted.

(** A citation that stands elsewhere in the reply makes reading the label fail. *)
Theorem C61_citation_refuted : exists doc p e, no_prefixed_lang doc /\ first_at doc reply_label p e /\
  snd (get_label_reply doc (BNode 0) unset []) = Err TypeError.
Proof.
  set (doc := el #"GetLabel" [] [] [el #"request" [] [] [the_citation]; el #"reply" [] [] [el #"label" [] [] [the_title]]]).
  assert (L : no_prefixed_lang doc).
  { intros e H. unfold doc, the_citation, the_title, el in H. cbn [document_order flat_map app In] in H.
    repeat (destruct H as [<-|H]; [reflexivity|]). destruct H. }
  destruct (C61_label doc (BNode 0) unset [] L) as [(p & e & F & _)|[N _]].
  - exists doc, p, e. split; [exact L|]. split; [exact F|]. vm_compute. reflexivity.
  - exfalso. eapply (N [1; 0]); [|exists [cts_name #"GetLabel"]; reflexivity]. do 2 (econstructor; [reflexivity|]). constructor.
Qed.
Print Assumptions C61_citation_refuted.
