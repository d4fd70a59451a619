(** Property C67: documents of a DTS resolver, and how one goes from one to
    another. *)

From Coq Require Import List NArith ZArith Arith Bool Lia.
From Verif Require DtsSpec DtsProofs.
From Verif Require Import PyStr PyStrFacts Json TreeModel HttpModel HttpSpec HttpProofs DtsModel DtsDocModel DtsDocSpec DtsDocProofs Props_Http Props_Dts.
Import ListNotations.

(** ** A text of three passages for the examples *)

Definition link_to (rel ref : str) : doc_link := (rel, (#"/document/", [(#"id", #"t"); (#"ref", ref)], #"")).
Definition sample_reply (links : list doc_link) (body : str) : list link * str :=
  (map (fun l => (fst l, write_doc_link (snd l))) links, body).
Definition sample_document (r : option dts_ref) : result (list link * str) :=
  match r with
  | None => Ok (sample_reply [] #"all")
  | Some (DText s) => if str_eqb s #"1" then Ok (sample_reply [link_to #"next" #"2"] #"one") else Err HTTPError
  | Some (DRef (MkDref s None)) =>
      if str_eqb s #"1" then Ok (sample_reply [link_to #"next" #"2"] #"one")
      else if str_eqb s #"2" then Ok (sample_reply [link_to #"prev" #"1"; link_to #"next" #"3"] #"two")
      else if str_eqb s #"3" then Ok (sample_reply [link_to #"prev" #"2"] #"three")
      else Err HTTPError
  | Some (DRef (MkDref _ (Some _))) => Err HTTPError
  end.
Definition sample_meta : cmeta := MkCMeta [JStr #"T"] [] None (Some (JInt 2)) [JInt 3] [] [].
Definition sample_coll : coll := Coll #"t" sample_meta [] false.
Definition sample_item (s : str) : set_item := Whole (MkDR (JStr s) JNull None []).
Definition sample_reffs (level : Z) (r : option dts_ref) : result reffs :=
  match r with
  | None => Ok (MkReffs (if (level =? 1)%Z then map sample_item [#"1"; #"2"; #"3"] else map sample_item [#"1.1"; #"1.2"]) (JInt level) None)
  | Some _ => Ok (MkReffs (make_set [MkDR (JStr #"1") JNull None []]) (JInt level) None)
  end.
Definition sample_resolver : resolver str :=
  MkResolver (fun _ _ r => sample_document r) (fun _ _ => Ok sample_coll) (fun _ _ level r => sample_reffs level r).
Definition sample_session : session str := fst (open_document (fun s => s) sample_resolver #"t" (Some (DRef (MkDref #"1" None))) (MkSession [] [])).
Definition whole_session : session str := fst (open_document (fun s => s) sample_resolver #"t" None (MkSession [] [])).
Definition sample_passages : list (dref * str) := [(MkDref #"1" None, #"one"); (MkDref #"2" None, #"two"); (MkDref #"3" None, #"three")].

Lemma sample_decodes : decodes (fun s => s).
Proof. intros s _ _. reflexivity. Qed.

Lemma sample_links : forall links, Forall (fun l => exists rel r, In rel [#"next"; #"prev"] /\ In r [#"1"; #"2"; #"3"] /\ l = link_to rel r) links ->
  forall body : str, replies (sample_reply links body) links body.
Proof.
  intros links H body. split; [reflexivity|]. split.
  - apply Forall_forall. intros l I. rewrite Forall_forall in H. destruct (H l I) as (rel & r & _ & R & ->).
    cbn in R. destruct R as [<-|[<-|[<-|[]]]]; plain; left; reflexivity.
  - intros ps (b & f & before & after & E & _). exfalso. rewrite Forall_forall in H.
    destruct (H (#"parent", (b, ps, f))) as (rel & r & R & _ & E'); [rewrite E; apply in_or_app; right; left; reflexivity|].
    injection E' as <- _ _ _. cbn in R. destruct R as [R|[R|[]]]; discriminate.
Qed.

Lemma sample_leads : forall before after rel r, ~ In rel (map fst after) -> In r [#"1"; #"2"; #"3"] ->
  leads (before ++ link_to rel r :: after) rel (Some (MkDref r None)).
Proof.
  intros before after rel r N R. left. exists [(#"id", #"t"); (#"ref", r)]. split.
  - exists #"/document/", #"", before, after. split; [reflexivity|exact N].
  - cbn in R. destruct R as [<-|[<-|[<-|[]]]]; eapply pt_ref; reflexivity.
Qed.
Lemma sample_no_link : forall links rel, ~ In rel (map fst links) -> leads links rel None.
Proof.
  intros links rel N. right. split; [|reflexivity]. intros ps (b & f & before & after & -> & _). apply N. rewrite map_app. apply in_or_app. right. left. reflexivity.
Qed.

Ltac links_ok := repeat constructor; (eexists; eexists; split; [|split; [|reflexivity]]; cbn; auto).
Ltac not_named := cbn; intros X; repeat (destruct X as [X|X]; [discriminate X|]); exact X.

Lemma sample_publishes : publishes sample_resolver #"t" sample_passages.
Proof.
  intros calls k r body E. destruct k as [|[|[|k]]]; cbn in E; try (injection E as <- <-).
  - exists (sample_reply [link_to #"next" #"2"] #"one"), [link_to #"next" #"2"]. split; [reflexivity|]. split; [apply sample_links; links_ok|]. split.
    + apply (sample_leads [] [] #"next" #"2"); [not_named|cbn; auto].
    + apply sample_no_link. not_named.
  - exists (sample_reply [link_to #"prev" #"1"; link_to #"next" #"3"] #"two"), [link_to #"prev" #"1"; link_to #"next" #"3"].
    split; [reflexivity|]. split; [apply sample_links; links_ok|]. split.
    + apply (sample_leads [link_to #"prev" #"1"] [] #"next" #"3"); [not_named|cbn; auto].
    + apply (sample_leads [] [link_to #"next" #"3"] #"prev" #"1"); [not_named|cbn; auto].
  - exists (sample_reply [link_to #"prev" #"2"] #"three"), [link_to #"prev" #"2"]. split; [reflexivity|]. split; [apply sample_links; links_ok|]. split.
    + apply sample_no_link. not_named.
    + apply (sample_leads [] [] #"prev" #"2"); [not_named|cbn; auto].
  - destruct k; discriminate.
Qed.

Lemma sample_reached : session_of (fun s => s) sample_resolver sample_session /\ session_of (fun s => s) sample_resolver whole_session.
Proof. split; eapply so_open; [apply so_empty|apply surjective_pairing|apply so_empty|apply surjective_pairing]. Qed.

(** ** A passage of a document *)

(** One document is asked for, with the identifier and the reference; what comes is
    a new document with them, the body, the neighbours of the header and the
    collection of the document it was asked from. *)
Theorem C67_node : forall X dec (rs : resolver X) w i d r reply links body, decodes dec ->
  nth_error (ss_docs w) i = Some d -> ask_document rs (ss_calls w) (dd_id d) r = Ok reply -> replies reply links body ->
  exists w' d', do_ask dec rs w i (AskNode r) = (w', Ok (ADocument (length (ss_docs w)))) /\
    ss_calls w' = ss_calls w ++ [CallDocument (dd_id d) r] /\ ss_docs w' = ss_docs w ++ [d'] /\
    dd_id d' = dd_id d /\ dd_ref d' = r /\ dd_body d' = body /\
    leads links #"next" (dd_next d') /\ leads links #"prev" (dd_prev d') /\ dd_coll d' = dd_coll d.
Proof.
  intros X dec rs w i d r reply links body Hd H A R. destruct (node_spec dec rs Hd w i d r reply links body H A R) as (d' & E & S).
  eexists. exists d'. split; [exact E|]. split; [reflexivity|]. split; [reflexivity|]. tauto.
Qed.
Print Assumptions C67_node.

(** What the endpoint is asked: the document route, with the identifier and the
    fields of the reference. *)
Theorem C67_request : forall X (documents : request -> result (list link * X)) server to_documents to_collections to_navigation fuel calls id r fs,
  NoDup (map fst (rt_query to_documents)) -> ref_fields r fs ->
  exists q, ask_document (http_resolver documents server to_documents to_collections to_navigation fuel) calls id r = documents q /\
    asks q to_documents ((#"id", StrParam id) :: fs) [].
Proof.
  intros X documents server td tc tn fuel calls id r fs N F. exists (get_document td (StrParam id) r). split; [reflexivity|].
  exact (proj2 (proj2 (C40_dts_requests td (StrParam id) NoParam NoParam NoParam NoParam NoParam NoParam r fs N F))).
Qed.
Print Assumptions C67_request.

(** Of the collection route it asks the identifier, and what it has is what the
    reply says. *)
Theorem C67_collection_request : forall X (documents : request -> result (list link * X)) server to_documents to_collections to_navigation fuel calls id j rest c,
  NoDup (map fst (rt_query to_collections)) -> DtsSpec.says_coll j c -> Forall DtsSpec.lists_none (co_members c) ->
  (forall q, asks q to_collections [(#"id", StrParam id); (#"nav", StrParam #"children"); (#"page", NoParam)] [(#"nav", StrParam #"children"); (#"page", IntParam 1)] ->
     server q = Ok (j :: rest)) ->
  ask_collection (http_resolver documents server to_documents to_collections to_navigation fuel) calls id = Ok c.
Proof.
  intros X documents server td tc tn fuel calls id j rest c N S L A. cbn [http_resolver ask_collection].
  rewrite A; [cbn [bind]; apply DtsProofs.says_http; assumption|].
  exact (proj1 (C40_dts_requests tc (StrParam id) (StrParam #"children") NoParam NoParam NoParam NoParam NoParam None [] N rf_none)).
Qed.
Print Assumptions C67_collection_request.

Example C67_node_sample :
  exists w d, do_ask (fun s => s) sample_resolver sample_session 0 (AskNode (Some (DRef (MkDref #"2" None)))) = (w, Ok (ADocument 1)) /\
    nth_error (ss_docs w) 1 = Some d /\ dd_body d = #"two" /\ dd_prev d = Some (MkDref #"1" None) /\ dd_next d = Some (MkDref #"3" None).
Proof. eexists. eexists. split; [reflexivity|]. repeat split. Qed.

(** ** Histories *)

(** Whatever is asked of documents of a text, in whatever order: every call is
    about that text, every new document is of that text, and the documents that
    were there keep their reference, their body, their neighbours, the collection
    and the children that they know. *)
Theorem C67_history : forall X dec (rs : resolver X) t h w w' xs,
  Forall (fun d => dd_id d = t) (ss_docs w) -> do_asks dec rs w h = (w', xs) ->
  (exists new, ss_calls w' = ss_calls w ++ new /\ Forall (fun c => about c = t) new) /\
  Forall (fun d => dd_id d = t) (ss_docs w') /\
  forall i d, nth_error (ss_docs w) i = Some d -> exists d', nth_error (ss_docs w') i = Some d' /\ same_document d d'.
Proof.
  intros X dec rs t h w w' xs H E. destruct (history_grows dec rs h w w' xs t H E) as (A & B & C). split; [exact A|]. split; [|exact B].
  apply Forall_forall. intros d I. apply In_nth_error in I. destruct I as (n & N).
  destruct (Nat.le_gt_cases (length (ss_docs w)) n) as [L|L]; [exact (C _ _ N L)|].
  destruct (nth_error (ss_docs w) n) as [d0|] eqn:N0; [|apply nth_error_None in N0; lia].
  destruct (B _ _ N0) as (d1 & N1 & (S & _)). rewrite N in N1. injection N1 as <-. rewrite S. rewrite Forall_forall in H. apply H. eapply nth_error_In, N0.
Qed.
Print Assumptions C67_history.

Example C67_history_sample :
  Forall (fun d => dd_id d = #"t") (ss_docs sample_session) /\
  snd (do_asks (fun s => s) sample_resolver sample_session [(0, AskNext); (1, AskDepth); (1, AskPrev); (2, AskMetadata); (0, AskPrev)]) =
    [Ok (ADocument 1); Ok (ADepth (JInt 2)); Ok (ADocument 2); Ok (AMetadata sample_meta); Ok Nothing].
Proof. split; [repeat constructor|vm_compute; reflexivity]. Qed.

(** Going forward and back through a text, with other questions in between, one is
    always at the passage one should be at. *)
Theorem C67_travel : forall X dec (rs : resolver X) id ps w k r body l, decodes dec ->
  publishes rs id ps -> nth_error ps k = Some (r, body) ->
  exists w0 i, open_document dec rs id (Some (DRef r)) w = (w0, Ok i) /\
  exists d r' body', nth_error (ss_docs (fst (travel dec rs w0 i l))) (snd (travel dec rs w0 i l)) = Some d /\
    nth_error ps (journey (length ps) k l) = Some (r', body') /\
    dd_id d = id /\ dd_ref d = Some (DRef r') /\ dd_body d = body'.
Proof.
  intros X dec rs id ps w k r body l Hd Hp N. destruct (Hp (ss_calls w) k r body N) as (reply & links & A & R & LN & LP).
  destruct (make_spec dec Hd id (Some (DRef r)) links body reply R) as (d & M & S1 & S2 & S3 & S4 & S5 & _).
  destruct (open_cases dec rs id (Some (DRef r)) w) as [(e & _ & E)|(reply' & d' & A' & M' & E)].
  - rewrite A in E. cbn [bind] in E. rewrite M in E. discriminate.
  - rewrite A in A'. injection A' as <-. rewrite M in M'. injection M' as <-. eexists. eexists. split; [exact E|].
    assert (ST : stands id ps k d).
    { split; [exact S1|]. exists r, body. split; [exact N|]. split; [exact S2|]. split; [exact S3|].
      split; [exact (leads_unique _ _ _ _ S4 LN)|exact (leads_unique _ _ _ _ S5 LP)]. }
    destruct (travels dec rs Hd id ps Hp l (MkSession (ss_calls w ++ [CallDocument id (Some (DRef r))]) (ss_docs w ++ [d])) (length (ss_docs w)) k d) as (d' & N' & I & r' & body' & Q & R' & B' & _).
    + cbn. rewrite nth_error_app2, Nat.sub_diag by lia. reflexivity.
    + exact ST.
    + exists d', r', body'. auto.
Qed.
Print Assumptions C67_travel.

Example C67_travel_sample :
  publishes sample_resolver #"t" sample_passages /\ nth_error sample_passages 0 = Some (MkDref #"1" None, #"one") /\
  journey 3 0 [AskNext; AskDepth; AskNext; AskChildren; AskNext; AskPrev] = 1 /\
  let out := travel (fun s => s) sample_resolver sample_session 0 [AskNext; AskDepth; AskNext; AskChildren; AskNext; AskPrev] in
  option_map dd_body (nth_error (ss_docs (fst out)) (snd out)) = Some #"two".
Proof. split; [exact sample_publishes|]. vm_compute. auto. Qed.

(** ** The collection *)

(** The first question for the collection, the metadata or the depth asks for the
    collection of the text, once. *)
Theorem C67_collection : forall X dec (rs : resolver X) w i d c a, nth_error (ss_docs w) i = Some d ->
  dd_coll d = None -> dd_depth d = None -> ask_collection rs (ss_calls w) (dd_id d) = Ok c -> In a [AskCollection; AskMetadata; AskDepth] ->
  exists w' x, do_ask dec rs w i a = (w', Ok x) /\ ss_calls w' = ss_calls w ++ [CallCollection (dd_id d)] /\ knows w' i c /\
    length (ss_docs w') = length (ss_docs w) /\
    match a with
    | AskCollection => x = ACollection (HColl c)
    | AskMetadata => x = AMetadata (co_meta c)
    | _ => forall v, says_depth (co_meta c) v -> x = ADepth v
    end.
Proof.
  intros X dec rs w i d c a H K D A I. unfold do_ask. rewrite H.
  assert (G : get_holder rs i d w = (change i (put_coll (Some (HColl c))) (called (CallCollection (dd_id d)) w), Ok (HColl c))).
  { unfold get_holder. rewrite K, A. reflexivity. }
  assert (KN : forall f, dd_coll (f (put_coll (Some (HColl c)) d)) = Some (HColl c) ->
     knows (change i f (change i (put_coll (Some (HColl c))) (called (CallCollection (dd_id d)) w))) i c).
  { intros f F. exists (f (put_coll (Some (HColl c)) d)). rewrite !change_nth, Nat.eqb_refl. cbn [called ss_docs]. rewrite H. split; [reflexivity|exact F]. }
  cbn [In] in I. destruct I as [<-|[<-|[<-|[]]]].
  - rewrite G. cbn [bind]. eexists. eexists. split; [reflexivity|]. split; [reflexivity|]. split; [|split; [rewrite change_length; reflexivity|reflexivity]].
    exists (put_coll (Some (HColl c)) d). rewrite change_nth, Nat.eqb_refl. cbn [called ss_docs]. rewrite H. split; reflexivity.
  - rewrite G. eexists. eexists. split; [reflexivity|]. split; [reflexivity|]. split; [|split; [rewrite change_length; reflexivity|reflexivity]].
    exists (put_coll (Some (HColl c)) d). rewrite change_nth, Nat.eqb_refl. cbn [called ss_docs]. rewrite H. split; reflexivity.
  - unfold get_depth. rewrite D, G. eexists. eexists. split; [reflexivity|]. split; [reflexivity|]. split; [apply KN; reflexivity|].
    split; [rewrite !change_length; reflexivity|]. intros v V. rewrite (says_depth_of _ _ V). reflexivity.
Qed.
Print Assumptions C67_collection.

(** Once it is known, it is not asked for again: not by this document, nor by those
    obtained from it, whatever happens in between. *)
Theorem C67_known : forall X dec (rs : resolver X) w i c, session_of dec rs w -> knows w i c ->
  do_ask dec rs w i AskCollection = (w, Ok (ACollection (HColl c))) /\
  do_ask dec rs w i AskMetadata = (w, Ok (AMetadata (co_meta c))) /\
  (forall v, says_depth (co_meta c) v -> exists w', do_ask dec rs w i AskDepth = (w', Ok (ADepth v)) /\ ss_calls w' = ss_calls w) /\
  (forall a w' x, do_ask dec rs w i a = (w', x) -> exists new, ss_calls w' = ss_calls w ++ new /\ forall id, ~ In (CallCollection id) new) /\
  (forall a w' x j, do_ask dec rs w i a = (w', Ok x) -> given_documents x j -> knows w' j c) /\
  (forall h w' xs, do_asks dec rs w h = (w', xs) -> knows w' i c).
Proof.
  intros X dec rs w i c S KN. pose proof KN as (d & H & K). unfold do_ask at 1 2 3. rewrite H.
  assert (G : get_holder rs i d w = (w, Ok (HColl c))) by (unfold get_holder; rewrite K; reflexivity).
  split; [rewrite G; reflexivity|]. split; [rewrite G; reflexivity|]. split.
  - intros v V. unfold get_depth. destruct (dd_depth d) as [v'|] eqn:D.
    + exists w. split; [|reflexivity]. destruct (session_coherent dec rs w S i d v' H D) as (c' & K' & ->). rewrite K in K'. injection K' as <-.
      rewrite (says_depth_of _ _ V). reflexivity.
    + rewrite G. eexists. rewrite (says_depth_of _ _ V). split; reflexivity.
  - split; [|split].
    + intros a w' x E. pose proof (quiet_ask dec rs w i a c KN) as Q. rewrite E in Q. exact Q.
    + intros a w' x j. apply new_knows. exact KN.
    + intros h w' xs E. destruct (keeps dec rs h w w' xs E i d H) as (d' & H' & (_ & _ & _ & _ & _ & _ & C & _)). exists d'. auto.
Qed.
Print Assumptions C67_known.

Example C67_collection_sample :
  session_of (fun s => s) sample_resolver sample_session /\
  (exists d, nth_error (ss_docs sample_session) 0 = Some d /\ dd_coll d = None /\ dd_depth d = None) /\
  says_depth sample_meta (JInt 2) /\
  (let w := fst (do_asks (fun s => s) sample_resolver sample_session [(0, AskMetadata); (0, AskNext); (1, AskNext)]) in
   session_of (fun s => s) sample_resolver w /\ knows w 2 sample_coll /\
   ss_calls w = [CallDocument #"t" (Some (DRef (MkDref #"1" None))); CallCollection #"t"; CallDocument #"t" (Some (DRef (MkDref #"2" None)));
                 CallDocument #"t" (Some (DRef (MkDref #"3" None)))]).
Proof.
  split; [apply sample_reached|]. split; [eexists; split; [reflexivity|split; reflexivity]|]. split; [apply sd_declared; [reflexivity|discriminate]|].
  cbv zeta. split; [|split; [eexists; split; reflexivity|reflexivity]].
  cbn [do_asks]. destruct (do_ask (fun s => s) sample_resolver sample_session 0 AskMetadata) as [w1 x1] eqn:E1.
  destruct (do_ask (fun s => s) sample_resolver w1 0 AskNext) as [w2 x2] eqn:E2.
  destruct (do_ask (fun s => s) sample_resolver w2 1 AskNext) as [w3 x3] eqn:E3. cbn [fst].
  eapply so_ask; [|exact E3]. eapply so_ask; [|exact E2]. eapply so_ask; [|exact E1]. apply sample_reached.
Qed.

(** Finding: a header link named collection that carries a reference is taken for
    the collection: the document has no depth. *)
Theorem C67_collection_link_refuted : exists links, Forall (fun l => plain_link (snd l)) links /\
  gives links #"collection" [(#"id", #"t"); (#"ref", #"1")] /\
  forall (rs : resolver str) w w1 i, ask_document rs (ss_calls w) #"t" None = Ok (sample_reply links #"all") ->
    open_document (fun s => s) rs #"t" None w = (w1, Ok i) -> snd (do_ask (fun s => s) rs w1 i AskDepth) = Err AttributeError.
Proof.
  exists [link_to #"collection" #"1"]. split; [plain; left; reflexivity|].
  split; [exists #"/document/", #"", [], []; split; [reflexivity|intros []]|].
  intros rs w w1 i A E. unfold open_document in E. rewrite A in E. cbn [bind] in E.
  change (make_document (fun s => s) #"t" None (sample_reply [link_to #"collection" #"1"] #"all"))
    with (Ok (MkDocument #"t" None #"all" None None None (Some (HRef (MkDref #"1" None))) None None)) in E.
  injection E as <- <-. unfold do_ask. cbn [ss_docs called]. rewrite nth_error_app2, Nat.sub_diag by lia. reflexivity.
Qed.
Print Assumptions C67_collection_link_refuted.

(** ** References and children *)

(** References are asked for once a question; below the given reference, or below
    that of the document when none is given. *)
Theorem C67_reffs : forall X dec (rs : resolver X) w i d r, nth_error (ss_docs w) i = Some d ->
  exists r', (match r with None => r' = dd_ref d | Some (DText []) => r' = dd_ref d | Some x => r' = Some x end) /\
  do_ask dec rs w i (AskReffs 1 r) =
    (MkSession (ss_calls w ++ [CallReffs (dd_id d) 1 r']) (ss_docs w),
     match ask_reffs rs (ss_calls w) (dd_id d) 1 r' with Ok l => Ok (AReffs l) | Err e => Err e end).
Proof.
  intros X dec rs w i d r H. unfold do_ask. rewrite H. unfold get_reffs_of.
  exists (if ref_truthy r then r else dd_ref d). split; [destruct r as [[x|[|ch s]]|]; reflexivity|]. reflexivity.
Qed.
Print Assumptions C67_reffs.

(** Finding: the level that is asked for is not passed on. *)
Theorem C67_level_refuted :
  (forall X dec (rs : resolver X) w i level r, do_ask dec rs w i (AskReffs level r) = do_ask dec rs w i (AskReffs 1 r)) /\
  snd (do_ask (fun s => s) sample_resolver whole_session 0 (AskReffs 2 None)) <>
    match ask_reffs sample_resolver (ss_calls whole_session) #"t" 2 None with Ok l => Ok (AReffs l) | Err e => Err e end.
Proof. split; [reflexivity|]. vm_compute. discriminate. Qed.
Print Assumptions C67_level_refuted.

(** The children are those the resolver lists, in order: they are listed once,
    then kept; [first] and [last] are the ends of the listing; each passage is
    asked for. *)
Theorem C67_children : forall X dec (rs : resolver X) w i d l refs body, decodes dec -> nth_error (ss_docs w) i = Some d ->
  (dd_kids d = Some l \/ dd_kids d = None /\ ask_reffs rs (ss_calls w) (dd_id d) 1 (dd_ref d) = Ok l) -> listing l refs ->
  (forall calls r, In r refs -> exists reply links, ask_document rs calls (dd_id d) (Some (DRef r)) = Ok reply /\ replies reply links (body r)) ->
  let listed := match dd_kids d with Some _ => [] | None => [CallReffs (dd_id d) 1 (dd_ref d)] end in
  let n := length (ss_docs w) in
  let passage r d' := dd_id d' = dd_id d /\ dd_ref d' = Some (DRef r) /\ dd_body d' = body r in
  let one a r := match r with
    | None => exists w', do_ask dec rs w i a = (w', Ok Nothing) /\ ss_calls w' = ss_calls w ++ listed /\ length (ss_docs w') = n
    | Some r => exists w' d', do_ask dec rs w i a = (w', Ok (ADocument n)) /\
        ss_calls w' = ss_calls w ++ listed ++ [CallDocument (dd_id d) (Some (DRef r))] /\ nth_error (ss_docs w') n = Some d' /\ passage r d'
    end in
  (exists w' d', do_ask dec rs w i AskChildIds = (w', Ok (AReffs l)) /\ ss_calls w' = ss_calls w ++ listed /\
     nth_error (ss_docs w') i = Some d' /\ dd_kids d' = Some l) /\
  one AskFirst (hd_error refs) /\ one AskLast (hd_error (rev refs)) /\
  (exists w' ds, do_ask dec rs w i AskChildren = (w', Ok (ADocuments (seq n (length refs)))) /\
     ss_calls w' = ss_calls w ++ listed ++ map (fun r => CallDocument (dd_id d) (Some (DRef r))) refs /\
     skipn n (ss_docs w') = ds /\ Forall2 passage refs ds).
Proof.
  intros X dec rs w i d l refs body Hd H HK HL HB. cbv zeta.
  assert (CK : exists w1 d1, child_ids rs i d w = (w1, Ok l) /\
     ss_calls w1 = ss_calls w ++ match dd_kids d with Some _ => [] | None => [CallReffs (dd_id d) 1 (dd_ref d)] end /\
     length (ss_docs w1) = length (ss_docs w) /\ nth_error (ss_docs w1) i = Some d1 /\ dd_kids d1 = Some l).
  { unfold child_ids, get_reffs_of. cbn [ref_truthy]. destruct HK as [K|[K A]]; rewrite K.
    - exists w, d. rewrite app_nil_r. auto.
    - rewrite A. eexists. exists (put_kids l d). split; [reflexivity|]. split; [reflexivity|]. split; [rewrite change_length; reflexivity|].
      rewrite change_nth, Nat.eqb_refl. cbn [called ss_docs]. rewrite H. split; reflexivity. }
  destruct CK as (w1 & d1 & E1 & C1 & L1 & N1 & K1).
  assert (END : forall pick (ref : option dref),
     (match ref with None => pick (rs_items l) = None | Some r => In r refs /\ exists x, pick (rs_items l) = Some x /\ member r x end) ->
     match ref with
     | None => exists w', at_end dec rs pick i d w = (w', Ok Nothing) /\ ss_calls w' = ss_calls w ++ match dd_kids d with Some _ => [] | None => [CallReffs (dd_id d) 1 (dd_ref d)] end /\ length (ss_docs w') = length (ss_docs w)
     | Some r => exists w' d', at_end dec rs pick i d w = (w', Ok (ADocument (length (ss_docs w)))) /\
         ss_calls w' = ss_calls w ++ match dd_kids d with Some _ => [] | None => [CallReffs (dd_id d) 1 (dd_ref d)] end ++ [CallDocument (dd_id d) (Some (DRef r))] /\
         nth_error (ss_docs w') (length (ss_docs w)) = Some d' /\ dd_id d' = dd_id d /\ dd_ref d' = Some (DRef r) /\ dd_body d' = body r
     end).
  { intros pick [r|] P; unfold at_end; rewrite E1.
    - destruct P as (I & x & -> & M). rewrite (item_member _ _ M). destruct (opens dec rs Hd i d refs body HB w1 r I) as (d' & E & P). rewrite E, L1.
      eexists. exists d'. split; [reflexivity|]. cbn [ss_calls ss_docs]. split; [rewrite C1, <- app_assoc; reflexivity|].
      split; [rewrite <- L1, nth_error_app2, Nat.sub_diag by lia; reflexivity|exact P].
    - rewrite P. exists w1. auto. }
  unfold do_ask. rewrite H. split; [|split; [|split]].
  - rewrite E1. cbn [bind]. exists w1, d1. auto.
  - assert (P := END (@hd_error _) (hd_error refs)). destruct HL as [|r x refs' items M F]; cbn [hd_error] in *; apply P; [reflexivity|].
    split; [left; reflexivity|]. exists x. auto.
  - assert (HR : Forall2 member (rev refs) (rev (rs_items l))).
    { clear -HL. induction HL as [|r x refs' items M F IH]; [constructor|]. cbn. apply Forall2_app; [exact IH|repeat constructor; exact M]. }
    assert (P := END last_item (hd_error (rev refs))). unfold last_item in P.
    assert (IR : forall r, In r (rev refs) -> In r refs) by (intros r I; apply in_rev; exact I).
    destruct HR as [|r x refs' items M F]; cbn [hd_error] in *; apply P; [reflexivity|].
    split; [apply IR; left; reflexivity|]. exists x. auto.
  - unfold get_children. rewrite E1. destruct (opens_all dec rs Hd i d refs body HB (rs_items l) refs w1 (fun r I => I) HL) as (w' & js & E & C & J & ds & D & F).
    rewrite E. cbn [bind]. rewrite J, L1. exists w', ds. split; [reflexivity|]. split; [rewrite C, C1, <- app_assoc; reflexivity|].
    split; [rewrite D, <- L1, skipn_app, skipn_all, Nat.sub_diag; reflexivity|exact F].
Qed.
Print Assumptions C67_children.

Example C67_children_sample :
  (exists d l, nth_error (ss_docs whole_session) 0 = Some d /\ dd_kids d = None /\
     ask_reffs sample_resolver (ss_calls whole_session) (dd_id d) 1 (dd_ref d) = Ok l /\ listing l (map fst sample_passages)) /\
  snd (do_asks (fun s => s) sample_resolver whole_session [(0, AskChildren); (0, AskFirst); (0, AskLast)]) =
    [Ok (ADocuments [1; 2; 3]); Ok (ADocument 4); Ok (ADocument 5)] /\
  map dd_body (ss_docs (fst (do_asks (fun s => s) sample_resolver whole_session [(0, AskChildren); (0, AskFirst); (0, AskLast)]))) =
    [#"all"; #"one"; #"two"; #"three"; #"one"; #"three"] /\
  forall calls r, In r (map fst sample_passages) ->
    exists reply links body, ask_document sample_resolver calls #"t" (Some (DRef r)) = Ok reply /\ replies reply links body.
Proof.
  split; [|split; [vm_compute; reflexivity|split; [vm_compute; reflexivity|]]].
  - eexists. eexists. split; [reflexivity|]. split; [reflexivity|]. split; [reflexivity|].
    repeat constructor; (eexists; eexists; reflexivity).
  - intros calls r I. apply in_map_iff in I. destruct I as ((r0 & b) & <- & I). apply In_nth_error in I. destruct I as (k & I).
    destruct (sample_publishes calls k r0 b I) as (reply & links & A & R & _). exists reply, links, b. auto.
Qed.

(** Finding: with a single child, which a listing takes apart (see C38), [last] is
    nothing, and the children are the child and the whole text. *)
Theorem C67_single_child_refuted : exists l,
  ask_reffs sample_resolver (ss_calls sample_session) #"t" 1 (Some (DRef (MkDref #"1" None))) = Ok l /\
  rs_items l = make_set [MkDR (JStr #"1") JNull None []] /\
  snd (do_ask (fun s => s) sample_resolver sample_session 0 AskLast) = Ok Nothing /\
  exists w, do_ask (fun s => s) sample_resolver sample_session 0 AskChildren = (w, Ok (ADocuments [1; 2])) /\
    option_map dd_body (nth_error (ss_docs w) 2) = Some #"all".
Proof.
  eexists. split; [reflexivity|]. split; [reflexivity|]. split; [vm_compute; reflexivity|]. eexists. split; [vm_compute; reflexivity|]. reflexivity.
Qed.
Print Assumptions C67_single_child_refuted.

(** Finding: a document without a parent gives the whole text as its parent; the
    whole text, itself. *)
Theorem C67_parent_refuted : exists w d, do_ask (fun s => s) sample_resolver whole_session 0 AskParent = (w, Ok (ADocument 1)) /\
  nth_error (ss_docs w) 1 = Some d /\ dd_ref d = None /\ dd_body d = #"all".
Proof. eexists. eexists. split; [vm_compute; reflexivity|]. repeat split. Qed.
Print Assumptions C67_parent_refuted.
