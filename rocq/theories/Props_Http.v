(** Properties C40, C48 and C49: requests sent to remote endpoints and navigation
    read from their headers.  The vocabulary is in HttpSpec.v. *)

From Coq Require Import List NArith ZArith Bool Lia Arith.
From Verif Require Import PyStr PyStrFacts RefModel RefSpec RefProofs MetaModel HttpModel HttpSpec HttpProofs.
Import ListNotations.

(** ** C48 *)

(** Each entry is the page of the last link of its relation, read from the second
    field on; it is None only when there is no such link; and a link without such
    a page is a TypeError. *)
Theorem C48_pagination : forall dec links, decodes dec ->
  Forall (fun l => plain_text (fst (snd l)) /\ plain_fields (snd (snd l))) links ->
  match parse_pagination dec (map written_link links) with
  | Ok nav => reads links #"previous" (nav_prev nav) /\ reads links #"next" (nav_next nav) /\ reads links #"last" (nav_last nav) /\
              reads links #"current" (nav_current nav) /\ reads links #"first" (nav_first nav)
  | Err e => e = TypeError /\ exists rel, In rel five /\ pageless links rel
  end.
Proof. exact pagination_spec. Qed.
Print Assumptions C48_pagination.

(** https://x.org/c?id=a&page=2 and =5; no previous page. *)
Definition page_links : list page_link :=
  [(#"next", (#"https://x.org/c", [(#"id", #"a"); (#"page", #"2")]));
   (#"last", (#"https://x.org/c", [(#"id", #"a"); (#"page", #"5")]))].
Example C48_sample :
  decodes (fun s => s) /\
  Forall (fun l => plain_text (fst (snd l)) /\ plain_fields (snd (snd l))) page_links /\
  map written_link page_links = [(#"next", #"https://x.org/c?id=a&page=2"); (#"last", #"https://x.org/c?id=a&page=5")] /\
  parse_pagination (fun s => s) (map written_link page_links) = Ok (MkNav None (Some #"2") (Some #"5") None None).
Proof.
  split; [intros s _ _; reflexivity|]. split; [|split; vm_compute; reflexivity].
  plain.
Qed.

(** Finding: a page that is the first field of the query is not seen. *)
Theorem C48_first_field_refuted : exists links, decodes (fun s => s) /\
  map written_link links = [(#"next", #"https://x.org/c?page=2")] /\
  parse_pagination (fun s => s) (map written_link links) = Err TypeError.
Proof.
  exists [(#"next", (#"https://x.org/c", [(#"page", #"2")]))]. split; [intros s _ _; reflexivity|].
  split; vm_compute; reflexivity.
Qed.
Print Assumptions C48_first_field_refuted.

(** ** C49 *)

(** The identifiers of a document are those named by its links; the parent and the
    last passage are read only when there is a link called parent. *)
Theorem C49_document : forall dec links, decodes dec -> Forall (fun l => plain_link (snd l)) links ->
  match parse_document dec (map (fun l => (fst l, write_doc_link (snd l))) links) with
  | Ok doc =>
      leads links #"next" (doc_next doc) /\ leads links #"prev" (doc_prev doc) /\
      leads links #"first" (doc_first doc) /\ leads links #"collection" (doc_collection doc) /\
      ((exists ps, gives links #"parent" ps /\ filled ps) ->
        leads links #"up" (doc_parent doc) /\ leads links #"last" (doc_last doc)) /\
      ((forall ps, gives links #"parent" ps -> ~ filled ps) -> doc_parent doc = None /\ doc_last doc = None)
  | Err e => e = AttributeError /\ (exists ps, gives links #"parent" ps /\ filled ps) /\
      ((forall ps, ~ gives links #"up" ps) \/ (forall ps, ~ gives links #"last" ps))
  end /\
  ((exists ps, gives links #"parent" ps /\ filled ps) ->
   (forall ps, ~ gives links #"up" ps) \/ (forall ps, ~ gives links #"last" ps) ->
   parse_document dec (map (fun l => (fst l, write_doc_link (snd l))) links) = Err AttributeError).
Proof. exact document_spec. Qed.
Print Assumptions C49_document.

Definition doc_links : list doc_link :=
  [(#"prev", (#"/document/", [(#"id", #"lasciva"); (#"ref", #"1")], #"")); (#"next", (#"/document/", [(#"start", #"3"); (#"end", #"4")], #"#top"));
   (#"up", (#"/document/", [(#"ref", #"book")], #"")); (#"first", (#"/document/", [(#"id", #"lasciva")], #""))].
Example C49_sample :
  Forall (fun l => plain_link (snd l)) doc_links /\
  map (fun l => write_doc_link (snd l)) doc_links =
    [#"/document/?id=lasciva&ref=1"; #"/document/?start=3&end=4#top"; #"/document/?ref=book"; #"/document/?id=lasciva"] /\
  parse_document (fun s => s) (map (fun l => (fst l, write_doc_link (snd l))) doc_links) =
    Ok (MkDoc (Some (MkDref #"3" (Some #"4"))) (Some (MkDref #"1" None)) None None None None).
Proof.
  split; [|split; vm_compute; reflexivity].
  plain; try (left; reflexivity). right. eexists. reflexivity.
Qed.

(** Finding: a parent that the header names with the relation up is not seen. *)
Theorem C49_parent_refuted : exists links ps r, Forall (fun l => plain_link (snd l)) links /\ gives links #"up" ps /\
  points_to ps (Some r) /\
  exists doc, parse_document (fun s => s) (map (fun l => (fst l, write_doc_link (snd l))) links) = Ok doc /\ doc_parent doc = None.
Proof.
  exists doc_links, [(#"ref", #"book")], (MkDref #"book" None). split; [apply C49_sample|].
  split; [exists #"/document/", #"", (firstn 2 doc_links), (skipn 3 doc_links); split; [reflexivity|]; cbn; intros [X|[]]; discriminate|].
  split; [eapply pt_ref; reflexivity|]. eexists. split; vm_compute; reflexivity.
Qed.
Print Assumptions C49_parent_refuted.

(** ** C40 *)

(** Each request to a CTS endpoint carries its name and exactly what was given. *)
Theorem C40_cts_requests : forall i urn inv level context,
  requests (get_capabilities i inv urn) i #"GetCapabilities" [(#"inv", inv); (#"urn", urn)] /\
  requests (get_valid_reff i urn inv level) i #"GetValidReff" [(#"inv", inv); (#"urn", urn); (#"level", level)] /\
  requests (get_first_urn i urn inv) i #"GetFirstUrn" [(#"inv", inv); (#"urn", urn)] /\
  requests (get_prev_next_urn i urn inv) i #"GetPrevNextUrn" [(#"inv", inv); (#"urn", urn)] /\
  requests (get_label i urn inv) i #"GetLabel" [(#"inv", inv); (#"urn", urn)] /\
  requests (get_passage i urn inv context) i #"GetPassage" [(#"inv", inv); (#"urn", urn); (#"context", context)] /\
  requests (get_passage_plus i urn inv context) i #"GetPassagePlus" [(#"inv", inv); (#"urn", urn); (#"context", context)].
Proof.
  intros. assert (C : forall name ps, NoDup (map fst (ps ++ [(#"request", StrParam name)])) -> In #"inv" (map fst ps) ->
    requests (cts_call i (ps ++ [(#"request", StrParam name)])) i name ps) by (intros; apply cts_call_spec; assumption).
  repeat split;
  match goal with
  | |- context [get_capabilities] => apply (C #"GetCapabilities" [(#"inv", inv); (#"urn", urn)])
  | |- context [get_valid_reff] => apply (C #"GetValidReff" [(#"inv", inv); (#"urn", urn); (#"level", level)])
  | |- context [get_first_urn] => apply (C #"GetFirstUrn" [(#"inv", inv); (#"urn", urn)])
  | |- context [get_prev_next_urn] => apply (C #"GetPrevNextUrn" [(#"inv", inv); (#"urn", urn)])
  | |- context [get_label] => apply (C #"GetLabel" [(#"inv", inv); (#"urn", urn)])
  | |- context [get_passage] => apply (C #"GetPassage" [(#"inv", inv); (#"urn", urn); (#"context", context)])
  | |- context [get_passage_plus] => apply (C #"GetPassagePlus" [(#"inv", inv); (#"urn", urn); (#"context", context)])
  end; try nodup_names; left; reflexivity.
Qed.
Print Assumptions C40_cts_requests.

(** The general requests choose the right one of those, for the right passage. *)
Theorem C40_cts_passages : forall i text sub u prevnext metadata, address text sub u ->
  requests (cts_get_textual_node i text sub prevnext metadata) i
    (if prevnext || metadata then #"GetPassagePlus" else #"GetPassage")
    [(#"inv", NoParam); (#"urn", StrParam u); (#"context", NoParam)].
Proof.
  intros i text sub u p m H. unfold cts_get_textual_node. rewrite (sub_urn_address _ _ _ H).
  destruct (p || m); apply C40_cts_requests; exact NoParam.
Qed.
Print Assumptions C40_cts_passages.

Theorem C40_cts_siblings : forall i text s,
  requests (cts_get_siblings i text (Some s)) i #"GetPrevNextUrn"
    [(#"inv", NoParam); (#"urn", StrParam (text ++ #":" ++ match s with SubText t => t | SubRef r => r_str r end))].
Proof. intros i text s. unfold cts_get_siblings. destruct s; apply C40_cts_requests; exact NoParam. Qed.
Print Assumptions C40_cts_siblings.

Theorem C40_cts_metadata : forall i object inv,
  requests (cts_get_metadata i object inv) i #"GetCapabilities" [(#"inv", inv); (#"urn", object)].
Proof. intros. apply C40_cts_requests; exact NoParam. Qed.
Print Assumptions C40_cts_metadata.

(** References are asked at the given level, counted from the subreference when
    there is one; level 0 is sent as it is. *)
Theorem C40_cts_reffs : forall i text level,
  requests_ok (cts_get_reffs i text (Some level) None) i #"GetValidReff"
    [(#"inv", NoParam); (#"urn", StrParam text); (#"level", IntParam level)] /\
  requests_ok (cts_get_reffs i text None None) i #"GetValidReff"
    [(#"inv", NoParam); (#"urn", StrParam text); (#"level", NoParam)] /\
  forall sub u n, address text (Some sub) u -> deep sub n ->
    requests_ok (cts_get_reffs i text (Some level) (Some sub)) i #"GetValidReff"
      [(#"inv", NoParam); (#"urn", StrParam u); (#"level", IntParam (if (level =? 0)%Z then 0 else level + Z.of_nat n))] /\
    cts_get_reffs i text None (Some sub) = Err TypeError.
Proof.
  intros i text level. split; [|split].
  - eexists. split; [reflexivity|]. cbn. rewrite Z.max_id.
    replace (if (level =? 0)%Z then Some level else Some level) with (Some level) by (destruct (level =? 0)%Z; reflexivity).
    apply C40_cts_requests; exact NoParam.
  - eexists. split; [reflexivity|]. apply C40_cts_requests; exact NoParam.
  - intros sub u n Ha Hd. destruct (deep_depth sub n Hd) as [Ht Hn]. pose proof (sub_urn_address _ _ _ Ha) as Hu.
    unfold requests_ok, cts_get_reffs. rewrite Ht, Hu.
    assert (E : match sub with SubText s => r <- cts_reference_string s ;; Ok (ref_depth r) | SubRef r => Ok (ref_depth r) end = Ok n) by (destruct sub; exact Hn).
    rewrite E. cbn [bind]. split; [|reflexivity]. eexists. split; [reflexivity|]. cbv zeta.
    replace (if (level =? 0)%Z then Some level else Some (Z.max (level + Z.of_nat n) level))
      with (Some (if (level =? 0)%Z then 0%Z else (level + Z.of_nat n)%Z)).
    + apply C40_cts_requests; exact NoParam.
    + destruct (level =? 0)%Z eqn:El; [apply Z.eqb_eq in El; congruence|]. rewrite Z.max_l by lia. reflexivity.
Qed.
Print Assumptions C40_cts_reffs.

Example C40_cts_sample :
  address #"urn:cts:latinLit:phi1294.phi002.perseus-lat2" (Some (SubText #"1.pr")) #"urn:cts:latinLit:phi1294.phi002.perseus-lat2:1.pr" /\
  deep (SubText #"1.pr") 2 /\
  cts_get_reffs (Some #"nemo") #"urn:cts:latinLit:phi1294.phi002.perseus-lat2" (Some 1%Z) (Some (SubText #"1.pr")) =
  Ok [(#"urn", #"urn:cts:latinLit:phi1294.phi002.perseus-lat2:1.pr"); (#"level", #"3"); (#"request", #"GetValidReff"); (#"inv", #"nemo")].
Proof.
  split; [apply (ad_text #"urn:cts:latinLit:phi1294.phi002.perseus-lat2" #"1.pr"); discriminate|]. split; [|vm_compute; reflexivity].
  apply (dp_text [#"1"; #"pr"] None); [|exact I]. split; [discriminate|].
  repeat constructor; try discriminate; intros X; cbn in X; repeat (destruct X as [X|X]; [discriminate|]); exact X.
Qed.

(** Each request to a DTS endpoint carries what the route itself carries and
    exactly what was given: the defaults of the collection request are left out. *)
Theorem C40_dts_requests : forall r id nav level group max exclude page ref fs,
  NoDup (map fst (rt_query r)) -> ref_fields ref fs ->
  asks (get_collection r id nav page) r [(#"id", id); (#"nav", nav); (#"page", page)]
    [(#"nav", StrParam #"children"); (#"page", IntParam 1)] /\
  asks (get_navigation r id level group max exclude page ref) r
    ([(#"id", id); (#"level", level); (#"groupBy", group); (#"max", max); (#"exclude", exclude); (#"page", page)] ++ fs) [] /\
  asks (get_document r id ref) r ([(#"id", id)] ++ fs) [].
Proof.
  intros r id nav level group max exclude page ref fs HR HF.
  assert (N : forall k p (ps : list (str * param)), p <> NoParam -> In (k, p) ps -> p = default_of k [] <-> In (k, p) []).
  { intros k p ps Hp _. cbn. split; [intros E; congruence|intros []]. }
  split; [|split].
  - unfold get_collection. apply dts_call_spec; [nodup_names|exact HR|].
    intros k p Hp H. cbn in H. destruct H as [E|[E|[E|[]]]]; inversion E; subst; cbn.
    + split; [congruence|intros [X|[X|[]]]; discriminate].
    + split; [intros ->; auto|intros [X|[X|[]]]; [congruence|discriminate]].
    + split; [intros ->; auto|intros [X|[X|[]]]; [discriminate|congruence]].
  - unfold get_navigation. rewrite (ref_parameters_fields _ _ fs HF).
    + apply dts_call_spec; [|exact HR|intros; eapply N; eassumption]. destruct HF; nodup_names.
    + intros k Hk X. cbn in Hk, X. destruct Hk as [<-|[<-|[<-|[]]]]; repeat (destruct X as [X|X]; [discriminate|]); exact X.
  - unfold get_document. rewrite (ref_parameters_fields _ _ fs HF).
    + apply dts_call_spec; [|exact HR|intros; eapply N; eassumption]. destruct HF; nodup_names.
    + intros k Hk X. cbn in Hk, X. destruct Hk as [<-|[<-|[<-|[]]]]; repeat (destruct X as [X|X]; [discriminate|]); exact X.
Qed.
Print Assumptions C40_dts_requests.

(** The routes of an entry point: the path of the address, on the host of the entry
    point, and the fields of the address, each once with all its values. *)
Lemma alpha_letter : forall c, letter c -> is_alpha c = true.
Proof.
  intros c [H|H]; unfold is_alpha, is_lower, is_upper; [apply orb_true_intro; right|apply orb_true_intro; left];
    apply andb_true_intro; split; apply N.leb_le; lia.
Qed.
Lemma letters_no : forall c s, Forall letter s -> (c < 65 \/ 90 < c < 97 \/ 122 < c)%N -> mem c s = false.
Proof.
  intros c s H D. apply not_mem. intros X. rewrite Forall_forall in H. specialize (H _ X). unfold letter in H. lia.
Qed.
Lemma drop_params_none : forall s, ~ In 59%N s -> drop_params s = s.
Proof.
  induction s as [|c s IH]; intros H; [reflexivity|]. cbn [drop_params]. destruct (mem c_slash (c :: s)).
  - f_equal. apply IH. intros X. apply H. right. exact X.
  - rewrite cut_absent by (apply not_mem; exact H). reflexivity.
Qed.
Lemma from_slash_host : forall h p, ~ In c_slash h -> (p = [] \/ exists q, p = c_slash :: q) -> from_slash (h ++ p) = p.
Proof.
  induction h as [|c h IH]; intros p N H; cbn [app from_slash].
  - destruct H as [->|[q ->]]; reflexivity.
  - destruct (N.eqb_spec c c_slash) as [->|D]; [destruct N; left; reflexivity|]. apply IH; [|exact H]. intros X. apply N. right. exact X.
Qed.
Lemma address_path : forall host path, plain_address host path ->
  (let '(scheme, rest) := split_scheme (write_address host path) in
   let p := drop_host rest in if existsb (str_eqb scheme) uses_params then drop_params p else p) = path.
Proof.
  intros host path [NP H].
  assert (D : forall p, p = path -> forall b : bool, (if b then drop_params p else p) = path)
    by (intros p -> [|]; [apply drop_params_none; exact NP|reflexivity]).
  destruct host as [[scheme h]|]; cbn [write_address].
  - destruct H as (Hn & HL & Hh & HP). unfold split_scheme.
    replace (scheme ++ #"://" ++ h ++ path) with (scheme ++ c_colon :: c_slash :: c_slash :: h ++ path) by reflexivity.
    rewrite cut_app by (apply letters_no; [exact HL|unfold c_colon; lia]). destruct scheme as [|x s]; [congruence|].
    assert (A : is_alpha x = true) by (inversion HL; apply alpha_letter; assumption).
    assert (F : forallb scheme_char (x :: s) = true).
    { apply forallb_forall. intros c Hc. rewrite Forall_forall in HL. unfold scheme_char. rewrite (alpha_letter c (HL c Hc)). reflexivity. }
    rewrite A, F. cbn [andb]. cbv zeta. apply D. unfold drop_host. rewrite !N.eqb_refl. cbn [andb]. apply from_slash_host; assumption.
  - assert (S : split_scheme path = ([], path)).
    { unfold split_scheme. destruct H as [(c & p & -> & _)|[->|[H _]]].
      - cbn [cut]. change (c_slash =? c_colon)%N with false. cbv iota.
        destruct (if (c =? c_colon)%N then ([], Some p) else let '(a, b) := cut c_colon p in (c :: a, b)) as [a [b|]]; reflexivity.
      - reflexivity.
      - rewrite cut_absent by (apply not_mem; exact H). destruct path; reflexivity. }
    rewrite S. cbv zeta. apply D. unfold drop_host. destruct H as [(c & p & -> & Hc)|[->|[_ H]]].
    + rewrite N.eqb_refl. destruct (N.eqb_spec c c_slash); [congruence|reflexivity].
    + reflexivity.
    + destruct path as [|a [|b r]]; try reflexivity. cbn [hd] in H. destruct (N.eqb_spec a c_slash); [congruence|reflexivity].
Qed.
Theorem C40_routes : forall dec urljoin endpoint host path ps frag, decodes dec -> plain_address host path ->
  plain_link (write_address host path, ps, frag) ->
  let r := parse_uri dec urljoin (write_doc_link (write_address host path, ps, frag)) endpoint in
  rt_path r = urljoin endpoint path /\ NoDup (map fst (rt_query r)) /\
  forall k vs, In (k, vs) (rt_query r) <-> vs <> [] /\ vs = values k ps.
Proof.
  intros dec urljoin endpoint host path ps frag Hd HA (H1 & H2 & H3). cbn [fst snd] in *. cbv zeta. unfold parse_uri, write_doc_link. cbn [fst snd rt_path rt_query].
  destruct (query_of_url _ ps frag H1 H2 H3) as [Q B]. unfold url_path. rewrite B, Q. split; [f_equal; apply address_path; exact HA|]. clear B Q.
  split; [apply NoDup_parse_qs|].
  assert (Hf : Forall field_ok ps) by (eapply Forall_impl; [apply plain_field_ok|exact H2]).
  intros k vs. split.
  - intros H. apply In_dget_NoDup in H; [|apply NoDup_parse_qs]. rewrite parse_qs_fields in H by assumption.
    destruct (values k ps); [discriminate|]. injection H as <-. split; [discriminate|reflexivity].
  - intros [Hn ->]. apply dget_In. rewrite parse_qs_fields by assumption. destruct (values k ps); [congruence|reflexivity].
Qed.
Print Assumptions C40_routes.

(** Finding: the host of the address is lost, so that routes on another host are
    asked of the host of the entry point. *)
Theorem C40_host_refuted : forall dec urljoin endpoint, decodes dec ->
  let other := #"https://other.org/api/collections?key=x" in
  parse_uri dec urljoin other endpoint = MkRoute (urljoin endpoint #"/api/collections") [(#"key", [#"x"])].
Proof.
  intros dec urljoin endpoint Hd. cbv zeta. unfold parse_uri. f_equal.
  change (url_query #"https://other.org/api/collections?key=x") with (#"key=x"). unfold parse_qs. cbn.
  assert (K : dec #"key" = #"key") by (apply Hd; intros X; cbn in X; intuition discriminate).
  assert (V : dec #"x" = #"x") by (apply Hd; intros X; cbn in X; intuition discriminate).
  unfold qs_field. cbn [cut]. cbn. change [107%N; 101%N; 121%N] with (#"key"). change [120%N] with (#"x"). rewrite K, V. reflexivity.
Qed.
Print Assumptions C40_host_refuted.

(** Finding: what follows a semicolon in the last part of the address is lost. *)
Theorem C40_semicolon_refuted : forall dec urljoin endpoint scheme, In scheme [#"http"; #"https"] ->
  parse_uri dec urljoin (scheme ++ #"://example.org/api;v=1/collections;lang=la") endpoint =
  MkRoute (urljoin endpoint #"/api;v=1/collections") [].
Proof. intros dec urljoin endpoint scheme [<-|[<-|[]]]; reflexivity. Qed.
Print Assumptions C40_semicolon_refuted.

(** A retriever asks the entry point until it tells the three routes, and then never
    again; what is asked before fails with the error of the entry point, and every
    later question goes to the route of its kind. *)
Theorem C40_entry : forall dec urljoin endpoint reply k data c d n qs,
  (forall j, j < k -> exists e, reply j = Err e) -> reply k = Ok data ->
  dget #"collections" data = Some c -> dget #"documents" data = Some d -> dget #"navigation" data = Some n ->
  let route uri := parse_uri dec urljoin uri endpoint in
  exists routes, ask_all dec urljoin endpoint reply new_retriever qs =
    (MkRetriever routes (Nat.min (length qs) (S k)),
     map (fun j => match reply j with Ok _ => Err TypeError | Err e => Err e end) (seq 0 (Nat.min (length qs) k)) ++
     map (fun q => Ok (request_to (route c) (route d) (route n) q)) (skipn k qs)).
Proof.
  intros dec urljoin endpoint reply k data c d n qs HE HK Hc Hd Hn route.
  set (known := [(#"collections", route c); (#"documents", route d); (#"navigation", route n)]).
  assert (RK : read_routes dec urljoin endpoint data = Ok known) by (unfold read_routes, read_route; rewrite Hc, Hd, Hn; reflexivity).
  assert (After : forall m q, ask_dts dec urljoin endpoint reply (MkRetriever (Some known) m) q =
    (MkRetriever (Some known) m, Ok (request_to (route c) (route d) (route n) q))).
  { intros m q. destruct q; cbn -[get_collection get_navigation get_document]; rewrite <- surjective_pairing; reflexivity. }
  assert (AfterAll : forall l m, ask_all dec urljoin endpoint reply (MkRetriever (Some known) m) l =
    (MkRetriever (Some known) m, map (fun q => Ok (request_to (route c) (route d) (route n) q)) l)).
  { induction l as [|q l IH]; intros m; [reflexivity|]. cbn [ask_all map]. rewrite After, IH. reflexivity. }
  assert (At : forall q, ask_dts dec urljoin endpoint reply (MkRetriever None k) q =
    (MkRetriever (Some known) (S k), Ok (request_to (route c) (route d) (route n) q))).
  { intros q. rewrite <- After. unfold ask_dts, call_route, route_named, routes. cbn [rv_routes rv_asked]. rewrite HK. cbn [bind]. rewrite RK.
    destruct q; reflexivity. }
  assert (Before : forall j e q, reply j = Err e -> ask_dts dec urljoin endpoint reply (MkRetriever None j) q = (MkRetriever None (S j), Err e)).
  { intros j e q E. unfold ask_dts, call_route, route_named, routes. cbn [rv_routes rv_asked]. rewrite E. destruct q; reflexivity. }
  assert (G : forall l j, j <= k -> exists r, ask_all dec urljoin endpoint reply (MkRetriever None j) l =
    (MkRetriever r (j + Nat.min (length l) (S (k - j))),
     map (fun j => match reply j with Ok _ => Err TypeError | Err e => Err e end) (seq j (Nat.min (length l) (k - j))) ++
     map (fun q => Ok (request_to (route c) (route d) (route n) q)) (skipn (k - j) l))).
  { induction l as [|q l IH]; intros j Hj.
    - exists None. cbn [ask_all length Nat.min seq map app]. rewrite skipn_nil, Nat.add_0_r. reflexivity.
    - destruct (Nat.eq_dec j k) as [->|D].
      + exists (Some known). cbn [ask_all]. rewrite At, AfterAll, Nat.sub_diag. cbn [length Nat.min seq map app skipn]. rewrite Nat.min_0_r, Nat.add_1_r. reflexivity.
      + assert (L : j < k) by lia. destruct (HE j L) as [e E]. destruct (IH (S j) L) as [r R]. exists r. cbn [ask_all].
        rewrite (Before j e q E), R. replace (k - j) with (S (k - S j)) by lia. cbn [length Nat.min seq map app skipn]. rewrite E. f_equal. f_equal. lia. }
  destruct (G qs 0 ltac:(lia)) as [r R]. exists r. rewrite !Nat.sub_0_r in R. exact R.
Qed.
Print Assumptions C40_entry.

Example C40_entry_meets :
  let data := [(#"@type", #"EntryPoint"); (#"collections", #"/dts/collections/"); (#"documents", #"/dts/documents/"); (#"navigation", #"/dts/navigation?key=x")] in
  let reply := fun j => match j with 0 => Err HTTPError | _ => Ok data end in
  let questions := [AskDocument (StrParam #"t") None; AskDocument (StrParam #"t") None; AskNavigation (StrParam #"t") (IntParam 1) NoParam NoParam NoParam NoParam None] in
  exists routes, ask_all (fun s => s) (fun a b => a ++ b) #"http://x.org" reply new_retriever questions =
    (MkRetriever routes 2,
     [Err HTTPError; Ok (#"http://x.org/dts/documents/", [(#"id", [#"t"])]);
      Ok (#"http://x.org/dts/navigation", [(#"id", [#"t"]); (#"level", [#"1"]); (#"key", [#"x"])])]) /\
  plain_address (Some (#"https", #"x.org")) #"/dts/documents/" /\ plain_address None #"/dts/documents/" /\ plain_address None #"documents".
Proof.
  cbv zeta. eexists. split; [vm_compute; reflexivity|].
  assert (N : forall c s, mem c s = false -> ~ In c s) by (intros c s H X; apply mem_In in X; congruence).
  split; [|split].
  - split; [apply N; reflexivity|]. split; [discriminate|]. split; [apply Forall_forall; intros c Hc; right; cbn in Hc; repeat (destruct Hc as [<-|Hc]; [lia|]); destruct Hc|].
    split; [apply N; reflexivity|]. right. eexists. reflexivity.
  - split; [apply N; reflexivity|]. left. eexists _, _. split; [reflexivity|]. discriminate.
  - split; [apply N; reflexivity|]. right. right. split; [apply N; reflexivity|]. discriminate.
Qed.

Example C40_dts_sample :
  ref_fields (Some (DRef (MkDref #"1" (Some #"3")))) [(#"start", StrParam #"1"); (#"end", StrParam #"3")] /\
  parse_uri (fun s => s) (fun a b => a ++ b) #"/navigation?key=x" #"http://x.org" = MkRoute #"http://x.org/navigation" [(#"key", [#"x"])] /\
  get_navigation (MkRoute #"http://x.org/navigation" [(#"key", [#"x"])]) (StrParam #"t") (IntParam 2) NoParam NoParam NoParam NoParam (Some (DRef (MkDref #"1" (Some #"3")))) =
    (#"http://x.org/navigation", [(#"id", [#"t"]); (#"level", [#"2"]); (#"start", [#"1"]); (#"end", [#"3"]); (#"key", [#"x"])]) /\
  get_collection (MkRoute #"http://x.org/collections" []) (StrParam #"t") (StrParam #"children") (IntParam 1) =
    (#"http://x.org/collections", [(#"id", [#"t"])]).
Proof. split; [apply rf_range; discriminate|]. repeat split; vm_compute; reflexivity. Qed.

(** Finding: a field of the route's address wins over the given parameter, so that
    another collection is asked. *)
Theorem C40_given_refuted : exists r id, NoDup (map fst (rt_query r)) /\
  forall v, In (#"id", v) (snd (get_collection r (StrParam id) NoParam NoParam)) -> v <> [id].
Proof.
  exists (MkRoute #"/collections" [(#"id", [#"root"])]), #"text". split; [nodup_names|].
  intros v. cbn. intros [E|[]]. inversion E. discriminate.
Qed.
Print Assumptions C40_given_refuted.
