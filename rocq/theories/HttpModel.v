(** Requests sent to remote endpoints and navigation read from their headers.

    Models:
    - /repo/MyCapytain/common/utils/_http.py (all);
    - /repo/MyCapytain/resources/texts/remote/dts/_resolver_v1.py, lines 71-108;
    - /repo/MyCapytain/retrievers/cts5.py, lines 20-238;
    - /repo/MyCapytain/retrievers/dts/__init__.py, lines 22-182.

    Library code: [urllib.parse.parse_qs] and the query part of [urlparse] are
    written out below (percent decoding is the argument [dec]); the link list that
    [link_header.parse] returns is an argument; [requests.get] is the request it is
    given.  Replies whose status is an error and
    the headers sent are left out. *)

From Coq Require Import List NArith ZArith Bool.
From Verif Require Import PyStr RefModel MetaModel.
Import ListNotations.

(** ** Query strings (urllib.parse) *)

(** [s.split(c, 1)]: what comes before the first [c], and after it. *)
Fixpoint cut (c : char) (s : str) : str * option str :=
  match s with
  | [] => ([], None)
  | x :: s' => if (x =? c)%N then ([], Some s') else let '(a, b) := cut c s' in (x :: a, b)
  end.

(** [urlparse(s).query].  Simplified: no line break or tab in the URL. *)
Definition url_query (s : str) : str :=
  match snd (cut c_qmark (fst (cut c_hash s))) with Some q => q | None => [] end.

(** [urlparse(s)] without query and fragment. *)
Definition url_before (s : str) : str := fst (cut c_qmark (fst (cut c_hash s))).

(** [urlparse(s).path] (Python 3.11).  Simplified: no blank before the URL, no line
    break, tab or bracket in it.  The scheme: what comes before the first colon, if it
    begins with a letter and has only letters, digits and the signs + - and dot. *)
Definition scheme_char (c : char) : bool := is_alpha c || is_digit c || mem c #"+-.".
Definition split_scheme (s : str) : str * str :=
  match cut c_colon s with
  | (x :: a, Some rest) => if is_alpha x && forallb scheme_char (x :: a) then (map lower_char (x :: a), rest) else ([], s)
  | _ => ([], s)
  end.
(** The host, after two slashes and up to the next one. *)
Fixpoint from_slash (s : str) : str :=
  match s with [] => [] | c :: s' => if (c =? c_slash)%N then s else from_slash s' end.
Definition drop_host (s : str) : str :=
  match s with
  | a :: b :: r => if (a =? c_slash)%N && (b =? c_slash)%N then from_slash r else s
  | _ => s
  end.
(** The parameters: what follows a semicolon after the last slash, for some schemes. *)
Definition uses_params : list str :=
  [[]; #"ftp"; #"hdl"; #"prospero"; #"http"; #"imap"; #"https"; #"shttp"; #"rtsp"; #"rtsps"; #"rtspu"; #"sip"; #"sips"; #"mms"; #"sftp"; #"tel"].
Fixpoint drop_params (s : str) : str :=
  match s with
  | [] => []
  | c :: s' => if mem c_slash s then c :: drop_params s' else fst (cut 59%N s)
  end.
Definition url_path (s : str) : str :=
  let '(scheme, rest) := split_scheme (url_before s) in
  let p := drop_host rest in
  if existsb (str_eqb scheme) uses_params then drop_params p else p.

(** One field of [parse_qsl]: blank values and fields without = are dropped. *)
Definition qs_field (dec : str -> str) (f : str) : option (str * str) :=
  match cut c_equal f with
  | (n, Some v) => if truthy v then Some (dec n, dec v) else None
  | (_, None) => None
  end.

Fixpoint qs_fields (dec : str -> str) (l : list str) : list (str * str) :=
  match l with
  | [] => []
  | f :: l' => match qs_field dec f with Some p => p :: qs_fields dec l' | None => qs_fields dec l' end
  end.

Definition qs_add (d : list (str * list str)) (nv : str * str) : list (str * list str) :=
  match dget (fst nv) d with
  | Some vs => dset (fst nv) (vs ++ [snd nv]) d
  | None => dset (fst nv) [snd nv] d
  end.

(** [parse_qs(qs)]. *)
Definition parse_qs (dec : str -> str) (qs : str) : list (str * list str) :=
  fold_left qs_add (qs_fields dec (split c_amp qs)) [].

(** ** _http.py *)

(** A link of a Link header: its relation and its target. *)
Definition link := (str * str)%type.

Record navigation := MkNav {
  nav_prev : option str; nav_next : option str; nav_last : option str;
  nav_current : option str; nav_first : option str }.

(** A dictionary comprehension over the links (lines 18-21 here, lines 90-94 of
    _resolver_v1.py): the last link of a relation wins. *)
Definition link_dict {A} (f : str -> A) (links : list link) : list (str * A) :=
  fold_left (fun d l => dset (fst l) (f (snd l)) d) links [].

(** [links.get(rel, [None])[0]] (lines 22-28): the value of a link without the
    parameter is None, which has no items. *)
Definition first_page (rel : str) (d : list (str * option (list str))) : result (option str) :=
  match dget rel d with
  | None => Ok None
  | Some None => Err TypeError
  | Some (Some []) => Err IndexError
  | Some (Some (v :: _)) => Ok (Some v)
  end.

(** [parse_pagination] (lines 10-28). *)
Definition parse_pagination (dec : str -> str) (links : list link) : result navigation :=
  let d := link_dict (fun href => dget #"page" (parse_qs dec href)) links in
  p <- first_page #"previous" d ;;
  n <- first_page #"next" d ;;
  l <- first_page #"last" d ;;
  c <- first_page #"current" d ;;
  f <- first_page #"first" d ;;
  Ok (MkNav p n l c f).

(** [parse_uri] (lines 31-46); [urljoin] is an argument. *)
Record route := MkRoute { rt_path : str; rt_query : list (str * list str) }.
Definition parse_uri (dec : str -> str) (urljoin : str -> str -> str) (uri endpoint : str) : route :=
  MkRoute (urljoin endpoint (url_path uri)) (parse_qs dec (url_query uri)).

(** ** Documents of a DTS endpoint (_resolver_v1.py) *)

(** A [DtsReference]: its start and, for a range, its end. *)
Record dref := MkDref { d_start : str; d_end : option str }.

(** [.get(k, [None])[0]]. *)
Definition first_value (k : str) (d : list (str * list str)) : result (option str) :=
  match dget k d with
  | None => Ok None
  | Some [] => Err IndexError
  | Some (v :: _) => Ok (Some v)
  end.

(** [_dict_to_ref] (lines 71-79). *)
Definition dict_to_ref (d : option (list (str * list str))) : result (option dref) :=
  match d with
  | None => Err AttributeError
  | Some d =>
    r <- first_value #"ref" d ;;
    if truthy_opt r then Ok (match r with Some r => Some (MkDref r None) | None => None end) else
    s <- first_value #"start" d ;;
    e <- first_value #"end" d ;;
    match s, e with
    | Some s, Some e => if truthy s && truthy e then Ok (Some (MkDref s (Some e))) else Ok None
    | _, _ => Ok None
    end
  end.

(** What a caller reads: [nextId], [prevId], [parentId], and the reference that
    stands for the collection.  [_first_id] and [_last_id] are written here. *)
Record document_ids := MkDoc {
  doc_next : option dref; doc_prev : option dref; doc_parent : option dref;
  doc_first : option dref; doc_last : option dref; doc_collection : option dref }.

Definition nonempty {A} (d : option (list A)) : bool :=
  match d with Some (_ :: _) => true | _ => false end.

Definition ref_if (gate target : option (list (str * list str))) : result (option dref) :=
  if nonempty gate then dict_to_ref target else Ok None.

(** [DtsResolverDocument.parse] (lines 81-108), headers only. *)
Definition parse_document (dec : str -> str) (links : list link) : result document_ids :=
  let d := link_dict (fun href => parse_qs dec (url_query href)) links in
  n <- ref_if (dget #"next" d) (dget #"next" d) ;;
  p <- ref_if (dget #"prev" d) (dget #"prev" d) ;;
  u <- ref_if (dget #"parent" d) (dget #"up" d) ;;
  f <- ref_if (dget #"first" d) (dget #"first" d) ;;
  l <- ref_if (dget #"parent" d) (dget #"last" d) ;;
  c <- ref_if (dget #"collection" d) (dget #"collection" d) ;;
  Ok (MkDoc n p u f l c).

(** ** CTS endpoints (cts5.py) *)

(** A parameter given to a retriever. *)
Inductive param := NoParam | StrParam (s : str) | IntParam (z : Z).

Definition param_str (p : param) : option str :=
  match p with NoParam => None | StrParam s => Some s | IntParam z => Some (str_of_Z z) end.

(** The parameters of a request that are not None, as text. *)
Fixpoint given (ps : list (str * param)) : list (str * str) :=
  match ps with
  | [] => []
  | (k, p) :: ps' => match param_str p with Some s => (k, s) :: given ps' | None => given ps' end
  end.

(** [HttpCtsRetriever.call] (lines 40-58): the parameters sent to the endpoint. *)
Definition cts_call (inventory : option str) (ps : list (str * param)) : list (str * str) :=
  let sent := given ps in
  match inventory with
  | None => sent
  | Some i => match dget #"inv" sent with None => dset #"inv" i sent | Some _ => sent end
  end.

(** Lines 60-173: one method a request. *)
Definition get_capabilities (i : option str) (inv urn : param) : list (str * str) :=
  cts_call i [(#"inv", inv); (#"urn", urn); (#"request", StrParam #"GetCapabilities")].
Definition get_valid_reff (i : option str) (urn inv level : param) : list (str * str) :=
  cts_call i [(#"inv", inv); (#"urn", urn); (#"level", level); (#"request", StrParam #"GetValidReff")].
Definition get_first_urn (i : option str) (urn inv : param) : list (str * str) :=
  cts_call i [(#"inv", inv); (#"urn", urn); (#"request", StrParam #"GetFirstUrn")].
Definition get_prev_next_urn (i : option str) (urn inv : param) : list (str * str) :=
  cts_call i [(#"inv", inv); (#"urn", urn); (#"request", StrParam #"GetPrevNextUrn")].
Definition get_label (i : option str) (urn inv : param) : list (str * str) :=
  cts_call i [(#"inv", inv); (#"urn", urn); (#"request", StrParam #"GetLabel")].
Definition get_passage (i : option str) (urn inv context : param) : list (str * str) :=
  cts_call i [(#"inv", inv); (#"urn", urn); (#"context", context); (#"request", StrParam #"GetPassage")].
Definition get_passage_plus (i : option str) (urn inv context : param) : list (str * str) :=
  cts_call i [(#"inv", inv); (#"urn", urn); (#"context", context); (#"request", StrParam #"GetPassagePlus")].

(** A subreference as it is given: a text or a [CtsReference]. *)
Inductive subref := SubText (s : str) | SubRef (r : ref).
Definition sub_str (s : subref) : str := match s with SubText s => s | SubRef r => r_str r end.
Definition sub_truthy (s : option subref) : bool :=
  match s with Some (SubText s) => truthy s | Some (SubRef _) => true | None => false end.

(** [_.format] of an identifier and a reference separated by a colon. *)
Definition colon (a b : str) : str := a ++ c_colon :: b.
Definition sub_urn (text : str) (sub : option subref) : str :=
  match sub with
  | Some s => if sub_truthy sub then colon text (sub_str s) else text
  | None => text
  end.

(** [getMetadata] (lines 179-187); the inventory filter is called [inventory]. *)
Definition cts_get_metadata (i : option str) (object inv : param) : list (str * str) :=
  get_capabilities i inv object.
(** [getTextualNode] (lines 189-204). *)
Definition cts_get_textual_node (i : option str) (text : str) (sub : option subref) (prevnext metadata : bool) : list (str * str) :=
  let urn := StrParam (sub_urn text sub) in
  if prevnext || metadata then get_passage_plus i urn NoParam NoParam else get_passage i urn NoParam NoParam.
(** [getSiblings] (lines 206-214): the text of None is its name. *)
Definition cts_get_siblings (i : option str) (text : str) (sub : option subref) : list (str * str) :=
  get_prev_next_urn i (StrParam (colon text (match sub with Some s => sub_str s | None => #"None" end))) NoParam.
(** [getReffs] (lines 216-238).  [None + int] is a TypeError. *)
Definition cts_get_reffs (i : option str) (text : str) (level : option Z) (sub : option subref) : result (list (str * str)) :=
  let urn := StrParam (sub_urn text sub) in
  depth <- (if sub_truthy sub then
              d <- match sub with
                   | Some (SubRef r) => Ok (ref_depth r)
                   | Some (SubText s) => r <- cts_reference_string s ;; Ok (ref_depth r)
                   | None => Ok 0
                   end ;;
              match level with Some l => Ok (Some (l + Z.of_nat d)%Z) | None => Err TypeError end
            else Ok level) ;;
  let level' := match level, depth with
                | Some l, Some d => if (l =? 0)%Z then Some l else Some (Z.max d l)
                | _, _ => level
                end in
  Ok (get_valid_reff i urn NoParam (match level' with Some l => IntParam l | None => NoParam end)).

(** ** DTS endpoints (retrievers/dts) *)

(** Python's [!=] between the kinds of parameter. *)
Definition param_eqb (a b : param) : bool :=
  match a, b with
  | NoParam, NoParam => true
  | StrParam a, StrParam b => str_eqb a b
  | IntParam a, IntParam b => (a =? b)%Z
  | _, _ => false
  end.

Definition default_of (k : str) (defaults : list (str * param)) : param :=
  match dget k defaults with Some p => p | None => NoParam end.

Fixpoint kept (defaults ps : list (str * param)) : list (str * param) :=
  match ps with
  | [] => []
  | (k, p) :: ps' =>
      match p with
      | NoParam => kept defaults ps'
      | _ => if param_eqb p (default_of k defaults) then kept defaults ps' else (k, p) :: kept defaults ps'
      end
  end.

(** [dict.update]. *)
Definition dupdate {A} (d e : list (str * A)) : list (str * A) :=
  fold_left (fun d kv => dset (fst kv) (snd kv) d) e d.

(** [HttpDtsRetriever.call] (lines 37-73): the target and the parameters sent.
    A text parameter is a list of one value. *)
Definition dts_call (r : route) (ps defaults : list (str * param)) : str * list (str * list str) :=
  (rt_path r, dupdate (map (fun kv => (fst kv, [snd kv])) (given (kept defaults ps))) (rt_query r)).

(** [_parse_ref_parameters] (lines 22-29). *)
Inductive dts_ref := DRef (r : dref) | DText (s : str).
Definition ref_parameters (ps : list (str * param)) (r : option dts_ref) : list (str * param) :=
  match r with
  | Some (DRef (MkDref s e)) =>
      match e with
      | Some (c :: e') => dset #"end" (StrParam (c :: e')) (dset #"start" (StrParam s) ps)
      | _ => dset #"ref" (StrParam s) ps
      end
  | Some (DText s) => if truthy s then dset #"ref" (StrParam s) ps else ps
  | None => ps
  end.

(** [get_collection] (lines 105-126), [get_navigation] (lines 128-156) and
    [get_document] (lines 158-182). *)
Definition get_collection (r : route) (id nav page : param) : str * list (str * list str) :=
  dts_call r [(#"id", id); (#"nav", nav); (#"page", page)]
    [(#"id", NoParam); (#"nav", StrParam #"children"); (#"page", IntParam 1)].
Definition get_navigation (r : route) (id level group max exclude page : param) (ref : option dts_ref) : str * list (str * list str) :=
  dts_call r (ref_parameters [(#"id", id); (#"level", level); (#"groupBy", group); (#"max", max);
                              (#"exclude", exclude); (#"page", page)] ref) [].
Definition get_document (r : route) (id : param) (ref : option dts_ref) : str * list (str * list str) :=
  dts_call r (ref_parameters [(#"id", id)] ref) [].

(** ** The retriever and its routes

    [HttpDtsRetriever.routes] (lines 75-103): the entry point is asked unless its
    routes are known.  Its replies are given in order: an exception (a status that is
    an error, a reply that is no JSON) or the fields of the object; [rv_asked] counts
    the requests to it. *)
Record retriever := MkRetriever { rv_routes : option (list (str * route)); rv_asked : nat }.
Definition new_retriever : retriever := MkRetriever None 0.

Definition read_route (dec : str -> str) (urljoin : str -> str -> str) (endpoint : str) (data : list (str * str)) (name : str)
  : result (str * route) :=
  match dget name data with
  | Some uri => Ok (name, parse_uri dec urljoin uri endpoint)
  | None => Err KeyError
  end.
Definition read_routes (dec : str -> str) (urljoin : str -> str -> str) (endpoint : str) (data : list (str * str))
  : result (list (str * route)) :=
  c <- read_route dec urljoin endpoint data #"collections" ;;
  d <- read_route dec urljoin endpoint data #"documents" ;;
  n <- read_route dec urljoin endpoint data #"navigation" ;;
  Ok [c; d; n].

(** The three requests of a caller. *)
Inductive question :=
| AskCollection (id nav page : param)
| AskNavigation (id level group max exclude page : param) (ref : option dts_ref)
| AskDocument (id : param) (ref : option dts_ref).

Section Retriever.
Variable dec : str -> str.
Variable urljoin : str -> str -> str.
Variable endpoint : str.
Variable reply : nat -> result (list (str * str)).

Definition routes (v : retriever) : retriever * result (list (str * route)) :=
  match rv_routes v with
  | Some d => (v, Ok d)
  | None =>
      let v1 := MkRetriever None (S (rv_asked v)) in
      match (data <- reply (rv_asked v) ;; read_routes dec urljoin endpoint data) with
      | Ok d => (MkRetriever (Some d) (rv_asked v1), Ok d)
      | Err e => (v1, Err e)
      end
  end.
(** [self.routes[name]]. *)
Definition route_named (v : retriever) (name : str) : retriever * result route :=
  let '(v1, r) := routes v in
  (v1, d <- r ;; match dget name d with Some q => Ok q | None => Err KeyError end).

(** [call] (lines 37-73) takes the routes twice: for the parameters, and for the
    path. *)
Definition call_route (v : retriever) (name : str) (f : route -> str * list (str * list str))
  : retriever * result (str * list (str * list str)) :=
  let '(v1, r1) := route_named v name in
  match r1 with
  | Err e => (v1, Err e)
  | Ok q1 =>
      let '(v2, r2) := route_named v1 name in
      (v2, q2 <- r2 ;; Ok (fst (f q2), snd (f q1)))
  end.
Definition ask_dts (v : retriever) (q : question) : retriever * result (str * list (str * list str)) :=
  match q with
  | AskCollection id nav page => call_route v #"collections" (fun r => get_collection r id nav page)
  | AskNavigation id level group max exclude page ref =>
      call_route v #"navigation" (fun r => get_navigation r id level group max exclude page ref)
  | AskDocument id ref => call_route v #"documents" (fun r => get_document r id ref)
  end.
Fixpoint ask_all (v : retriever) (qs : list question) : retriever * list (result (str * list (str * list str))) :=
  match qs with
  | [] => (v, [])
  | q :: qs' => let '(v1, a) := ask_dts v q in let '(v2, l) := ask_all v1 qs' in (v2, a :: l)
  end.
End Retriever.
