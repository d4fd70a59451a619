(** The DTS resolver and the collections it loads lazily.

    Models /repo/MyCapytain/resolvers/dts/api_v1.py lines 28-147,
    /repo/MyCapytain/common/utils/dts.py, dict_to_literal of
    /repo/MyCapytain/common/utils/_json_ld.py lines 22-28, and
    /repo/MyCapytain/resources/collections/dts/_base.py and _resolver.py.

    The endpoint is an argument: a function from a request (its address and its
    fields) to the expanded JSON-LD of the reply, or to the exception that
    [raise_for_status] raises.  JSON-LD expansion is pyld's and is not modelled;
    expanding again what is already expanded (a member) changes nothing. *)

From Coq Require Import List NArith ZArith Arith Bool.
From Verif Require Import PyStr PyRe Json TreeModel UrnModel HttpModel.
Import ListNotations.

Definition request := (str * list (str * list str))%type.

(** ** Reading expanded JSON-LD *)

Definition dts_term (s : str) : str := #"https://w3id.org/dts/api#" ++ s.
Definition hydra_term (s : str) : str := #"https://www.w3.org/ns/hydra/core#" ++ s.

(** [d.get(k, default)]. *)
Definition jget (d : json) (k : str) (default : json) : result json :=
  match d with
  | JObj fs => Ok match field k fs with Some v => v | None => default end
  | _ => Err AttributeError
  end.

(** [k in d].  Simplification: [d] is a dictionary. *)
Definition jhas (d : json) (k : str) : result bool :=
  match d with
  | JObj fs => Ok match field k fs with Some _ => true | None => false end
  | _ => Err TypeError
  end.

(** [d.items()]. *)
Definition jitems (d : json) : result (list (str * json)) :=
  match d with JObj fs => Ok fs | _ => Err AttributeError end.

(** [_empty] (api_v1.py line 28) and [[{}]]. *)
Definition empty_value : json := JList [JObj [(#"@value", JNull)]].
Definition empty_object : json := JList [JObj []].

(** [v[0]["@value"]]. *)
Definition first_at_value (v : json) : result json := x <- get_first v ;; get_key x #"@value".

(** Truth of a JSON value. *)
Definition jtruthy (v : json) : bool :=
  match v with
  | JNull => false
  | JBool b => b
  | JInt z => negb (z =? 0)%Z
  | JStr s => match s with [] => false | _ => true end
  | JList l => match l with [] => false | _ => true end
  | JObj l => match l with [] => false | _ => true end
  end.

(** [dict_to_literal] (_json_ld.py lines 22-28): the value and the language. *)
Definition dict_to_literal (d : json) : result (json * json) :=
  v <- get_key d #"@value" ;;
  match v with
  | JInt _ | JBool _ => Ok (v, JNull)
  | _ => l <- jget d #"@language" JNull ;; Ok (v, l)
  end.

(** [parse_metadata] (utils/dts.py lines 11-26): the calls of [metadata.add], in
    order, as (key, value, language). *)
Definition statement := (str * json * json)%type.
Definition parse_group (k : str) (d : json) : result (list statement) :=
  v <- jget d k empty_object ;;
  o <- get_first v ;;
  items <- jitems o ;;
  parts <- mapM (fun kv => vs <- iter_json (snd kv) ;;
                   mapM (fun x => '(a, l) <- dict_to_literal x ;; Ok (fst kv, a, l)) vs) items ;;
  Ok (concat parts).
Definition parse_metadata (d : json) : result (list statement) :=
  a <- parse_group (dts_term #"dublincore") d ;;
  b <- parse_group (dts_term #"extensions") d ;;
  Ok (a ++ b).

(** ** References of a navigation reply (api_v1.py) *)

(** A [DtsReference] (_dts_1.py lines 11-43): its start, its end ([JNull] when
    there is none), the type it was given if any, and what was said of it. *)
Record dreference := MkDR { dr_start : json; dr_end : json; dr_type : option json; dr_about : list statement }.

(** [DtsReference.__new__] (_dts_1.py lines 12-22). *)
Definition make_dreference (a b ty : json) (about : list statement) : dreference :=
  MkDR a b (if jtruthy ty then Some ty else None) about.

(** [_parse_ref] (lines 32-51). *)
Definition parse_ref (d : json) (default_type : json) : result dreference :=
  r <- jhas d (dts_term #"ref") ;;
  s <- jhas d (dts_term #"start") ;;
  e <- jhas d (dts_term #"end") ;;
  '(a, b) <- (if r then v <- get_key d (dts_term #"ref") ;; a <- first_at_value v ;; Ok (a, JNull)
              else if s && e then
                v <- get_key d (dts_term #"start") ;; a <- first_at_value v ;;
                w <- get_key d (dts_term #"end") ;; b <- first_at_value w ;; Ok (a, b)
              else Err EmptyReference) ;;
  c <- jhas d (dts_term #"citeType") ;;
  ty <- (if c then v <- get_key d (dts_term #"citeType") ;; first_at_value v else Ok default_type) ;;
  about <- parse_metadata d ;;
  Ok (make_dreference a b ty about).

(** [_re_page] (line 29; _resolver.py line 12).  Simplification: digits are the
    ten of ASCII. *)
Definition re_page : list item :=
  [one (is_char 112%N); one (is_char 97%N); one (is_char 103%N); one (is_char 101%N); one (is_char 61%N); plus is_digit].

(** [_re_page.findall(s)[0]]: the group of the first match. *)
Definition first_page_number (s : json) : result str :=
  match s with
  | JStr s => match re_findall re_page s with
              | ws :: _ => Ok (last ws [])
              | [] => Err IndexError
              end
  | _ => Err TypeError
  end.

(** [int] of a text of digits. *)
Definition number_of (s : str) : Z :=
  fold_left (fun z c => (10 * z + (Z.of_N c - 48))%Z) s 0%Z.

(** Lines 128-134 (_resolver.py lines 146-152): the number of the next page. *)
Definition next_page_number (data : json) : result (option str) :=
  h <- jhas data (hydra_term #"view") ;;
  if h then
    v <- get_key data (hydra_term #"view") ;;
    v0 <- get_first v ;;
    n <- jhas v0 (hydra_term #"next") ;;
    if n then
      w <- get_key v0 (hydra_term #"next") ;;
      s <- first_at_value w ;;
      p <- first_page_number s ;;
      Ok (Some p)
    else Ok None
  else Ok None.

(** A member of a [DtsReferenceSet]: a reference, or one half of the only
    reference given, which [BaseReferenceSet.__new__] (_base.py lines 358-367)
    takes apart. *)
Inductive set_item := Whole (r : dreference) | Half (v : json).
Definition make_set (refs : list dreference) : list set_item :=
  match refs with
  | [r] => [Half (dr_start r); Half (dr_end r)]
  | _ => map Whole refs
  end.

Record reffs := MkReffs { rs_items : list set_item; rs_level : json; rs_citation : option json }.

Section Navigation.
Variable server : request -> result (list json).
Variables (navigation : route) (text level exclude group : param) (ref : option dts_ref).

(** [HttpDtsResolver.getReffs] (lines 83-147).  [page] is the integer 1 or the
    text found in the last reply; a text is never empty here, and differs from 1.
    [group] is additional_parameters' groupBy, by default the integer 1.  The
    fuel bounds the number of pages. *)
Fixpoint reffs_loop (fuel : nat) (page : option str) (acc : list dreference) : result reffs :=
  match fuel with
  | 0 => Err OutOfFuel
  | S fuel' =>
      reply <- server (get_navigation navigation text level group NoParam exclude
                         (match page with None => NoParam | Some p => StrParam p end) ref) ;;
      match reply with
      | [] => Err AttributeError  (* the message is made from self.id *)
      | data :: _ =>
          lv <- jget data (dts_term #"level") empty_value ;; lv <- first_at_value lv ;;
          ty <- jget data (dts_term #"citeType") empty_value ;; ty <- first_at_value ty ;;
          ms <- jget data (hydra_term #"member") (JList []) ;; ms <- iter_json ms ;;
          refs <- mapM (fun m => parse_ref m ty) ms ;;
          next <- next_page_number data ;;
          match next with
          | Some p => reffs_loop fuel' (Some p) (acc ++ refs)
          | None => Ok (MkReffs (make_set (acc ++ refs)) lv (if jtruthy ty then Some ty else None))
          end
      end
  end.

Definition get_reffs (fuel : nat) : result reffs := reffs_loop fuel None [].

End Navigation.

(** ** Collections *)

(** What [DtsCollection._parse_metadata] (_base.py lines 116-142) reads: labels,
    types, citation, depth, sizes, descriptions, statements.  The citation and
    its depth: the JSON they are ingested from. *)
Record cmeta := MkCMeta {
  cm_labels : list json; cm_types : list json; cm_citation : option citation_set;
  cm_depth : option json; cm_totals : list json; cm_descriptions : list json; cm_about : list statement }.

(** [for x in d[k]: … x["@value"]]. *)
Definition values_of (v : json) : result (list json) :=
  l <- iter_json v ;; mapM (fun x => get_key x #"@value") l.

Definition parse_cmeta (d : json) : result cmeta :=
  t <- get_key d (hydra_term #"title") ;; labels <- values_of t ;;
  t <- get_key d #"@type" ;; types <- iter_json t ;;
  s <- jget d (dts_term #"citeStructure") JNull ;;
  cite <- (if jtruthy s then c <- set_ingest 0 s ;; Ok (Some c) else Ok None) ;;
  s <- jget d (dts_term #"citeDepth") JNull ;;
  depth <- (if jtruthy s then v <- first_at_value s ;; Ok (Some v) else Ok None) ;;
  t <- get_key d (hydra_term #"totalItems") ;; totals <- values_of t ;;
  t <- jget d (hydra_term #"description") (JList []) ;; descr <- values_of t ;;
  about <- parse_metadata d ;;
  Ok (MkCMeta labels types cite depth totals descr about).

(** [size] (_base.py lines 42-47).  Simplification: one integer is given (the
    first counts); another value counts as 0. *)
Definition size_of (m : cmeta) : Z :=
  match cm_totals m with JInt z :: _ => z | _ => 0%Z end.

(** A collection that was parsed: its identifier, its metadata, its members, and
    whether the JSON has a view (that is, pages). *)
Inductive coll := Coll (id : str) (meta : cmeta) (members : list coll) (view : bool).
Definition co_id (c : coll) := let '(Coll i _ _ _) := c in i.
Definition co_meta (c : coll) := let '(Coll _ m _ _) := c in m.
Definition co_members (c : coll) := let '(Coll _ _ l _) := c in l.
Definition co_view (c : coll) := let '(Coll _ _ _ b) := c in b.

(** The test of [parse_member] (_resolver.py lines 207-216): are the members known
    to be all of them. *)
Definition closes (children : bool) (size : Z) (view : bool) (members : list coll) : bool :=
  match members with
  | [] => false
  | _ => negb view || (children && (size =? 0)%Z)
  end.
Definition co_closed (c : coll) : bool := closes true (size_of (co_meta c)) (co_view c) (co_members c).

(** [DtsCollection.parse] with [parse_member] (_base.py lines 71-114 and 148-171), on
    the expanded data.  Simplification: an identifier is a text, and the same before
    expansion and after. *)
Definition as_id (v : json) : result str := match v with JStr s => Ok s | _ => Err TypeError end.
Fixpoint parse_coll (d : json) : result coll :=
  match d with
  | JObj fs =>
      i <- get_key d #"@id" ;; id <- as_id i ;;
      meta <- parse_cmeta d ;;
      kids <- (fix find (l : list (str * json)) : result (list coll) :=
                 match l with
                 | [] => Ok []
                 | (k, v) :: l' =>
                     if str_eqb k (hydra_term #"member") then
                       match v with
                       | JList vs =>
                           (fix go (vs : list json) : result (list coll) :=
                              match vs with
                              | [] => Ok []
                              | x :: vs' => c <- parse_coll x ;; cs <- go vs' ;; Ok (c :: cs)
                              end) vs
                       | _ => Err TypeError
                       end
                     else find l'
                 end) fs ;;
      view <- jhas d (hydra_term #"view") ;;
      Ok (Coll id meta kids view)
  | _ => Err TypeError
  end.

(** [HttpResolverDtsCollection.parse] of a member: [parse_member] (_resolver.py lines
    187-218) calls it with a parameter [metadata_parsed], which is handed on
    (_base.py line 93), so that the call for a member of the member has the parameter
    twice. *)
Definition http_member (d : json) : result coll :=
  match d with
  | JObj fs =>
      i <- get_key d #"@id" ;; id <- as_id i ;;
      meta <- parse_cmeta d ;;
      ms <- jget d (hydra_term #"member") (JList []) ;;
      if jtruthy ms then Err TypeError
      else view <- jhas d (hydra_term #"view") ;; Ok (Coll id meta [] view)
  | _ => Err TypeError
  end.

(** [parse_member] (_resolver.py lines 187-218) of a reply. *)
Definition parse_member (data : json) : result (list coll) :=
  ms <- jget data (hydra_term #"member") (JList []) ;;
  if jtruthy ms then
    match ms with
    | JList l => mapM http_member l
    | _ => Err TypeError
    end
  else Ok [].

(** [HttpResolverDtsCollection.parse] of a reply (_base.py lines 71-114). *)
Definition http_coll (d : json) : result coll :=
  match d with
  | JObj fs =>
      i <- get_key d #"@id" ;; id <- as_id i ;;
      meta <- parse_cmeta d ;;
      kids <- parse_member d ;;
      view <- jhas d (hydra_term #"view") ;;
      Ok (Coll id meta kids view)
  | _ => Err TypeError
  end.

(** ** The lazily loaded collection (_resolver.py lines 68-184)

    [z_kids] is the dictionary and [z_ups] the set that the proxies hold; a
    proxy and the attribute it stands for share them.  Objects have no __eq__,
    so that every object added to the set is a new element.  [z_sent] lists the
    requests made so far. *)
Inductive direction := Children | Parents.
Definition direction_name (d : direction) : str :=
  match d with Children => #"children" | Parents => #"parents" end.

Record lazy := MkLazy {
  z_id : str; z_size : Z;
  z_kids : list (str * coll); z_ups : list coll;
  z_parsed_kids : bool; z_parsed_ups : bool;
  z_last_kids : option Z; z_last_ups : option Z;
  z_sent : list request }.

(** [dict.update] with the members, by identifier. *)
Definition kupdate (cs : list coll) (l : list (str * coll)) : list (str * coll) :=
  fold_left (fun l c => dset (co_id c) c l) cs l.

(** The object that [getMetadata] returns (api_v1.py lines 71-81): nothing is known
    of the parents. *)
Definition open_lazy (c : coll) (sent : list request) : lazy :=
  MkLazy (co_id c) (size_of (co_meta c)) (kupdate (co_members c) []) [] (co_closed c) false None None sent.

(** A member of [collection]: its parents start as the collection it was listed
    by (lines 208-211). *)
Definition member_lazy (collection c : coll) : lazy :=
  MkLazy (co_id c) (size_of (co_meta c)) (kupdate (co_members c) []) [collection] (co_closed c) false None None [].

Section Loading.
(** The endpoint: what it answers may depend on the requests made before. *)
Variable server : list request -> request -> result (list json).
Variable collections : route.

(** One reply received (lines 129-144): the members are added, the page is noted. *)
Definition received (st : lazy) (d : direction) (page : Z) (view : bool) (cs : list coll) : lazy :=
  match d with
  | Children =>
      MkLazy (z_id st) (z_size st) (kupdate cs (z_kids st)) (z_ups st)
        (z_parsed_kids st || closes true (z_size st) view cs) (z_parsed_ups st) (Some page) (z_last_ups st) (z_sent st)
  | Parents =>
      MkLazy (z_id st) (z_size st) (z_kids st) (z_ups st ++ cs)
        (z_parsed_kids st) (z_parsed_ups st || closes false (z_size st) view cs) (z_last_kids st) (Some page) (z_sent st)
  end.
Definition sending (st : lazy) (q : request) : lazy :=
  MkLazy (z_id st) (z_size st) (z_kids st) (z_ups st) (z_parsed_kids st) (z_parsed_ups st)
    (z_last_kids st) (z_last_ups st) (z_sent st ++ [q]).
Definition finished (st : lazy) (d : direction) : lazy :=
  match d with
  | Children => MkLazy (z_id st) (z_size st) (z_kids st) (z_ups st) true (z_parsed_ups st)
                  (z_last_kids st) (z_last_ups st) (z_sent st)
  | Parents => MkLazy (z_id st) (z_size st) (z_kids st) (z_ups st) (z_parsed_kids st) true
                 (z_last_kids st) (z_last_ups st) (z_sent st)
  end.

(** [while page] of [_parse_paginated_members] (lines 114-154): the page 0 ends
    the loop too.  The state is kept when an exception is raised. *)
Fixpoint load_from (fuel : nat) (st : lazy) (d : direction) (page : Z) : lazy * result unit :=
  if (page =? 0)%Z then (finished st d, Ok tt) else
  match fuel with
  | 0 => (st, Err OutOfFuel)
  | S fuel' =>
      let q := get_collection collections (StrParam (z_id st)) (StrParam (direction_name d))
                 (if (1 <? page)%Z then IntParam page else NoParam) in
      let st1 := sending st q in
      match server (z_sent st) q with
      | Err e => (st1, Err e)
      | Ok [] => (st1, Err IndexError)
      | Ok (data :: _) =>
          match (cs <- parse_member data ;; v <- jhas data (hydra_term #"view") ;; Ok (cs, v)) with
          | Err e => (st1, Err e)
          | Ok (cs, v) =>
              let st2 := received st1 d page v cs in
              match next_page_number data with
              | Err e => (st2, Err e)
              | Ok None => (finished st2 d, Ok tt)
              | Ok (Some p) => load_from fuel' st2 d (number_of p)
              end
          end
      end
  end.

(** [_parse_paginated_members] (lines 103-113): it goes on from the last page
    received. *)
Definition load (fuel : nat) (st : lazy) (d : direction) : lazy * result unit :=
  load_from fuel st d
    (match (match d with Children => z_last_kids st | Parents => z_last_ups st end) with
     | None => 1%Z
     | Some p => if (p =? 0)%Z then 1%Z else p
     end).

(** [PaginatedProxy._run] (lines 41-47): both proxies look at the parents' flag. *)
Definition run_proxy (fuel : nat) (st : lazy) (d : direction) : lazy * result unit :=
  if z_parsed_ups st then (st, Ok tt) else load fuel st d.

(** What a caller does with a collection.  The children and the parents are read
    through the properties (lines 156-173), or through the object that a property
    returned earlier, while it was a proxy ([Held…]). *)
Inductive access :=
| ReadKids | HeldKids | GetKid (k : str) | HeldKid (k : str) | ReadUps | HeldUps.

(** What it gets. *)
Inductive got := Kids (l : list (str * coll)) | Kid (c : coll) | Ups (l : list coll).

Definition read_kid (st : lazy) (k : str) : result got :=
  match dget k (z_kids st) with Some c => Ok (Kid c) | None => Err KeyError end.

(** [PaginatedProxy.__iter__] and [__getitem__] (lines 52-64). *)
Definition iter_proxy (fuel : nat) (st : lazy) (d : direction) (out : lazy -> got) : lazy * result got :=
  let '(st', r) := run_proxy fuel st d in (st', _ <- r ;; Ok (out st')).
Definition item_proxy (fuel : nat) (st : lazy) (k : str) : lazy * result got :=
  match dget k (z_kids st) with
  | Some c => (st, Ok (Kid c))
  | None => let '(st', r) := run_proxy fuel st Children in (st', _ <- r ;; read_kid st' k)
  end.

(** The [children] property (lines 156-167): does it give the proxy, and the
    state after. *)
Definition kids_property (st : lazy) : lazy * bool :=
  if z_parsed_kids st then (st, false)
  else if negb (z_size st =? 0)%Z then (st, true)
  else (finished st Children, false).

Definition do_access (fuel : nat) (st : lazy) (a : access) : lazy * result got :=
  match a with
  | ReadKids =>
      let '(st, proxy) := kids_property st in
      if proxy then iter_proxy fuel st Children (fun st => Kids (z_kids st)) else (st, Ok (Kids (z_kids st)))
  | HeldKids => iter_proxy fuel st Children (fun st => Kids (z_kids st))
  | GetKid k =>
      let '(st, proxy) := kids_property st in
      if proxy then item_proxy fuel st k else (st, read_kid st k)
  | HeldKid k => item_proxy fuel st k
  | ReadUps =>
      if z_parsed_ups st then (st, Ok (Ups (z_ups st)))
      else iter_proxy fuel st Parents (fun st => Ups (z_ups st))
  | HeldUps => iter_proxy fuel st Parents (fun st => Ups (z_ups st))
  end.

(** A history of accesses: the final state and what each of them gave. *)
Fixpoint do_all (fuel : nat) (st : lazy) (h : list access) : lazy * list (result got) :=
  match h with
  | [] => (st, [])
  | a :: h' =>
      let '(st1, r) := do_access fuel st a in
      let '(st2, rs) := do_all fuel st1 h' in
      (st2, r :: rs)
  end.

(** [HttpDtsResolver.getMetadata] (api_v1.py lines 71-81). *)
Definition get_metadata (id : str) : result lazy :=
  let q := get_collection collections (StrParam id) (StrParam #"children") NoParam in
  reply <- server [] q ;;
  match reply with
  | [] => Err JsonLdCollectionMissing
  | data :: _ => c <- http_coll data ;; Ok (open_lazy c [q])
  end.

End Loading.
