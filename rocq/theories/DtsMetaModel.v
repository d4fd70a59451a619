(** What DTS collections keep of the replies they were read from.

    Models the metadata side of
    /repo/MyCapytain/resources/collections/dts/_base.py (lines 24-53, 71-142) and
    _resolver.py (lines 70-101, 103-154, 175-218), with getMetadata of
    /repo/MyCapytain/resolvers/dts/api_v1.py (lines 71-81) and parse_metadata of
    /repo/MyCapytain/common/utils/dts.py: where DtsModel keeps what a reply says in a
    record, here it is written into the graph that all collections share, statement
    by statement, and what was written before an exception stays written.

    The endpoint is an argument.  JSON-LD expansion is pyld's and is not modelled. *)

From Coq Require Import List NArith ZArith Arith Bool.
From Verif Require Import PyStr Json TreeModel HttpModel DtsModel MetaModel.
Import ListNotations.

(** An object: its identifier (the node in the graph), its citation set
    (_base.py line 31), the depth assigned to that set if any (_dts_1.py lines
    108-120), and whether its metadata count as complete (_resolver.py line 81). *)
Record dobj := MkDobj {
  d_id : str; d_cite : citation_set; d_depth : option json; d_known : bool }.

(** The process: the graph, the objects made so far, the requests sent so far. *)
Record world := MkWorld { w_graph : graph; w_objs : list dobj; w_sent : list request }.

(** A reply: is its status a success, and its body: [None] when it is no JSON, or
    else whether the JSON is empty, and what expansion makes of it. *)
Record reply := MkReply { p_good : bool; p_body : option (bool * list json) }.

(** Actions: what was done before an exception stays done. *)
Definition act (A : Type) : Type := world -> world * result A.
Definition ret {A} (a : A) : act A := fun w => (w, Ok a).
Definition lift {A} (r : result A) : act A := fun w => (w, r).
Definition andthen {A B} (m : act A) (k : A -> act B) : act B :=
  fun w => let '(w1, r) := m w in match r with Ok a => k a w1 | Err e => (w1, Err e) end.
Notation "x <-- m ;; k" := (andthen m (fun x => k)) (at level 61, m at next level, right associativity).

(** A for loop, and a comprehension. *)
Fixpoint for_each {A} (l : list A) (f : A -> act unit) : act unit :=
  match l with [] => ret tt | a :: l' => _ <-- f a ;; for_each l' f end.
Fixpoint collect {A B} (l : list A) (f : A -> act B) : act (list B) :=
  match l with [] => ret [] | a :: l' => b <-- f a ;; bs <-- collect l' f ;; ret (b :: bs) end.

Definition write (f : graph -> graph) : act unit :=
  fun w => (MkWorld (f (w_graph w)) (w_objs w) (w_sent w), Ok tt).
Definition nobody : dobj := MkDobj [] (MkSet [] None) None true.
Definition obj (w : world) (h : nat) : dobj := nth h (w_objs w) nobody.
Definition change (h : nat) (f : dobj -> dobj) : act unit :=
  fun w => (MkWorld (w_graph w)
              (firstn h (w_objs w) ++ match skipn h (w_objs w) with o :: l => f o :: l | [] => [] end)
              (w_sent w), Ok tt).
Definition node_of (h : nat) : act term := fun w => (w, Ok (URI (d_id (obj w h)))).

(** ** Values

    A JSON value given to rdflib as the value of a statement.  Simplification: pyld
    gives texts, numbers and truth values; integers stand for all numbers, anything
    else is refused. *)
Definition xsd_boolean : str := #"http://www.w3.org/2001/XMLSchema#boolean".
Definition as_value (v : json) : result pvalue :=
  match v with
  | JStr s => Ok (PStr s)
  | JInt z => Ok (PInt z)
  | JBool b => Ok (PTerm (Literal (if b then #"true" else #"false") None (Some xsd_boolean)))
  | _ => Err TypeError
  end.
Definition as_lang (l : json) : result (option str) :=
  match l with JNull => Ok None | JStr s => Ok (Some s) | _ => Err TypeError end.
Definition as_text (v : json) : result str := match v with JStr s => Ok s | _ => Err TypeError end.

Definition a_type : term := URI #"http://www.w3.org/1999/02/22-rdf-syntax-ns#type".
Definition a_model : term := URI (dts_term #"model").
Definition total_items : term := URI (hydra_term #"totalItems").
Definition description : term := URI (hydra_term #"description").

(** [Metadata.add] (metadata.py lines 68-79) with JSON values. *)
Definition add_statement (h : nat) (key : term) (v l : json) : act unit :=
  n <-- node_of h ;; v <-- lift (as_value v) ;; l <-- lift (as_lang l) ;;
  write (fun g => md_add g n key v l).

(** The [type] setter (prototypes/metadata.py lines 81-85). *)
Definition set_type (h : nat) (v : json) : act unit :=
  n <-- node_of h ;; s <-- lift (as_text v) ;; write (fun g => g_set (n, a_type, URI s) g).

(** [parse_metadata] (utils/dts.py lines 11-26), one of its two loops. *)
Definition read_group (h : nat) (k : str) (d : json) : act unit :=
  v <-- lift (jget d k empty_object) ;;
  o <-- lift (get_first v) ;;
  items <-- lift (jitems o) ;;
  for_each items (fun kv =>
    vs <-- lift (iter_json (snd kv)) ;;
    for_each vs (fun x =>
      vl <-- lift (dict_to_literal x) ;; add_statement h (URI (fst kv)) (fst vl) (snd vl))).

(** [DtsCollection._parse_metadata] (_base.py lines 116-139). *)
Definition read_metadata (h : nat) (d : json) : act unit :=
  t <-- lift (get_key d (hydra_term #"title")) ;;
  vs <-- lift (iter_json t) ;;
  _ <-- for_each vs (fun x => v <-- lift (get_key x #"@value") ;; n <-- node_of h ;; v <-- lift (as_value v) ;;
                              write (fun g => set_label g n v None)) ;;
  t <-- lift (get_key d #"@type") ;;
  vs <-- lift (iter_json t) ;;
  _ <-- for_each vs (set_type h) ;;
  s <-- lift (jget d (dts_term #"citeStructure") JNull) ;;
  _ <-- (if jtruthy s then
           c <-- lift (set_ingest 0 s) ;; change h (fun o => MkDobj (d_id o) c None (d_known o))
         else ret tt) ;;
  s <-- lift (jget d (dts_term #"citeDepth") JNull) ;;
  _ <-- (if jtruthy s then
           v <-- lift (first_at_value s) ;; change h (fun o => MkDobj (d_id o) (d_cite o) (Some v) (d_known o))
         else ret tt) ;;
  t <-- lift (get_key d (hydra_term #"totalItems")) ;;
  vs <-- lift (iter_json t) ;;
  _ <-- for_each vs (fun x => v <-- lift (get_key x #"@value") ;; add_statement h total_items v JNull) ;;
  t <-- lift (jget d (hydra_term #"description") (JList [])) ;;
  vs <-- lift (iter_json t) ;;
  _ <-- for_each vs (fun x => v <-- lift (get_key x #"@value") ;; add_statement h description v JNull) ;;
  _ <-- read_group h (dts_term #"dublincore") d ;;
  read_group h (dts_term #"extensions") d.

(** [Collection.__init__] (prototypes/metadata.py lines 50-61) with those of
    [DtsCollection] (_base.py lines 28-32) and [HttpResolverDtsCollection]
    (_resolver.py lines 71-101). *)
Definition new_object (id : str) (known : bool) : act nat :=
  fun w =>
    let g := g_set (URI id, a_type, URI (dts_term #"collection")) (w_graph w) in
    let g := g_set (URI id, a_model, URI (dts_term #"collection")) g in
    (MkWorld g (w_objs w ++ [MkDobj id (MkSet [] None) None known]) (w_sent w), Ok (length (w_objs w))).

(** The first part of [DtsCollection.parse] (_base.py lines 82-92), on the expanded
    data.  Simplification: an identifier is a text, and the same before expansion and
    after. *)
Definition parse_head (known : bool) (d : json) : act nat :=
  i <-- lift (get_key d #"@id") ;; id <-- lift (as_text i) ;;
  h <-- new_object id known ;;
  _ <-- read_metadata h d ;;
  ret h.

(** [parse] of a member: a member of the member is refused (see [http_member]). *)
Definition parse_below (d : json) : act nat :=
  h <-- parse_head false d ;;
  ms <-- lift (jget d (hydra_term #"member") (JList [])) ;;
  if jtruthy ms then lift (Err TypeError) else ret h.

(** [parse_member] (_resolver.py lines 187-218). *)
Definition parse_members (d : json) : act (list nat) :=
  ms <-- lift (jget d (hydra_term #"member") (JList [])) ;;
  if jtruthy ms then
    match ms with JList l => collect l parse_below | _ => lift (Err TypeError) end
  else ret [].

(** [parse] of a reply (_base.py lines 71-95): the object and its members. *)
Definition parse_top (d : json) : act (nat * list nat) :=
  h <-- parse_head true d ;; ms <-- parse_members d ;; ret (h, ms).

Section Endpoint.
(** What the endpoint answers may depend on the requests made before. *)
Variable server : list request -> request -> reply.
Variable collections : route.

Definition send (q : request) : act reply :=
  fun w => (MkWorld (w_graph w) (w_objs w) (w_sent w ++ [q]), Ok (server (w_sent w) q)).
(** [response.raise_for_status()] and [response.json()]. *)
Definition check (p : reply) : act unit := lift (if p_good p then Ok tt else Err HTTPError).
Definition json_of (p : reply) : act (bool * list json) :=
  lift (match p_body p with Some b => Ok b | None => Err ValueError end).

(** [HttpDtsResolver.getMetadata] (api_v1.py lines 71-81). *)
Definition get_metadata (id : option str) : act (nat * list nat) :=
  p <-- send (get_collection collections (match id with Some i => StrParam i | None => NoParam end)
                (StrParam #"children") NoParam) ;;
  _ <-- check p ;; b <-- json_of p ;;
  match snd b with
  | [] => lift (Err JsonLdCollectionMissing)
  | d :: _ => parse_top d
  end.

(** One round of the loop of [_parse_paginated_members] (_resolver.py lines 112-142),
    which every access to members or parents is made of. *)
Definition read_page (h : nat) (dir : direction) (page : Z) : act (list nat) :=
  i <-- (fun w => (w, Ok (d_id (obj w h)))) ;;
  p <-- send (get_collection collections (StrParam i) (StrParam (direction_name dir))
                (if (1 <? page)%Z then IntParam page else NoParam)) ;;
  _ <-- check p ;; b <-- json_of p ;;
  match snd b with
  | [] => lift (Err IndexError)
  | d :: _ => parse_members d
  end.

(** [HttpResolverDtsCollection.retrieve] (_resolver.py lines 175-184). *)
Definition retrieve (h : nat) : act bool :=
  k <-- (fun w => (w, Ok (d_known (obj w h)))) ;;
  if k then ret true else
  i <-- (fun w => (w, Ok (d_id (obj w h)))) ;;
  p <-- send (get_collection collections (StrParam i) (StrParam #"children") NoParam) ;;
  b <-- json_of p ;;
  if fst b then lift (Err UnknownCollection) else
  match snd b with
  | [] => lift (Err IndexError)
  | d :: _ => _ <-- read_metadata h d ;; ret true
  end.
End Endpoint.

(** ** What a collection reports *)

Section Reports.
Variable order : list term -> list term.

(** [int] of a text: a sign and digits.  Simplification: blanks around them and
    underscores between them are refused. *)
Definition int_of (s : str) : result Z :=
  match s with
  | [] => Err ValueError
  | c :: ds =>
      if N.eqb c c_dash then
        match ds with
        | [] => Err ValueError
        | _ => if forallb is_digit ds then Ok (- Z.of_N (N_of_digits ds))%Z else Err ValueError
        end
      else if forallb is_digit s then Ok (Z.of_N (N_of_digits s)) else Err ValueError
  end.

(** [size] (_base.py lines 42-47).  A number is true unless it is 0, a text unless
    it is empty. *)
Definition size (w : world) (h : nat) : result Z :=
  v <- md_get_single order (w_graph w) (URI (d_id (obj w h))) total_items None ;;
  match v with
  | None => Ok 0%Z
  | Some t => match text_of t with [] => Ok 0%Z | s => int_of s end
  end.

(** [type] (prototypes/metadata.py lines 77-79) and [readable] (_base.py lines
    49-53). *)
Definition type_of (w : world) (h : nat) : result term :=
  match g_objects order (URI (d_id (obj w h))) a_type (w_graph w) with
  | t :: _ => Ok t
  | [] => Err IndexError
  end.
Definition readable (w : world) (h : nat) : result bool :=
  t <- type_of w h ;; Ok (term_eqb t (URI (hydra_term #"Resource"))).

(** [get_label] (prototypes/metadata.py lines 125-140) and [metadata.get]
    (common/metadata.py lines 81-94). *)
Definition label_of (w : world) (h : nat) (lang : option str) : result (option term) :=
  get_label order (w_graph w) (URI (d_id (obj w h))) lang.
Definition values (w : world) (h : nat) (key : term) : result (list term) :=
  md_get order (w_graph w) (URI (d_id (obj w h))) key None.
End Reports.

(** [citation] (_base.py lines 34-36) with its depth (_dts_1.py lines 112-116). *)
Definition citation_of (w : world) (h : nat) : citation_set := d_cite (obj w h).
Definition depth_of (w : world) (h : nat) : json :=
  match d_depth (obj w h) with
  | Some v => if jtruthy v then v else JInt (set_depth (d_cite (obj w h)))
  | None => JInt (set_depth (d_cite (obj w h)))
  end.
