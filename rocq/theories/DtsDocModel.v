(** Documents of a DTS resolver, and how one goes from one to another.

    Models /repo/MyCapytain/resources/texts/remote/dts/_resolver_v1.py lines 17-112,
    what it inherits from InteractiveTextualNode
    (/repo/MyCapytain/resources/prototypes/text.py lines 278-355), and getTextualNode
    of /repo/MyCapytain/resolvers/dts/api_v1.py lines 149-174.

    The documents created so far are a list; a document is denoted by its
    position. *)

From Coq Require Import List NArith ZArith Arith Bool.
From Verif Require Import PyStr Json TreeModel HttpModel DtsModel.
Import ListNotations.

(** ** The resolver

    [X] stands for parsed XML.  What a resolver answers may depend on what it was
    asked before. *)
Inductive call :=
| CallDocument (id : str) (r : option dts_ref)
| CallCollection (id : str)
| CallReffs (id : str) (level : Z) (r : option dts_ref).

Record resolver (X : Type) := MkResolver {
  ask_document : list call -> str -> option dts_ref -> result (list link * X);
  ask_collection : list call -> str -> result coll;
  ask_reffs : list call -> str -> Z -> option dts_ref -> result reffs }.
Arguments MkResolver {X}.
Arguments ask_document {X}.
Arguments ask_collection {X}.
Arguments ask_reffs {X}.

(** [HttpDtsResolver] (api_v1.py lines 71-174) for an endpoint: [documents] and
    [server] are what it replies, exceptions of [raise_for_status] and of the XML
    parser included.  The fuel is that of [get_reffs]. *)
Definition http_resolver {X} (documents : request -> result (list link * X)) (server : request -> result (list json))
  (to_documents to_collections to_navigation : route) (fuel : nat) : resolver X :=
  MkResolver
    (fun _ id r => documents (get_document to_documents (StrParam id) r))
    (fun _ id =>
       reply <- server (get_collection to_collections (StrParam id) (StrParam #"children") NoParam) ;;
       match reply with [] => Err JsonLdCollectionMissing | data :: _ => http_coll data end)
    (fun _ id level r => get_reffs server to_navigation (StrParam id) (IntParam level) NoParam (IntParam 1) r fuel).

(** ** Documents *)

(** What [_collection] holds: a collection, or the reference that a link named
    collection is read as. *)
Inductive holder := HColl (c : coll) | HRef (r : dref).

Record document (X : Type) := MkDocument {
  dd_id : str; dd_ref : option dts_ref; dd_body : X;
  dd_prev : option dref; dd_next : option dref; dd_parent : option dref;
  dd_coll : option holder; dd_depth : option json; dd_kids : option reffs }.
Arguments MkDocument {X}.
Arguments dd_id {X}.
Arguments dd_ref {X}.
Arguments dd_body {X}.
Arguments dd_prev {X}.
Arguments dd_next {X}.
Arguments dd_parent {X}.
Arguments dd_coll {X}.
Arguments dd_depth {X}.
Arguments dd_kids {X}.

(** The calls made and the documents created so far. *)
Record session (X : Type) := MkSession { ss_calls : list call; ss_docs : list (document X) }.
Arguments MkSession {X}.
Arguments ss_calls {X}.
Arguments ss_docs {X}.

Section Documents.
Context {X : Type}.
Variable dec : str -> str.
Variable rs : resolver X.

Definition called (c : call) (w : session X) : session X := MkSession (ss_calls w ++ [c]) (ss_docs w).
Definition change (i : nat) (f : document X -> document X) (w : session X) : session X :=
  MkSession (ss_calls w) (map (fun jd => if Nat.eqb (fst jd) i then f (snd jd) else snd jd) (combine (seq 0 (length (ss_docs w))) (ss_docs w))).
Definition put_coll (h : option holder) (d : document X) : document X :=
  MkDocument (dd_id d) (dd_ref d) (dd_body d) (dd_prev d) (dd_next d) (dd_parent d) h (dd_depth d) (dd_kids d).
Definition put_depth (v : json) (d : document X) : document X :=
  MkDocument (dd_id d) (dd_ref d) (dd_body d) (dd_prev d) (dd_next d) (dd_parent d) (dd_coll d) (Some v) (dd_kids d).
Definition put_kids (l : reffs) (d : document X) : document X :=
  MkDocument (dd_id d) (dd_ref d) (dd_body d) (dd_prev d) (dd_next d) (dd_parent d) (dd_coll d) (dd_depth d) (Some l).

(** [DtsResolverDocument.parse] (lines 81-108) of a reply. *)
Definition make_document (id : str) (r : option dts_ref) (reply : list link * X) : result (document X) :=
  ids <- parse_document dec (fst reply) ;;
  Ok (MkDocument id r (snd reply) (doc_prev ids) (doc_next ids) (doc_parent ids) (option_map HRef (doc_collection ids)) None None).

(** [HttpDtsResolver.getTextualNode]. *)
Definition open_document (id : str) (r : option dts_ref) (w : session X) : session X * result nat :=
  let w1 := called (CallDocument id r) w in
  match reply <- ask_document rs (ss_calls w) id r ;; make_document id r reply with
  | Err e => (w1, Err e)
  | Ok d => (MkSession (ss_calls w1) (ss_docs w1 ++ [d]), Ok (length (ss_docs w1)))
  end.

(** What can be asked of a document, and what it gives: documents by their
    position. *)
Inductive ask :=
| AskNode (r : option dts_ref) | AskPrev | AskNext | AskParent | AskFirst | AskLast
| AskChildren | AskChildIds | AskReffs (level : Z) (r : option dts_ref) | AskCollection | AskDepth | AskMetadata.
Inductive answer :=
| Nothing | ADocument (i : nat) | AReffs (l : reffs) | ACollection (h : holder) | ADocuments (l : list nat) | ADepth (v : json)
| AMetadata (m : cmeta) | ANoMetadata.

(** Lines 58-63. *)
Definition get_node (i : nat) (d : document X) (r : option dts_ref) (w : session X) : session X * result answer :=
  match open_document (dd_id d) r w with
  | (w1, Err e) => (w1, Err e)
  | (w1, Ok j) => (change j (put_coll (dd_coll d)) w1, Ok (ADocument j))
  end.

(** Truth of what is given as subreference: a reference is a tuple of two. *)
Definition ref_truthy (r : option dts_ref) : bool :=
  match r with Some (DRef _) => true | Some (DText s) => truthy s | None => false end.

(** Lines 65-66: the level is not passed on. *)
Definition get_reffs_of (d : document X) (level : Z) (r : option dts_ref) (w : session X) : session X * result reffs :=
  let r' := if ref_truthy r then r else dd_ref d in
  (called (CallReffs (dd_id d) 1 r') w, ask_reffs rs (ss_calls w) (dd_id d) 1 r').

(** [childIds] (prototypes/text.py lines 324-332). *)
Definition child_ids (i : nat) (d : document X) (w : session X) : session X * result reffs :=
  match dd_kids d with
  | Some l => (w, Ok l)
  | None =>
      match get_reffs_of d 1 None w with
      | (w1, Ok l) => (change i (put_kids l) w1, Ok l)
      | (w1, Err e) => (w1, Err e)
      end
  end.

(** A member of a listing as it is given to [getTextualNode].  Simplification:
    references are texts. *)
Definition item_ref (x : set_item) : result (option dts_ref) :=
  match x with
  | Whole r =>
      match dr_start r, dr_end r with
      | JStr s, JNull => Ok (Some (DRef (MkDref s None)))
      | JStr s, JStr e => Ok (Some (DRef (MkDref s (Some e))))
      | _, _ => Err TypeError
      end
  | Half (JStr s) => Ok (Some (DText s))
  | Half JNull => Ok None
  | Half _ => Err TypeError
  end.

(** [first] and [last] (prototypes/text.py lines 308-321, 334-355). *)
Definition at_end (pick : list set_item -> option set_item) (i : nat) (d : document X) (w : session X) : session X * result answer :=
  match child_ids i d w with
  | (w1, Err e) => (w1, Err e)
  | (w1, Ok l) =>
      match pick (rs_items l) with
      | None => (w1, Ok Nothing)
      | Some x =>
          match item_ref x with
          | Err e => (w1, Err e)
          | Ok None => (w1, Ok Nothing)
          | Ok (Some r) => get_node i d (Some r) w1
          end
      end
  end.
(** [children] (lines 296-302), read to the end: a member None asks for the whole
    text. *)
Fixpoint open_all (i : nat) (d : document X) (l : list set_item) (w : session X) : session X * result (list nat) :=
  match l with
  | [] => (w, Ok [])
  | x :: l' =>
      match item_ref x with
      | Err e => (w, Err e)
      | Ok r =>
          match get_node i d r w with
          | (w1, Ok (ADocument j)) => let '(w2, js) := open_all i d l' w1 in (w2, js <- js ;; Ok (j :: js))
          | (w1, Ok _) => (w1, Err AttributeError)
          | (w1, Err e) => (w1, Err e)
          end
      end
  end.
Definition get_children (i : nat) (d : document X) (w : session X) : session X * result answer :=
  match child_ids i d w with
  | (w1, Err e) => (w1, Err e)
  | (w1, Ok l) => let '(w2, js) := open_all i d (rs_items l) w1 in (w2, js <- js ;; Ok (ADocuments js))
  end.
Definition last_item (l : list set_item) : option set_item := hd_error (rev l).

(** Lines 37-41. *)
Definition get_holder (i : nat) (d : document X) (w : session X) : session X * result holder :=
  match dd_coll d with
  | Some h => (w, Ok h)
  | None =>
      let w1 := called (CallCollection (dd_id d)) w in
      match ask_collection rs (ss_calls w) (dd_id d) with
      | Err e => (w1, Err e)
      | Ok c => (change i (put_coll (Some (HColl c))) w1, Ok (HColl c))
      end
  end.

(** [collection.citation.depth]: the declared depth if it is not 0, else that of
    the levels (_base.py lines 31, 124-130; _dts_1.py lines 112-116). *)
Definition depth_of (m : cmeta) : json :=
  match cm_depth m with
  | Some v => if jtruthy v then v else JInt (match cm_citation m with Some s => set_depth s | None => 0 end)
  | None => JInt (match cm_citation m with Some s => set_depth s | None => 0 end)
  end.

(** Lines 43-47; a reference has no citation. *)
Definition get_depth (i : nat) (d : document X) (w : session X) : session X * result answer :=
  match dd_depth d with
  | Some v => (w, Ok (ADepth v))
  | None =>
      match get_holder i d w with
      | (w1, Ok (HColl c)) => (change i (put_depth (depth_of (co_meta c))) w1, Ok (ADepth (depth_of (co_meta c))))
      | (w1, Ok (HRef _)) => (w1, Err AttributeError)
      | (w1, Err e) => (w1, Err e)
      end
  end.

(** Lines 49-53 below: the metadata of a reference, of which nothing is said, in
    place of those of a collection. *)
Definition do_ask (w : session X) (i : nat) (a : ask) : session X * result answer :=
  match nth_error (ss_docs w) i with
  | None => (w, Err AttributeError)
  | Some d =>
      match a with
      | AskNode r => get_node i d r w
      | AskPrev => match dd_prev d with Some r => get_node i d (Some (DRef r)) w | None => (w, Ok Nothing) end
      | AskNext => match dd_next d with Some r => get_node i d (Some (DRef r)) w | None => (w, Ok Nothing) end
      | AskParent => get_node i d (option_map DRef (dd_parent d)) w
      | AskFirst => at_end (@hd_error _) i d w
      | AskLast => at_end last_item i d w
      | AskChildren => get_children i d w
      | AskChildIds => let '(w1, r) := child_ids i d w in (w1, l <- r ;; Ok (AReffs l))
      | AskReffs level r => let '(w1, l) := get_reffs_of d level r w in (w1, l <- l ;; Ok (AReffs l))
      | AskCollection => let '(w1, h) := get_holder i d w in (w1, h <- h ;; Ok (ACollection h))
      | AskDepth => get_depth i d w
      | AskMetadata =>
          match get_holder i d w with
          | (w1, Ok (HColl c)) => (w1, Ok (AMetadata (co_meta c)))
          | (w1, Ok (HRef r)) => (w1, Ok ANoMetadata)
          | (w1, Err e) => (w1, Err e)
          end
      end
  end.

(** A history: questions to documents, in order. *)
Fixpoint do_asks (w : session X) (h : list (nat * ask)) : session X * list (result answer) :=
  match h with
  | [] => (w, [])
  | (i, a) :: h' =>
      let '(w1, r) := do_ask w i a in
      let '(w2, rs') := do_asks w1 h' in
      (w2, r :: rs')
  end.
End Documents.
