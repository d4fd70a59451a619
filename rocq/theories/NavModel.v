(** Walking through a text that is read from a CTS endpoint: the objects, what they
    remember and what they ask.

    Models /repo/MyCapytain/resources/texts/remote/cts.py lines 47-132, 204-272 and
    375-478, and /repo/MyCapytain/resources/prototypes/text.py lines 278-354, as far
    as remote texts and passages use it.  The URNs that are asked and the reading of
    the replies are in RemoteModel.v and TextMetaModel.v.
    Left out: the metadata that is read from the replies (TextMetaModel.v). *)

From Coq Require Import List NArith ZArith Arith Bool.
From Verif Require Import PyStr RefModel UrnModel XmlModel InvModel PassageModel HttpModel RemoteModel TextMetaModel.
Import ListNotations.

(** A call of the retriever: its name, the URN and, for references, the level. *)
Record call := MkCall { call_name : str; call_urn : str; call_level : option Z }.

(** A remote text or passage ([r_passage]): its URN, its element, its citation, the
    siblings it knows ([_prev_id], [_next_id]), and the children ([_childIds]), first
    and last child ([_first], [_last]: False is None here) it has asked for. *)
Record remote := MkRemote {
  r_urn : urn; r_passage : bool; r_xml : option XmlModel.node; r_cite : list level;
  r_prev : sibling; r_next : sibling;
  r_children : option (list str); r_first : option (option str); r_last : option str
}.

(** The objects, in the order in which they were made, and the calls made so far. *)
Record world := MkWorld { w_objs : list remote; w_log : list call }.

Definition M (A : Type) : Type := world -> world * result A.
Definition ret {A} (a : A) : M A := fun w => (w, Ok a).
Definition fail {A} (e : exn) : M A := fun w => (w, Err e).
Definition lift {A} (r : result A) : M A := fun w => (w, r).
Definition andthen {A B} (m : M A) (k : A -> M B) : M B :=
  fun w => let '(w', r) := m w in match r with Ok a => k a w' | Err e => (w', Err e) end.
Declare Scope nav_scope.
Notation "x <~ m ;; k" := (andthen m (fun x => k)) (at level 61, m at next level, right associativity) : nav_scope.
Open Scope nav_scope.

Definition blank : remote := MkRemote (MkUrn None None None None None None None) false None [] Unknown Unknown None None None.
Definition look (i : nat) : M remote := fun w => (w, Ok (nth i (w_objs w) blank)).
Fixpoint change_at (l : list remote) (i : nat) (f : remote -> remote) : list remote :=
  match l, i with
  | [], _ => []
  | o :: l', 0 => f o :: l'
  | o :: l', S i' => o :: change_at l' i' f
  end.
Definition change (i : nat) (f : remote -> remote) : M unit :=
  fun w => (MkWorld (change_at (w_objs w) i f) (w_log w), Ok tt).
Definition make (o : remote) : M nat :=
  fun w => (MkWorld (w_objs w ++ [o]) (w_log w), Ok (length (w_objs w))).

Definition with_cite (c : list level) (o : remote) : remote :=
  MkRemote (r_urn o) (r_passage o) (r_xml o) c (r_prev o) (r_next o) (r_children o) (r_first o) (r_last o).
Definition with_siblings (p n : sibling) (o : remote) : remote :=
  MkRemote (r_urn o) (r_passage o) (r_xml o) (r_cite o) p n (r_children o) (r_first o) (r_last o).
Definition with_children (l : list str) (o : remote) : remote :=
  MkRemote (r_urn o) (r_passage o) (r_xml o) (r_cite o) (r_prev o) (r_next o) (Some l) (r_first o) (r_last o).
Definition with_first (s : option str) (o : remote) : remote :=
  MkRemote (r_urn o) (r_passage o) (r_xml o) (r_cite o) (r_prev o) (r_next o) (r_children o) (Some s) (r_last o).
Definition with_last (s : str) (o : remote) : remote :=
  MkRemote (r_urn o) (r_passage o) (r_xml o) (r_cite o) (r_prev o) (r_next o) (r_children o) (r_first o) (Some s).

(** A new text (lines 340-343 and 47-53) with its citation, [unset] if none is given. *)
Definition new_text (u : urn) (c : list level) : remote := MkRemote u false None c Unknown Unknown None None None.

Section Endpoint.
(** The endpoint: what comes of the call when so many were made before it; an
    exception of the retriever or of the parser passes through. *)
Variable endpoint : nat -> call -> result XmlModel.node.

Definition ask_for (c : call) : M XmlModel.node :=
  fun w => (MkWorld (w_objs w) (w_log w ++ [c]), endpoint (length (w_log w)) c).

(** The citation that is learnt from the request which a reply repeats
    ([get_request_reply] of TextMetaModel without the metadata; lines 85-86, 114-116
    and 183-187). *)
Definition learn_request (i : nat) (doc : XmlModel.node) : M unit :=
  o <~ look i ;;
  match filter (fun x => tag_is (RemoteModel.ti #"request") (fst x)) (elements [] doc) with
  | [] => fail IndexError
  | e :: _ => c <~ lift (ingest_top doc e (r_cite o)) ;; change i (with_cite c)
  end.

(** [getValidReff] (lines 63-88). *)
Definition get_valid_reff (i : nat) (level : Z) (r : option subref) : M (list str) :=
  o <~ look i ;;
  u <~ lift (asked_below (r_urn o) r) ;;
  doc <~ ask_for (MkCall #"GetValidReff" u (Some (valid_level (length (r_cite o)) level))) ;;
  _ <~ learn_request i doc ;;
  lift (read_reffs doc).

(** [getReffs] (lines 118-132). *)
Definition get_remote_reffs (i : nat) (level : Z) (r : option subref) : M (list str) :=
  o <~ look i ;; get_valid_reff i (reffs_level (r_urn o) level) r.

(** [CtsPassage.__init__] and [_parse] (lines 385-398 and 463-478); the URN is read
    first. *)
Definition make_passage (u : str) (doc : XmlModel.node) : M nat :=
  v <~ lift (urn_parse u) ;;
  xc <~ lift (new_remote doc) ;;
  let '(p, n) := read_prevnext doc in
  make (MkRemote v true (Some (fst xc)) (snd xc) p n None None None).

(** [getTextualNode] (lines 90-116). *)
Definition get_remote_node (i : nat) (a : node_arg) : M nat :=
  o <~ look i ;;
  u <~ lift (asked_node (r_urn o) a) ;;
  doc <~ ask_for (MkCall #"GetPassage" u None) ;;
  _ <~ learn_request i doc ;;
  make_passage u doc.

(** [getPrevNextUrn] of a passage about itself (lines 204-222, 418, 438 and 450). *)
Definition ask_siblings (i : nat) : M unit :=
  o <~ look i ;;
  u <~ lift (passage_request (r_urn o)) ;;
  doc <~ ask_for (MkCall #"GetPrevNextUrn" u None) ;;
  let '(p, n) := read_prevnext doc in change i (with_siblings p n).

(** [prevId], [nextId] and [siblingsId] of a passage (lines 404-418, 430-451); those
    of a text are not implemented (lines 356-374). *)
Definition prev_id (i : nat) : M sibling :=
  o <~ look i ;;
  if r_passage o then
    _ <~ (if unknown (r_prev o) then ask_siblings i else ret tt) ;; o' <~ look i ;; ret (r_prev o')
  else fail NotImplementedError.
Definition next_id (i : nat) : M sibling :=
  o <~ look i ;;
  if r_passage o then
    _ <~ (if unknown (r_next o) then ask_siblings i else ret tt) ;; o' <~ look i ;; ret (r_next o')
  else fail NotImplementedError.
Definition siblings_id (i : nat) : M (sibling * sibling) :=
  o <~ look i ;;
  if r_passage o then
    _ <~ (if unknown (r_next o) || unknown (r_prev o) then ask_siblings i else ret tt) ;;
    o' <~ look i ;; ret (r_prev o', r_next o')
  else fail NotImplementedError.

(** [childIds] (prototypes/text.py lines 325-333). *)
Definition children_ids (i : nat) : M (list str) :=
  o <~ look i ;;
  match r_children o with
  | Some l => ret l
  | None => l <~ get_remote_reffs i 1 None ;; _ <~ change i (with_children l) ;; ret l
  end.

(** [firstId] (lines 246-256), which asks [getFirstUrn] for the object's own URN. *)
Definition remote_first_id (i : nat) : M (option str) :=
  o <~ look i ;;
  match r_first o with
  | Some s => ret s
  | None =>
      u <~ lift (asked_first (r_urn o) None) ;;
      doc <~ ask_for (MkCall #"GetFirstUrn" u None) ;;
      let s := read_first doc in _ <~ change i (with_first s) ;; ret s
  end.

(** [lastId] (lines 258-268): the last of the children, which must exist. *)
Definition remote_last_id (i : nat) : M str :=
  o <~ look i ;;
  match r_last o with
  | Some s => ret s
  | None =>
      l <~ children_ids i ;;
      match rev l with
      | [] => fail IndexError
      | s :: _ => _ <~ change i (with_last s) ;; ret s
      end
  end.

(** [parentId] of a passage (lines 420-428): the text of the parent of its reference,
    or the word None; a text has no attribute [_parent], because [NodeId.__init__] is
    not called (prototypes/text.py lines 42-52). *)
Definition remote_parent_id (i : nat) : M str :=
  o <~ look i ;;
  if r_passage o then
    match u_ref (r_urn o) with
    | None => fail AttributeError
    | Some r => p <~ lift (ref_parent r) ;; ret (item_str p)
    end
  else fail AttributeError.

(** [prev] and [next] (prototypes/text.py lines 282-294): the identifier is taken
    twice; False is not None, and gives the object's own passage. *)
Definition sibling_arg (s : sibling) : node_arg :=
  match s with Known (Some t) => ByText t | _ => ByNothing end.
Definition go_sibling (i : nat) (id : nat -> M sibling) : M (list nat) :=
  a <~ id i ;;
  match a with
  | Known None => ret []
  | _ => b <~ id i ;; k <~ get_remote_node i (sibling_arg b) ;; ret [k]
  end.

(** [first] and [last] (lines 311-323). *)
Definition go_first (i : nat) : M (list nat) :=
  a <~ remote_first_id i ;;
  match a with
  | None => ret []
  | Some _ => b <~ remote_first_id i ;;
              k <~ get_remote_node i (match b with Some t => ByText t | None => ByNothing end) ;; ret [k]
  end.
Definition go_last (i : nat) : M (list nat) :=
  _ <~ remote_last_id i ;; b <~ remote_last_id i ;; k <~ get_remote_node i (ByText b) ;; ret [k].

(** [parent] (lines 304-309). *)
Definition go_parent (i : nat) : M (list nat) :=
  s <~ remote_parent_id i ;; k <~ get_remote_node i (ByText s) ;; ret [k].

(** [children] (lines 296-302), taken to the end. *)
Fixpoint get_each (i : nat) (ids : list str) : M (list nat) :=
  match ids with
  | [] => ret []
  | s :: ids' => k <~ get_remote_node i (ByText s) ;; ks <~ get_each i ids' ;; ret (k :: ks)
  end.
Definition go_children (i : nat) : M (list nat) := ids <~ children_ids i ;; get_each i ids.

(** ** What a caller does *)
Inductive move :=
| ChildIds | FirstId | LastId | PrevId | NextId | SiblingsId | ParentId
| Children | First | Last | Prev | Next | Parent
| Reffs (level : Z) | Get (s : str) | GetAll.

(** What it answers: identifiers, one (perhaps None), False, two of these, new
    objects, an exception. *)
Inductive answer :=
| AnIds (l : list str) | AnId (o : option str) | AFalse | APair (a b : sibling) | ANew (l : list nat) | ARaised (e : exn).

Definition said (s : sibling) : answer := match s with Known o => AnId o | Unknown => AFalse end.

Definition answered {A} (f : A -> answer) (r : world * result A) : world * answer :=
  (fst r, match snd r with Ok a => f a | Err e => ARaised e end).

Definition make_move (w : world) (i : nat) (m : move) : world * answer :=
  match m with
  | ChildIds => answered AnIds (children_ids i w)
  | FirstId => answered AnId (remote_first_id i w)
  | LastId => answered (fun s => AnId (Some s)) (remote_last_id i w)
  | PrevId => answered said (prev_id i w)
  | NextId => answered said (next_id i w)
  | SiblingsId => answered (fun s => APair (fst s) (snd s)) (siblings_id i w)
  | ParentId => answered (fun s => AnId (Some s)) (remote_parent_id i w)
  | Children => answered ANew (go_children i w)
  | First => answered ANew (go_first i w)
  | Last => answered ANew (go_last i w)
  | Prev => answered ANew (go_sibling i prev_id w)
  | Next => answered ANew (go_sibling i next_id w)
  | Parent => answered ANew (go_parent i w)
  | Reffs level => answered AnIds (get_remote_reffs i level None w)
  | Get s => answered (fun k => ANew [k]) (get_remote_node i (ByText s) w)
  | GetAll => answered (fun k => ANew [k]) (get_remote_node i ByNothing w)
  end.

Fixpoint make_moves (w : world) (h : list (nat * move)) : world * list answer :=
  match h with
  | [] => (w, [])
  | (i, m) :: h' => let '(w', a) := make_move w i m in let '(w'', l) := make_moves w' h' in (w'', a :: l)
  end.
End Endpoint.
