(** Searching the collections of an HTTP resolver in depth: members, descendants,
    readableDescendants, [in] and [\[\]], and [in], [len] and [==] of children.

    Models /repo/MyCapytain/resources/prototypes/metadata.py lines 209-223 and 240-280
    on objects of /repo/MyCapytain/resources/collections/dts/_resolver.py lines 15-218,
    which load their members when they are asked for.  DtsModel.v has the loading of
    one such object with its parents; here every member is an object that loads its
    own members, and the parents are left out: nothing here reads them, so that the
    flag that the proxies look at (lines 93 and 99) stays down.  Simplification: size
    and type are those of the reply the object was read from (they are kept in a graph
    that all objects share, see DtsMetaModel.v). *)

From Coq Require Import List NArith ZArith Arith Bool.
From Verif Require Import PyStr Json HttpModel DtsModel.
Import ListNotations.

(** An object: its identifier, its metadata, the dictionary [_children], the flag
    [_parsed\["children"\]] and [_last_page_parsed\["children"\]]. *)
Inductive lz := Lz (id : str) (meta : cmeta) (kids : list (str * lz)) (parsed : bool) (last : option Z).
Definition lz_id (x : lz) := let '(Lz i _ _ _ _) := x in i.
Definition lz_meta (x : lz) := let '(Lz _ m _ _ _) := x in m.
Definition lz_kids (x : lz) := let '(Lz _ _ k _ _) := x in k.
Definition lz_parsed (x : lz) := let '(Lz _ _ _ p _) := x in p.
Definition lz_last (x : lz) := let '(Lz _ _ _ _ l) := x in l.

(** A member as it was listed (lines 205-211), and members added to a dictionary
    (lines 130-135; _base.py lines 107-111). *)
Definition member (c : coll) : lz := Lz (co_id c) (co_meta c) [] false None.
Definition add_members (cs : list coll) (d : list (str * lz)) : list (str * lz) :=
  fold_left (fun d c => dset (co_id c) (member c) d) cs d.

(** The object that getMetadata returns (resolvers/dts/api_v1.py lines 71-81). *)
Definition opened (c : coll) : lz := Lz (co_id c) (co_meta c) (add_members (co_members c) []) (co_closed c) None.

(** [self._parsed\["children"\] = True] (lines 154 and 162). *)
Definition shut (x : lz) : lz := let '(Lz i m k _ l) := x in Lz i m k true l.

(** One reply (lines 129-144 and 213-216). *)
Definition page_received (x : lz) (page : Z) (view : bool) (cs : list coll) : lz :=
  let '(Lz i m k p _) := x in
  Lz i m (add_members cs k) (p || closes true (size_of m) view cs) (Some page).

(** The object kept under [k] after something was done with it. *)
Definition put (k : str) (y x : lz) : lz := let '(Lz i m d p l) := x in Lz i m (dset k y d) p l.

(** [readable] (_base.py lines 49-53): the type set last (lines 121-122), which is
    that of the class where the reply gives none (prototypes/metadata.py line 57). *)
Definition readable (x : lz) : bool :=
  match last (cm_types (lz_meta x)) JNull with JStr t => str_eqb t (hydra_term #"Resource") | _ => false end.

(** Objects are named by the keys that lead to them from the object asked. *)
Definition path := list str.
Fixpoint object_at (x : lz) (p : path) : option lz :=
  match p with
  | [] => Some x
  | k :: p' => match dget k (lz_kids x) with Some y => object_at y p' | None => None end
  end.
Definition id_at (x : lz) (p : path) : str := match object_at x p with Some y => lz_id y | None => [] end.
Definition readable_at (x : lz) (p : path) : bool := match object_at x p with Some y => readable y | None => false end.

Section Crawl.
(** The endpoint: what it answers may depend on the requests made before.  [pages]
    bounds the loop over the pages of one collection, [limit] the depth of recursion. *)
Variable server : list request -> request -> result (list json).
Variable collections : route.
Variables pages limit : nat.

(** What is done with an object: the requests made so far, the object after, the
    outcome. *)
Definition act A := list request -> lz -> list request * lz * result A.

(** [_parse_paginated_members] (lines 103-154) for the children. *)
Fixpoint fetch_from (fuel : nat) (sent : list request) (x : lz) (page : Z) : list request * lz * result unit :=
  if (page =? 0)%Z then (sent, shut x, Ok tt) else
  match fuel with
  | 0 => (sent, x, Err OutOfFuel)
  | S fuel' =>
      let q := get_collection collections (StrParam (lz_id x)) (StrParam #"children")
                 (if (1 <? page)%Z then IntParam page else NoParam) in
      let sent' := sent ++ [q] in
      match server sent q with
      | Err e => (sent', x, Err e)
      | Ok [] => (sent', x, Err IndexError)
      | Ok (data :: _) =>
          match (cs <- parse_member data ;; v <- jhas data (hydra_term #"view") ;; Ok (cs, v)) with
          | Err e => (sent', x, Err e)
          | Ok (cs, v) =>
              let x1 := page_received x page v cs in
              match next_page_number data with
              | Err e => (sent', x1, Err e)
              | Ok None => (sent', shut x1, Ok tt)
              | Ok (Some p) => fetch_from fuel' sent' x1 (number_of p)
              end
          end
      end
  end.
Definition fetch : act unit := fun sent x =>
  fetch_from pages sent x (match lz_last x with None => 1%Z | Some p => if (p =? 0)%Z then 1%Z else p end).

(** [children] (lines 156-167), all of them read (lines 36-51: [values] of a proxy
    loads, [values] of a dictionary does not). *)
Definition open : act unit := fun sent x =>
  if lz_parsed x then (sent, x, Ok tt)
  else if negb (size_of (lz_meta x) =? 0)%Z then fetch sent x
  else (sent, shut x, Ok tt).

(** [children\[k\]] (lines 56-67): a proxy that has the key does not load. *)
Definition open_for (k : str) : act unit := fun sent x =>
  if lz_parsed x then (sent, x, Ok tt)
  else if negb (size_of (lz_meta x) =? 0)%Z then
    match dget k (lz_kids x) with Some _ => (sent, x, Ok tt) | None => fetch sent x end
  else (sent, shut x, Ok tt).

(** [x.children\[k1\].children\[k2\]…], and then something done with the object. *)
Fixpoint at_path {A} (p : path) (f : act A) : act A := fun sent x =>
  match p with
  | [] => f sent x
  | k :: p' =>
      let '(sent, x, r) := open_for k sent x in
      match r with
      | Err e => (sent, x, Err e)
      | Ok _ =>
          match dget k (lz_kids x) with
          | None => (sent, x, Err KeyError)
          | Some y => let '(sent, y, r) := at_path p' f sent y in (sent, put k y x, r)
          end
      end
  end.

(** [members] (metadata.py lines 257-263). *)
Definition members_of : act (list path) := fun sent x =>
  let '(sent, x, r) := open sent x in (sent, x, _ <- r ;; Ok (map (fun kx => [fst kx]) (lz_kids x))).

(** [descendants] (lines 265-272): the members, and those of each member in turn.
    The second reading of the members finds them loaded. *)
Fixpoint descend (limit : nat) : act (list path) := fun sent x =>
  match limit with
  | 0 => (sent, x, Err RecursionError)
  | S limit' =>
      let '(sent, x, r) := open sent x in
      match r with
      | Err e => (sent, x, Err e)
      | Ok _ =>
          let '(sent, d, r) :=
            (fix each (sent : list request) (l : list (str * lz)) : list request * list (str * lz) * result (list path) :=
               match l with
               | [] => (sent, [], Ok [])
               | (k, y) :: l' =>
                   let '(sent, y, r) := descend limit' sent y in
                   match r with
                   | Err e => (sent, (k, y) :: l', Err e)
                   | Ok ps =>
                       let '(sent, l', r) := each sent l' in
                       (sent, (k, y) :: l', qs <- r ;; Ok (map (cons k) ps ++ qs))
                   end
               end) sent (lz_kids x) in
          let '(Lz i m own p l) := x in
          (sent, Lz i m d p l, qs <- r ;; Ok (map (fun kx => [fst kx]) own ++ qs))
      end
  end.

(** [readableDescendants] (lines 274-280). *)
Definition readable_descendants : act (list path) := fun sent x =>
  let '(sent, x, r) := descend limit sent x in (sent, x, ps <- r ;; Ok (filter (readable_at x) ps)).

(** [k in x] (lines 240-249). *)
Definition contains (k : str) : act bool := fun sent x =>
  let '(sent, x, r) := descend limit sent x in
  (sent, x, ps <- r ;; Ok (existsb (fun p => str_eqb (id_at x p) k) (ps ++ [[]]))).

(** [x\[k\]] (lines 209-223). *)
Definition getitem (k : str) : act path := fun sent x =>
  if str_eqb k (lz_id x) then (sent, x, Ok []) else
  let '(sent, x, r) := members_of sent x in
  match r with
  | Err e => (sent, x, Err e)
  | Ok ms =>
      match find (fun p => str_eqb k (id_at x p)) ms with
      | Some p => (sent, x, Ok p)
      | None =>
          let '(sent, x, r) := descend limit sent x in
          (sent, x,
           ps <- r ;; match find (fun p => str_eqb (id_at x p) k) ps with Some p => Ok p | None => Err UnknownCollection end)
      end
  end.

(** [k in x.children] (_resolver.py lines 52-53: a proxy has no [__contains__], so that
    the keys are read). *)
Definition has_key (k : str) : act bool := fun sent x =>
  let '(sent, x, r) := open sent x in (sent, x, _ <- r ;; Ok (existsb (str_eqb k) (map fst (lz_kids x)))).

(** [len(x.children)]: a proxy (lines 15-67) has no [__len__]. *)
Definition count_children : act nat := fun sent x =>
  if lz_parsed x then (sent, x, Ok (length (lz_kids x)))
  else if negb (size_of (lz_meta x) =? 0)%Z then (sent, x, Err TypeError)
  else (sent, shut x, Ok (length (lz_kids x))).

(** [x.children == {}] (lines 69-70: a proxy compares what it has, without loading). *)
Definition children_empty : act bool := fun sent x =>
  let b := match lz_kids x with [] => true | _ => false end in
  if lz_parsed x then (sent, x, Ok b)
  else if negb (size_of (lz_meta x) =? 0)%Z then (sent, x, Ok b)
  else (sent, shut x, Ok b).

(** What a caller asks, and of which object. *)
Inductive question := Members | Descendants | Readable | Has (k : str) | Item (k : str) | Key (k : str) | Count | Empty.
Inductive answer := Objects (l : list path) | Truth (b : bool) | Object (p : path) | Number (n : nat).
Definition map_act {A B} (f : A -> B) (a : act A) : act B :=
  fun sent x => let '(sent, x, r) := a sent x in (sent, x, v <- r ;; Ok (f v)).
Definition ask (q : question) : act answer :=
  match q with
  | Members => map_act Objects members_of
  | Descendants => map_act Objects (descend limit)
  | Readable => map_act Objects readable_descendants
  | Has k => map_act Truth (contains k)
  | Item k => map_act Object (getitem k)
  | Key k => map_act Truth (has_key k)
  | Count => map_act Number count_children
  | Empty => map_act Truth children_empty
  end.
Definition deed := (path * question)%type.

Fixpoint do_deeds (sent : list request) (x : lz) (h : list deed) : list request * lz * list (result answer) :=
  match h with
  | [] => (sent, x, [])
  | (p, q) :: h' =>
      let '(sent, x, r) := at_path p (ask q) sent x in
      let '(sent, x, rs) := do_deeds sent x h' in
      (sent, x, r :: rs)
  end.
End Crawl.
