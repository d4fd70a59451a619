(** Collections: the objects of an inventory and how they hang together.

    Models the structural part of
    /repo/MyCapytain/resources/prototypes/metadata.py lines 36-280 and of
    /repo/MyCapytain/resources/prototypes/cts/inventory.py.  Collections are
    Python objects that point to each other (a parent, a dictionary of
    children) and to a shared graph, so they are modelled as records in a
    store: an object is its position in the store, a graph likewise.  Graph 0
    is the one returned by [get_graph()].  Exports are not part of this file. *)

From Coq Require Import List NArith ZArith Arith Bool.
From Verif Require Import PyStr MetaModel UrnModel.
Import ListNotations.

(** The classes: inventory.py lines 187 (texts), 379, 392, 407 (their three
    subclasses), 422, 544, 632, 691; metadata.py line 36 for the plain class. *)
Inductive subtype : Type := Unknown | Edition | Translation | Commentary.

Inductive kind : Type :=
| KCollection
| KText (sub : subtype)
| KWork
| KTextgroup
| KInventory
| KInventoryCollection.

(** [c_urn] is [str(self.urn)]: the code only compares URNs, and URNs are
    compared by their text (UrnModel.urn_eq). *)
Record coll := MkColl {
  c_kind : kind;
  c_id : str;
  c_urn : str;
  c_parent : option nat;
  c_children : list (str * nat);
  c_graph : nat }.

Record state := MkState { objs : list coll; graphs : list graph }.

Definition nowhere : coll := MkColl KCollection [] [] None [] 0.

Definition obj (st : state) (c : nat) : coll := nth c (objs st) nowhere.

Fixpoint upd {A} (l : list A) (i : nat) (f : A -> A) : list A :=
  match l, i with
  | [], _ => []
  | x :: l', 0 => f x :: l'
  | x :: l', S i' => x :: upd l' i' f
  end.

Definition with_obj (st : state) (c : nat) (f : coll -> coll) : state :=
  MkState (upd (objs st) c f) (graphs st).

Definition with_graph (st : state) (i : nat) (f : graph -> graph) : state :=
  MkState (objs st) (upd (graphs st) i f).

Definition put_parent (p : option nat) (x : coll) : coll :=
  MkColl (c_kind x) (c_id x) (c_urn x) p (c_children x) (c_graph x).
Definition put_children (d : list (str * nat)) (x : coll) : coll :=
  MkColl (c_kind x) (c_id x) (c_urn x) (c_parent x) d (c_graph x).

Definition node (x : coll) : term := URI (c_id x).

Definition cts_ns : str := #"http://chs.harvard.edu/xmlns/cts/".
Definition dts_ns : str := #"https://w3id.org/dts/api#".
Definition rdf_type : term := URI #"http://www.w3.org/1999/02/22-rdf-syntax-ns#type".
Definition dts_model : term := URI (dts_ns ++ #"model").
Definition cap_parent : term := URI #"http://purl.org/capitains/ns/1.0#parent".
Definition dc_language : term := URI #"http://purl.org/dc/elements/1.1/language".

(** The TYPE_URI and MODEL_URI of the classes. *)
Definition type_uri (k : kind) : term :=
  URI (match k with
       | KCollection => dts_ns ++ #"collection"
       | KText Unknown => cts_ns ++ #"text"
       | KText Edition => cts_ns ++ #"edition"
       | KText Translation => cts_ns ++ #"translation"
       | KText Commentary => cts_ns ++ #"commentary"
       | KWork => cts_ns ++ #"work"
       | KTextgroup => cts_ns ++ #"textgroup"
       | KInventory => cts_ns ++ #"TextInventory"
       | KInventoryCollection => cts_ns ++ #"CtsTextInventoryCollection"
       end).

Definition model_uri (k : kind) : term :=
  URI (match k with
       | KText _ => dts_ns ++ #"resource"
       | _ => dts_ns ++ #"collection"
       end).

(** metadata.py lines 50-61: [Collection.__init__].  The new object is the
    last of the store. *)
Definition new_object (st : state) (k : kind) (id urn : str) : state * nat :=
  let g f := with_graph st 0 f in
  let st1 := g (fun gr => g_set (URI id, dts_model, model_uri k)
                            (g_set (URI id, rdf_type, type_uri k) gr)) in
  (MkState (objs st1 ++ [MkColl k id urn None [] 0]) (graphs st1),
   length (objs st)).

(** metadata.py lines 196-207: [_add_member]. *)
Definition add_member (st : state) (p c : nat) : state :=
  match dget (c_id (obj st c)) (c_children (obj st p)) with
  | Some _ => st
  | None => with_obj st p (fun x =>
      put_children (dset (c_id (obj st c)) c (c_children x)) x)
  end.

(** metadata.py lines 182-194: assigning [parent]. *)
Definition set_parent (st : state) (c p : nat) : state :=
  let st1 := with_obj st c (put_parent (Some p)) in
  let st2 := with_graph st1 (c_graph (obj st1 c))
    (g_add (node (obj st1 c), cap_parent, node (obj st1 p))) in
  add_member st2 p c.

(** The same assignment with [None]: the attribute is cleared, then
    [parent.asNode()] fails. *)
Definition set_parent_none (st : state) (c : nat) : state * result unit :=
  (with_obj st c (put_parent None), Err AttributeError).

(** metadata.py lines 161-172: [parents].  The loop has no bound, so a cycle
    makes it endless: [OutOfFuel] for every amount of fuel. *)
Fixpoint parents_from (fuel : nat) (st : state) (p : option nat)
  : result (list nat) :=
  match p with
  | None => Ok []
  | Some q =>
      match fuel with
      | 0 => Err OutOfFuel
      | S fuel' =>
          l <- parents_from fuel' st (c_parent (obj st q)) ;; Ok (q :: l)
      end
  end.

Definition parents (fuel : nat) (st : state) (c : nat) : result (list nat) :=
  parents_from fuel st (c_parent (obj st c)).

Definition is_text (k : kind) : bool := match k with KText _ => true | _ => false end.

(** metadata.py lines 257-263 and inventory.py lines 235-243: [members].
    Texts have none, whatever their dictionary holds. *)
Definition members (st : state) (c : nat) : list nat :=
  if is_text (c_kind (obj st c)) then []
  else map snd (c_children (obj st c)).

(** metadata.py lines 97-99: [size]. *)
Definition size (st : state) (c : nat) : nat := length (members st c).

(** metadata.py lines 265-272 and inventory.py lines 245-253: [descendants].
    [limit] is the interpreter's recursion limit. *)
Fixpoint descendants (limit : nat) (st : state) (c : nat) : result (list nat) :=
  match limit with
  | 0 => Err RecursionError
  | S limit' =>
      if is_text (c_kind (obj st c)) then Ok [] else
      subs <- mapM (descendants limit' st) (members st c) ;;
      Ok (members st c ++ concat subs)
  end.

(** metadata.py lines 251-255 and inventory.py lines 231-233. *)
Definition readable (st : state) (c : nat) : bool := is_text (c_kind (obj st c)).

(** metadata.py lines 274-280: [readableDescendants]. *)
Definition readable_descendants (limit : nat) (st : state) (c : nat)
  : result (list nat) :=
  l <- descendants limit st c ;; Ok (filter (readable st) l).

Definition has_id (st : state) (key : str) (c : nat) : bool :=
  str_eqb key (c_id (obj st c)).

(** metadata.py lines 209-223: [collection[key]]. *)
Definition getitem (limit : nat) (st : state) (c : nat) (key : str) : result nat :=
  if has_id st key c then Ok c else
  match find (has_id st key) (members st c) with
  | Some m => Ok m
  | None =>
      l <- descendants limit st c ;;
      match find (has_id st key) l with
      | Some m => Ok m
      | None => Err UnknownCollection
      end
  end.

(** metadata.py lines 240-249: [key in collection]. *)
Definition contains (limit : nat) (st : state) (c : nat) (key : str) : result bool :=
  l <- descendants limit st c ;; Ok (existsb (has_id st key) (l ++ [c])).

(** metadata.py lines 225-238: [del collection[key]]. *)
Definition delitem (limit fuel : nat) (st : state) (c : nat) (key : str)
  : state * result unit :=
  match getitem limit st c key with
  | Err e => (st, Err e)
  | Ok i =>
      let me := node (obj st c) in
      let it := node (obj st i) in
      let st1 := with_graph st (c_graph (obj st c))
        (fun g => md_unlink (md_remove (g_remove None None (Some it)
                    (g_remove (Some it) None None g)) me None None) me None None) in
      match parents fuel st1 i with
      | Err e => (st1, Err e)
      | Ok [] => (st1, Ok tt)
      | Ok (p :: _) =>
          match dget (c_id (obj st1 i)) (c_children (obj st1 p)) with
          | None => (st1, Err KeyError)
          | Some _ =>
              (with_obj st1 p (fun x =>
                 put_children (ddel (c_id (obj st1 i)) (c_children x)) x), Ok tt)
          end
      end
  end.

(** ResourceCollection.lang and CtsWorkMetadata.lang: metadata.py lines
    443-459, inventory.py lines 460-475.  A missing language reads as the
    text None. *)
Definition get_lang (order : list term -> list term) (st : state) (c : nat)
  : result str :=
  match c_kind (obj st c) with
  | KText _ | KWork =>
      Ok match hd_error (g_objects order (node (obj st c)) dc_language
                 (nth (c_graph (obj st c)) (graphs st) [])) with
         | Some t => text_of t
         | None => #"None"
         end
  | _ => Err AttributeError
  end.

Definition set_lang (st : state) (c : nat) (l : str) : state :=
  with_graph st (c_graph (obj st c))
    (g_set (node (obj st c), dc_language, Literal l None None)).

(** inventory.py lines 207-223, 443-449, 564-570: constructors of texts, works
    and textgroups from a URN (given as text).  The object and its statements
    exist already when the URN turns out to be malformed. *)
Definition new_cts (order : list term -> list term) (st : state) (k : kind)
    (urn : str) (parent : option nat) (lang : option str) : state * result nat :=
  let text := u <- urn_parse urn ;; to_str u in
  let '(st1, c) := new_object st k urn
    (match text with Ok t => t | Err _ => [] end) in
  match text with
  | Err e => (st1, Err e)
  | Ok _ =>
      let st2 := match k, lang with
                 | KText _, Some l => set_lang st1 c l
                 | _, _ => st1
                 end in
      match parent with
      | None => (st2, Ok c)
      | Some p =>
          let st3 := set_parent st2 c p in
          match k, lang with
          | KText _, None =>
              match get_lang order st3 p with
              | Ok l => (set_lang st3 c l, Ok c)
              | Err e => (st3, Err e)
              end
          | _, _ => (st3, Ok c)
          end
      end
  end.

(** inventory.py lines 500-519: [CtsWorkMetadata.get_translation_in]. *)
Definition is_translation (k : kind) : bool :=
  match k with KText Translation => true | _ => false end.
Definition is_edition (k : kind) : bool :=
  match k with KText Edition => true | _ => false end.

Fixpoint filterM {A} (f : A -> result bool) (l : list A) : result (list A) :=
  match l with
  | [] => Ok []
  | a :: l' => b <- f a ;; r <- filterM f l' ;; Ok (if b then a :: r else r)
  end.

Definition get_translation_in (order : list term -> list term) (st : state)
    (w : nat) (key : option str) : result (list nat) :=
  filterM (fun t =>
    if is_translation (c_kind (obj st t)) then
      match key with
      | None => Ok true
      | Some l => x <- get_lang order st t ;; Ok (str_eqb x l)
      end
    else Ok false) (map snd (c_children (obj st w))).

(** inventory.py lines 255-261 and 263-273: [translations] and [editions] of a
    text, asked from its parent. *)
Definition text_translations (order : list term -> list term) (st : state)
    (t : nat) (key : option str) : result (list nat) :=
  match c_parent (obj st t) with
  | None => Err AttributeError
  | Some w => match c_kind (obj st w) with
              | KWork => get_translation_in order st w key
              | _ => Err AttributeError
              end
  end.

Definition text_editions (st : state) (t : nat) : result (list nat) :=
  match c_parent (obj st t) with
  | None => Err AttributeError
  | Some w => Ok (filter (fun i => is_edition (c_kind (obj st i)))
                    (map snd (c_children (obj st w))))
  end.

(** inventory.py lines 521-526, 607-616, 661-671, 708-719: [len].  Asking the
    texts of something that is not a work, or the works of something that is
    not a textgroup, fails. *)
Definition texts_of (st : state) (w : nat) : result (list nat) :=
  match c_kind (obj st w) with
  | KWork => Ok (map snd (c_children (obj st w)))
  | _ => Err AttributeError
  end.

Definition works_of (st : state) (t : nat) : result (list nat) :=
  match c_kind (obj st t) with
  | KTextgroup => Ok (map snd (c_children (obj st t)))
  | _ => Err AttributeError
  end.

Definition textgroups_of (st : state) (i : nat) : result (list nat) :=
  match c_kind (obj st i) with
  | KInventory => Ok (map snd (c_children (obj st i)))
  | _ => Err AttributeError
  end.

Definition flat_mapM {A B} (f : A -> result (list B)) (l : list A)
  : result (list B) :=
  ls <- mapM f l ;; Ok (concat ls).

Definition texts_listed (st : state) (c : nat) : result (list nat) :=
  let in_tg t := ws <- works_of st t ;; flat_mapM (texts_of st) ws in
  let in_inv i := ts <- textgroups_of st i ;; flat_mapM in_tg ts in
  match c_kind (obj st c) with
  | KWork => texts_of st c
  | KTextgroup => in_tg c
  | KInventory => in_inv c
  | KInventoryCollection => flat_mapM in_inv (members st c)
  | _ => Err TypeError
  end.

Definition coll_len (st : state) (c : nat) : result nat :=
  l <- texts_listed st c ;; Ok (length l).

(** [copy.deepcopy]: every object and graph reachable from the copied one is
    copied, sharing kept.  The model copies the whole store: the part that is
    not reachable from the copy cannot be seen from anywhere. *)
Definition shift (n g : nat) (x : coll) : coll :=
  MkColl (c_kind x) (c_id x) (c_urn x) (option_map (Nat.add n) (c_parent x))
    (map (fun e => (fst e, n + snd e)) (c_children x)) (g + c_graph x).

Definition deepcopy (st : state) (c : nat) : state * nat :=
  (MkState (objs st ++ map (shift (length (objs st)) (length (graphs st))) (objs st))
           (graphs st ++ graphs st),
   length (objs st) + c).

Definition set_child (st : state) (p : nat) (k : str) (c : nat) : state :=
  with_obj st p (fun x => put_children (dset k c (c_children x)) x).

(** inventory.py lines 477-498: [CtsWorkMetadata.update].  The attribute
    [resource], cleared on the texts received, is not modelled. *)
Definition take_text (self : nat) (st : state) (e : str * nat) : state :=
  set_parent (set_child st self (fst e) (snd e)) (snd e) self.

Definition work_update (st : state) (self other : nat) : state * result unit :=
  match c_kind (obj st other) with
  | KWork =>
      if str_eqb (c_urn (obj st self)) (c_urn (obj st other)) then
        (fold_left (take_text self) (c_children (obj st other)) st, Ok tt)
      else (st, Err InvalidURN)
  | _ => (st, Err TypeError)
  end.

(** inventory.py lines 581-605: [CtsTextgroupMetadata.update].  Members are
    expected to be works: anything else under a key the receiver also has is
    treated as having no [update]. *)
Definition take_work (self : nat) (sr : state * result unit) (e : str * nat)
  : state * result unit :=
  let '(st, r) := sr in
  match r with
  | Err _ => sr
  | Ok _ =>
      let '(k, w) := e in
      let '(st1, copy) := deepcopy st w in
      match dget k (c_children (obj st self)) with
      | Some mine =>
          match c_kind (obj st mine) with
          | KWork =>
              let '(st2, r2) := work_update st1 mine copy in
              match r2 with
              | Err _ => (st2, r2)
              | Ok _ => (set_parent st2 mine self, Ok tt)
              end
          | _ => (st1, Err AttributeError)
          end
      | None => (set_parent (set_child st1 self k copy) copy self, Ok tt)
      end
  end.

Definition textgroup_update (st : state) (self other : nat)
  : state * result unit :=
  match c_kind (obj st other) with
  | KTextgroup =>
      if str_eqb (c_urn (obj st self)) (c_urn (obj st other)) then
        fold_left (take_work self) (c_children (obj st other)) (st, Ok tt)
      else (st, Err InvalidURN)
  | _ => (st, Err TypeError)
  end.

(** inventory.py lines 59-64: the [__eq__] of CTS collections, the classes
    being compared by [isinstance(other, self.__class__)].  An inventory has
    the empty URN (line 56). *)
Definition instance_of (k k' : kind) : bool :=
  match k', k with
  | KText Unknown, KText _ => true
  | KText Edition, KText Edition => true
  | KText Translation, KText Translation => true
  | KText Commentary, KText Commentary => true
  | KWork, KWork | KTextgroup, KTextgroup | KInventory, KInventory
  | KInventoryCollection, KInventoryCollection => true
  | KCollection, _ => true
  | _, _ => false
  end.

Definition cts_eq (st : state) (a b : nat) : bool :=
  Nat.eqb a b
  || (instance_of (c_kind (obj st b)) (c_kind (obj st a))
      && str_eqb (c_urn (obj st a)) (c_urn (obj st b))).

(** [a == b]: Python asks the right operand first when its class is a strict
    subclass of the class of the left one; the plain class has no [__eq__] of
    its own and compares by identity. *)
Definition coll_eq (st : state) (a b : nat) : bool :=
  let ka := c_kind (obj st a) in
  let kb := c_kind (obj st b) in
  match ka, kb with
  | KCollection, KCollection => Nat.eqb a b
  | KCollection, _ => cts_eq st b a
  | _, _ =>
      if instance_of kb ka && negb (instance_of ka kb) then cts_eq st b a
      else cts_eq st a b
  end.
