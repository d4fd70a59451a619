(** Specification of searching collections in depth.

    A catalogue says which members each collection has, page by page.  It does not
    change, and an endpoint answers from it; requests may fail at any time. *)

From Coq Require Import List NArith ZArith Arith Bool.
From Verif Require Import PyStr Json HttpModel HttpSpec DtsModel DtsSpec CrawlModel.
Import ListNotations.

(** The pages of the members of each collection, by identifier. *)
Definition catalogue := str -> list (list coll).

(** A collection of size 0 has no members. *)
Definition sized (cat : catalogue) (c : coll) : Prop :=
  exists z, cm_totals (co_meta c) = [JInt z] /\ (z = 0%Z -> forall k m, ~ is_member (cat (co_id c)) k m).

(** What is first received of a collection: its first page, all of it if it names no
    further pages. *)
Definition received_first (cat : catalogue) (c : coll) : Prop :=
  sized cat c /\ exists more, cat (co_id c) = co_members c :: more /\ (co_view c = false -> more = []).

(** The way [p] leads down from the collection [i]. *)
Inductive way (cat : catalogue) : str -> path -> Prop :=
| way_here : forall i, way cat i []
| way_down : forall i k m p, is_member (cat i) k m -> way cat k p -> way cat i (k :: p).

(** ... to what is listed as [c]. *)
Inductive leads_to (cat : catalogue) : str -> path -> coll -> Prop :=
| leads_one : forall i k c, is_member (cat i) k c -> leads_to cat i [k] c
| leads_more : forall i k m p c, is_member (cat i) k m -> leads_to cat k p c -> leads_to cat i (k :: p) c.

(** Where a way ends. *)
Definition target (i : str) (p : path) : str := last p i.

(** The endpoint answers from the catalogue for [top] and whatever is below it, each
    page in its own way, or fails.  An identifier stands for one thing among the
    members of a collection, and the sizes given are right. *)
Definition serves (server : list request -> request -> result (list json)) (r : route) (cat : catalogue) (top : str) : Prop :=
  forall p, way cat top p ->
    (exists ans, steady server r (target top p) Children ans /\ cpages ans 1 (cat (target top p))) /\
    consistent (cat (target top p)) /\
    forall k m, is_member (cat (target top p)) k m -> sized cat m.

(** Each string once, where it comes first. *)
Fixpoint firsts (l : list str) : list str :=
  match l with
  | [] => []
  | x :: l' => x :: filter (fun y => negb (str_eqb x y)) (firsts l')
  end.

(** The members of [i], in the order in which they are listed. *)
Definition listed_in (cat : catalogue) (i : str) : list str := firsts (map co_id (concat (cat i))).

(** The ways down from [i], as far as [n] steps: to the members, then down from each
    member in turn. *)
Fixpoint below (cat : catalogue) (n : nat) (i : str) : list path :=
  match n with
  | 0 => []
  | S n' => map (fun k => [k]) (listed_in cat i) ++
            flat_map (fun k => map (cons k) (below cat n' k)) (listed_in cat i)
  end.

(** All ways down are shorter than [n]; there is one of [n] steps. *)
Definition within (cat : catalogue) (n : nat) (i : str) : Prop := forall p, way cat i p -> length p < n.
Definition deep (cat : catalogue) (n : nat) (i : str) : Prop := exists p, way cat i p /\ length p = n.

(** The last type given. *)
Definition resource (c : coll) : Prop :=
  exists l, cm_types (co_meta c) = l ++ [JStr #"https://www.w3.org/ns/hydra/core#Resource"].

(** The first of the objects with the identifier [k]. *)
Definition first_with (i k : str) (l : list path) (p : path) : Prop :=
  exists a b, l = a ++ p :: b /\ target i p = k /\ forall p', In p' a -> target i p' <> k.

Definition right_of (cat : catalogue) (limit : nat) (i : str) (q : question) (r : result answer) : Prop :=
  match q with
  | Members => r = Ok (Objects (map (fun k => [k]) (listed_in cat i)))
  | Descendants =>
      (within cat limit i /\ r = Ok (Objects (below cat limit i))) \/ (deep cat limit i /\ r = Err RecursionError)
  | Readable =>
      (within cat limit i /\ exists f, r = Ok (Objects (filter f (below cat limit i))) /\
         forall p c, leads_to cat i p c -> (f p = true <-> resource c)) \/
      (deep cat limit i /\ r = Err RecursionError)
  | Has k =>
      (within cat limit i /\ exists b, r = Ok (Truth b) /\ (b = true <-> exists p, way cat i p /\ target i p = k)) \/
      (deep cat limit i /\ r = Err RecursionError)
  | Item k =>
      (k = i /\ r = Ok (Object [])) \/
      (k <> i /\ (exists m, is_member (cat i) k m) /\ r = Ok (Object [k])) \/
      (k <> i /\ (forall m, ~ is_member (cat i) k m) /\ within cat limit i /\
         ((exists p, r = Ok (Object p) /\ first_with i k (below cat limit i) p) \/
          (r = Err UnknownCollection /\ forall p, way cat i p -> target i p <> k))) \/
      (k <> i /\ (forall m, ~ is_member (cat i) k m) /\ deep cat limit i /\ r = Err RecursionError)
  | Key k => exists b, r = Ok (Truth b) /\ (b = true <-> exists m, is_member (cat i) k m)
  | Count => r = Ok (Number (length (listed_in cat i))) \/ r = Err TypeError
  | Empty => (r = Ok (Truth false) /\ exists k m, is_member (cat i) k m) \/ r = Ok (Truth true)
  end.

(** A right answer to a question about the object that the way [fst d] leads to from
    the collection [i]. *)
Definition right_reply (server : list request -> request -> result (list json)) (cat : catalogue) (limit : nat) (i : str)
  (d : deed) (r : result answer) : Prop :=
  (r = Err HTTPError /\ exists sent q, server sent q = Err HTTPError) \/
  (~ way cat i (fst d) /\ r = Err KeyError) \/
  (way cat i (fst d) /\ right_of cat limit (target i (fst d)) (snd d) r).

(** A request for a page that the catalogue has of the members of [top] or of something
    below it. *)
Definition asks_below (server : list request -> request -> result (list json)) (r : route) (cat : catalogue) (top : str) (q : request) : Prop :=
  exists p n ans l, way cat top p /\ steady server r (target top p) Children ans /\ cpages ans n l /\ (forall cs, In cs l -> In cs (cat (target top p))) /\
    asks q r [(#"id", StrParam (target top p)); (#"nav", StrParam #"children"); (#"page", IntParam n)]
      [(#"nav", StrParam #"children"); (#"page", IntParam 1)].
