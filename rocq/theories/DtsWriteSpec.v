(** What C82 says: the members of a collection after a caller wrote into them. *)

From Coq Require Import List NArith ZArith Arith Bool.
From Verif Require Import PyStr DtsModel DtsSpec DtsWriteModel.
Import ListNotations.

(** What a deed wrote that was answered by [x]. *)
Definition wrote (a : deed) (x : result given_back) : dict :=
  match a, x with
  | Update _ e, _ => e
  | PutOne _ k c, Ok _ => [(k, c)]
  | _, _ => []
  end.

(** A dictionary with the members of all the pages and what was written: each of the
    two is there, nothing else is, and where no member is in the way it is what was
    written last. *)
Definition members_and (l : list (list coll)) (w d : dict) : Prop :=
  NoDup (map fst d) /\
  (forall k c, In (k, c) d -> is_member l k c \/ In (k, c) w) /\
  (forall k c, is_member l k c \/ In (k, c) w -> exists c', In (k, c') d) /\
  (forall k c before after, w = before ++ (k, c) :: after -> (forall c', ~ In (k, c') after) ->
     (forall m, ~ is_member l k m) -> In (k, c) d).

Definition right_deed (l : list (list coll)) (w : dict) (a : deed) (x : result given_back) : Prop :=
  x = Err HTTPError \/
  match a with
  | ReadAll _ => exists d, x = Ok (All d) /\ members_and l w d
  | ReadOne _ k =>
      (exists c, x = Ok (One c) /\ (is_member l k c \/ In (k, c) w)) \/
      (x = Err KeyError /\ forall c, ~ is_member l k c /\ ~ In (k, c) w)
  | Update _ _ | Make _ => x = Ok Done
  | PutOne v _ _ => x = Ok Done \/ x = Err TypeError
  | SetTo _ _ | Look _ | Pop _ _ => True
  end.

(** A history in which each answer is right for what was written before it. *)
Inductive right_history (l : list (list coll)) : dict -> list deed -> list (result given_back) -> Prop :=
| right_nil : forall w, right_history l w [] []
| right_cons : forall w a h x xs, right_deed l w a x ->
    right_history l (w ++ wrote a x) h xs -> right_history l w (a :: h) (x :: xs).

Definition sets (a : deed) : Prop := match a with SetTo _ _ => True | _ => False end.
Definition removes (a : deed) : Prop := match a with Pop _ _ => True | _ => False end.

(** A plain dictionary [d] after [e] was written into it. *)
Definition overwritten (d e out : dict) : Prop :=
  NoDup (map fst out) /\
  forall k c, In (k, c) out <->
    (exists before after, e = before ++ (k, c) :: after /\ forall c', ~ In (k, c') after) \/
    (In (k, c) d /\ forall c', ~ In (k, c') e).

(** What is done to a plain dictionary through the collection, and what it answers. *)
Inductive plain_history : dict -> list deed -> list (result given_back) -> Prop :=
| plain_nil : forall d, plain_history d [] []
| plain_all : forall d h xs, plain_history d h xs -> plain_history d (ReadAll Property :: h) (Ok (All d) :: xs)
| plain_one : forall d k c h xs, In (k, c) d -> plain_history d h xs -> plain_history d (ReadOne Property k :: h) (Ok (One c) :: xs)
| plain_none : forall d k h xs, (forall c, ~ In (k, c) d) -> plain_history d h xs ->
    plain_history d (ReadOne Property k :: h) (Err KeyError :: xs)
| plain_update : forall d e d' h xs, overwritten d e d' -> plain_history d' h xs ->
    plain_history d (Update Property e :: h) (Ok Done :: xs)
| plain_put : forall d k c d' h xs, overwritten d [(k, c)] d' -> plain_history d' h xs ->
    plain_history d (PutOne Property k c :: h) (Ok Done :: xs)
| plain_pop : forall d k c d' h xs, In (k, c) d -> NoDup (map fst d') ->
    (forall k' c', In (k', c') d' <-> In (k', c') d /\ k' <> k) -> plain_history d' h xs ->
    plain_history d (Pop Property k :: h) (Ok (One c) :: xs)
| plain_pop_none : forall d k h xs, (forall c, ~ In (k, c) d) -> plain_history d h xs ->
    plain_history d (Pop Property k :: h) (Err KeyError :: xs)
| plain_set : forall d n h xs, plain_history d h xs -> plain_history d (SetTo Property n :: h) (Err AttributeError :: xs).

Definition through_collection (a : deed) : Prop :=
  match a with ReadAll v | ReadOne v _ | Update v _ | SetTo v _ | PutOne v _ _ | Pop v _ => v = Property | Make _ | Look _ => False end.

(** The parents: each answer has those known before, those written before it and those
    of all the pages, and nothing else. *)
Inductive right_parents_history (l : list (list coll)) : list coll -> list updeed -> list (option (result got)) -> Prop :=
| rp_nil : forall known, right_parents_history l known [] []
| rp_access : forall known a x h xs, right_parents known l a x -> right_parents_history l known h xs ->
    right_parents_history l known (Access a :: h) (Some x :: xs)
| rp_add : forall known e h xs, right_parents_history l (known ++ e) h xs ->
    right_parents_history l known (AddUps e :: h) (None :: xs).
