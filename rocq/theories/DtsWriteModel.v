(** What a caller writes into the members of a DTS collection.

    Models /repo/MyCapytain/resources/collections/dts/_resolver.py lines 15-67
    ([PaginatedProxy]: reading, [update], [set], assigning and [pop]) and lines 156-167 ([children]), on
    top of the loading of DtsModel.  There one dictionary is enough; here dictionaries
    are objects, since [set] puts one of the caller in the place of the one of the
    collection.  Comparison and the parents are left out. *)

From Coq Require Import List NArith ZArith Arith Bool.
From Verif Require Import PyStr Json HttpModel DtsModel.
Import ListNotations.

Definition dict := list (str * coll).

(** [o_dicts] are the dictionaries; [o_held] is the number of the one that the proxy
    holds (line 28, [_proxied]); [o_attr] is [_children]: the proxy, or the dictionary
    that replaced it (line 165).  The field [z_kids] of [o_lazy] is not used. *)
Record owned := MkOwned { o_lazy : lazy; o_dicts : list dict; o_held : nat; o_attr : option nat }.

Definition with_kids (st : lazy) (d : dict) : lazy :=
  MkLazy (z_id st) (z_size st) d (z_ups st) (z_parsed_kids st) (z_parsed_ups st) (z_last_kids st) (z_last_ups st) (z_sent st).

(** The collection that [getMetadata] returned: the proxy holds the dictionary 0. *)
Definition open_owned (c : coll) (sent : list request) : owned :=
  MkOwned (open_lazy c sent) [z_kids (open_lazy c sent)] 0 None.

Definition dict_at (o : owned) (n : nat) : dict := nth n (o_dicts o) [].
Fixpoint replace (n : nat) (d : dict) (l : list dict) : list dict :=
  match l, n with
  | [], _ => []
  | _ :: l', 0 => d :: l'
  | x :: l', S n' => x :: replace n' d l'
  end.
Definition store (o : owned) (n : nat) (d : dict) : owned :=
  MkOwned (o_lazy o) (replace n d (o_dicts o)) (o_held o) (o_attr o).

(** The dictionary behind [_children]. *)
Definition target (o : owned) : nat := match o_attr o with Some n => n | None => o_held o end.

(** [dict.update] with a dictionary. *)
Definition dict_update (d e : dict) : dict := fold_left (fun d kv => dset (fst kv) (snd kv) d) e d.

(** The property [children] (lines 156-167): the proxy (None), or the number of a
    dictionary, which then replaces the proxy. *)
Definition children_of (o : owned) : owned * option nat :=
  let '(st, proxy) := kids_property (o_lazy o) in
  if proxy then (MkOwned st (o_dicts o) (o_held o) (o_attr o), None)
  else (MkOwned st (o_dicts o) (o_held o) (Some (target o)), Some (target o)).

Section Writing.
Variable server : list request -> request -> result (list json).
Variable collections : route.

(** Whether the first request of a load is answered. *)
Definition replied (fuel : nat) (st : lazy) : bool :=
  match fuel with
  | 0 => false
  | S _ =>
      let page := match z_last_kids st with None => 1%Z | Some p => if (p =? 0)%Z then 1%Z else p end in
      match server (z_sent st) (get_collection collections (StrParam (z_id st)) (StrParam #"children")
              (if (1 <? page)%Z then IntParam page else NoParam)) with
      | Ok (_ :: _) => true
      | _ => false
      end
  end.

(** [PaginatedProxy._run] (lines 41-47).  Each reply is written through the property
    [children] (line 130), that is into the dictionary behind [_children]; when the
    property finds that all was read it replaces the proxy. *)
Definition run_owned (fuel : nat) (o : owned) : owned * result unit :=
  if z_parsed_ups (o_lazy o) then (o, Ok tt) else
  let n := target o in
  let '(st, res) := load server collections fuel (with_kids (o_lazy o) (dict_at o n)) Children in
  let o' := store o n (z_kids st) in
  (MkOwned st (o_dicts o') (o_held o)
     (if (z_parsed_kids (o_lazy o) || (z_size (o_lazy o) =? 0)%Z) && replied fuel (o_lazy o) then Some n else o_attr o), res).

(** A caller goes through the property, or through the proxy that it gave before. *)
Inductive via := Property | Proxy.
Inductive deed :=
| ReadAll (v : via)
| ReadOne (v : via) (k : str)
| Update (v : via) (e : dict)
| Make (d : dict)
| SetTo (v : via) (n : nat)
| Look (n : nat)
| PutOne (v : via) (k : str) (c : coll)
| Pop (v : via) (k : str).
(** [Make] makes a dictionary, [SetTo v n] is [children.set] of the dictionary [n],
    [Look n] is what the dictionary [n] holds, [PutOne v k c] is [children\[k\] = c] and
    [Pop v k] is [children.pop(k)]. *)
Inductive given_back := All (d : dict) | One (c : coll) | Done.

Definition reach (v : via) (o : owned) : owned * option nat :=
  match v with Property => children_of o | Proxy => (o, None) end.

Definition look_up (d : dict) (k : str) : result given_back :=
  match dget k d with Some c => Ok (One c) | None => Err KeyError end.

(** [dict.pop]. *)
Definition remove_key (k : str) (d : dict) : dict := filter (fun kv => negb (str_eqb (fst kv) k)) d.
Definition pop_from (o : owned) (n : nat) (k : str) : owned * result given_back :=
  match dget k (dict_at o n) with
  | Some c => (store o n (remove_key k (dict_at o n)), Ok (One c))
  | None => (o, Err KeyError)
  end.

(** [__iter__] and [__getitem__] (lines 52-64), [update] (lines 35-36) and [set]
    (lines 49-50); a plain dictionary has no [set].  A proxy has no
    [__setitem__]; [pop] is an attribute that loads first (lines 39-47). *)
Definition do_deed (fuel : nat) (o : owned) (a : deed) : owned * result given_back :=
  match a with
  | ReadAll v =>
      match reach v o with
      | (o, Some n) => (o, Ok (All (dict_at o n)))
      | (o, None) => let '(o', res) := run_owned fuel o in (o', _ <- res ;; Ok (All (dict_at o' (o_held o'))))
      end
  | ReadOne v k =>
      match reach v o with
      | (o, Some n) => (o, look_up (dict_at o n) k)
      | (o, None) =>
          match dget k (dict_at o (o_held o)) with
          | Some c => (o, Ok (One c))
          | None => let '(o', res) := run_owned fuel o in (o', _ <- res ;; look_up (dict_at o' (o_held o')) k)
          end
      end
  | Update v e =>
      let '(o, d) := reach v o in
      let n := match d with Some n => n | None => o_held o end in
      (store o n (dict_update (dict_at o n) e), Ok Done)
  | Make d => (MkOwned (o_lazy o) (o_dicts o ++ [d]) (o_held o) (o_attr o), Ok Done)
  | SetTo v n =>
      match reach v o with
      | (o, Some _) => (o, Err AttributeError)
      | (o, None) => (MkOwned (o_lazy o) (o_dicts o) n (o_attr o), Ok Done)
      end
  | Look n => (o, Ok (All (dict_at o n)))
  | PutOne v k c =>
      match reach v o with
      | (o, Some n) => (store o n (dset k c (dict_at o n)), Ok Done)
      | (o, None) => (o, Err TypeError)
      end
  | Pop v k =>
      match reach v o with
      | (o, Some n) => pop_from o n k
      | (o, None) =>
          let '(o', res) := run_owned fuel o in
          match res with Ok _ => pop_from o' (o_held o') k | Err e => (o', Err e) end
      end
  end.

Fixpoint do_deeds (fuel : nat) (o : owned) (h : list deed) : owned * list (result given_back) :=
  match h with
  | [] => (o, [])
  | a :: h' => let '(o1, x) := do_deed fuel o a in let '(o2, xs) := do_deeds fuel o1 h' in (o2, x :: xs)
  end.

(** The parents: [update] and [add] (lines 35-36) write into the set that the proxy
    holds, which is also the one that the property [parents] (lines 169-173) gives when
    all was read.  Simplifications: the set is a list in which order and repetition mean
    nothing, as in [z_ups]; [set] and what takes parents out are not modelled. *)
Inductive updeed := Access (a : access) | AddUps (e : list coll).
Definition with_ups (st : lazy) (l : list coll) : lazy :=
  MkLazy (z_id st) (z_size st) (z_kids st) l (z_parsed_kids st) (z_parsed_ups st) (z_last_kids st) (z_last_ups st) (z_sent st).
Definition do_updeed (fuel : nat) (st : lazy) (a : updeed) : lazy * option (result got) :=
  match a with
  | Access a => let '(st', x) := do_access server collections fuel st a in (st', Some x)
  | AddUps e => (with_ups st (z_ups st ++ e), None)
  end.
Fixpoint do_updeeds (fuel : nat) (st : lazy) (h : list updeed) : lazy * list (option (result got)) :=
  match h with
  | [] => (st, [])
  | a :: h' => let '(st1, x) := do_updeed fuel st a in let '(st2, xs) := do_updeeds fuel st1 h' in (st2, x :: xs)
  end.

End Writing.
