(** DTS references and sets of them: making, comparing, finding, copying.

    Models /repo/MyCapytain/common/reference/_base.py lines 315-387 and
    /repo/MyCapytain/common/reference/_dts_1.py lines 11-56. *)

From Coq Require Import List NArith ZArith Arith Bool.
From Verif Require Import PyStr.
Import ListNotations.

(** Values that references are made of: a reference is a tuple with a type.
    Simplification: a type is a text, and a reference has no other metadata. *)
Inductive value :=
| VNone
| VText (s : str)
| VTuple (l : list value)
| VRef (l : list value) (ty : option str).

Definition is_tuple (v : value) : bool := match v with VTuple _ => true | VRef _ _ => true | _ => false end.

(** [BaseReference.__new__] (_base.py lines 322-328) and [DtsReference.__new__]
    (_dts_1.py lines 12-22): an empty type is no type. *)
Definition new_ref (refs : list value) (ty : option str) : value :=
  let ty := match ty with Some [] => None | _ => ty end in
  match refs with
  | [x] => if is_tuple x then VRef [x] ty else VRef [x; VNone] ty
  | _ => VRef refs ty
  end.

(** [start], [end] and [is_range] (_base.py lines 330-347). *)
Definition items (v : value) : list value := match v with VRef l _ => l | VTuple l => l | _ => [] end.
Definition at_index (l : list value) (i : nat) : result value :=
  match nth_error l i with Some v => Ok v | None => Err IndexError end.
Definition ref_start (v : value) : result value := at_index (items v) 0.
Definition ref_end (v : value) : result value := at_index (items v) 1.
Definition vtruthy (v : value) : bool :=
  match v with VNone => false | VText s => truthy s | VTuple l => negb (Nat.eqb (length l) 0) | VRef l _ => negb (Nat.eqb (length l) 0) end.
Definition ref_is_range (v : value) : result bool := e <- ref_end v ;; Ok (vtruthy e).

(** [==]: texts, None and tuples as in Python; [DtsReference.__eq__] (_dts_1.py
    lines 36-39), which also decides when the reference is on the right of a plain
    tuple. *)
Definition otext_eqb (a b : option str) : bool :=
  match a, b with Some x, Some y => str_eqb x y | None, None => true | _, _ => false end.
Fixpoint veq (a b : value) {struct a} : bool :=
  let all := fix all (l l' : list value) : bool :=
    match l, l' with
    | [], [] => true
    | x :: r, y :: r' => veq x y && all r r'
    | _, _ => false
    end in
  match a, b with
  | VNone, VNone => true
  | VText s, VText t => str_eqb s t
  | VTuple l, VTuple l' => all l l'
  | VRef l ty, VRef l' ty' => all l l' && otext_eqb ty ty'
  | _, _ => false
  end.
Fixpoint veq_all (l l' : list value) : bool :=
  match l, l' with
  | [], [] => true
  | x :: r, y :: r' => veq x y && veq_all r r'
  | _, _ => false
  end.

(** [!=]: no [__ne__] is defined, so that of tuples is used when both are. *)
Definition vne (a b : value) : bool :=
  if is_tuple a && is_tuple b then negb (veq_all (items a) (items b)) else negb (veq a b).

(** ** Sets *)

(** A set: its members, level, and the name of its citation if it has one. *)
Record refset := MkRefset { st_items : list value; st_level : Z; st_citation : option str }.

(** [BaseReferenceSet.__new__] (_base.py lines 358-367): a single argument is
    iterated. *)
Definition iterate (v : value) : result (list value) :=
  match v with
  | VNone => Err TypeError
  | VText s => Ok (map (fun c => VText [c]) s)
  | VTuple l => Ok l
  | VRef l _ => Ok l
  end.
Definition new_refset (refs : list value) (level : Z) (citation : option str) : result refset :=
  l <- match refs with [x] => iterate x | _ => Ok refs end ;;
  Ok (MkRefset l level citation).

(** [DtsReferenceSet.__contains__] (_dts_1.py lines 48-50). *)
Definition refset_has (s : refset) (x : value) : bool :=
  existsb (fun y => veq y x) (st_items s) || existsb (fun y => veq y (new_ref [x] None)) (st_items s).

(** [DtsReferenceSet.__eq__] (lines 52-56) with another set, a set of another class
    (same attributes), a plain tuple, or something that is not a tuple: the last
    two have no level.  A comparison of tuples with what is not one yields
    NotImplemented, which counts as true.  Two citations without levels are equal
    if their names are. *)
Inductive thing := TSet (s : refset) | TOtherSet (s : refset) | TTuple (l : list value) | TOther.
Definition refset_eq (s : refset) (o : thing) : result bool :=
  match o with
  | TSet s' => Ok (veq_all (st_items s) (st_items s') && (st_level s =? st_level s')%Z && otext_eqb (st_citation s) (st_citation s'))
  | TOtherSet s' => Ok false
  | TTuple l => if veq_all (st_items s) l then Err AttributeError else Ok false
  | TOther => Err AttributeError
  end.

(** ** Copies

    [copy.copy] and [pickle] call [__new__] with one argument, the tuple of the
    members ([tuple.__getnewargs__]), and put back the attributes.  [copy.deepcopy]
    and [pickle] do so for the members first. *)
Definition copy_ref (v : value) : value :=
  match v with
  | VRef l ty => match new_ref [VTuple l] None with VRef l' _ => VRef l' ty | v' => v' end
  | _ => v
  end.
Definition copy_refset (s : refset) : result refset := new_refset [VTuple (st_items s)] (st_level s) (st_citation s).
Definition deep_copy_refset (s : refset) : result refset := new_refset [VTuple (map copy_ref (st_items s))] (st_level s) (st_citation s).
