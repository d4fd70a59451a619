(** Citations as Python objects: assigning, adding and copying.

    Models BaseCitationSet and BaseCitation of
    /repo/MyCapytain/common/reference/_base.py lines 9-312 and the property
    [child] of /repo/MyCapytain/common/reference/_capitains_cts.py lines 691-702
    and 748-767.  SchemeModel has the schemes that are built level by level;
    here any citation may be given to any other, and [_children] is a list
    object, which two citations can have in common. *)

From Coq Require Import List NArith ZArith Arith Bool.
From Verif Require Import PyStr TreeModel.
Import ListNotations.

(** BaseCitationSet, and BaseCitation with its subclasses. *)
Inductive ckind := KSet | KCit.

(** The attributes: [_name], [__refsDecl] (CTS citations), [_children], which is
    one of the lists of the world, and [_root]. *)
Record cobj := MkObj {
  o_kind : ckind;
  o_name : option str;
  o_refs : option str;
  o_list : nat;
  o_root : option nat
}.

Record world := MkWorld { objects : list cobj; lists : list (list nat) }.

Definition nobody : cobj := MkObj KSet None None 0 None.
Definition cob (w : world) (i : nat) : cobj := nth i (objects w) nobody.

Fixpoint change {A} (l : list A) (i : nat) (f : A -> A) : list A :=
  match l, i with
  | [], _ => []
  | x :: l', 0 => f x :: l'
  | x :: l', S i' => x :: change l' i' f
  end.
Definition change_object (w : world) (i : nat) (f : cobj -> cobj) : world :=
  MkWorld (change (objects w) i f) (lists w).

(** ** Reading *)

(** The property [children] (_base.py lines 27-33). *)
Definition children (w : world) (i : nat) : list nat := nth (o_list (cob w i)) (lists w) [].
(** [is_root] and [root] (lines 155-160, 211-216, 225-234).  Simplification: a set
    has no [root] until one is assigned; here it is its own. *)
Definition is_root (w : world) (i : nat) : bool :=
  match o_kind (cob w i), o_root (cob w i) with KCit, Some _ => false | _, _ => true end.
Definition root (w : world) (i : nat) : nat :=
  match o_root (cob w i) with Some r => r | None => i end.
(** [child] (_capitains_cts.py lines 748-756). *)
Definition child (w : world) (i : nat) : option nat := hd_error (children w i).

(** [__iter__] (_base.py lines 66-79 and 259-274); [fuel] is what Python's
    recursion limit leaves. *)
Fixpoint iterate (fuel : nat) (w : world) (i : nat) : result (list nat) :=
  match fuel with
  | 0 => Err RecursionError
  | S fuel' =>
      below <- mapM (iterate fuel' w) (children w i) ;;
      Ok (match o_kind (cob w i) with KSet => [] | KCit => [i] end ++ concat below)
  end.

(** [depth] (lines 91-107 and 299-312). *)
Fixpoint depth (fuel : nat) (w : world) (i : nat) : result nat :=
  match fuel with
  | 0 => Err RecursionError
  | S fuel' =>
      let own := match o_kind (cob w i) with KSet => 0 | KCit => 1 end in
      match children w i with
      | [] => Ok own
      | l => ds <- mapM (depth fuel' w) l ;; Ok (own + fold_right Nat.max 0 ds)
      end
  end.

(** [__len__] (lines 128-134). *)
Fixpoint size (fuel : nat) (w : world) (i : nat) : result nat :=
  match fuel with
  | 0 => Err RecursionError
  | S fuel' =>
      ns <- mapM (size fuel' w) (children w i) ;;
      Ok (length (children w i) + list_sum ns)
  end.

(** [__getitem__] (lines 109-126), the generator read to its end. *)
Fixpoint at_level (k : nat) (w : world) (i : nat) : list nat :=
  match k with
  | 0 => children w i
  | S k' => flat_map (at_level k' w) (children w i)
  end.
Definition getitem (fuel : nat) (w : world) (i : nat) (item : Z) : result (list nat) :=
  if (item <? 0)%Z then
    d <- depth fuel w i ;;
    if (Z.of_nat d + item <? 0)%Z then Err CitationDepthError
    else Ok (at_level (Z.to_nat (Z.of_nat d + item)) w i)
  else Ok (at_level (Z.to_nat item) w i).

(** What hangs below a citation, as the value TreeModel works with. *)
Fixpoint tree (fuel : nat) (w : world) (i : nat) : result citation :=
  match fuel with
  | 0 => Err RecursionError
  | S fuel' =>
      l <- mapM (tree fuel' w) (children w i) ;;
      Ok (Cite (o_name (cob w i)) (o_root (cob w i)) l)
  end.

(** ** Writing *)

Definition put_root (r : option nat) (x : cobj) : cobj :=
  MkObj (o_kind x) (o_name x) (o_refs x) (o_list x) r.
Definition put_name (n : option str) (x : cobj) : cobj :=
  MkObj (o_kind x) n (o_refs x) (o_list x) (o_root x).
Definition put_refs (r : option str) (x : cobj) : cobj :=
  MkObj (o_kind x) (o_name x) r (o_list x) (o_root x).
Definition put_list (l : nat) (x : cobj) : cobj :=
  MkObj (o_kind x) (o_name x) (o_refs x) l (o_root x).

(** The setter of [refsDecl] (_capitains_cts.py lines 743-746). *)
Definition set_refs (w : world) (i : nat) (r : option str) : world :=
  match r with
  | Some _ => change_object w i (put_refs r)
  | None => w
  end.

(** [_children] becomes a new list object. *)
Definition fresh_list (w : world) (self : nat) (l : list nat) : world :=
  MkWorld (change (objects w) self (put_list (length (lists w)))) (lists w ++ [l]).

(** What can stand in a list given as children. *)
Inductive value := VNone | VCit (i : nat) | VOther.

(** isinstance(citation, (BaseCitation, type(self))).  Simplification: there is
    one class of sets. *)
Definition accepted (w : world) (self i : nat) : bool :=
  match o_kind (cob w i), o_kind (cob w self) with
  | KCit, _ => true
  | KSet, KSet => true
  | KSet, KCit => false
  end.

(** The loop of the setter of [children] (lines 40-53): the world it leaves, and
    the list or the exception. *)
Fixpoint take_children (w : world) (self : nat) (vals : list value) (final : list nat)
  : world * result (list nat) :=
  match vals with
  | [] => (w, Ok final)
  | VNone :: vals' => take_children w self vals' final
  | VOther :: _ => (w, Err TypeError)
  | VCit i :: vals' =>
      if accepted w self i then
        let r := match o_kind (cob w self) with KCit => root w self | KSet => self end in
        take_children (change_object w i (put_root (Some r))) self vals' (final ++ [i])
      else (w, Err TypeError)
  end.

(** The setter (lines 35-55). *)
Definition set_children (w : world) (self : nat) (vals : list value) : world * result unit :=
  match take_children w self vals [] with
  | (w', Ok l) => (fresh_list w' self l, Ok tt)
  | (w', Err e) => (w', Err e)
  end.

(** [add_child] (lines 57-64): citations are added, anything else is ignored. *)
Definition add_child (w : world) (self : nat) (v : value) : world :=
  match v with
  | VCit i =>
      match o_kind (cob w i) with
      | KCit => MkWorld (objects w) (change (lists w) (o_list (cob w self)) (fun l => l ++ [i]))
      | KSet => w
      end
  | _ => w
  end.

(** Changing, from outside, the list that [children] answers: of an empty one it
    answers a new list (line 33), so that nothing changes. *)
Definition splice (w : world) (self : nat) (l : list nat) : world :=
  MkWorld (objects w)
    (change (lists w) (o_list (cob w self)) (fun old => match old with [] => [] | _ => l end)).

(** BaseCitationSet(children) (lines 21-25). *)
Definition new_set (w : world) (vals : list value) : world * result unit :=
  let self := length (objects w) in
  let w1 := MkWorld (objects w ++ [MkObj KSet None None (length (lists w)) None]) (lists w ++ [[]]) in
  match vals with
  | [] => (w1, Ok tt)
  | _ => set_children w1 self vals
  end.

(** BaseCitation(name, children, root) (lines 192-209); a CTS citation then
    stores its refsDecl (_capitains_cts.py lines 691-702). *)
Definition new_citation (w : world) (name refs : option str) (vals : list value) (r : option nat)
  : world * result unit :=
  let self := length (objects w) in
  let w1 := MkWorld (objects w ++ [MkObj KCit name None (length (lists w)) None]) (lists w ++ [[]]) in
  match set_children w1 self vals with
  | (w2, Ok _) => (set_refs (change_object w2 self (put_root r)) self refs, Ok tt)
  | (w2, Err e) => (w2, Err e)
  end.

(** The setter of [child] (_capitains_cts.py lines 758-767). *)
Definition set_child (w : world) (self : nat) (v : option nat) : world * result unit :=
  match v with
  | Some i =>
      match set_children w self [VCit i] with
      | (w1, Ok _) =>
          (change_object w1 i (put_root (Some (if is_root w1 self then self else root w1 self))), Ok tt)
      | (w1, Err e) => (w1, Err e)
      end
  | None => set_children w self []
  end.

(** ** Copying (lines 136-145)

    copy.copy makes an object of the same class and gives it what
    [__getstate__] returns, a new dictionary with the same values: the list is
    the same object. *)
Definition copy_copy (w : world) (i : nat) : world := MkWorld (objects w ++ [cob w i]) (lists w).

(** pickle and copy.deepcopy go on through the dictionary: all that [saved]
    holds is made anew in [later], sharing kept.  Simplification: this includes
    the part that does not hang together with the citation saved, which cannot be
    seen from anywhere.  The object saved as [i] is now object
    [length (objects later) + i]. *)
Definition move (n m : nat) (x : cobj) : cobj :=
  MkObj (o_kind x) (o_name x) (o_refs x) (m + o_list x) (option_map (Nat.add n) (o_root x)).
Definition loads (saved later : world) : world :=
  MkWorld (objects later ++ map (move (length (objects later)) (length (lists later))) (objects saved))
          (lists later ++ map (map (Nat.add (length (objects later)))) (lists saved)).
Definition loaded (later : world) (i : nat) : nat := length (objects later) + i.
Definition deep_copy (w : world) : world := loads w w.
