(** What a program can do with citations, and what it means for two citations to
    answer alike. *)

From Coq Require Import List NArith ZArith Arith Bool.
From Verif Require Import PyStr TreeModel CiteLifeModel.
Import ListNotations.

(** What a citation refers to is there. *)
Definition sound (w : world) : Prop :=
  forall i, i < length (objects w) ->
    o_list (cob w i) < length (lists w) /\
    (forall j, In j (children w i) -> j < length (objects w)) /\
    (forall r, o_root (cob w i) = Some r -> r < length (objects w)).

Definition outcome {A B} (f : A -> B) (r : result A) : result B :=
  match r with Ok a => Ok (f a) | Err e => Err e end.

(** The same tree, its roots told by [name]. *)
Fixpoint renamed (name : nat -> nat) (t : citation) : citation :=
  match t with Cite n r l => Cite n (option_map name r) (map (renamed name) l) end.

(** Whatever is asked of [i'] in [w'] gets the answer that [i] gets in [w], the
    citations answered being told by [name]. *)
Record answers_alike (name : nat -> nat) (w : world) (i : nat) (w' : world) (i' : nat) : Prop := {
  al_kind : o_kind (cob w' i') = o_kind (cob w i);
  al_name : o_name (cob w' i') = o_name (cob w i);
  al_refs : o_refs (cob w' i') = o_refs (cob w i);
  al_children : children w' i' = map name (children w i);
  al_child : child w' i' = option_map name (child w i);
  al_is_root : is_root w' i' = is_root w i;
  al_root : root w' i' = name (root w i);
  al_iter : forall fuel, iterate fuel w' i' = outcome (map name) (iterate fuel w i);
  al_depth : forall fuel, depth fuel w' i' = depth fuel w i;
  al_len : forall fuel, size fuel w' i' = size fuel w i;
  al_getitem : forall fuel k, getitem fuel w' i' k = outcome (map name) (getitem fuel w i k);
  al_tree : forall fuel, tree fuel w' i' = outcome (renamed name) (tree fuel w i)
}.

(** ** Programs *)
Inductive deed : Type :=
| NewSet (vals : list value)
| NewCitation (name refs : option str) (vals : list value) (r : option nat)
| SetChildren (c : nat) (vals : list value)
| SetChild (c : nat) (v : option nat)
| AddChild (c : nat) (v : value)
| Splice (c : nat) (l : list nat)
| SetName (c : nat) (n : option str)
| SetRefs (c : nat) (r : option str)
| SetRoot (c : nat) (r : option nat)
| CopyCopy (c : nat)
| DeepCopy (c : nat).

Definition perform (w : world) (d : deed) : world :=
  match d with
  | NewSet vals => fst (new_set w vals)
  | NewCitation name refs vals r => fst (new_citation w name refs vals r)
  | SetChildren c vals => fst (set_children w c vals)
  | SetChild c v => fst (set_child w c v)
  | AddChild c v => add_child w c v
  | Splice c l => splice w c l
  | SetName c n => change_object w c (put_name n)
  | SetRefs c r => set_refs w c r
  | SetRoot c r => change_object w c (put_root r)
  | CopyCopy c => copy_copy w c
  | DeepCopy _ => deep_copy w
  end.

Fixpoint given (vals : list value) : list nat :=
  match vals with
  | [] => []
  | VCit i :: vals' => i :: given vals'
  | _ :: vals' => given vals'
  end.
Definition option_list {A} (o : option A) : list A := match o with Some x => [x] | None => [] end.

(** The citations a program needs for it. *)
Definition needs (d : deed) : list nat :=
  match d with
  | NewSet vals => given vals
  | NewCitation _ _ vals r => given vals ++ option_list r
  | SetChildren c vals => c :: given vals
  | SetChild c v => c :: option_list v
  | AddChild c v => c :: given [v]
  | Splice c l => c :: l
  | SetName c _ | SetRefs c _ | CopyCopy c | DeepCopy c => [c]
  | SetRoot c r => c :: option_list r
  end.

Definition if_made {A} (r : result unit) (l : list A) : list A :=
  match r with Ok _ => l | Err _ => [] end.

(** The citations it receives.  A constructor that fails gives nothing, but the
    citations it was given can refer to what was being made. *)
Definition receives (w : world) (d : deed) : list nat :=
  match d with
  | NewSet vals => if_made (snd (new_set w vals)) [length (objects w)]
  | NewCitation name refs vals r => if_made (snd (new_citation w name refs vals r)) [length (objects w)]
  | CopyCopy _ => [length (objects w)]
  | DeepCopy c => [loaded w c]
  | _ => []
  end.

(** [runs allowed w held w' held']: a program that holds [held] can turn [w] into
    [w'] and then hold [held'], with deeds that are [allowed]. *)
Inductive runs (allowed : deed -> Prop) (w : world) (held : list nat) : world -> list nat -> Prop :=
| runs_none : runs allowed w held w held
| runs_look : forall w' held' x y,
    runs allowed w held w' held' -> In x held' ->
    In y (children w' x) \/ o_root (cob w' x) = Some y ->
    runs allowed w held w' (y :: held')
| runs_do : forall w' held' d,
    runs allowed w held w' held' -> allowed d -> incl (needs d) held' ->
    runs allowed w held (perform w' d) (receives w' d ++ held').

Definition nothing : world := MkWorld [] [].

(** It gives [c] a list of children of its own. *)
Definition assigns (c : nat) (d : deed) : Prop :=
  match d with
  | SetChildren x _ => x = c
  | SetChild x _ => x = c
  | _ => False
  end.

(** [j] hangs below [i], or is it. *)
Inductive below (w : world) (i : nat) : nat -> Prop :=
| below_self : below w i i
| below_child : forall j k, below w i j -> In k (children w j) -> below w i k.

(** The names of the levels of a tree. *)
Fixpoint names (t : citation) : list (option str) :=
  match t with Cite n _ l => n :: flat_map names l end.
Fixpoint level_names (k : nat) (t : citation) : list (option str) :=
  match k, t with
  | 0, Cite _ _ l => map c_name l
  | S k', Cite _ _ l => flat_map (level_names k') l
  end.

(** What may be given as a child: nothing, a citation, or, to a set, a set. *)
Definition fits (w : world) (c : nat) (v : value) : Prop :=
  match v with
  | VNone => True
  | VOther => False
  | VCit i => o_kind (cob w i) = KCit \/ o_kind (cob w c) = KSet
  end.

(** What the children of [c] are told their root is. *)
Definition top (w : world) (c : nat) : nat :=
  match o_kind (cob w c), o_root (cob w c) with
  | KCit, Some r => r
  | _, _ => c
  end.

(** [n] steps down from [i], each to a child, can end at [j]. *)
Fixpoint leads (w : world) (n : nat) (i j : nat) : Prop :=
  match n with 0 => i = j | S n' => exists k, In k (children w i) /\ leads w n' k j end.

(** A citation that hangs below [i] hangs below one of its own children. *)
Definition circular (w : world) (i : nat) : Prop :=
  exists j k, below w i j /\ In k (children w j) /\ below w k j.
