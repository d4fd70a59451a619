(** Citation schemes as linked objects.
    Models class Citation of
    /repo/MyCapytain/common/reference/_capitains_cts.py (constructor, child,
    __getitem__, __len__, match, ingest) and what it inherits from
    /repo/MyCapytain/common/reference/_base.py (children, root, __iter__, depth).

    A heap is the list of all citation objects created so far; an object is
    denoted by its position.  A node keeps the attributes _name, _Citation__refsDecl,
    _children and _root. *)

From Coq Require Import List NArith ZArith Arith Bool.
From Verif Require Import PyStr RefModel.
Import ListNotations.

Record cnode := MkNode {
  cn_name : option str;
  cn_rd : option str;
  cn_children : list nat;
  cn_root : option nat
}.

Definition cheap := list cnode.

Fixpoint update {A} (l : list A) (i : nat) (f : A -> A) : list A :=
  match l, i with
  | [], _ => []
  | x :: l', 0 => f x :: l'
  | x :: l', S i' => x :: update l' i' f
  end.

Definition put_root (r : option nat) (n : cnode) : cnode :=
  MkNode (cn_name n) (cn_rd n) (cn_children n) r.
Definition put_children (c : list nat) (n : cnode) : cnode :=
  MkNode (cn_name n) (cn_rd n) c (cn_root n).

(** is_root and the root property (_base.py lines 211-216, 225-244). *)
Definition is_root (h : cheap) (i : nat) : bool :=
  match nth_error h i with Some n => match cn_root n with None => true | Some _ => false end | None => true end.
Definition root_of (h : cheap) (i : nat) : nat :=
  match nth_error h i with Some n => match cn_root n with None => i | Some r => r end | None => i end.

(** The children setter for a citation (_base.py lines 35-55), given at most one
    child; the type test always succeeds here. *)
Definition set_children (h : cheap) (self : nat) (val : option nat) : cheap :=
  match val with
  | None => update h self (put_children [])
  | Some v => update (update h v (put_root (Some (root_of h self)))) self (put_children [v])
  end.

(** Citation(name=, refsDecl=, child=) (_capitains_cts.py lines 691-702 and
    _base.py lines 192-209).  The refsDecl is the one computed by
    CiteModel.init_refsdecl. *)
Definition cit_new (h : cheap) (name rd : option str) (child : option nat) : cheap * nat :=
  let self := length h in
  let h1 := h ++ [MkNode name None [] None] in
  let h2 := set_children h1 self child in
  let h3 := update h2 self (put_root None) in
  (update h3 self (fun n => MkNode (cn_name n) rd (cn_children n) (cn_root n)), self).

(** The child property and its setter (lines 748-767).  A citation is truthy
    (its length is at least one). *)
Definition cit_child (h : cheap) (i : nat) : option nat :=
  match nth_error h i with Some n => hd_error (cn_children n) | None => None end.

Definition cit_set_child (h : cheap) (self : nat) (val : option nat) : cheap :=
  match val with
  | None => update h self (put_children [])
  | Some v =>
      let h1 := set_children h self (Some v) in
      if is_root h1 self then update h1 v (put_root (Some self))
      else update h1 v (put_root (Some (root_of h1 self)))
  end.

(** __iter__ (_base.py lines 259-274): the object, then its children.  Python's
    recursion limit shows up only on cyclic schemes; the fuel stands for it. *)
Fixpoint iter_fuel (fuel : nat) (h : cheap) (i : nat) : result (list nat) :=
  match fuel with
  | 0 => Err RecursionError
  | S fuel' =>
      match nth_error h i with
      | None => Err AttributeError
      | Some n => rs <- mapM (iter_fuel fuel' h) (cn_children n) ;; Ok (i :: concat rs)
      end
  end.
Definition cit_iter (h : cheap) (i : nat) : result (list nat) := iter_fuel (length h) h i.

(** depth (_base.py lines 299-312). *)
Fixpoint depth_fuel (fuel : nat) (h : cheap) (i : nat) : result nat :=
  match fuel with
  | 0 => Err RecursionError
  | S fuel' =>
      match nth_error h i with
      | None => Err AttributeError
      | Some n =>
          match cn_children n with
          | [] => Ok 1
          | cs => ds <- mapM (depth_fuel fuel' h) cs ;; Ok (1 + fold_right Nat.max 0 ds)
          end
      end
  end.
Definition cit_depth (h : cheap) (i : nat) : result nat := depth_fuel (length h) h i.

(** __len__ (lines 807-813). *)
Definition cit_len (h : cheap) (i : nat) : result nat := l <- cit_iter h i ;; Ok (length l).

(** __getitem__ (lines 802-805) with an integer: a too large index is a KeyError,
    a too negative one the IndexError of the list. *)
Definition list_index {A} (l : list A) (k : Z) : result A :=
  let k' := if (k <? 0)%Z then (Z.of_nat (length l) + k)%Z else k in
  if (k' <? 0)%Z then Err IndexError
  else match nth_error l (Z.to_nat k') with Some x => Ok x | None => Err IndexError end.

Definition cit_getitem (h : cheap) (i : nat) (k : Z) : result nat :=
  l <- cit_iter h i ;;
  if (Z.of_nat (length l) - 1 <? k)%Z then Err KeyError else list_index l k.

(** match (lines 815-826) for a reference object; climbing along _root. *)
Fixpoint match_fuel (fuel : nat) (h : cheap) (i : nat) (r : ref) : result nat :=
  match fuel with
  | 0 => Err RecursionError
  | S fuel' =>
      if is_root h i then cit_getitem h i (Z.of_nat (ref_depth r) - 1)
      else match_fuel fuel' h (root_of h i) r
  end.
Definition cit_match (h : cheap) (i : nat) (r : ref) : result nat := match_fuel (length h) h i r.

(** match for anything else goes through the CtsReference constructor; the empty
    string gives None, which has no depth. *)
Definition cit_match_value (h : cheap) (i : nat) (v : pyval) : result nat :=
  o <- cts_reference v ;;
  match o with Some r => cit_match h i r | None => Err AttributeError end.

(** Python slice [7:-1]. *)
Definition slice_pattern (s : str) : str := firstn (length s - 1 - 7) (skipn 7 s).

(** ingest (lines 923-956): the list of cRefPattern elements selected by the
    XPath, each given by its n and replacementPattern attributes. *)
Fixpoint ingest_loop (h : cheap) (res : list (option str * option str)) (cits : list nat)
  : result (cheap * list nat) :=
  match res with
  | [] => Ok (h, cits)
  | (name, pat) :: res' =>
      match pat with
      | None => Err TypeError                      (* None[7:-1] *)
      | Some p =>
          let '(h', c) := cit_new h name (Some (slice_pattern p)) (last (map Some cits) None) in
          ingest_loop h' res' (cits ++ [c])
      end
  end.

Definition cit_ingest (h : cheap) (res : list (option str * option str)) : result (cheap * nat) :=
  '(h', cits) <- ingest_loop h res [] ;;
  match rev cits with
  | [] => Err IndexError                           (* citations[-1] *)
  | top :: rest =>
      Ok (fold_left (fun g c => update g c (put_root (Some top))) (rev rest) h', top)
  end.
