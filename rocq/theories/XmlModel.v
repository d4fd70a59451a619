(** XML trees, the XPath fragment used by citations, and passage extraction.
    Models /repo/MyCapytain/common/utils/xml.py lines 110-304.

    A document is a tree of elements; comments and processing instructions are
    not modelled.  As in lxml, an element carries the text before its first child
    and the tail that follows its closing tag.  Namespaces are resolved: tags and
    attribute names are Clark names. *)

From Coq Require Import List NArith Arith Bool.
From Verif Require Import PyStr.
Import ListNotations.

Inductive node := Elem (tag : str) (attrs : list (str * str)) (text tail : str) (kids : list node).

Definition n_tag (n : node) := match n with Elem t _ _ _ _ => t end.
Definition n_attrs (n : node) := match n with Elem _ a _ _ _ => a end.
Definition n_text (n : node) := match n with Elem _ _ x _ _ => x end.
Definition n_tail (n : node) := match n with Elem _ _ _ x _ => x end.
Definition n_kids (n : node) := match n with Elem _ _ _ _ k => k end.

(** node.get(name). *)
Fixpoint get_attr (name : str) (attrs : list (str * str)) : option str :=
  match attrs with
  | [] => None
  | (k, v) :: l => if str_eqb k name then Some v else get_attr name l
  end.

(** A position is the list of child numbers leading to it. *)
Definition path := list nat.

(** ** XPath

    A step is a name test with attribute predicates, on the child axis
    (written "/name[...]") or below any depth (written "//name[...]").  Lxml
    evaluates the expression; its semantics for this fragment is: the nodes
    reached by the steps, once each, in document order. *)
Inductive pred :=
| PHas (attr : str)               (* [@attr]         *)
| PEq (attr value : str).         (* [@attr='value'] *)

Record step := MkStep { s_desc : bool; s_name : option str; s_preds : list (list pred) }.

Definition pred_eqb (a b : pred) : bool :=
  match a, b with
  | PHas x, PHas y => str_eqb x y
  | PEq x v, PEq y w => str_eqb x y && str_eqb v w
  | _, _ => false
  end.
Definition step_eqb (a b : step) : bool :=
  Bool.eqb (s_desc a) (s_desc b) && opt_eqb str_eqb (s_name a) (s_name b) &&
  list_eqb (list_eqb pred_eqb) (s_preds a) (s_preds b).
Definition steps_eqb : list step -> list step -> bool := list_eqb step_eqb.

Definition sat_pred (n : node) (p : pred) : bool :=
  match p with
  | PHas a => match get_attr a (n_attrs n) with Some _ => true | None => false end
  | PEq a v => match get_attr a (n_attrs n) with Some w => str_eqb w v | None => false end
  end.
Definition sat (s : step) (n : node) : bool :=
  match s_name s with Some t => str_eqb (n_tag n) t | None => true end &&
  forallb (forallb (sat_pred n)) (s_preds s).

(** Does the path [p], from the context node [n], follow the steps? *)
Fixpoint matches (p : path) (xs : list step) (n : node) : bool :=
  match p, xs with
  | [], [] => true
  | i :: p', s :: xs' =>
      match nth_error (n_kids n) i with
      | None => false
      | Some k => (sat s k && matches p' xs' k) || (s_desc s && matches p' xs k)
      end
  | _, _ => false
  end.

(** All positions strictly below a node, in document order. *)
Fixpoint below (n : node) : list path :=
  match n with
  | Elem _ _ _ _ kids =>
      (fix go (i : nat) (l : list node) : list path :=
         match l with
         | [] => []
         | k :: l' => [i] :: map (cons i) (below k) ++ go (S i) l'
         end) 0 kids
  end.

(** node.xpath("./s1/s2..."): the selected nodes, as paths from the context. *)
Definition xpath (n : node) (xs : list step) : list path :=
  filter (fun p => matches p xs n) (below n).
Definition selects_some (n : node) (xs : list step) : bool :=
  match xpath n xs with [] => false | _ => true end.

(** root.xpath("/s1/s2..."): an absolute expression starts above the root. *)
Definition document (root : node) : node := Elem [] [] [] [] [root].
Definition xpath_abs (root : node) (xs : list step) : list path := xpath (document root) xs.

Fixpoint lookup (n : node) (p : path) : option node :=
  match p with
  | [] => Some n
  | i :: p' => match nth_error (n_kids n) i with Some k => lookup k p' | None => None end
  end.

(** ** performXpath and __formatXpath__ (xml.py lines 110-153)

    The result is a child of [n], known by its number, and the loop flag.
    result[0] of an empty list is an IndexError, and so is xpath[0]. *)
Fixpoint first_child (f : node -> bool) (i : nat) (l : list node) : option nat :=
  match l with
  | [] => None
  | k :: l' => if f k then Some i else first_child f (S i) l'
  end.

Definition continues (k : node) (queue : list step) : bool :=
  match queue with [] => true | _ => selects_some k queue end.

Definition perform_xpath (n : node) (xs : list step) : result (nat * bool) :=
  match xs with
  | [] => Err IndexError
  | s :: queue =>
      match first_child (fun k => sat s k && continues k queue) 0 (n_kids n) with
      | Some i => Ok (i, false)
      | None =>
          if s_desc s then
            match first_child (fun k => selects_some k xs) 0 (n_kids n) with
            | Some i => Ok (i, true)
            | None => Err IndexError
            end
          else Err IndexError
      end
  end.

(** ** copyNode (xml.py lines 156-182): the element without, or with, its
    content; the tail of the node itself is never copied, those of its children
    are (copy.copy of an lxml element takes the tail along). *)
Definition copy_shell (n : node) (kids : list node) : node := Elem (n_tag n) (n_attrs n) [] [] kids.
Definition copy_full (n : node) : node := Elem (n_tag n) (n_attrs n) (n_text n) [] (n_kids n).

(** ** passageLoop (xml.py lines 202-304)

    The model returns the children that are appended to new_tree.  [same] is what
    == adds to identity when two different elements are compared: nothing for
    lxml.etree, equality of the values for lxml.objectify data elements.  The
    recursion goes down the tree; the fuel is more than its height. *)
Section Loop.
Variable same : node -> node -> bool.

Definition eq_node (j i : nat) (nj ni : node) : bool := (j =? i) || same nj ni.

(** The loop over siblings of lines 225-248. *)
Fixpoint side_siblings (i : nat) (r : node) (child : node) (pre fol : bool)
  (central : bool) (j : nat) (kids : list node) : list node :=
  match kids with
  | [] => []
  | k :: kids' =>
      if eq_node j i k r then
        child :: (if pre then [] else side_siblings i r child pre fol true (S j) kids')
      else if negb central && pre then copy_full k :: side_siblings i r child pre fol central (S j) kids'
      else if central && fol then copy_full k :: side_siblings i r child pre fol central (S j) kids'
      else side_siblings i r child pre fol central (S j) kids'
  end.

(** A copied end of a range: complete when no step is left, else the element
    with what the recursive call appends (lines 229-240, 294-302). *)
Definition copy_end (rec : node -> list step -> result (list node)) (queue : list step) (r : node) : result node :=
  match queue with
  | [] => Ok (copy_full r)
  | _ => kids <- rec r queue ;; Ok (copy_shell r kids)
  end.

(** xpath2 is None (lines 216-248); called with exactly one of the two flags. *)
Fixpoint side_loop (fuel : nat) (n : node) (xs : list step) (pre fol : bool) : result (list node) :=
  match fuel with
  | 0 => Err OutOfFuel
  | S fuel' =>
      '(i, loop) <- perform_xpath n xs ;;
      let queue := if loop : bool then xs else tl xs in
      match nth_error (n_kids n) i with
      | None => Err IndexError
      | Some r =>
          if pre || fol then
            child <- copy_end (fun r q => side_loop fuel' r q pre fol) queue r ;;
            Ok (side_siblings i r child pre fol false 0 (n_kids n))
          else Ok []
      end
  end.

(** The loop from the start to the end of a range (lines 278-297); [copy1]
    copies the start, [i2] and [r2] are the end. *)
Fixpoint range_siblings (i1 i2 : nat) (r1 r2 : node) (copy1 : node -> result node)
  (start : bool) (j : nat) (kids : list node) : result (list node) :=
  match kids with
  | [] => Ok []
  | k :: kids' =>
      if start then
        if eq_node j i2 k r2 then Ok []
        else rest <- range_siblings i1 i2 r1 r2 copy1 true (S j) kids' ;; Ok (copy_full k :: rest)
      else if eq_node j i1 k r1 then
        c <- copy1 k ;;
        rest <- range_siblings i1 i2 r1 r2 copy1 true (S j) kids' ;; Ok (c :: rest)
      else range_siblings i1 i2 r1 r2 copy1 false (S j) kids'
  end.

(** xpath2 is given (lines 249-302).  Lines 250-265 compute both results; when
    the two expressions are the same, the second is the first. *)
Fixpoint passage_loop (fuel : nat) (n : node) (xs1 xs2 : list step) : result (list node) :=
  match fuel with
  | 0 => Err OutOfFuel
  | S fuel' =>
      '(i1, loop1) <- perform_xpath n xs1 ;;
      let q1 := if loop1 : bool then xs1 else tl xs1 in
      '(i2, q2) <- (if steps_eqb xs1 xs2 then Ok (i1, q1)
                    else '(i2, loop2) <- perform_xpath n xs2 ;;
                         Ok (i2, if loop2 : bool then xs2 else tl xs2)) ;;
      match nth_error (n_kids n) i1, nth_error (n_kids n) i2 with
      | Some r1, Some r2 =>
          if eq_node i1 i2 r1 r2 then
            c <- copy_end (fun r q => passage_loop fuel' r q q2) q1 r1 ;; Ok [c]
          else
            before <- range_siblings i1 i2 r1 r2
                        (copy_end (fun r q => side_loop fuel' r q false true) q1)
                        false 0 (n_kids n) ;;
            last <- copy_end (fun r q => side_loop fuel' r q true false) q2 r2 ;;
            Ok (before ++ [last])
      | _, _ => Err IndexError
      end
  end.
End Loop.

Fixpoint height (n : node) : nat :=
  match n with Elem _ _ _ _ kids => S (fold_right Nat.max 0 (map height kids)) end.

(** The tree built by getTextualNode (cts.py lines 86-98): the root without its
    content, then what passageLoop appends. *)
Definition extract (same : node -> node -> bool) (root : node) (xs1 xs2 : list step) : result node :=
  kids <- passage_loop same (S (height root)) root xs1 xs2 ;;
  Ok (copy_shell root kids).

(** Comparison of lxml.etree elements: identity only. *)
Definition identity_only (a b : node) : bool := false.

(** Comparison of lxml.objectify elements: elements without children are data
    elements and compare by value, all others by identity.  How two texts compare
    (as strings, as numbers when both read as numbers) is an argument. *)
Definition is_leaf (n : node) : bool := match n_kids n with [] => true | _ => false end.
Definition objectified (eqv : str -> str -> bool) (a b : node) : bool :=
  is_leaf a && is_leaf b && eqv (n_text a) (n_text b).
