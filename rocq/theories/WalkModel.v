(** Walking through a local text: the objects, what they remember and what they
    answer.

    Models /repo/MyCapytain/resources/prototypes/text.py lines 278-355,
    /repo/MyCapytain/resources/prototypes/cts/text.py lines 155-170 and
    /repo/MyCapytain/resources/texts/local/capitains/cts.py lines 53-145, 350-446 and
    560-703, with the attributes in which texts and passages keep what they have
    answered; the computations themselves are in PassageModel.v. *)

From Coq Require Import List NArith ZArith Arith Bool.
From Verif Require Import PyStr RefModel UrnModel XmlModel PassageModel.
Import ListNotations.

(** A text or a passage that rebuilds the tree (CapitainsCtsText,
    CapitainsCtsPassage), or a passage that is an element of the text
    (_SimplePassage). *)
Inductive thing := TFull (o : tobj) | TSimple (s : simple).

(** An object and what it remembers: its children (_childIds of a text, _children
    of a passage), its siblings (_prev_next) and all references (_cts of a text). *)
Record visited := MkVisited {
  v_thing : thing;
  v_children : option (list (option ref));
  v_siblings : option (option ref * option ref);
  v_reffs : option (list (option ref))
}.
Definition fresh (t : thing) : visited := MkVisited t None None None.

(** The objects that have been made, in the order in which they were made. *)
Definition memory := list visited.

(** A step: it changes the memory also when it fails. *)
Definition W (A : Type) : Type := memory -> memory * result A.
Definition w_ret {A} (a : A) : W A := fun m => (m, Ok a).
Definition w_fail {A} (e : exn) : W A := fun m => (m, Err e).
Definition w_lift {A} (r : result A) : W A := fun m => (m, r).
Definition w_then {A B} (s : W A) (k : A -> W B) : W B :=
  fun m => let '(m', r) := s m in match r with Ok a => k a m' | Err e => (m', Err e) end.
Declare Scope walk_scope.
Notation "x <~~ s ;; k" := (w_then s (fun x => k)) (at level 61, s at next level, right associativity) : walk_scope.
Open Scope walk_scope.

Fixpoint put (m : memory) (i : nat) (f : visited -> visited) : memory :=
  match m, i with
  | [], _ => []
  | v :: m', 0 => f v :: m'
  | v :: m', S i' => v :: put m' i' f
  end.
Definition w_look (i : nat) : W visited :=
  fun m => (m, match nth_error m i with Some v => Ok v | None => Err AttributeError end).
Definition w_put (i : nat) (f : visited -> visited) : W unit := fun m => (put m i f, Ok tt).
Definition w_make (t : thing) : W nat := fun m => (m ++ [fresh t], Ok (length m)).

Definition keep_children (l : list (option ref)) (v : visited) : visited :=
  MkVisited (v_thing v) (Some l) (v_siblings v) (v_reffs v).
Definition keep_siblings (p : option ref * option ref) (v : visited) : visited :=
  MkVisited (v_thing v) (v_children v) (Some p) (v_reffs v).
Definition keep_reffs (l : list (option ref)) (v : visited) : visited :=
  MkVisited (v_thing v) (v_children v) (v_siblings v) (Some l).

Fixpoint w_map {A B} (f : A -> W B) (l : list A) : W (list B) :=
  match l with [] => w_ret [] | a :: l' => b <~~ f a ;; bs <~~ w_map f l' ;; w_ret (b :: bs) end.

Section Walk.
Variable scheme : list str.
Variable same : node -> node -> bool.

(** getReffs: cts.py lines 159-172 of texts and passages, 368-379 of simple
    passages. *)
Definition thing_reffs (t : thing) (level : Z) (sub : option ref) : result (list (option ref)) :=
  match t with
  | TFull o => get_reffs scheme same o (Some level) sub
  | TSimple s => simple_reffs scheme same s level sub
  end.

(** What a passage checks and answers before it looks at the children it remembers:
    cts.py lines 360-361 and 583-585.  A text (prototypes/text.py lines 325-333) has
    no such lines. *)
Definition childless (t : thing) : result bool :=
  match t with
  | TFull (OText _ _) => Ok false
  | TFull (OPass r _ _ _) =>
      let depth := id_depth (r_start r) in
      if negb (Nat.eqb depth (match r_end r with Some e => id_depth e | None => depth end))
      then Err InvalidSiblingRequest else Ok (Nat.leb (length scheme) depth)
  | TSimple s => Ok (Nat.leb (length scheme) (sp_depth s))
  end.

(** childIds: prototypes/text.py lines 325-333; cts.py lines 353-366 and 576-590. *)
Definition w_children (i : nat) : W (list (option ref)) :=
  v <~~ w_look i ;;
  none <~~ w_lift (childless (v_thing v)) ;;
  if (none : bool) then w_ret [] else
  match v_children v with
  | Some l => w_ret l
  | None => l <~~ w_lift (thing_reffs (v_thing v) 1%Z None) ;; _ <~~ w_put i (keep_children l) ;; w_ret l
  end.

(** firstId and lastId: prototypes/text.py lines 335-355. *)
Definition w_first_id (i : nat) : W (option ref) :=
  l <~~ w_children i ;; w_ret (match l with [] => None | r :: _ => r end).
Definition w_last_id (i : nat) : W (option ref) :=
  l <~~ w_children i ;; w_ret (last l None).

(** siblingsId: cts.py lines 409-446 and 610-674; a text has none
    (common/reference/_base.py lines 443-448). *)
Definition w_siblings (i : nat) : W (option ref * option ref) :=
  v <~~ w_look i ;;
  match v_thing v with
  | TFull (OText x u) => w_lift (siblings scheme same (OText x u))
  | TFull o =>
      _ <~~ w_lift (childless (TFull o)) ;;
      match v_siblings v with
      | Some p => w_ret p
      | None => p <~~ w_lift (siblings scheme same o) ;; _ <~~ w_put i (keep_siblings p) ;; w_ret p
      end
  | TSimple s =>
      match v_siblings v with
      | Some p => w_ret p
      | None => p <~~ w_lift (simple_siblings scheme same s) ;; _ <~~ w_put i (keep_siblings p) ;; w_ret p
      end
  end.

(** reffs: prototypes/cts/text.py lines 159-170.  An empty list is asked again.
    Passages have no such attribute. *)
Definition all_reffs (o : tobj) : result (list (option ref)) :=
  ls <- mapM (fun i => get_reffs scheme same o (Some (Z.of_nat i)) None) (seq 1 (length scheme)) ;;
  Ok (concat ls).
Definition w_reffs (i : nat) : W (list (option ref)) :=
  v <~~ w_look i ;;
  match v_thing v with
  | TFull (OText x u) =>
      match v_reffs v with
      | Some (r :: l) => w_ret (r :: l)
      | _ => l <~~ w_lift (all_reffs (OText x u)) ;; _ <~~ w_put i (keep_reffs l) ;; w_ret l
      end
  | _ => w_fail AttributeError
  end.

(** getTextualNode: cts.py lines 53-109 for a text, 690-695 for a passage, which
    does not hand on [simple], and 381-389 for a simple passage, which does not take
    it and asks the text. *)
Definition thing_node (t : thing) (r : ref) (light : bool) : result thing :=
  match t with
  | TFull (OText x u) =>
      if light then s <- simple_node scheme (OText x u) r ;; Ok (TSimple s)
      else o <- get_node scheme same (OText x u) r ;; Ok (TFull o)
  | TFull o => o' <- get_node scheme same o r ;; Ok (TFull o')
  | TSimple s =>
      if light then Err TypeError
      else o <- get_node scheme same (sp_text s) r ;; Ok (TFull o)
  end.
Definition w_node (i : nat) (r : ref) (light : bool) : W nat :=
  v <~~ w_look i ;; t <~~ w_lift (thing_node (v_thing v) r light) ;; w_make t.

(** getTextualNode of a member of a reference set: a member that is None, which is
    the reference of an empty identifier, gives the whole text (cts.py lines 64-65;
    for a passage CtsReference(None) is None as well).  [None] does not occur for the
    texts that the theorems are about. *)
Definition whole_thing (t : thing) : simple :=
  match t with
  | TFull o => let X := whole_node o in MkSimple (sp_ref X) (sp_doc X) (sp_path X) (text_object o) (sp_urn X)
  | TSimple s => whole_node (sp_text s)
  end.
Definition w_member (i : nat) (o : option ref) : W nat :=
  match o with
  | Some r => w_node i r false
  | None => v <~~ w_look i ;; w_make (TSimple (whole_thing (v_thing v)))
  end.

(** first and last: prototypes/text.py lines 311-323. *)
Definition w_go (i : nat) (o : option ref) : W (option nat) :=
  match o with None => w_ret None | Some r => n <~~ w_node i r false ;; w_ret (Some n) end.
Definition w_first (i : nat) : W (option nat) := o <~~ w_first_id i ;; w_go i o.
Definition w_last (i : nat) : W (option nat) := o <~~ w_last_id i ;; w_go i o.

(** children, read to the end: prototypes/text.py lines 295-301. *)
Definition w_child_nodes (i : nat) : W (list nat) := l <~~ w_children i ;; w_map (w_member i) l.

(** next and prev: cts.py lines 676-688 of passages, whose new passage keeps the
    passage, not the text; prototypes/text.py lines 281-293 of others. *)
Definition w_beside (i : nat) (o : option ref) : W (option nat) :=
  match o with
  | None => w_ret None
  | Some r =>
      v <~~ w_look i ;;
      match v_thing v with
      | TFull (OPass q x t u) => o' <~~ w_lift (shared_node scheme same (OPass q x t u) r) ;; n <~~ w_make (TFull o') ;; w_ret (Some n)
      | _ => n <~~ w_node i r false ;; w_ret (Some n)
      end
  end.
Definition w_next (i : nat) : W (option nat) := p <~~ w_siblings i ;; w_beside i (snd p).
Definition w_prev (i : nat) : W (option nat) := p <~~ w_siblings i ;; w_beside i (fst p).

(** parent: prototypes/text.py lines 303-309.  Nothing sets the parent identifier of a
    local text or passage, so getTextualNode is given None. *)
Definition w_parent (i : nat) : W nat := v <~~ w_look i ;; w_make (TSimple (whole_thing (v_thing v))).

(** What can be asked of an object. *)
Inductive question :=
| QReffs (level : Z) (sub : option ref)
| QChildIds | QFirstId | QLastId | QSiblingsId | QNextId | QPrevId
| QAll
| QNode (r : ref) (light : bool)
| QFirst | QLast | QChildren | QNext | QPrev | QParent.

(** What is answered: references, a reference or None, two of them, a new object or
    None, or new objects; objects are named by their place in the memory. *)
Inductive answer :=
| ARefs (l : list (option ref)) | ARef (o : option ref) | APair (p : option ref * option ref)
| AObject (o : option nat) | AObjects (l : list nat).

Definition w_as {A} (f : A -> answer) (s : W A) : W answer := a <~~ s ;; w_ret (f a).
Definition w_ask (i : nat) (q : question) : W answer :=
  match q with
  | QReffs level sub => v <~~ w_look i ;; w_as ARefs (w_lift (thing_reffs (v_thing v) level sub))
  | QChildIds => w_as ARefs (w_children i)
  | QFirstId => w_as ARef (w_first_id i)
  | QLastId => w_as ARef (w_last_id i)
  | QSiblingsId => w_as APair (w_siblings i)
  | QNextId => w_as (fun p => ARef (snd p)) (w_siblings i)
  | QPrevId => w_as (fun p => ARef (fst p)) (w_siblings i)
  | QAll => w_as ARefs (w_reffs i)
  | QNode r light => w_as (fun n => AObject (Some n)) (w_node i r light)
  | QFirst => w_as AObject (w_first i)
  | QLast => w_as AObject (w_last i)
  | QChildren => w_as AObjects (w_child_nodes i)
  | QNext => w_as AObject (w_next i)
  | QPrev => w_as AObject (w_prev i)
  | QParent => w_as (fun n => AObject (Some n)) (w_parent i)
  end.

(** A session: questions to objects, one after the other. *)
Fixpoint session (m : memory) (h : list (nat * question)) : memory * list (result answer) :=
  match h with
  | [] => (m, [])
  | (i, q) :: h' => let '(m1, a) := w_ask i q m in let '(m2, l) := session m1 h' in (m2, a :: l)
  end.

(** A session starts with a text. *)
Definition opened (x : node) (u : option urn) : memory := [fresh (TFull (OText x u))].

(** Assigning the reference of a simple passage (cts.py lines 349-351), a reference
    as long as the one it has: only the reference changes.  (The depth that the
    passage keeps apart from it, lines 335-337, stays as it was.) *)
Definition assign_reference (r : ref) (v : visited) : visited :=
  match v_thing v with
  | TSimple s => MkVisited (TSimple (MkSimple (Some r) (sp_doc s) (sp_path s) (sp_text s) (sp_urn s))) (v_children v) (v_siblings v) (v_reffs v)
  | TFull _ => v
  end.

End Walk.
