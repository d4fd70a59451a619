(** The URN of a text: given when it is made, assigned afterwards, shared with others.

    Models /repo/MyCapytain/resources/prototypes/cts/text.py lines 39-66, with
    /repo/MyCapytain/resources/prototypes/text.py lines 42-44 and 69-75, for the texts
    and passages of a CTS endpoint (/repo/MyCapytain/resources/texts/remote/cts.py
    lines 37-53, 98-103, 333-334, 391-395 and 406-408), on URN objects (UrnModel.v)
    which can change.  Simplification: the retriever of a text and the element of a
    passage are there and are not looked at; the request is left at its address. *)

From Coq Require Import List NArith Arith Bool.
From Verif Require Import PyStr RefModel UrnModel PassageModel RemoteModel.
Import ListNotations.

(** A text, or a passage: [_identifier] and [_urn], the place of a URN object. *)
Record text := MkText { t_passage : bool; t_id : str; t_urn : option nat }.

(** The URN objects, those of them that the program made itself, and the texts. *)
Record world := MkWorld { w_urns : list urn; w_named : list nat; w_texts : list text }.
Definition start : world := MkWorld [] [] [].

(** How a program gets at a URN object: a name of its own, or [text.urn]. *)
Inductive place := Named (k : nat) | UrnOf (t : nat).

(** What is given as URN: None, a text, a URN object, or something else. *)
Inductive given := Nothing | Word (s : str) | From (pl : place) | Other.

Inductive deed :=
| MakeUrn (s : str)                          (* u = URN(s) *)
| ChangeUrn (pl : place) (o : urn_op)        (* u.version = v, str(u) *)
| MakeText (passage : bool) (g : given)      (* CtsText(urn=g), CtsPassage(urn=g) *)
| Assign (t : nat) (g : given)               (* t.urn = g *)
| AskUrn (t : nat)                           (* str(t.urn) *)
| AskId (t : nat)                            (* t.id *)
| AskDepth (t : nat)                         (* t.depth *)
| AskPassage (t : nat) (r : ref).            (* t.getTextualNode(r) *)

Inductive reply :=
| Gives (k : nat) | Done | Says (s : str) | SaysNone | Counts (n : nat) | Raised (e : exn).

Fixpoint replace {A} (i : nat) (x : A) (l : list A) : list A :=
  match l, i with
  | [], _ => []
  | _ :: l', 0 => x :: l'
  | y :: l', S i' => y :: replace i' x l'
  end.

Definition with_urns (l : list urn) (w : world) : world := MkWorld l (w_named w) (w_texts w).
Definition with_texts (l : list text) (w : world) : world := MkWorld (w_urns w) (w_named w) l.

(** The object at a place, if there is one ([t.urn] can be None). *)
Definition at_place (w : world) (pl : place) : option nat :=
  match pl with
  | Named k => nth_error (w_named w) k
  | UrnOf t => match nth_error (w_texts w) t with Some x => t_urn x | None => None end
  end.

(** [str] of the URN object [i], which keeps what it computed. *)
Definition spell (w : world) (i : nat) : world * result str :=
  match nth_error (w_urns w) i with
  | Some u => (with_urns (replace i (snd (urn_str u)) (w_urns w)) w, fst (urn_str u))
  | None => (w, Err AttributeError)
  end.

(** [str] of what is given (text.py line 40). *)
Definition spell_given (w : world) (g : given) : world * result str :=
  match g with
  | Nothing | Other => (w, Ok #"None")
  | Word s => (w, Ok s)
  | From pl => match at_place w pl with Some i => spell w i | None => (w, Ok #"None") end
  end.

(** The setter (lines 52-66): the URN object that will be the text's. *)
Definition accept (w : world) (g : given) : world * result nat :=
  match g with
  | Word s => match urn_parse s with
              | Ok u => (with_urns (w_urns w ++ [u]) w, Ok (length (w_urns w)))
              | Err e => (w, Err e)
              end
  | From pl => match at_place w pl with Some i => (w, Ok i) | None => (w, Err TypeError) end
  | Nothing | Other => (w, Err TypeError)
  end.

Definition add_text (w : world) (x : text) : world * reply :=
  (with_texts (w_texts w ++ [x]) w, Gives (length (w_texts w))).

(** A new text (lines 39-44): the identifier is read first.  None is no URN, and
    neither is the urn of a text that has none. *)
Definition is_none (w : world) (g : given) : bool :=
  match g with Nothing => true | From pl => match at_place w pl with None => true | _ => false end | _ => false end.
Definition make_text (w : world) (g : given) : world * reply :=
  let '(w, r) := spell_given w g in
  match r with
  | Err e => (w, Raised e)
  | Ok id =>
      if is_none w g then add_text w (MkText false id None)
      else let '(w, r) := accept w g in
           match r with Ok i => add_text w (MkText false id (Some i)) | Err e => (w, Raised e) end
  end.

(** A new passage (remote/cts.py lines 391-395): made without URN, which is then
    assigned. *)
Definition make_passage (w : world) (g : given) : world * reply :=
  let '(w, r) := accept w g in
  match r with Ok i => add_text w (MkText true #"None" (Some i)) | Err e => (w, Raised e) end.

Definition on_urn (w : world) (t : nat) (f : nat -> urn -> world * reply) (none : reply) : world * reply :=
  match at_place w (UrnOf t) with
  | Some i => match nth_error (w_urns w) i with Some u => f i u | None => (w, Raised AttributeError) end
  | None => (w, none)
  end.

Definition step (w : world) (d : deed) : world * reply :=
  match d with
  | MakeUrn s =>
      match urn_parse s with
      | Ok u => (MkWorld (w_urns w ++ [u]) (w_named w ++ [length (w_urns w)]) (w_texts w), Gives (length (w_named w)))
      | Err e => (w, Raised e)
      end
  | ChangeUrn pl o =>
      match at_place w pl with
      | Some i =>
          match nth_error (w_urns w) i with
          | Some u =>
              (with_urns (replace i (urn_step u o) (w_urns w)) w,
               match o with
               | OpRef v => match snd (set_ref v u) with Some e => Raised e | None => Done end
               | OpStr => match fst (urn_str u) with Ok s => Says s | Err e => Raised e end
               | _ => Done
               end)
          | None => (w, Raised AttributeError)
          end
      | None => (w, match o with OpStr => Says #"None" | _ => Raised AttributeError end)
      end
  | MakeText passage g => if passage then make_passage w g else make_text w g
  | Assign t g =>
      match nth_error (w_texts w) t with
      | None => (w, Raised AttributeError)
      | Some x =>
          let '(w, r) := accept w g in
          match r with
          | Ok i => (with_texts (replace t (MkText (t_passage x) (t_id x) (Some i)) (w_texts w)) w, Done)
          | Err e => (w, Raised e)
          end
      end
  | AskUrn t =>
      on_urn w t (fun i u => let '(w, r) := spell w i in (w, match r with Ok s => Says s | Err e => Raised e end)) SaysNone
  | AskId t =>
      match nth_error (w_texts w) t with
      | None => (w, Raised AttributeError)
      | Some x =>
          if t_passage x then
            on_urn w t (fun i u => (w, Says (match u_ref u with Some r => r_str r | None => #"None" end))) (Raised AttributeError)
          else (w, Says (t_id x))
      end
  | AskDepth t =>
      on_urn w t (fun i u => (w, match u_ref u with Some r => Counts (ref_depth r) | None => SaysNone end)) (Raised AttributeError)
  | AskPassage t r =>
      on_urn w t (fun i u => let '(w, s) := spell w i in (w, match s with Ok s => Says (s ++ [c_colon] ++ r_str r) | Err e => Raised e end))
        (Says (#"None" ++ [c_colon] ++ r_str r))
  end.

Fixpoint run (w : world) (h : list deed) : world * list reply :=
  match h with
  | [] => (w, [])
  | d :: h' => let '(w, r) := step w d in let '(w, rs) := run w h' in (w, r :: rs)
  end.
