(** Independent vocabulary for walking through a remote text: what there is to be
    read, which endpoints serve it, and what each move should answer. *)

From Coq Require Import List NArith ZArith Arith Bool.
From Verif Require Import PyStr RefSpec UrnModel XmlModel XmlSpec InvModel RemoteModel RemoteSpec TextMetaSpec NavModel.
Import ListNotations.

(** ** What there is to be read *)

(** The references of each level (counted from one), in the order of the text. *)
Definition contents := nat -> list (list str).

(** An identifier that can be written in a URN. *)
Definition name_of_unit (s : str) : Prop := plain_level s /\ ~ In 58%N s /\ ~ In 35%N s.

Record readable (c : contents) : Prop := {
  rd_length : forall k r, In r (c k) -> length r = k;
  rd_names : forall k r, In r (c k) -> Forall name_of_unit r;
  rd_once : forall k, NoDup (c k);
  rd_above : forall r s, r <> [] -> In (r ++ [s]) (c (S (length r))) -> In r (c (length r))
}.

Definition same_ref (a b : list str) : bool := if list_eq_dec (list_eq_dec N.eq_dec) a b then true else false.
(** Whether [q] is [r] or below it. *)
Definition under (r q : list str) : bool := same_ref (firstn (length r) q) r.
Definition below (c : contents) (r : list str) (k : nat) : list (list str) := filter (under r) (c k).
Definition children_of (c : contents) (r : list str) : list (list str) := below c r (S (length r)).

(** The neighbours in a list. *)
Fixpoint after (r : list str) (l : list (list str)) : option (list str) :=
  match l with
  | [] => None
  | q :: l' => if same_ref q r then hd_error l' else after r l'
  end.
Definition before (r : list str) (l : list (list str)) : option (list str) := after r (rev l).
Definition previous_of (c : contents) (r : list str) : option (list str) := before r (c (length r)).
Definition next_of (c : contents) (r : list str) : option (list str) := after r (c (length r)).

(** The whole text, or one of its references. *)
Definition known_ref (c : contents) (r : list str) : Prop := r = [] \/ In r (c (length r)).

(** ** Endpoints *)

Definition address (text : str) (r : list str) : str :=
  match r with [] => text | _ => text ++ #":" ++ write_levels r end.

Definition tag_of (name : str) : str := #"{http://chs.harvard.edu/xmlns/cts}" ++ name.

(** A reply repeats the request; citations, if there are any in it, are in there. *)
Definition repeats_request (x : XmlModel.node) : Prop :=
  exists p e, first_at x request p e /\
    (~ has_tag x (tag_of #"citation") \/ ~ part_of_citation x p /\ exists k, first_below e k).

(** The endpoint serves these contents under this URN, at any time.  Of the whole
    text, only what it contains is expected to be told. *)
Record serves (E : nat -> call -> result XmlModel.node) (text : str) (c : contents) : Prop := {
  sv_references : forall n r k, known_ref c r -> length r < k ->
    exists x, E n (MkCall #"GetValidReff" (address text r) (Some (Z.of_nat k))) = Ok x /\ repeats_request x /\
      identifiers (fun ts => exists a b, ts = a ++ [tag_of #"reply"] ++ b ++ [tag_of #"urn"]) x (map write_levels (below c r k));
  sv_passage : forall n r, known_ref c r ->
    exists x, E n (MkCall #"GetPassage" (address text r) None) = Ok x /\ repeats_request x /\
      (exists p e, first_at x passage_tei p e) /\
      (r <> [] -> ~ has_tag x (tag_of #"prevnext") \/
        siblings_of x (option_map write_levels (previous_of c r)) (option_map write_levels (next_of c r)));
  sv_siblings : forall n r, known_ref c r -> r <> [] ->
    exists x, E n (MkCall #"GetPrevNextUrn" (address text r) None) = Ok x /\
      siblings_of x (option_map write_levels (previous_of c r)) (option_map write_levels (next_of c r));
  sv_first : forall n r, known_ref c r ->
    exists x, E n (MkCall #"GetFirstUrn" (address text r) None) = Ok x /\
      identifier (fun ts => exists a, ts = a ++ [tag_of #"reply"; tag_of #"urn"]) x
        (option_map write_levels (hd_error (children_of c r)))
}.

(** ** What should be answered *)

(** Where an object stands: the text object, a passage with the whole text, a
    passage with a reference. *)
Inductive place := TheText | Everything | Passage (r : list str).
Definition ref_at (p : place) : list str := match p with Passage r => r | _ => [] end.

Inductive outcome :=
| Ids (l : list (list str)) | Id (o : option (list str)) | Two (a b : option (list str)) | Moves (l : list place)
| NoneText | Raises (e : exn).

(** What comes of a move at a place.  Nothing is claimed (no outcome) of the siblings of a
    passage with the whole text and of the parent of a passage of the first level,
    which ask the endpoint for a passage called None. *)
Definition expected (c : contents) (p : place) (m : move) (o : outcome) : Prop :=
  let one q := match q with Some r => Moves [Passage r] | None => Moves [] end in
  match m with
  | ChildIds => o = Ids (children_of c (ref_at p))
  | FirstId => o = Id (hd_error (children_of c (ref_at p)))
  | LastId => o = match rev (children_of c (ref_at p)) with r :: _ => Id (Some r) | [] => Raises IndexError end
  | Children => o = Moves (map Passage (children_of c (ref_at p)))
  | First => o = one (hd_error (children_of c (ref_at p)))
  | Last => o = match rev (children_of c (ref_at p)) with r :: _ => Moves [Passage r] | [] => Raises IndexError end
  | Reffs level => exists k, level = Z.of_nat k /\ 1 <= k /\ o = Ids (below c (ref_at p) (k + length (ref_at p)))
  | Get s => exists r, r <> [] /\ In r (c (length r)) /\ s = write_levels r /\ o = Moves [Passage r]
  | GetAll => o = match p with Passage r => Moves [Passage r] | _ => Moves [Everything] end
  | PrevId => match p with TheText => o = Raises NotImplementedError | Everything => False | Passage r => o = Id (previous_of c r) end
  | NextId => match p with TheText => o = Raises NotImplementedError | Everything => False | Passage r => o = Id (next_of c r) end
  | SiblingsId =>
      match p with TheText => o = Raises NotImplementedError | Everything => False
                 | Passage r => o = Two (previous_of c r) (next_of c r) end
  | Prev => match p with TheText => o = Raises NotImplementedError | Everything => False | Passage r => o = one (previous_of c r) end
  | Next => match p with TheText => o = Raises NotImplementedError | Everything => False | Passage r => o = one (next_of c r) end
  | ParentId =>
      match p with
      | Passage [] => False
      | Passage [_] => o = NoneText
      | Passage r => o = Id (Some (removelast r))
      | _ => o = Raises AttributeError
      end
  | Parent =>
      match p with
      | Passage [] | Passage [_] => False
      | Passage r => o = Moves [Passage (removelast r)]
      | _ => o = Raises AttributeError
      end
  end.

(** How an outcome is shown when there are [n] objects already. *)
Definition shown (n : nat) (o : outcome) : answer :=
  match o with
  | Ids l => AnIds (map write_levels l)
  | Id r => AnId (option_map write_levels r)
  | Two a b => APair (Known (option_map write_levels a)) (Known (option_map write_levels b))
  | Moves l => ANew (seq n (length l))
  | NoneText => AnId (Some #"None")
  | Raises e => ARaised e
  end.
Definition arrivals (o : outcome) : list place := match o with Moves l => l | _ => [] end.

(** Histories: each move is made from an object there is. *)
Inductive travels (c : contents) : list place -> list (nat * move) -> list place -> list answer -> Prop :=
| tv_done : forall ps, travels c ps [] ps []
| tv_move : forall ps i m p o h ps' l, nth_error ps i = Some p -> expected c p m o ->
    travels c (ps ++ arrivals o) h ps' l -> travels c ps ((i, m) :: h) ps' (shown (length ps) o :: l).

(** An object stands at a place: its URN, and its element, which came with a reply
    about that URN. *)
Definition stands (E : nat -> call -> result XmlModel.node) (text : str) (p : place) (o : remote) : Prop :=
  to_str (r_urn o) = Ok (address text (ref_at p)) /\
  (r_passage o = false <-> p = TheText) /\
  (p <> TheText -> exists n x q e, E n (MkCall #"GetPassage" (address text (ref_at p)) None) = Ok x /\
     first_at x passage_tei q e /\ r_xml o = Some e).

(** Moves that only tell identifiers, and those answers that are definite. *)
Definition tells_ids (m : move) : Prop := In m [ChildIds; FirstId; LastId; PrevId; NextId; SiblingsId; ParentId].
Definition definite (a : answer) : Prop :=
  match a with AnIds _ | AnId _ => True | APair (Known _) (Known _) => True | _ => False end.
