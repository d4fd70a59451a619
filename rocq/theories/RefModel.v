(** CTS references.
    Models /repo/MyCapytain/common/reference/_capitains_cts.py lines 28-297 and
    /repo/MyCapytain/common/reference/_base.py lines 315-387. *)

From Coq Require Import List NArith Bool.
From Verif Require Import PyStr.
Import ListNotations.

(** ** Word subreferences *)

Fixpoint take_while (f : char -> bool) (s : str) : str :=
  match s with
  | x :: s' => if f x then x :: take_while f s' else []
  | [] => []
  end.

Fixpoint drop_while (f : char -> bool) (s : str) : str :=
  match s with
  | x :: s' => if f x then drop_while f s' else s
  | [] => []
  end.

(** First match of [SUBREFERENCE] = (\w* )\[?([0-9]* )\]? at position 0
    (_capitains_cts.py line 12).  Every part of the expression is optional and
    greedy, so the first attempt always succeeds and no backtracking occurs;
    the closing bracket is not captured.  [\w] under re.UNICODE is an argument
    of the model: which code points are word characters is decided by
    CPython's Unicode tables. *)
Definition subreference_match (is_word : char -> bool) (s : str) : str * str :=
  let word := take_while is_word s in
  let rest := drop_while is_word s in
  let rest' := match rest with
               | c :: r => if N.eqb c c_lbracket then r else rest
               | [] => []
               end in
  (word, take_while is_digit rest').

(** [CtsWordReference] (_capitains_cts.py lines 28-54): the [str] value, the
    word and the counter.  [int()] only sees ASCII digits. *)
Record word_ref := MkWord { wr_str : str; wr_word : str; wr_counter : N }.

Definition cts_word_reference (is_word : char -> bool) (s : str) : word_ref :=
  let '(word, counter) := subreference_match is_word s in
  MkWord (c_at :: s) word (if truthy counter then N_of_digits counter else 0%N).

(** ** Passage identifiers *)

(** [CtsSinglePassageId] (_capitains_cts.py lines 57-110) is a [str]; the model
    keeps the string and defines its properties as functions of it. *)

(** [.list], [__iter__] : lines 91-93, 101-103. *)
Definition id_list (s : str) : list str := split c_dot (hd [] (split c_at s)).

(** The text behind the single '@', or None : lines 95-99. *)
Definition id_subref_text (s : str) : option str :=
  match split c_at s with
  | [_; w] => Some w
  | _ => None
  end.

(** [.subreference] : lines 95-99. *)
Definition id_subreference (is_word : char -> bool) (s : str) : option word_ref :=
  match id_subref_text s with
  | Some w => Some (cts_word_reference is_word w)
  | None => None
  end.

(** [str(self.subreference or "")]: a [CtsWordReference] always starts with
    '@', so it is truthy and prints as '@' followed by its text. *)
Definition id_subref_or_empty (s : str) : str :=
  match id_subref_text s with
  | Some w => c_at :: w
  | None => []
  end.

(** [.depth] and [__len__] : lines 105-110. *)
Definition id_depth (s : str) : nat := S (count c_dot s).

(** ** References *)

(** [CtsReference] (lines 113-282): the tuple (start, end) and [_str_repr].
    Both members of the tuple are [CtsSinglePassageId]s. *)
Record ref := MkRef { r_start : str; r_end : option str; r_str : str }.

(** Arguments of the constructor.  A [CtsSinglePassageId] overrides [__len__]
    with a number that is at least 1, so it is truthy even when empty, unlike a
    plain string. *)
Inductive pyval :=
| VNone
| VStr (s : str)
| VId (s : str).

Definition val_truthy (v : pyval) : bool :=
  match v with VNone => false | VStr s => truthy s | VId _ => true end.

Definition val_str (v : pyval) : option str :=
  match v with VNone => None | VStr s => Some s | VId s => Some s end.

(** Lines 164-172: the branch for a (truthy) string.  Unpacking the result of
    split("-") in two variables raises ValueError unless there are two parts. *)
Definition cts_reference_string (s : str) : result ref :=
  if negb (mem c_dash s) then Ok (MkRef s None s)
  else match split c_dash s with
       | [a; b] => Ok (MkRef a (Some b) s)
       | _ => Err ValueError
       end.

(** [CtsReference(v)] for one argument that is None, a string or a passage id:
    lines 147-149, 164-172. *)
Definition cts_reference (v : pyval) : result (option ref) :=
  if negb (val_truthy v) then Ok None
  else match val_str v with
       | None => Ok None
       | Some s => r <- cts_reference_string s ;; Ok (Some r)
       end.

(** [CtsReference(a, b)] with two strings: lines 137-145. *)
Definition cts_reference2 (a b : str) : ref :=
  MkRef a (Some b) (a ++ c_dash :: b).

(** [CtsReference((a, b))], what pickling calls: lines 150-162.
    [CtsSinglePassageId(None)] fails on [None.split]. *)
Definition cts_reference_tuple (a b : pyval) : result ref :=
  match val_str a with
  | None => Err AttributeError
  | Some sa =>
      let parts := flat_map (fun v => if val_truthy v
                                      then match val_str v with Some s => [s] | None => [] end
                                      else []) [a; b] in
      Ok (MkRef sa (if val_truthy b then val_str b else None) (join [c_dash] parts))
  end.

(** [BaseReference.is_range] (_base.py line 330-331): [bool(self[1])]; the end
    is None or a passage id, and passage ids are always truthy. *)
Definition is_range (r : ref) : bool :=
  match r_end r with Some _ => true | None => false end.

(** Equality of references is equality of tuples. *)
Definition ref_eqb (a b : ref) : bool :=
  str_eqb (r_start a) (r_start b) && opt_eqb str_eqb (r_end a) (r_end b).

(** The tuple of a reference fed back to the constructor. *)
Definition cts_reference_again (r : ref) : result ref :=
  cts_reference_tuple (VId (r_start r))
    (match r_end r with Some e => VId e | None => VNone end).

(** [CtsReference.parent] (lines 174-203).  [removelast l] is [l[:-1]]. *)
Definition ref_parent (r : ref) : result (option ref) :=
  let sd := id_depth (r_start r) in
  if Nat.eqb sd 1 &&
     match r_end r with None => true | Some e => Nat.leb (id_depth e) 1 end
  then Ok None
  else if Nat.ltb 1 sd &&
          match r_end r with None => true | Some e => Nat.eqb (id_depth e) 0 end
  then cts_reference (VStr (join [c_dot] (removelast (id_list (r_start r)))
                            ++ id_subref_or_empty (r_start r)))
  else match r_end r with
       | Some e =>
           if Nat.ltb 1 sd && Nat.ltb 1 (id_depth e) then
             let s' := removelast (id_list (r_start r)) in
             let e' := removelast (id_list e) in
             if list_eqb str_eqb s' e' &&
                match id_subref_text (r_start r) with None => true | Some _ => false end &&
                match id_subref_text e with None => true | Some _ => false end
             then cts_reference (VStr (join [c_dot] s'))
             else cts_reference (VStr (join [c_dot] s' ++ id_subref_or_empty (r_start r)
                                       ++ c_dash :: join [c_dot] e' ++ id_subref_or_empty e))
           else Ok None  (* falls off the end of the function *)
       | None => Ok None
       end.

(** [CtsReference.highest] (lines 205-223).  [not self.end] holds only for
    None, the lengths are never 0. *)
Definition ref_highest (r : ref) : str :=
  match r_end r with
  | None => r_start r
  | Some e =>
      if Nat.ltb (id_depth (r_start r)) (id_depth e) then r_start r
      else if Nat.ltb (id_depth e) (id_depth (r_start r)) then e
      else r_start r
  end.

(** [CtsReference.depth] (lines 253-268). *)
Definition ref_depth (r : ref) : nat := length (id_list (ref_highest r)).

(** [CtsReference.subreference] (lines 241-251). *)
Definition ref_subreference (is_word : char -> bool) (r : ref) : option word_ref :=
  match r_end r with
  | None => id_subreference is_word (r_start r)
  | Some _ => None
  end.

(** ** Reference sets *)

(** [tuple.index] / [tuple.__contains__] with the equality of references. *)
Fixpoint index_of (r : ref) (l : list ref) : option nat :=
  match l with
  | [] => None
  | x :: l' => if ref_eqb x r then Some 0
               else match index_of r l' with Some i => Some (S i) | None => None end
  end.

(** [s in refset] for a string or passage id (lines 289-291): a plain string is
    never equal to a reference, so only the second operand matters; [None] is
    not a member of a set of references. *)
Definition refset_contains (l : list ref) (v : pyval) : result bool :=
  o <- cts_reference v ;;
  match o with
  | None => Ok false
  | Some r => Ok (existsb (fun x => ref_eqb x r) l)
  end.

(** [refset.index(s)] (lines 293-297). *)
Definition refset_index (l : list ref) (v : pyval) : result nat :=
  o <- cts_reference v ;;
  match o with
  | None => Err ValueError
  | Some r => match index_of r l with Some i => Ok i | None => Err ValueError end
  end.

(** [refset.index(ref)] and [ref in refset] for a reference object. *)
Definition refset_index_ref (l : list ref) (r : ref) : result nat :=
  match index_of r l with Some i => Ok i | None => Err ValueError end.

Definition refset_contains_ref (l : list ref) (r : ref) : result bool :=
  if existsb (fun x => ref_eqb x r) l then Ok true
  else r' <- cts_reference_again r ;; Ok (existsb (fun x => ref_eqb x r') l).

(** [BaseReferenceSet.__new__] (_base.py lines 358-367): the test on line 359
    inspects the argument tuple itself, which is never a [BaseReference], so a
    single positional argument is always unpacked.  Positional arguments are
    either one iterable of references or several references; a reference is
    itself an iterable (its start and its end). *)
Inductive refset_arg := ArgList (l : list ref) | ArgRef (r : ref).

Inductive refset_item := ItemRef (r : ref) | ItemId (o : option str) | ItemList (l : list ref).

Definition base_reference_set (args : list refset_arg) : list refset_item :=
  match args with
  | [ArgList l] => map ItemRef l
  | [ArgRef r] => [ItemId (Some (r_start r)); ItemId (r_end r)]
  | _ => map (fun a => match a with ArgRef r => ItemRef r | ArgList l => ItemList l end) args
  end.
