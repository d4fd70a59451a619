(** Independent vocabulary for citation patterns. *)

From Coq Require Import List NArith Arith Bool.
From Verif Require Import PyStr PyRe.
Import ListNotations.

(** A pattern is text interleaved with attribute tests: slots to be filled
    (@n='$1') and fixed tests (@type='textpart', @n). *)
Inductive piece :=
| Slot (attr q : str)           (* '@' attr '=' q *)
| Fixed (attr rest : str).      (* '@' attr rest *)

Definition write_piece (p : piece) : str :=
  match p with
  | Slot a q => [c_at] ++ a ++ [c_equal] ++ q
  | Fixed a r => [c_at] ++ a ++ r
  end.

Definition write_pieces (l : list (piece * str)) : str :=
  flat_map (fun pt => write_piece (fst pt) ++ snd pt) l.

(** Characters of a slot's quoted number: quotes, backslash, '$', '?', digits;
    of an attribute name: letters, digits, ':'; of a step: star, parentheses,
    bar, white space, letters, digits, ':', brackets, '@', '=', backslash, left
    brace, '$', quotes, dot. *)
Definition slot_symbol (c : N) : bool := mem c (34%N :: #"\$'?0123456789").
Definition attr_symbol (c : N) : bool := mem c #":" || is_alpha c || is_digit c.
Definition step_symbol (c : N) : bool :=
  mem c (34%N :: #"*()|:[]@=\{$'.") || is_alpha c || is_digit c || is_space c.
Definition slot_text (q : str) : Prop := forall c, In c q -> slot_symbol c = true.
Definition attr_text (a : str) : Prop := forall c, In c a -> attr_symbol c = true.

(** A slot has three to six slot characters and, if fewer than six, is not
    followed by another.  A fixed test is recognisably not a slot: the attribute
    name is not followed by '=' and three slot characters. *)
Definition wf_piece (pt : piece * str) : Prop :=
  ~ In c_at (snd pt) /\
  match fst pt with
  | Slot a q =>
      a <> [] /\ attr_text a /\ slot_text q /\ 3 <= length q <= 6 /\
      (length q = 6 \/ match snd pt with [] => True | c :: _ => slot_symbol c = false end)
  | Fixed a r =>
      attr_text a /\ ~ In c_at r /\
      match r with
      | [] => False
      | c :: r' =>
          attr_symbol c = false /\
          (c <> c_equal \/ exists k x, k < 3 /\ nth_error r' k = Some x /\ slot_symbol x = false)
      end
  end.

Definition slots (l : list (piece * str)) : nat :=
  length (filter (fun pt => match fst pt with Slot _ _ => true | _ => false end) l).

(** The text wanted from filling: the i-th slot gets the i-th component. *)
Fixpoint filled (l : list (piece * str)) (comps : list (option str)) : str :=
  match l with
  | [] => []
  | (Fixed a r, t) :: l' => [c_at] ++ a ++ r ++ t ++ filled l' comps
  | (Slot a q, t) :: l' =>
      [c_at] ++ a ++
      match comps with Some v :: _ => [c_equal] ++ [c_quote] ++ v ++ [c_quote] | _ => [] end ++
      t ++ filled l' (tl comps)
  end.

(** ** Scope and xpath *)

(** The '?' slots of a text numbered from [i] on. *)
Fixpoint numbered (i : nat) (s : str) : str :=
  match s with
  | [] => []
  | c :: s' => if N.eqb c c_qmark then [c_dollar] ++ str_of_nat i ++ numbered (S i) s'
               else c :: numbered i s'
  end.

(** A step of an XPath: slashes, then characters of the recognised set or '?'
    slots.  '$' is reserved for the numbered form, and a slot is not followed by
    a digit (its number could not be told apart). *)
Fixpoint no_digit_after_slot (s : str) : Prop :=
  match s with
  | [] => True
  | c :: s' =>
      (c = c_qmark -> match s' with d :: _ => is_digit d = false | [] => True end) /\
      no_digit_after_slot s'
  end.

Definition wf_step (st : nat * str) : Prop :=
  1 <= fst st /\ snd st <> [] /\
  (forall c, In c (snd st) -> c <> c_dollar /\ (c = c_qmark \/ step_symbol c = true)) /\
  no_digit_after_slot (snd st).

Definition write_step (st : nat * str) : str := repeat c_slash (fst st) ++ snd st.
Definition write_steps (l : list (nat * str)) : str := flat_map write_step l.

(** A quote, possibly escaped. *)
Definition quote_text (q : str) : Prop :=
  q = [c_quote] \/ q = [c_dquote] \/ q = [c_backslash; c_quote] \/ q = [c_backslash; c_dquote].
Definition name_text (a : str) : Prop := a <> [] /\ forall c, In c a -> is_alpha c = true \/ c = c_colon.

(** A passage with every backslash doubled. *)
Definition doubled (p : str) : str := flat_map (fun c => if N.eqb c c_backslash then [c; c] else [c]) p.
