(** Python strings and the few [str] methods the code base relies on.

    A Python [str] is a sequence of Unicode code points; it is modelled as a
    list of [N].  The definitions below model builtins of the language (not
    code of /repo); the places of /repo that use them are cited beside the
    model functions that call them.  The exception type lists the exception
    classes that the modelled code raises: builtin ones and those of
    /repo/MyCapytain/errors.py lines 12-110. *)

From Coq Require Import List NArith Arith Ascii String Bool Lia.
From Coq Require Decimal DecimalN DecimalFacts.
Import ListNotations.
Export (notations) Coq.Strings.String.

Notation char := N (only parsing).
Notation str := (list N) (only parsing).

(** Literals: [lit "abc"] is the Python literal "abc" (ASCII only). *)
Fixpoint lit (s : string) : str :=
  match s with
  | EmptyString => []
  | String a s' => N_of_ascii a :: lit s'
  end.

Notation "# s" := (lit s%string) (at level 1, s at level 0, format "# s").

(** Exceptions as values. *)
Inductive exn : Type :=
| ValueError | KeyError | IndexError | TypeError | AttributeError
| StopIteration | RecursionError | NotImplementedError
| CitationDepthError | InvalidURN | UnknownCollection | UnknownObjectError
| InvalidSiblingRequest | MissingAttribute | UndispatchedTextError
| MissingRefsDecl | RefsDeclError | MissingSchema | XPathEvalError
| EmptyReference | JsonLdCollectionMissing | HTTPError
| OutOfFuel. (** not a Python exception: the model's own divergence marker *)

Inductive result (A : Type) : Type :=
| Ok (a : A)
| Err (e : exn).
Arguments Ok {A} a.
Arguments Err {A} e.

Definition bind {A B} (r : result A) (f : A -> result B) : result B :=
  match r with Ok a => f a | Err e => Err e end.

Notation "x <- r ;; k" := (bind r (fun x => k))
  (at level 61, r at next level, right associativity).
Notation "' p <- r ;; k" := (bind r (fun p => k))
  (at level 61, p pattern, r at next level, right associativity).

Fixpoint mapM {A B} (f : A -> result B) (l : list A) : result (list B) :=
  match l with
  | [] => Ok []
  | a :: l' => b <- f a ;; bs <- mapM f l' ;; Ok (b :: bs)
  end.

(** Equality of strings. *)
Fixpoint str_eqb (a b : str) : bool :=
  match a, b with
  | [], [] => true
  | x :: a', y :: b' => N.eqb x y && str_eqb a' b'
  | _, _ => false
  end.

Definition opt_eqb {A} (eqb : A -> A -> bool) (a b : option A) : bool :=
  match a, b with
  | None, None => true
  | Some x, Some y => eqb x y
  | _, _ => false
  end.

Fixpoint list_eqb {A} (eqb : A -> A -> bool) (a b : list A) : bool :=
  match a, b with
  | [], [] => true
  | x :: a', y :: b' => eqb x y && list_eqb eqb a' b'
  | _, _ => false
  end.

(** [c in s] for a one-character [c]. *)
Fixpoint mem (c : char) (s : str) : bool :=
  match s with
  | [] => false
  | x :: s' => N.eqb x c || mem c s'
  end.

(** [s.count(c)] for a one-character [c]. *)
Fixpoint count (c : char) (s : str) : nat :=
  match s with
  | [] => 0
  | x :: s' => if N.eqb x c then S (count c s') else count c s'
  end.

(** [s.split(c)] for a one-character separator [c]: never returns the empty
    list, keeps empty parts. *)
Fixpoint split (c : char) (s : str) : list str :=
  match s with
  | [] => [[]]
  | x :: s' =>
      if N.eqb x c then [] :: split c s'
      else match split c s' with
           | p :: ps => (x :: p) :: ps
           | [] => [[x]] (* unreachable *)
           end
  end.

(** [sep.join(l)]. *)
Fixpoint join (sep : str) (l : list str) : str :=
  match l with
  | [] => []
  | [p] => p
  | p :: ps => p ++ sep ++ join sep ps
  end.

(** [s.startswith(p)]. *)
Fixpoint startswith (s p : str) : bool :=
  match p, s with
  | [], _ => true
  | y :: p', x :: s' => N.eqb x y && startswith s' p'
  | _ :: _, [] => false
  end.

(** Truth value of a plain [str]. *)
Definition truthy (s : str) : bool := match s with [] => false | _ => true end.

Definition truthy_opt (s : option str) : bool :=
  match s with Some s => truthy s | None => false end.

(** Decimal notation: [str(n)] and [int(s)] on ASCII digits. *)
Fixpoint str_of_uint (u : Decimal.uint) : str :=
  match u with
  | Decimal.Nil => []
  | Decimal.D0 u => 48%N :: str_of_uint u
  | Decimal.D1 u => 49%N :: str_of_uint u
  | Decimal.D2 u => 50%N :: str_of_uint u
  | Decimal.D3 u => 51%N :: str_of_uint u
  | Decimal.D4 u => 52%N :: str_of_uint u
  | Decimal.D5 u => 53%N :: str_of_uint u
  | Decimal.D6 u => 54%N :: str_of_uint u
  | Decimal.D7 u => 55%N :: str_of_uint u
  | Decimal.D8 u => 56%N :: str_of_uint u
  | Decimal.D9 u => 57%N :: str_of_uint u
  end.

Definition str_of_N (n : N) : str := str_of_uint (N.to_uint n).
Definition str_of_nat (n : nat) : str := str_of_N (N.of_nat n).

Definition is_digit (c : char) : bool := (48 <=? c)%N && (c <=? 57)%N.

(** Value of a string of ASCII digits, most significant first. *)
Definition N_of_digits (s : str) : N :=
  fold_left (fun acc c => (10 * acc + (c - 48))%N) s 0%N.

Definition is_lower (c : char) : bool := (97 <=? c)%N && (c <=? 122)%N.
Definition is_upper (c : char) : bool := (65 <=? c)%N && (c <=? 90)%N.
Definition is_alpha (c : char) : bool := is_lower c || is_upper c.

(** Python dictionaries with string keys: insertion-ordered association
    lists. Updating an existing key keeps its position. *)
Fixpoint dget {A} (k : str) (d : list (str * A)) : option A :=
  match d with
  | [] => None
  | (k', v) :: d' => if str_eqb k' k then Some v else dget k d'
  end.

Fixpoint dset {A} (k : str) (v : A) (d : list (str * A)) : list (str * A) :=
  match d with
  | [] => [(k, v)]
  | (k', v') :: d' => if str_eqb k' k then (k', v) :: d' else (k', v') :: dset k v d'
  end.

Fixpoint ddel {A} (k : str) (d : list (str * A)) : list (str * A) :=
  match d with
  | [] => []
  | (k', v') :: d' => if str_eqb k' k then d' else (k', v') :: ddel k d'
  end.

Definition keys {A} (d : list (str * A)) : list str := map fst d.

(** Named code points. *)
Definition c_space : char := 32%N.
Definition c_dquote : char := 34%N.     (* double quote *)
Definition c_hash : char := 35%N.       (* # *)
Definition c_dollar : char := 36%N.     (* $ *)
Definition c_amp : char := 38%N.        (* & *)
Definition c_quote : char := 39%N.      (* single quote *)
Definition c_dash : char := 45%N.       (* - *)
Definition c_dot : char := 46%N.        (* . *)
Definition c_slash : char := 47%N.      (* / *)
Definition c_colon : char := 58%N.      (* : *)
Definition c_lt : char := 60%N.         (* < *)
Definition c_equal : char := 61%N.      (* = *)
Definition c_gt : char := 62%N.         (* > *)
Definition c_qmark : char := 63%N.      (* ? *)
Definition c_at : char := 64%N.         (* @ *)
Definition c_lbracket : char := 91%N.   (* [ *)
Definition c_backslash : char := 92%N.  (* \ *)
Definition c_rbracket : char := 93%N.   (* ] *)
