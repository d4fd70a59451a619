(** Independent vocabulary for the utilities. *)

From Coq Require Import List NArith Arith Bool.
From Verif Require Import PyStr UtilModel.
Import ListNotations.

(** ** White space: the second string is the first one with every run of the
    space character reduced to one. *)
Inductive squeezed : str -> str -> Prop :=
| sq_end : squeezed [] []
| sq_char : forall c s t, c <> 32%N -> squeezed s t -> squeezed (c :: s) (c :: t)
| sq_run : forall n s t, hd_error s <> Some 32%N -> squeezed s t ->
    squeezed (repeat 32%N (S n) ++ s) (32%N :: t).

(** ** Nested dictionaries: the value stored at a path. *)
Inductive leads {V} : nested V -> list str -> nested V -> Prop :=
| leads_here : forall d, leads d [] d
| leads_down : forall auto es k p x y, dget k es = Some x -> leads x p y ->
    leads (Dict auto es) (k :: p) y.

(** [p] is [q] or an ancestor of [q]. *)
Definition path_prefix (p q : list str) : Prop := exists r, q = p ++ r.
Definition unrelated (p q : list str) : Prop := ~ path_prefix p q /\ ~ path_prefix q p.

(** The leaves with their paths, in the order of iteration. *)
Fixpoint leaves {V} (d : nested V) : list (list str * V) :=
  match d with
  | Leaf v => [([], v)]
  | Dict _ es =>
      (fix go (l : list (str * nested V)) : list (list str * V) :=
         match l with
         | [] => []
         | (k, x) :: l' => map (fun pv => (k :: fst pv, snd pv)) (leaves x) ++ go l'
         end) es
  end.

(** A list of paths in which those that start alike stand together, as in a
    table of contents. *)
Definition grouped (l : list (list str)) : Prop :=
  forall a x b y c z, l = a ++ x :: b ++ y :: c -> In z b ->
  forall p, path_prefix p x -> path_prefix p y -> path_prefix p z.

(** The state after a history of nested_set calls, and the value that a history
    leaves at a path: the last one set there, with nothing set above or below it
    since. *)
Fixpoint run_sets {V} (d : nested V) (h : list (list str * V)) : result (nested V) :=
  match h with
  | [] => Ok d
  | (p, v) :: h' => d' <- nested_set d p (Leaf v) ;; run_sets d' h'
  end.
Definition last_word {V} (h : list (list str * V)) (p : list str) (v : V) : Prop :=
  exists h1 h2, h = h1 ++ (p, v) :: h2 /\ forall q w, In (q, w) h2 -> unrelated p q.

(** ** Class hierarchies: the attribute [own] as seen on class [k]. *)
Definition inherits {A} (mro : nat -> list nat) (own : nat -> option A) (k : nat) (x : A) : Prop :=
  exists pre d post, mro k = pre ++ d :: post /\ (forall c, In c pre -> own c = None) /\ own d = Some x.

(** The mimetype is in the EXPORT_TO seen on class [k]; in the body of class
    [k] itself. *)
Definition offers (mro : nat -> list nat) (own : nat -> option (list str)) (k : nat) (m : str) : Prop :=
  exists l, inherits mro own k l /\ In m l.
Definition declares (own : nat -> option (list str)) (k : nat) (m : str) : Prop :=
  exists l, own k = Some l /\ In m l.

(** The mimetype a call of export asks for. *)
Definition requested (default output : option str) (m : str) : Prop :=
  output = Some m \/ (output = None /\ default = Some m).

(** The linearisation of each class of a hierarchy starts with it and stays in
    the hierarchy. *)
Definition linear (mro : nat -> list nat) (c : nat) : Prop :=
  forall k, In k (mro c) -> hd_error (mro k) = Some k /\ incl (mro k) (mro c).

(** Single inheritance: the linearisation of an ancestor is what remains of the
    linearisation from it on. *)
Definition chain (mro : nat -> list nat) (c : nat) : Prop :=
  forall pre k post, mro c = pre ++ k :: post -> mro k = k :: post.

(** ** Reading XML

    The part of an XML reader needed to read a single element with attributes
    and character data: predefined entities, line ends, normalisation of
    attribute values (XML 1.0, 2.2, 2.11, 3.3.3, 4.6). *)
Definition xml_char (c : N) : bool :=
  (c =? 9)%N || (c =? 10)%N || (c =? 13)%N || ((32 <=? c) && (c <=? 55295))%N ||
  ((57344 <=? c) && (c <=? 65533))%N || ((65536 <=? c) && (c <=? 1114111))%N.

Definition strip_prefix (p s : str) : option str :=
  if startswith s p then Some (skipn (length p) s) else None.

(** After an ampersand: the character and what follows. *)
Definition read_entity (s : str) : option (N * str) :=
  match strip_prefix #"amp;" s with
  | Some r => Some (38%N, r)
  | None => match strip_prefix #"lt;" s with
  | Some r => Some (60%N, r)
  | None => match strip_prefix #"gt;" s with
  | Some r => Some (62%N, r)
  | None => match strip_prefix #"quot;" s with
  | Some r => Some (34%N, r)
  | None => match strip_prefix #"apos;" s with
  | Some r => Some (39%N, r)
  | None => None
  end end end end end.

(** Character data up to the next tag or the end. *)
Fixpoint read_text (fuel : nat) (s : str) : option (str * str) :=
  match fuel with
  | 0 => None
  | S fuel' =>
      let next c r := match read_text fuel' r with Some (t, r') => Some (c :: t, r') | None => None end in
      match s with
      | [] => Some ([], [])
      | c :: r =>
          if (c =? 60)%N then Some ([], s)
          else if (c =? 38)%N then match read_entity r with Some (x, r') => next x r' | None => None end
          else if negb (xml_char c) then None
          else if startswith s #"]]>" then None
          else if (c =? 13)%N then
            (if startswith r [10%N] then read_text fuel' r else next 10%N r)
          else next c r
      end
  end.

(** The value of an attribute up to the closing quote. *)
Fixpoint read_value (fuel : nat) (s : str) : option (str * str) :=
  match fuel with
  | 0 => None
  | S fuel' =>
      let next c r := match read_value fuel' r with Some (t, r') => Some (c :: t, r') | None => None end in
      match s with
      | [] => None
      | c :: r =>
          if (c =? 34)%N then Some ([], r)
          else if (c =? 60)%N then None
          else if (c =? 38)%N then match read_entity r with Some (x, r') => next x r' | None => None end
          else if negb (xml_char c) then None
          else if (c =? 9)%N || (c =? 10)%N || (c =? 13)%N then next 32%N r
          else next c r
      end
  end.

(** Characters that can stand in a name here: a subset of XML's. *)
Definition name_char (c : N) : bool :=
  is_alpha c || is_digit c || (c =? 58)%N || (c =? 45)%N || (c =? 46)%N || (c =? 95)%N.
Fixpoint read_name (s : str) : str * str :=
  match s with
  | c :: r => if name_char c then let '(n, r') := read_name r in (c :: n, r') else ([], s)
  | [] => ([], [])
  end.

(** Attributes up to the end of the start tag; two of the same name are an
    error. *)
Fixpoint read_attributes (fuel : nat) (seen : list str) (s : str) : option (list (str * str) * str) :=
  match fuel with
  | 0 => None
  | S fuel' =>
      match strip_prefix #">" s, strip_prefix #" >" s, strip_prefix #" " s with
      | Some r, _, _ => Some ([], r)
      | _, Some r, _ => Some ([], r)
      | _, _, Some r =>
          let '(n, r1) := read_name r in
          match n, strip_prefix [61; 34]%N r1 with
          | _ :: _, Some r2 =>
              if existsb (str_eqb n) seen then None
              else match read_value (S (length r2)) r2 with
                   | Some (v, r3) =>
                       match read_attributes fuel' (n :: seen) r3 with
                       | Some (l, r4) => Some ((n, v) :: l, r4)
                       | None => None
                       end
                   | None => None
                   end
          | _, _ => None
          end
      | _, _, _ => None
      end
  end.

(** An element that holds text only: name, attributes, text, rest. *)
Definition read_element (s : str) : option (str * list (str * str) * str * str) :=
  match strip_prefix #"<" s with
  | None => None
  | Some r =>
      let '(n, r1) := read_name r in
      match n, read_attributes (S (length r1)) [] r1 with
      | _ :: _, Some (attrs, r2) =>
          match read_text (S (length r2)) r2 with
          | Some (t, r3) =>
              match strip_prefix (#"</" ++ n ++ #">") r3 with
              | Some r4 => Some (n, attrs, t, r4)
              | None => None
              end
          | None => None
          end
      | _, _ => None
      end
  end.

(** A value that can be written between quotes as it is. *)
Definition plain_value (v : str) : Prop :=
  forall c, In c v -> xml_char c = true /\ ~ In c [34; 38; 60; 9; 10; 13]%N.
Definition is_name (n : str) : Prop := n <> [] /\ forall c, In c n -> name_char c = true.
