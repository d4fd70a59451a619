(** Specification of the URNs of texts: which URN object a text has, and what became of
    it, told by what was done before. *)

From Coq Require Import List NArith Arith Bool.
From Verif Require Import PyStr RefModel UrnModel UrnSpec TextUrnModel.
Import ListNotations.

(** What was done and what came of it, the latest first. *)
Definition trace := list (deed * reply).

(** The deeds that make a URN object of the text [s]. *)
Inductive makes_from : deed * reply -> str -> Prop :=
| mf_urn : forall s k, makes_from (MakeUrn s, Gives k) s
| mf_text : forall b s k, makes_from (MakeText b (Word s), Gives k) s
| mf_assign : forall t s, makes_from (Assign t (Word s), Done) s.

(** After [tr] the place holds the URN object that deed number [n] made. *)
Inductive names : trace -> place -> nat -> Prop :=
| names_made : forall tr s k, names ((MakeUrn s, Gives k) :: tr) (Named k) (length tr)
| names_text_new : forall tr b s k, names ((MakeText b (Word s), Gives k) :: tr) (UrnOf k) (length tr)
| names_text_shared : forall tr b pl k n, names tr pl n -> names ((MakeText b (From pl), Gives k) :: tr) (UrnOf k) n
| names_assigned_new : forall tr t s, names ((Assign t (Word s), Done) :: tr) (UrnOf t) (length tr)
| names_assigned_shared : forall tr t pl n, names tr pl n -> names ((Assign t (From pl), Done) :: tr) (UrnOf t) n
| names_kept : forall tr d pl n, names tr pl n -> (forall t g, d = (Assign t g, Done) -> pl <> UrnOf t) -> names (d :: tr) pl n.

(** The object that deed number [n] made was made of [s], and [ops] was done to it, from
    whatever place. *)
Inductive changed : trace -> nat -> str -> list urn_op -> Prop :=
| changed_not : forall tr d s, makes_from d s -> changed (d :: tr) (length tr) s []
| changed_here : forall tr n s ops pl o r, changed tr n s ops -> names tr pl n -> changed ((ChangeUrn pl o, r) :: tr) n s (ops ++ [o])
| changed_elsewhere : forall tr n s ops d, changed tr n s ops ->
    (forall pl o r, d = (ChangeUrn pl o, r) -> ~ names tr pl n) -> changed (d :: tr) n s ops.

Definition holds (tr : trace) (pl : place) (s : str) (ops : list urn_op) : Prop := exists n, names tr pl n /\ changed tr n s ops.
Definition nothing_at (tr : trace) (pl : place) : Prop := forall n, ~ names tr pl n.

(** How such a URN is written (see C10), and its reference. *)
Definition spelled (s : str) (ops : list urn_op) : result str :=
  match urn_parse s with
  | Err e => Err e
  | Ok u =>
      if existsb is_set_op ops
      then match last_ns ops (u_ns u) with
           | Some ns => Ok (canonical ns (last_cts ops (u_cts u)) (last_tg ops (u_tg u)) (last_wk ops (u_wk u))
                              (last_vs ops (u_vs u)) (last_ref ops (u_ref u)))
           | None => Err TypeError
           end
      else Ok (hd [] (split c_hash s))
  end.
Definition reference_now (s : str) (ops : list urn_op) : option ref :=
  match urn_parse s with Ok u => last_ref ops (u_ref u) | Err _ => None end.

Definition said (r : result str) : reply := match r with Ok s => Says s | Err e => Raised e end.

(** The next name of a URN object, or of a text. *)
Definition urn_given (d : deed * reply) : bool := match d with (MakeUrn _, Gives _) => true | _ => false end.
Definition text_given (d : deed * reply) : bool := match d with (MakeText _ _, Gives _) => true | _ => false end.
Definition next_urn (tr : trace) : nat := length (filter urn_given tr).
Definition next_text (tr : trace) : nat := length (filter text_given tr).

(** The text [t] was made after [tr0] with [g]. *)
Definition made_with (tr : trace) (t : nat) (b : bool) (tr0 : trace) (g : given) : Prop :=
  exists later, tr = later ++ (MakeText b g, Gives t) :: tr0.

(** [str] of what was given. *)
Definition given_text (tr : trace) (g : given) (id : str) : Prop :=
  match g with
  | Nothing => id = #"None"
  | Word s => id = s
  | From pl => (exists s ops, holds tr pl s ops /\ spelled s ops = Ok id) \/ (nothing_at tr pl /\ id = #"None")
  | Other => False
  end.

(** What taking [g] as URN gives: [yes] if it is one. *)
Definition takes (tr : trace) (g : given) (yes r : reply) : Prop :=
  match g with
  | Nothing | Other => r = Raised TypeError
  | Word s => match urn_parse s with Ok _ => r = yes | Err e => r = Raised e end
  | From pl => ((exists s ops, holds tr pl s ops) /\ r = yes) \/ (nothing_at tr pl /\ r = Raised TypeError)
  end.

Definition right (tr : trace) (d : deed) (r : reply) : Prop :=
  match d with
  | MakeUrn s => match urn_parse s with Ok _ => r = Gives (next_urn tr) | Err e => r = Raised e end
  | MakeText true g => takes tr g (Gives (next_text tr)) r
  | MakeText false g =>
      match g with
      | Nothing => r = Gives (next_text tr)
      | From pl => (exists s ops, holds tr pl s ops /\ r = match spelled s ops with Ok _ => Gives (next_text tr) | Err e => Raised e end) \/
                   (nothing_at tr pl /\ r = Gives (next_text tr))
      | _ => takes tr g (Gives (next_text tr)) r
      end
  | Assign t g => (exists b tr0 g0, made_with tr t b tr0 g0) -> takes tr g Done r
  | ChangeUrn pl o =>
      (exists s ops, holds tr pl s ops /\
         r = match o with
             | OpStr => said (spelled s ops)
             | OpRef (RefVal v) => match cts_reference v with Ok _ => Done | Err e => Raised e end
             | _ => Done
             end) \/
      (nothing_at tr pl /\ r = match o with OpStr => Says #"None" | _ => Raised AttributeError end)
  | AskUrn t =>
      (exists s ops, holds tr (UrnOf t) s ops /\ r = said (spelled s ops)) \/ (nothing_at tr (UrnOf t) /\ r = SaysNone)
  | AskId t =>
      (forall tr0 g, made_with tr t false tr0 g -> exists id, given_text tr0 g id /\ r = Says id) /\
      (forall tr0 g, made_with tr t true tr0 g -> exists s ops, holds tr (UrnOf t) s ops /\
         r = Says (match reference_now s ops with Some x => r_str x | None => #"None" end))
  | AskDepth t =>
      (exists s ops, holds tr (UrnOf t) s ops /\
         r = match reference_now s ops with Some x => Counts (ref_depth x) | None => SaysNone end) \/
      (nothing_at tr (UrnOf t) /\ r = Raised AttributeError)
  | AskPassage t x =>
      (exists s ops, holds tr (UrnOf t) s ops /\ r = said (u <- spelled s ops ;; Ok (u ++ #":" ++ r_str x))) \/
      (nothing_at tr (UrnOf t) /\ r = Says (#"None:" ++ r_str x))
  end.

(** Each reply is right after what was done before it. *)
Inductive all_right : trace -> list (deed * reply) -> Prop :=
| all_nil : forall tr, all_right tr []
| all_cons : forall tr d r l, right tr d r -> all_right ((d, r) :: tr) l -> all_right tr ((d, r) :: l).
