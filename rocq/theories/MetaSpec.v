(** What metadata calls promise, said without the graph operations.

    A history is a list of writing calls.  Each call stores at most one
    statement (node, key, value) and may erase statements. *)

From Coq Require Import List NArith ZArith Bool Permutation.
From Verif Require Import PyStr MetaModel.
Import ListNotations.

(** The value a call stores for what it was given: terms are stored as they
    are, strings and numbers become literals; a language turns anything that
    is not already a literal (nor a number) into a literal in that language.
    The empty language is no language. *)
Definition tag (lang : option str) : option str :=
  match lang with Some [] => None | _ => lang end.

Definition stored_value (v : pvalue) (lang : option str) : term :=
  match v, lang with
  | PTerm (URI s), Some _ => Literal s (tag lang) None
  | PTerm (BNode n), Some _ => Literal (#"N" ++ str_of_N n) (tag lang) None
  | PTerm t, _ => t
  | PStr s, _ => Literal s (tag lang) None
  | PInt z, _ => Literal (str_of_Z z) None (Some xsd_integer)
  end.

(** The statement a call stores. *)
Inductive stores : call -> term -> term -> term -> Prop :=
| stores_set : forall n k v l, stores (Set_ n k v l) n k (stored_value v l)
| stores_add : forall n k v l, stores (Add n k v l) n k (stored_value v l).

Definition covers (pat : option term) (t : term) : Prop :=
  pat = None \/ pat = Some t.

(** The statements a call erases. *)
Inductive erases : call -> term -> term -> term -> Prop :=
| erases_set : forall n k v l o, erases (Set_ n k v l) n k o
| erases_remove : forall n p o k v,
    covers p k -> covers o v -> erases (Remove n p o) n k v
| erases_unlink : forall n s p m k,
    covers s m -> covers p k -> erases (Unlink n s p) m k n.

(** A statement holds after a history that began with the statements [g0]:
    some call stored it and no later call erased it, or it was there from the
    start and no call erased it. *)
Definition holds (g0 : graph) (h : list call) (n k v : term) : Prop :=
  (In (n, k, v) g0 /\ Forall (fun c => ~ erases c n k v) h)
  \/ exists before c after,
       h = before ++ c :: after /\ stores c n k v
       /\ Forall (fun c => ~ erases c n k v) after.

(** An enumeration order: the same things, arranged in any way. *)
Definition arranges {A} (order : list A -> list A) : Prop :=
  forall l, Permutation l (order l).

(** A literal in a language. *)
Definition written_in (l : str) (t : term) : Prop :=
  exists s d, t = Literal s (Some l) d.

Definition is_literal (t : term) : Prop :=
  exists s l d, t = Literal s l d.

(** The call names this node and key, or erases without regard to them. *)
Definition touches (c : call) (n k : term) : Prop :=
  (exists v, stores c n k v) \/ (exists v, erases c n k v).

(** Reading the JSON export: the texts found under a predicate and a
    language, whether there is one or a list of them. *)
Definition texts_list (t : texts) : list str :=
  match t with One s => [s] | Many l => l end.

Fixpoint table_get (l : option str) (t : lang_table) : list str :=
  match t with
  | [] => []
  | (l', ts) :: t' => if opt_eqb str_eqb l' l then texts_list ts else table_get l t'
  end.

Definition exported (k : str) (l : option str) (out : list (str * lang_table))
  : list str :=
  match dget k out with Some t => table_get l t | None => [] end.

(** The texts a triple contributes under a key and language. *)
Definition contributes (title : str -> str) (k : str) (l : option str)
    (t : triple) : list str :=
  match t with
  | (_, p, Literal s l' _) =>
      if str_eqb (text_of p) k && opt_eqb str_eqb l' l then [title s] else []
  | _ => []
  end.

