(** Independent vocabulary for the local resolver. *)

From Coq Require Import List NArith ZArith Arith Bool.
From Verif Require Import PyStr RefModel UrnModel UrnSpec MetaModel CollModel CollSpec LocalModel.
Import ListNotations.

(** Where a collection goes: to the inventory of the last registered filter that
    says True, or to the default one. *)
Inductive goes (says : filter_fun -> result bool) (default : str) (filters : list (filter_fun * str)) : result str -> Prop :=
| go_filter : forall before f name after, filters = before ++ (f, name) :: after ->
    says f = Ok true -> Forall (fun x => says (fst x) = Ok false) after -> goes says default filters (Ok name)
| go_default : Forall (fun x => says (fst x) = Ok false) filters -> goes says default filters (Ok default)
| go_error : forall before f name after e, filters = before ++ (f, name) :: after ->
    says f = Err e -> Forall (fun x => says (fst x) = Ok false) after -> goes says default filters (Err e).

(** A dispatcher after registrations. *)
Definition registered (d : dispatcher) (filters : list (filter_fun * str)) : dispatcher :=
  fold_left (fun d x => add_filter d (fst x) (snd x)) filters d.

(** The page sizes that are accepted as they are. *)
Definition page_size (limit : option Z) (n : nat) : Prop :=
  (exists z, limit = Some z /\ (1 <= z <= 100)%Z /\ n = Z.to_nat z) \/
  ((limit = None \/ exists z, limit = Some z /\ ~ (1 <= z <= 100)%Z) /\ n = 10).

(** The pages of a list: [page n p l] is the [p]-th slice of length [n]. *)
Definition page_of {A} (n p : nat) (l : list A) : list A := firstn n (skipn ((p - 1) * n) l).

(** Number of pages: the least that is enough. *)
Definition pages (n len p : nat) : Prop := len <= p * n /\ forall q, len <= q * n -> p <= q.

(** ** Inventories of texts *)

(** Where a text stands: in a work, in a textgroup, in an inventory. *)
Definition placed (st : state) (root x w g : nat) : Prop :=
  exists i, member st root i /\ member st i g /\ member st g w /\ member st w x.

(** A collection of inventories whose URNs fit together: the URN of a work or
    textgroup is that of its texts, shortened. *)
Record library (st : state) (root : nat) : Prop := {
  lib_layers : collection_layer st root;
  lib_tree : tree st root;
  lib_names : forall x w g, placed st root x w g ->
    exists ns cts tg wk vs, plain_ns ns /\ plain_ns cts /\ plain_part (Version tg wk vs) /\
      c_urn (obj st g) = write_urn ns cts (Group tg) None /\
      c_urn (obj st w) = write_urn ns cts (Work tg wk) None /\
      c_urn (obj st x) = write_urn ns cts (Version tg wk vs) None /\
      c_id (obj st x) = c_urn (obj st x);
  lib_kinds : forall x w g, placed st root x w g -> c_kind (obj st x) <> KText Unknown }.

(** A text of the collection whose URN begins with the given components, compared
    as wholes. *)
Definition within (st : state) (root : nat) (ns cts : str) (p : work_part) (x : nat) : Prop :=
  below st root x /\ text st x /\
  exists p', plain_part p' /\ c_urn (obj st x) = write_urn ns cts p' None /\ cut_part (part_size p) p' = p.

(** The kind of collection a URN names. *)
Definition kind_at (n : nat) (k : kind) : Prop :=
  match n with
  | 1 => k = KTextgroup
  | 2 => k = KWork
  | 3 => exists s, k = KText s
  | _ => False
  end.

(** A reference that can be read, with its value. *)
Definition ref_read (r : option str) (o : option ref) : Prop :=
  match r with None => o = None | Some r => plain_ref r /\ cts_reference (VStr r) = Ok o end.

(** The inventory a text lies in. *)
Definition lies_in (st : state) (root x i : nat) : Prop := member st root i /\ below st i x.

(** An edition whose URN begins like that of a work: same textgroup, and a work
    whose name begins with the same characters. *)
Definition edition_like (st : state) (ns cts tg wk : str) (x : nat) : Prop :=
  c_kind (obj st x) = KText Edition /\
  exists wk' vs, c_id (obj st x) = write_urn ns cts (Version tg wk' vs) None /\
    plain_part (Version tg wk' vs) /\ exists z, wk' = wk ++ z.

(** The categories a listing can be restricted to. *)
Definition category_of (s : str) : option subtype :=
  if str_eqb s #"edition" then Some Edition
  else if str_eqb s #"translation" then Some Translation
  else if str_eqb s #"commentary" then Some Commentary
  else None.

(** A URN given by its components. *)
Definition urn_text (u : str * str * work_part) : str := let '(ns, cts, p) := u in write_urn ns cts p None.
Definition plain_urn (u : str * str * work_part) : Prop := let '(ns, cts, p) := u in plain_ns ns /\ plain_ns cts /\ plain_part p.

(** What a listing keeps: the URN, if any, as for [within]; the language the text
    reports; the category, if it is a known one. *)
Definition kept (order : list term -> list term) (st : state) (root : nat) (urn : option (str * str * work_part)) (lang cat : option str) (x : nat) : Prop :=
  below st root x /\ text st x /\
  (forall ns cts p, urn = Some (ns, cts, p) -> within st root ns cts p x) /\
  (forall l, lang = Some l -> get_lang order st x = Ok l) /\
  (forall c s, cat = Some c -> category_of c = Some s -> c_kind (obj st x) = KText s).
