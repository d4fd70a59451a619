(** Independent vocabulary for references into a local text. *)

From Coq Require Import List NArith Arith Bool.
From Verif Require Import PyStr RefModel UrnModel UrnSpec XmlModel XmlSpec XPathModel TemplateSpec.
Import ListNotations.

(** The identifiers [comps], outermost first, cite the element at [p]: the pattern
    of level [length comps], its slots holding [comps], selects it.  Positions are
    counted from above the root. *)
Definition cites (levels : list level) (x : node) (comps : list str) (p : path) : Prop :=
  selects (mean levels (map Some comps)) (document x) p.

(** The element at [p] is a unit of level [k]: it is selected by the pattern of
    that level without any values. *)
Definition is_unit (levels : list level) (x : node) (k : nat) (p : path) : Prop :=
  selects (mean levels (repeat None k)) (document x) p.

(** An identifier that can be written in a reference. *)
Definition plain (v : str) : Prop :=
  v <> [] /\ ~ In c_dot v /\ ~ In c_dash v /\ ~ In c_at v /\ ~ In c_quote v.

(** All units of the document carry such identifiers. *)
Definition plain_units (levels : list level) (x : node) : Prop :=
  forall j lv p n v, nth_error levels j = Some lv -> is_unit levels x (S j) p ->
    at_position (document x) p n -> get_attr (id_attr lv) (n_attrs n) = Some v -> plain v.

(** The reference made of some identifiers. *)
Definition reference_to (comps : list str) : ref :=
  MkRef (join [c_dot] comps) None (join [c_dot] comps).

Definition begins (parts comps : list str) : Prop := exists rest, comps = parts ++ rest.

(** Down to level [k], some identifiers cite one element at most. *)
Definition unambiguous (levels : list level) (x : node) (k : nat) : Prop :=
  forall comps p q, length comps <= k -> cites levels x comps p -> cites levels x comps q -> p = q.

(** Above level [k], no unit contains another of the same level. *)
Definition not_nested (levels : list level) (x : node) (k : nat) : Prop :=
  forall j p q, j < k -> is_unit levels x j p -> is_unit levels x j q -> is_prefix p q = true -> p = q.

(** The references listed are those of the citable identifiers of length [k] that
    begin with [parts]. *)
Definition lists_level (levels : list level) (x : node) (parts : list str) (k : nat) (l : list (option ref)) : Prop :=
  forall o, In o l <-> exists comps p, o = Some (reference_to comps) /\
    length comps = k /\ begins parts comps /\ cites levels x comps p.

(** [ps] are the positions of the elements cited by the references of [l]. *)
Definition located (levels : list level) (x : node) (l : list (option ref)) (ps : list path) : Prop :=
  Forall2 (fun o p => exists comps, o = Some (reference_to comps) /\ cites levels x comps p) l ps.

Fixpoint product (l : list nat) : nat := match l with [] => 1 | n :: l' => n * product l' end.

(** [c] is the longest common beginning of [a] and [b]. *)
Definition longest_common (c a b : list str) : Prop :=
  begins c a /\ begins c b /\ forall d, begins d a -> begins d b -> length d <= length c.

(** The patterns start with a step naming the root ("/tei:TEI/..."), and no fixed
    value contains a slash. *)
Definition rooted (levels : list level) : Prop :=
  exists lv rest s way, levels = lv :: rest /\ l_way lv = s :: way /\ t_desc s = false.
Definition slashless (levels : list level) : Prop :=
  forall lv s g a v, In lv levels -> In s (l_way lv ++ [l_unit lv]) -> In g (t_groups s) -> In (TValue a v) g -> ~ In c_slash v.

Definition usable_scheme (levels : list level) : Prop :=
  Forall wf_level levels /\ length levels <= 999 /\ rooted levels /\ slashless levels.

(** An identifier that can be written in a pattern. *)
Definition path_safe (v : str) : Prop := ~ In c_quote v /\ ~ In c_slash v.

(** The identifiers cite the element at [p] and no other. *)
Definition cites_only (levels : list level) (x : node) (comps : list str) (p : path) : Prop :=
  cites levels x comps p /\ forall q, cites levels x comps q -> q = p.

(** The identifiers of the two ends of a reference; those of the start twice for
    a single one. *)
Definition last_id (r : ref) : str := match r_end r with Some e => e | None => r_start r end.

(** A reference that can be written in a URN, as its constructor makes it of its
    text. *)
Definition writable (r : ref) : Prop :=
  r_str r <> [] /\ ~ In c_colon (r_str r) /\ ~ In c_hash (r_str r) /\ cts_reference (VStr (r_str r)) = Ok (Some r).

(** The URN [u] is that of the version [ns], [cts], [tg].[wk].[vs], possibly with a
    reference. *)
Definition of_version (ns cts tg wk vs : str) (u : urn) : Prop :=
  exists q, (match q with Some q => plain_ref q | None => True end) /\
    urn_parse (write_urn ns cts (Version tg wk vs) q) = Ok u.

(** No URN, or that of a version. *)
Definition good_urn (u : option urn) : Prop :=
  match u with
  | None => True
  | Some u => exists ns cts tg wk vs, plain_ns ns /\ plain_ns cts /\ plain_part (Version tg wk vs) /\ of_version ns cts tg wk vs u
  end.

(** An identifier that can be written in a pattern and in a URN as well. *)
Definition good_id (v : str) : Prop := plain v /\ ~ In c_slash v /\ ~ In c_colon v /\ ~ In c_hash v.
Definition good_units (levels : list level) (x : node) : Prop :=
  forall j lv p n v, nth_error levels j = Some lv -> is_unit levels x (S j) p ->
    at_position (document x) p n -> get_attr (id_attr lv) (n_attrs n) = Some v -> good_id v.

(** A text whose references down to level [k] are clear: the identifiers can be
    written, no two units of level k or above have the same reference, and units of
    one level are not nested in each other. *)
Definition clear_text (levels : list level) (x : node) (k : nat) : Prop :=
  usable_scheme levels /\ good_units levels x /\ unambiguous levels x k /\ not_nested levels x (S k).

(** The reference to all that lies between two units. *)
Definition range_to (a b : list str) : ref :=
  MkRef (join [c_dot] a) (Some (join [c_dot] b)) (join [c_dot] a ++ [c_dash] ++ join [c_dot] b).
