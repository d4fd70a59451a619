(** What checking a local text must report. *)

From Coq Require Import List NArith ZArith Arith Bool.
From Verif Require Import PyStr RefModel XmlModel XmlSpec XPathModel TemplateSpec PassageSpec AuditModel.
Import ListNotations.

(** An identifier that can be told apart from its neighbours in a reference; it may
    be empty. *)
Definition tidy (v : str) : Prop := ~ In c_dot v /\ ~ In c_quote v.
Definition tidy_units (levels : list level) (x : node) : Prop :=
  forall j lv p n v, nth_error levels j = Some lv -> is_unit levels x (S j) p ->
    at_position (document x) p n -> get_attr (id_attr lv) (n_attrs n) = Some v -> tidy v.

(** The text of a reference. *)
Definition written (comps : list str) : str := join [c_dot] comps.

(** Below the first [least] identifiers, some of them name two elements. *)
Definition repeated (levels : list level) (x : node) (least : nat) (comps : list str) : Prop :=
  exists j p q, least < j <= length comps /\ p <> q /\
    cites levels x (firstn j comps) p /\ cites levels x (firstn j comps) q.

(** The references that are checked. *)
Definition checked (levels : list level) (x : node) (parts : list str) (k : nat) (comps : list str) : Prop :=
  length comps = k /\ begins parts comps /\ exists p, cites levels x comps p.

(** One report that names exactly the references that are repeated; none without
    them. *)
Definition tells_duplicates (levels : list level) (x : node) (parts : list str) (k : nat) (d : list warning) : Prop :=
  (d = [] /\ forall comps, checked levels x parts k comps -> ~ repeated levels x (length parts) comps) \/
  exists names, d = [WDuplicate (join #", " names)] /\ names <> [] /\ NoDup names /\
    forall s, In s names <-> exists comps, s = written comps /\ checked levels x parts k comps /\ repeated levels x (length parts) comps.

(** [all] are the references, each as many times as it is listed: the product, over
    its levels below [parts], of the numbers of elements named. *)
Definition tallied (levels : list level) (x : node) (parts : list str) (k : nat) (all : list (list str)) : Prop :=
  (forall comps, In comps all <-> checked levels x parts k comps) /\
  forall dec comps, length comps = k -> begins parts comps ->
  exists found : nat -> list path,
    (forall j, length parts < j <= k -> NoDup (found j) /\ forall p, In p (found j) <-> cites levels x (firstn j comps) p) /\
    count_occ dec all comps = product (map (fun j => length (found j)) (seq (S (length parts)) (k - length parts))).

(** One report with the number of the references whose last identifier is empty;
    none without them. *)
Definition nothing (v : str) : bool := match v with [] => true | _ => false end.
Definition tells_empties (k : nat) (all : list (list str)) (e : list warning) : Prop :=
  let n := length (filter (fun comps => nothing (last comps [])) all) in
  (n = 0 /\ e = []) \/ (0 < n /\ e = [WEmpty n (Z.of_nat k)]).

(** What checking the references at level [k] below [parts] does, after the warnings
    [first]: it fails at levels the scheme does not have, and where nothing is cited;
    otherwise the repeated references are reported, and then the empty ones. *)
Definition outcome (levels : list level) (x : node) (first w : list warning) (parts : list str) (k : nat) (r : result (list (option ref) * Z)) : Prop :=
  (length levels < k /\ w = first /\ r = Err CitationDepthError) \/
  (k <= length levels /\ (forall comps, ~ checked levels x parts k comps) /\ w = first /\ r = Err KeyError) \/
  (k <= length levels /\ exists l d e, l <> [] /\ w = first ++ d ++ e /\
    tells_duplicates levels x parts k d /\ tallied levels x parts k l /\ tells_empties k l e).

(** A level all of whose steps are written with the characters that the expression
    for the steps of a pattern knows (REFSDECL_SPLITTER). *)
Definition known_level (lv : level) : Prop :=
  forall s c, In s (l_way lv ++ [l_unit lv]) -> In c (t_name s ++ flat_map (write_group 1) (t_groups s)) -> CiteSpec.step_symbol c = true.

(** What the way to the units of the first level leads to. *)
Definition leads_to (lv : level) (x : node) (p : path) : Prop := selects (map (mean_tstep None) (l_way lv)) (document x) p.
