(** Citation patterns as structured XPath: what a pattern is, how it is written,
    and what it means once its slots are filled.

    A citation scheme has levels.  The pattern of a level is that of the level
    above followed by steps leading to the new unit; the last of these steps holds
    the one new slot. *)

From Coq Require Import List NArith Arith Bool.
From Verif Require Import PyStr XmlModel XPathModel CiteSpec.
Import ListNotations.

Inductive ttest :=
| TAttr (a : str)                 (* @a *)
| TValue (a v : str)              (* @a='v' *)
| TSlot (a : str).                (* @a='$k' in the pattern of level k *)

Record tstep := MkT { t_desc : bool; t_name : str; t_groups : list (list ttest) }.

Record level := MkLevel { l_way : list tstep; l_unit : tstep }.

(** ** Writing; [k] is the number of the slot. *)
Definition write_test (k : nat) (t : ttest) : str :=
  match t with
  | TAttr a => #"@" ++ a
  | TValue a v => #"@" ++ a ++ #"='" ++ v ++ #"'"
  | TSlot a => #"@" ++ a ++ #"='$" ++ str_of_nat k ++ #"'"
  end.
Definition write_group (k : nat) (g : list ttest) : str :=
  #"[" ++ join #" and " (map (write_test k) g) ++ #"]".
Definition write_tstep (k : nat) (s : tstep) : str :=
  (if t_desc s then #"//" else #"/") ++ t_name s ++ flat_map (write_group k) (t_groups s).
Definition write_tsteps (k : nat) (l : list tstep) : str := flat_map (write_tstep k) l.

Fixpoint write_from (k : nat) (levels : list level) : str :=
  match levels with
  | [] => []
  | lv :: levels' => write_tsteps k (l_way lv ++ [l_unit lv]) ++ write_from (S k) levels'
  end.

(** The patterns of a scheme, outermost level first. *)
Definition write_scheme (levels : list level) : list str :=
  map (fun k => write_from 1 (firstn k levels)) (seq 1 (length levels)).

(** ** Meaning; [c] is what is put in the slot: a value, or nothing (the bare
    attribute test). *)
Definition clark (q : str) : str := match resolve q with Some t => t | None => [] end.
Definition mean_test (c : option str) (t : ttest) : pred :=
  match t with
  | TAttr a => PHas (clark a)
  | TValue a v => PEq (clark a) v
  | TSlot a => match c with Some v => PEq (clark a) v | None => PHas (clark a) end
  end.
Definition mean_tstep (c : option str) (s : tstep) : step :=
  MkStep (t_desc s) (if str_eqb (t_name s) #"*" then None else Some (clark (t_name s)))
         (map (map (mean_test c)) (t_groups s)).
Definition mean_level (c : option str) (lv : level) : list step :=
  map (mean_tstep None) (l_way lv) ++ [mean_tstep c (l_unit lv)].

(** The steps of the pattern of level [length comps], the slots holding [comps]. *)
Fixpoint mean (levels : list level) (comps : list (option str)) : list step :=
  match levels, comps with
  | lv :: levels', c :: comps' => mean_level c lv ++ mean levels' comps'
  | _, _ => []
  end.

(** ** Well-formed patterns *)

(** A fixed value contains no quote, '@' or '$', and does not look like a slot: one
    of its first two characters is neither a quote, a backslash, '?' nor a digit. *)
Definition fixed_value (v : str) : Prop :=
  ~ In c_quote v /\ ~ In c_at v /\ ~ In c_dollar v /\
  exists k x, k < 2 /\ nth_error v k = Some x /\ slot_symbol x = false.

(** A known qualified name. *)
Definition qname (q : str) : Prop :=
  resolve q <> None /\ forall c, In c q -> qname_char c = true.
Definition attr_name (a : str) : Prop := qname a /\ a <> [] /\ attr_text a.

(** The attribute of a slot: letters only, or such a name prefixed by "xml:". *)
Definition slot_attr (a : str) : Prop :=
  exists l, l <> [] /\ (forall c, In c l -> is_alpha c = true) /\ (a = l \/ a = #"xml:" ++ l).

Definition wf_test (t : ttest) : Prop :=
  match t with
  | TAttr a => attr_name a
  | TValue a v => attr_name a /\ fixed_value v
  | TSlot a => slot_attr a
  end.
Definition wf_tstep (s : tstep) : Prop :=
  (t_name s = #"*" \/ qname (t_name s)) /\
  Forall (fun g => g <> [] /\ Forall wf_test g) (t_groups s).

Definition slots_of (s : tstep) : list str :=
  flat_map (fun t => match t with TSlot a => [a] | _ => [] end) (concat (t_groups s)).

Definition wf_level (lv : level) : Prop :=
  Forall wf_tstep (l_way lv) /\ wf_tstep (l_unit lv) /\
  Forall (fun s => slots_of s = []) (l_way lv) /\
  exists a, slots_of (l_unit lv) = [a].

(** The attribute that holds the identifiers of a level. *)
Definition id_attr (lv : level) : str := clark (hd [] (slots_of (l_unit lv))).
