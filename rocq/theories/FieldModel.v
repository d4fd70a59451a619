(** The fields of a collection and the Dublin Core view of a text.

    Models /repo/MyCapytain/resources/prototypes/metadata.py lines 66-100, 125-151,
    443-459 and /repo/MyCapytain/resources/prototypes/cts/inventory.py lines 66-135
    and 342-376, on the store of CollModel.  The graph of an object is its
    [graph]; its [metadata] is a view of the same graph and node. *)

From Coq Require Import List NArith ZArith Arith Bool.
From Verif Require Import PyStr MetaModel CollModel InvModel.
Import ListNotations.

Definition dts_version : term := URI (dts_ns ++ #"version").

(** [self.graph] *)
Definition graph_of (st : state) (c : nat) : graph := nth (c_graph (obj st c)) (graphs st) [].

Section Read.
Variable order : list term -> list term.

(** metadata.py lines 66-69: [version]; nothing is answered as None. *)
Definition version (st : state) (c : nat) : option term :=
  hd_error (g_objects order (node (obj st c)) dts_version (graph_of st c)).

(** metadata.py lines 77-79 and 87-89: [type] and [model], the first of a list. *)
Definition first_of (l : list term) : result term :=
  match l with o :: _ => Ok o | [] => Err IndexError end.
Definition type_of (st : state) (c : nat) : result term :=
  first_of (g_objects order (node (obj st c)) rdf_type (graph_of st c)).
Definition model_of (st : state) (c : nat) : result term :=
  first_of (g_objects order (node (obj st c)) dts_model (graph_of st c)).

(** metadata.py lines 125-140: [get_label]. *)
Definition label_of (st : state) (c : nat) (lang : option str) : result (option term) :=
  get_label order (graph_of st c) (node (obj st c)) lang.

(** The CTS methods are those of CTS collections. *)
Definition is_cts (k : kind) : bool := match k with KCollection => false | _ => true end.

(** inventory.py lines 106-116: [get_link]. *)
Definition get_link (st : state) (c : nat) (prop : term) : result (list term) :=
  if is_cts (c_kind (obj st c)) then md_get order (graph_of st c) (node (obj st c)) prop None
  else Err AttributeError.

(** [metadata.get_label]: the class [Metadata] (common/metadata.py lines 22-245)
    has no such method. *)
Definition metadata_get_label (st : state) (c : nat) (lang : option str) : result (option term) :=
  Err AttributeError.

(** [x.parent], where x may be None. *)
Definition parent_attr (st : state) (x : option nat) : result (option nat) :=
  match x with Some c => Ok (c_parent (obj st c)) | None => Err AttributeError end.

(** inventory.py lines 342-349: [get_creator] of a text. *)
Definition text_creator (st : state) (c : nat) (lang : option str) : result (option term) :=
  p <- parent_attr st (Some c) ;;
  q <- parent_attr st p ;;
  match q with Some q => metadata_get_label st q lang | None => Err AttributeError end.

(** inventory.py lines 351-358: [get_title] of a text. *)
Definition text_title (st : state) (c : nat) (lang : option str) : result (option term) :=
  p <- parent_attr st (Some c) ;;
  match p with Some p => metadata_get_label st p lang | None => Err AttributeError end.

(** inventory.py lines 360-367: [get_description] of a text. *)
Definition text_description (st : state) (c : nat) (lang : option str) : result (option term) :=
  md_get_single order (graph_of st c) (node (obj st c)) (cts_term #"description") lang.

(** inventory.py lines 369-376: [get_subject] of a text. *)
Definition text_subject (st : state) (c : nat) (lang : option str) : result (option term) :=
  label_of st c lang.
End Read.

(** ** Writing *)

Definition in_graph (st : state) (c : nat) (f : graph -> graph) : state :=
  with_graph st (c_graph (obj st c)) f.

(** metadata.py lines 71-75: assigning [version]. *)
Definition set_version (st : state) (c : nat) (v : pvalue) : state :=
  let value := match v with PTerm (Literal _ _ _ as t) => t | _ => mk_literal v None end in
  in_graph st c (g_set (node (obj st c), dts_version, value)).

(** rdflib's [URIRef(value)]: it looks for forbidden characters in the text first,
    which a number has not. *)
Definition mk_uri (v : pvalue) : result term :=
  match v with
  | PTerm t => Ok (URI (text_of t))
  | PStr s => Ok (URI s)
  | PInt _ => Err TypeError
  end.

(** metadata.py lines 81-85 and 91-95: assigning [type] and [model]. *)
Definition as_uri (v : pvalue) : result term :=
  match v with PTerm (URI s) => Ok (URI s) | _ => mk_uri v end.
Definition set_type (st : state) (c : nat) (v : pvalue) : state * result unit :=
  match as_uri v with
  | Ok u => (in_graph st c (g_set (node (obj st c), rdf_type, u)), Ok tt)
  | Err e => (st, Err e)
  end.
Definition set_model (st : state) (c : nat) (v : pvalue) : state * result unit :=
  match as_uri v with
  | Ok u => (in_graph st c (g_set (node (obj st c), dts_model, u)), Ok tt)
  | Err e => (st, Err e)
  end.

(** inventory.py lines 118-135: [set_link]. *)
Definition set_link (st : state) (c : nat) (prop : term) (v : pvalue) : state * result unit :=
  if is_cts (c_kind (obj st c)) then
    match as_uri v with
    | Ok u => (in_graph st c (fun g => md_add g (node (obj st c)) prop (PTerm u) None), Ok tt)
    | Err e => (st, Err e)
    end
  else (st, Err AttributeError).

(** metadata.py lines 142-151: [set_label]. *)
Definition label (st : state) (c : nat) (v : pvalue) (lang : option str) : state :=
  in_graph st c (fun g => set_label g (node (obj st c)) v lang).

(** inventory.py lines 86-104: [set_cts_property]. *)
Definition set_property (st : state) (c : nat) (prop : str) (v : pvalue) (lang : option str) : state * result unit :=
  if is_cts (c_kind (obj st c)) then
    (in_graph st c (fun g => set_cts_property g (node (obj st c)) (title_key (c_kind (obj st c))) (cts_term prop) v lang), Ok tt)
  else (st, Err AttributeError).

(** Assigning [lang]: texts and works have the property, the others just get an
    attribute of that name, which nothing reads. *)
Definition assign_lang (st : state) (c : nat) (l : str) : state :=
  match c_kind (obj st c) with
  | KText _ | KWork => set_lang st c l
  | _ => st
  end.
