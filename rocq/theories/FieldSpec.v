(** What a history of assignments says of collections, without the graph.

    Every write says some statements and takes back others.  Predicates and
    values are given here once more, by name. *)

From Coq Require Import List NArith ZArith Arith Bool.
From Verif Require Import PyStr MetaModel MetaSpec CollModel FieldModel.
Import ListNotations.

Inductive write : Type :=
| WNew (k : kind) (id urn : str)
| WParent (c p : nat)
| WVersion (c : nat) (v : pvalue)
| WType (c : nat) (v : pvalue)
| WModel (c : nat) (v : pvalue)
| WLang (c : nat) (l : str)
| WLabel (c : nat) (v : pvalue) (lang : option str)
| WProperty (c : nat) (name : str) (v : pvalue) (lang : option str)
| WLink (c : nat) (prop : term) (v : pvalue)
| WRemove (c : nat) (predicate obj : option term).

Definition do_write (st : state) (w : write) : state :=
  match w with
  | WNew k id urn => fst (new_object st k id urn)
  | WParent c p => set_parent st c p
  | WVersion c v => set_version st c v
  | WType c v => fst (set_type st c v)
  | WModel c v => fst (set_model st c v)
  | WLang c l => assign_lang st c l
  | WLabel c v lang => label st c v lang
  | WProperty c name v lang => fst (set_property st c name v lang)
  | WLink c prop v => fst (set_link st c prop v)
  | WRemove c p o => in_graph st c (fun g => md_remove g (URI (c_id (obj st c))) p o)
  end.
Definition after (st : state) (h : list write) : state := fold_left do_write h st.

(** The objects a write is about. *)
Definition about (w : write) : list nat :=
  match w with
  | WNew _ _ _ => []
  | WParent c p => [c; p]
  | WVersion c _ | WType c _ | WModel c _ | WLang c _ | WLabel c _ _ | WProperty c _ _ _ | WLink c _ _ | WRemove c _ _ => [c]
  end.

(** Only objects that exist are written to, and each has its graph. *)
Definition housed (st : state) : Prop :=
  0 < length (graphs st) /\ forall c, c < length (objs st) -> c_graph (obj st c) < length (graphs st).
Inductive proper (st : state) : list write -> Prop :=
| proper_none : proper st []
| proper_one : forall h w, proper st h -> Forall (fun c => c < length (objs (after st h))) (about w) -> proper st (h ++ [w]).

(** ** Values *)
Definition text_form (t : term) : str := match t with URI s => s | BNode n => #"N" ++ str_of_N n | Literal s _ _ => s end.
(** The literal made of a value: a literal stays what it is, but for the language
    given with it. *)
Definition literal_of (v : pvalue) (lang : option str) : term :=
  match v with
  | PTerm (Literal s l d) => Literal s (match tag lang with Some x => Some x | None => l end) d
  | PTerm t => Literal (text_form t) (tag lang) None
  | PStr s => Literal s (tag lang) None
  | PInt z => Literal (str_of_Z z) None (Some #"http://www.w3.org/2001/XMLSchema#integer")
  end.
(** The value stored for a CTS property. *)
Definition cts_value (v : pvalue) (lang : option str) : term :=
  match v with PTerm (Literal s l d) => Literal s l d | _ => literal_of v lang end.
Inductive uri_of : pvalue -> term -> Prop :=
| uri_term : forall t, uri_of (PTerm t) (URI (text_form t))
| uri_str : forall s, uri_of (PStr s) (URI s).

Definition in_dts (name : str) : term := URI (#"https://w3id.org/dts/api#" ++ name).
Definition in_cts (name : str) : term := URI (#"http://chs.harvard.edu/xmlns/cts/" ++ name).
Definition a_type : term := URI #"http://www.w3.org/1999/02/22-rdf-syntax-ns#type".
Definition a_label : term := URI #"http://www.w3.org/2000/01/rdf-schema#label".
Definition a_skos_label : term := URI #"http://www.w3.org/2004/02/skos/core#prefLabel".
Definition a_parent : term := URI #"http://purl.org/capitains/ns/1.0#parent".
Definition a_language : term := URI #"http://purl.org/dc/elements/1.1/language".

(** The names that title a collection of a kind. *)
Definition titles (k : kind) (name : str) : Prop :=
  match k with
  | KCollection => False
  | KText _ => name = #"label"
  | KWork => name = #"title"
  | KTextgroup => name = #"groupname"
  | KInventory | KInventoryCollection => name = #"name"
  end.
Definition cts_kind (k : kind) : Prop := k <> KCollection.
Definition has_lang (k : kind) : Prop := k = KWork \/ exists sub, k = KText sub.
Definition born_type (k : kind) : term :=
  match k with
  | KCollection => in_dts #"collection"
  | KText Unknown => in_cts #"text"
  | KText Edition => in_cts #"edition"
  | KText Translation => in_cts #"translation"
  | KText Commentary => in_cts #"commentary"
  | KWork => in_cts #"work"
  | KTextgroup => in_cts #"textgroup"
  | KInventory => in_cts #"TextInventory"
  | KInventoryCollection => in_cts #"CtsTextInventoryCollection"
  end.
Definition born_model (k : kind) : term :=
  match k with KText _ => in_dts #"resource" | _ => in_dts #"collection" end.

(** ** Statements

    A place is a graph and the name of the node in it. *)
Definition place (st : state) (c : nat) : nat * term := (c_graph (obj st c), URI (c_id (obj st c))).

(** [says st w at p o]: done in [st], [w] states that the node at this place has
    the value [o] for [p]. *)
Inductive says (st : state) : write -> nat * term -> term -> term -> Prop :=
| says_type_new : forall k id urn, says st (WNew k id urn) (0, URI id) a_type (born_type k)
| says_model_new : forall k id urn, says st (WNew k id urn) (0, URI id) (in_dts #"model") (born_model k)
| says_parent : forall c p, says st (WParent c p) (place st c) a_parent (URI (c_id (obj st p)))
| says_version : forall c v, says st (WVersion c v) (place st c) (in_dts #"version") (literal_of v None)
| says_type : forall c v u, uri_of v u -> says st (WType c v) (place st c) a_type u
| says_model : forall c v u, uri_of v u -> says st (WModel c v) (place st c) (in_dts #"model") u
| says_lang : forall c l, has_lang (c_kind (obj st c)) -> says st (WLang c l) (place st c) a_language (Literal l None None)
| says_label : forall c v lang p, p = a_label \/ p = a_skos_label -> says st (WLabel c v lang) (place st c) p (literal_of v lang)
| says_property : forall c name v lang, cts_kind (c_kind (obj st c)) ->
    says st (WProperty c name v lang) (place st c) (in_cts name) (cts_value v lang)
| says_property_title : forall c name v lang p, cts_kind (c_kind (obj st c)) -> titles (c_kind (obj st c)) name ->
    p = a_label \/ p = a_skos_label ->
    says st (WProperty c name v lang) (place st c) p (literal_of (PTerm (cts_value v lang)) lang)
| says_link : forall c p v u, cts_kind (c_kind (obj st c)) -> uri_of v u -> says st (WLink c p v) (place st c) p u.

(** [unsays st w at p o]: it takes back this statement, if it was there. *)
Inductive unsays (st : state) : write -> nat * term -> term -> term -> Prop :=
| unsays_new : forall k id urn p o, p = a_type \/ p = in_dts #"model" -> unsays st (WNew k id urn) (0, URI id) p o
| unsays_version : forall c v o, unsays st (WVersion c v) (place st c) (in_dts #"version") o
| unsays_type : forall c v u o, uri_of v u -> unsays st (WType c v) (place st c) a_type o
| unsays_model : forall c v u o, uri_of v u -> unsays st (WModel c v) (place st c) (in_dts #"model") o
| unsays_lang : forall c l o, has_lang (c_kind (obj st c)) -> unsays st (WLang c l) (place st c) a_language o
| unsays_remove : forall c p o pp oo, covers pp p -> covers oo o -> unsays st (WRemove c pp oo) (place st c) p o.

(** What holds after a history: what was said, or there from the start, and not
    taken back since. *)
Inductive stands (st : state) : list write -> nat * term -> term -> term -> Prop :=
| stands_start : forall gi n p o, In (n, p, o) (nth gi (graphs st) []) -> stands st [] (gi, n) p o
| stands_said : forall h w at_ p o, says (after st h) w at_ p o -> stands st (h ++ [w]) at_ p o
| stands_kept : forall h w at_ p o, stands st h at_ p o -> ~ unsays (after st h) w at_ p o -> stands st (h ++ [w]) at_ p o.

(** The write leaves this field of this node alone. *)
Definition leaves (st : state) (w : write) (at_ : nat * term) (p : term) : Prop :=
  forall o, ~ says st w at_ p o /\ ~ unsays st w at_ p o.
Inductive quiet (st : state) (at_ : nat * term) (p : term) : list write -> Prop :=
| quiet_none : quiet st at_ p []
| quiet_one : forall h w, quiet st at_ p h -> leaves (after st h) w at_ p -> quiet st at_ p (h ++ [w]).

(** A choice of one value: in the language asked for if there is one. *)
Definition picked (values : term -> Prop) (lang : option str) (r : option term) : Prop :=
  match r with
  | None => forall v, ~ values v
  | Some v => values v /\
      forall l, lang = Some l -> written_in l v \/ forall w, values w -> ~ written_in l w
  end.
