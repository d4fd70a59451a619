(** What is to be found again in a DTS collection that was exported, and which
    collections that is promised for. *)

From Coq Require Import List NArith ZArith Arith Bool Permutation.
From Verif Require Import PyStr Json MetaModel MetaSpec TreeModel TreeSpec DtsModel DtsOutModel.
Import ListNotations.

Definition hydra (w : str) : str := #"https://www.w3.org/ns/hydra/core#" ++ w.
Definition dts (w : str) : str := #"https://w3id.org/dts/api#" ++ w.
Definition rdf_type : str := #"http://www.w3.org/1999/02/22-rdf-syntax-ns#type".
Definition rdfs_label : str := #"http://www.w3.org/2000/01/rdf-schema#label".

Definition hydra_words : list str := [#"title"; #"totalItems"; #"description"; #"member"].
Definition dts_words : list str := [#"extensions"; #"dublincore"; #"citeDepth"; #"citeStructure"; #"citeType"; #"model"].

(** The namespaces that are not repeated among the statements: CapiTainS, Hydra,
    RDF, RDFS and DTS. *)
Definition reserved : list str :=
  [#"http://purl.org/capitains/ns/1.0#"; #"https://www.w3.org/ns/hydra/core#";
   #"http://www.w3.org/1999/02/22-rdf-syntax-ns#"; #"http://www.w3.org/2000/01/rdf-schema#"; #"https://w3id.org/dts/api#"].
(** Those that the context never declares: all of them but DTS. *)
Definition undeclared : list str :=
  [#"http://purl.org/capitains/ns/1.0#"; #"https://www.w3.org/ns/hydra/core#";
   #"http://www.w3.org/1999/02/22-rdf-syntax-ns#"; #"http://www.w3.org/2000/01/rdf-schema#"].

Definition is_blank (o : term) : Prop := exists n, o = BNode n.

(** str() of an address and of a literal is its text. *)
Definition texts (name : term -> str) : Prop :=
  (forall s, name (URI s) = s) /\ forall s l d, name (Literal s l d) = s.

(** The names that an export writes: those of the statements, of the types, and
    its own. *)
Inductive named (x : source) : str -> Prop :=
| named_key : forall u o, In (URI (b_id (x_brief x)), URI u, o) (b_graph (x_brief x)) -> named x u
| named_type : forall b u, In b (x_brief x :: x_members x) -> In (URI (b_id b), URI rdf_type, URI u) (b_graph b) -> named x u
| named_hydra : forall w, In w hydra_words -> named x (hydra w)
| named_dts : forall w, In w dts_words -> named x (dts w).

(** A name without colon or slash that is not a keyword. *)
Definition local_name (l : str) : Prop :=
  l <> [] /\ ~ In 58%N l /\ ~ In 47%N l /\ forall r, l <> 64%N :: r.

(** Qualified names as rdflib makes them: prefix, namespace and local name.  A
    prefix has one namespace, a namespace has one prefix, none for Hydra. *)
Record qualifies (qn : str -> str * str * str) (U : str -> Prop) : Prop := {
  q_whole : forall u p n l, U u -> qn u = (p, n, l) -> u = n ++ l;
  q_local : forall u p n l, U u -> qn u = (p, n, l) -> local_name l;
  q_prefix : forall u p n l, U u -> qn u = (p, n, l) -> p = [] \/ local_name p;
  q_ends : forall u p n l, U u -> qn u = (p, n, l) -> exists a c, n = a ++ [c] /\ In c [58; 47; 63; 35; 91; 93; 64]%N;
  q_same : forall u u' p n l p' n' l', U u -> U u' -> qn u = (p, n, l) -> qn u' = (p', n', l') -> (p = p' <-> n = n');
  q_apart : forall u u' n l p n' l', U u -> U u' -> qn u = ([], n, l) -> qn u' = (p, n', l') -> p <> l;
  q_hydra : forall w, In w hydra_words -> qn (hydra w) = ([], #"https://www.w3.org/ns/hydra/core#", w);
  q_dts : forall w, In w dts_words -> qn (dts w) = (#"dts", #"https://w3id.org/dts/api#", w) }.

Section Says.
Variable name : term -> str.
Variable qn : str -> str * str * str.
Variable to_python : str -> option str -> json.

Definition ns_of (u : str) : str := let '(_, n, _) := qn u in n.
Definition prefix_of (u : str) : str := let '(p, _, _) := qn u in p.

(** A value that JSON can carry as a text or a number. *)
Definition carried (o : term) : Prop :=
  match o with
  | Literal _ (Some _) _ => True
  | Literal s None d => (exists t, to_python s d = JStr t) \/ exists z, to_python s d = JInt z
  | _ => False
  end.

(** The type of [b] can be written: its namespace is declared by a statement, or
    is that of Hydra. *)
Definition type_declared (x : source) (t : str) : Prop :=
  ns_of t = #"https://www.w3.org/ns/hydra/core#" \/
  exists u o, In (URI (b_id (x_brief x)), URI u, o) (b_graph (x_brief x)) /\ ~ is_blank o /\
    ns_of u = ns_of t /\ ~ In (ns_of u) undeclared.

(** A collection, or a member, that has a type, a label, and descriptions that
    are texts in [g]. *)
Record brief_ready (x : source) (g : graph) (b : brief) : Prop := {
  r_type : exists t, In (URI (b_id b), URI rdf_type, t) (b_graph b);
  r_types : forall t, In (URI (b_id b), URI rdf_type, t) (b_graph b) -> exists u, t = URI u /\ type_declared x u;
  r_label : exists l, In (URI (b_id b), URI rdfs_label, l) (b_graph b);
  r_descriptions : forall o, In (URI (b_id b), URI (hydra #"description"), o) g -> is_literal o;
  r_keyword : forall r, b_id b <> 64%N :: r;
  r_id : forall u r, named x u -> b_id b <> prefix_of u ++ #":" ++ r }.

(** A collection ready to be exported, with values that are [ok]. *)
Record ready_with (ok : term -> Prop) (x : source) : Prop := {
  r_graph : NoDup (b_graph (x_brief x));
  r_keys : forall p o, In (URI (b_id (x_brief x)), p, o) (b_graph (x_brief x)) -> exists u, p = URI u;
  r_values : forall u o, In (URI (b_id (x_brief x)), URI u, o) (b_graph (x_brief x)) -> ~ is_blank o ->
    ~ In (ns_of u) reserved -> ok o;
  r_model : exists u o, In (URI (b_id (x_brief x)), URI u, o) (b_graph (x_brief x)) /\ ~ is_blank o /\
    ns_of u = #"https://w3id.org/dts/api#";
  r_briefs : forall b, In b (x_brief x :: x_members x) -> brief_ready x (b_graph (x_brief x)) b }.
Definition ready (x : source) : Prop := ready_with carried x.

(** The same, but a value may be an address as well. *)
Definition ready_links (x : source) : Prop := ready_with (fun o => carried o \/ exists v, o = URI v) x.
(** A statement that is exported has an address as its value. *)
Definition links (x : source) : Prop :=
  exists u v, In (URI (b_id (x_brief x)), URI u, URI v) (b_graph (x_brief x)) /\ ~ In (ns_of u) reserved.

(** ** What is found again *)

(** The statement made from a triple: key, value, language. *)
Definition stated (t : triple) : statement :=
  match t with
  | (_, URI u, Literal s (Some l) _) => (u, JStr s, JStr l)
  | (_, URI u, Literal s None d) => (u, to_python s d, JNull)
  | _ => ([], JNull, JNull)
  end.

(** The identifier, one label, one type, the size, and one description if there
    is any in [g]. *)
Record brief_found (g : graph) (b : brief) (c : coll) : Prop := {
  f_id : co_id c = b_id b;
  f_label : exists o, In (URI (b_id b), URI rdfs_label, o) (b_graph b) /\ cm_labels (co_meta c) = [JStr (name o)];
  f_type : exists u, In (URI (b_id b), URI rdf_type, URI u) (b_graph b) /\ cm_types (co_meta c) = [JStr u];
  f_size : cm_totals (co_meta c) = [JInt (b_size b)];
  f_descriptions :
    ((forall o, ~ In (URI (b_id b), URI (hydra #"description"), o) g) /\ cm_descriptions (co_meta c) = []) \/
    exists o, In (URI (b_id b), URI (hydra #"description"), o) g /\ cm_descriptions (co_meta c) = [JStr (name o)];
  f_view : co_view c = false }.

Definition member_found (g : graph) (b : brief) (c : coll) : Prop :=
  brief_found g b c /\ co_members c = [] /\ cm_about (co_meta c) = [] /\
  cm_citation (co_meta c) = None /\ cm_depth (co_meta c) = None.

Definition cites_found (c : cites) (m : cmeta) : Prop :=
  match c with
  | NoCites => cm_citation m = None /\ cm_depth m = None
  | CiteSet f =>
      (s_children f = [] -> cm_citation m = None) /\
      (s_children f <> [] -> exists s, cm_citation m = Some s /\ map shape_of (s_children s) = map shape_of (s_children f)) /\
      cm_depth m = (if (set_depth f =? 0)%Z then None else Some (JInt (set_depth f)))
  | CiteRoot c =>
      (c_children c = [] -> cm_citation m = None) /\
      (c_children c <> [] -> exists s, cm_citation m = Some s /\ map shape_of (s_children s) = [shape_of c]) /\
      cm_depth m = Some (JInt (Z.of_nat (citation_depth c)))
  end.

Record found (x : source) (c : coll) : Prop := {
  f_brief : brief_found (b_graph (x_brief x)) (x_brief x) c;
  f_about : exists sts, NoDup sts /\
    (forall t, In t sts <-> In t (b_graph (x_brief x)) /\
       exists u o, t = (URI (b_id (x_brief x)), URI u, o) /\ ~ is_blank o /\ ~ In (ns_of u) reserved) /\
    Permutation (cm_about (co_meta c)) (map stated sts);
  f_members : (b_size (x_brief x) = 0%Z -> co_members c = []) /\
    (b_size (x_brief x) <> 0%Z -> Forall2 (member_found (b_graph (x_brief x))) (x_members x) (co_members c));
  f_cites : cites_found (x_cites x) (co_meta c) }.
End Says.
