(** Inventories that XML can carry, and copies of inventories. *)

From Coq Require Import List NArith ZArith Arith Bool.
From Verif Require Import PyStr CiteSpec XmlModel UrnModel MetaModel MetaSpec CollModel UtilSpec InvModel InvSpec.
Import ListNotations.

(** The shared graph; the citation levels of a text. *)
Definition main_graph (s : store) : graph := nth 0 (graphs (s_state s)) [].
Definition cited (s : store) (j : nat) : list level :=
  match citation_of s j with Some c => c | None => [] end.

(** What the CTS vocabulary says of the objects of a class. *)
Inductive property_of : kind -> str -> Prop :=
| p_label : forall k, property_of (KText k) #"label"
| p_description : forall k, property_of (KText k) #"description"
| p_title : property_of KWork #"title"
| p_groupname : property_of KTextgroup #"groupname".
Definition link_of (k : kind) (name : str) : Prop :=
  (exists sub, k = KText sub) /\ name = #"about".

(** ** What can be written *)

(** Characters XML can hold; a carriage return would be read as a line feed. *)
Definition writable_text (t : str) : Prop := forall c, In c t -> xml_char c = true /\ c <> 13%N.

(** A text in a language. *)
Definition writable (o : term) : Prop :=
  exists t l, o = Literal t (Some l) None /\ t <> [] /\ l <> [] /\ plain_value l /\ writable_text t.

Definition writable_facts (s : store) (k : kind) (u : str) : Prop :=
  (forall name o, property_of k name -> In (URI u, cts name, o) (main_graph s) -> writable o) /\
  (forall name o, link_of k name -> In (URI u, cts name, o) (main_graph s) -> exists v, o = URI v /\ plain_value v).

(** A level with a name and a refsDecl of at least two steps (C13). *)
Definition writable_level (l : level) : Prop :=
  exists name before last,
    l = (Some name, Some (numbered 1 (write_steps (before ++ [last])))) /\
    before <> [] /\ Forall wf_step before /\ wf_step last /\
    plain_value name /\ plain_value (write_steps (before ++ [last])).

(** The language, whatever the order the graph is iterated in. *)
Definition language_is (s : store) (j : nat) (l : str) : Prop :=
  forall order, arranges order -> get_lang order (s_state s) j = Ok l.

(** [j] is of class [k], registered in [i] under its identifier, a URN. *)
Definition member_of (s : store) (i : nat) (k : kind) (u : str) (j : nat) : Prop :=
  let x := obj (s_state s) j in
  c_kind x = k /\ c_id x = u /\ c_parent x = Some i /\ c_graph x = 0 /\
  plain_value u /\ reads_urn u (c_urn x).

Definition children (s : store) (i : nat) : list (str * nat) := c_children (obj (s_state s) i).

(** Texts are editions, translations or commentaries; editions are in the
    language of the work. *)
Definition portable_text (s : store) (w : nat) (u : str) (t : nat) : Prop :=
  exists k lang wlang, k <> Unknown /\ member_of s w (KText k) u t /\ writable_facts s (KText k) u /\
    language_is s t lang /\ plain_value lang /\
    language_is s w wlang /\ (k = Edition -> lang = wlang) /\
    Forall writable_level (cited s t).
Definition portable_work (s : store) (g : nat) (u : str) (w : nat) : Prop :=
  member_of s g KWork u w /\ writable_facts s KWork u /\
  (exists lang, language_is s w lang /\ plain_value lang) /\
  forall v t, In (v, t) (children s w) -> portable_text s w v t.
Definition portable_group (s : store) (i : nat) (u : str) (g : nat) : Prop :=
  member_of s i KTextgroup u g /\ writable_facts s KTextgroup u /\
  forall v w, In (v, w) (children s g) -> portable_work s g v w.

(** Everything below an inventory, in the order of the registrations. *)
Definition text_ids (s : store) (w : nat) : list str := map fst (children s w).
Definition work_ids (s : store) (g : nat) : list str :=
  flat_map (fun e => fst e :: text_ids s (snd e)) (children s g).
Definition inventory_ids (s : store) (i : nat) : list str :=
  flat_map (fun e => fst e :: work_ids s (snd e)) (children s i).

Definition portable (s : store) (i : nat) : Prop :=
  let x := obj (s_state s) i in
  c_kind x = KInventory /\ c_graph x = 0 /\ plain_value (c_id x) /\
  (forall u g, In (u, g) (children s i) -> portable_group s i u g) /\
  NoDup (inventory_ids s i).

(** Prefixes: the CTS namespace has the empty one and is alone to; the others
    are names and their namespaces can be written. *)
Definition prefixes_fit (qname : term -> str * str) (s : store) : Prop :=
  forall n p o, In (n, p, o) (main_graph s) ->
    let '(prefix, ns) := qname p in
    (prefix = [] <-> exists name, p = cts name) /\
    (prefix = [] -> ns = #"http://chs.harvard.edu/xmlns/cts/") /\
    (prefix <> [] -> is_name prefix /\ ~ In 58%N prefix /\ plain_value ns /\ ns <> #"http://chs.harvard.edu/xmlns/cts/").

(** Something is said in the CTS vocabulary. *)
Definition mentions_cts (s : store) : Prop := exists n name o, In (n, cts name, o) (main_graph s).

(** ** Copies *)
Definition exported (k : kind) (name : str) : Prop := property_of k name \/ link_of k name.

(** The same object: class, identifier, URN, and what the CTS vocabulary says. *)
Definition same_item (s : store) (j : nat) (s' : store) (j' : nat) : Prop :=
  let x := obj (s_state s) j in let y := obj (s_state s') j' in
  c_kind y = c_kind x /\ c_id y = c_id x /\ c_urn y = c_urn x /\
  forall name o, exported (c_kind x) name ->
    (In (URI (c_id x), cts name, o) (main_graph s') <-> In (URI (c_id x), cts name, o) (main_graph s)).
Definition same_language (s : store) (j : nat) (s' : store) (j' : nat) : Prop :=
  forall l, language_is s j l -> language_is s' j' l.

Definition copy_text (s : store) (t : nat) (s' : store) (w' t' : nat) : Prop :=
  same_item s t s' t' /\ c_parent (obj (s_state s') t') = Some w' /\
  same_language s t s' t' /\ cited s' t' = cited s t.

(** The texts of a work are read in the order editions, translations,
    commentaries. *)
Definition of_kind (s : store) (k : subtype) (l : list (str * nat)) : list (str * nat) :=
  filter (fun e => match c_kind (obj (s_state s) (snd e)), k with
                   | KText Edition, Edition | KText Translation, Translation
                   | KText Commentary, Commentary => true
                   | _, _ => false
                   end) l.
Definition sorted_texts (s : store) (w : nat) : list (str * nat) :=
  of_kind s Edition (children s w) ++ of_kind s Translation (children s w) ++ of_kind s Commentary (children s w).

Definition copy_work (s : store) (w : nat) (s' : store) (g' w' : nat) : Prop :=
  same_item s w s' w' /\ c_parent (obj (s_state s') w') = Some g' /\ same_language s w s' w' /\
  Forall2 (fun a b => fst b = fst a /\ copy_text s (snd a) s' w' (snd b)) (sorted_texts s w) (children s' w').
Definition copy_group (s : store) (g : nat) (s' : store) (i' g' : nat) : Prop :=
  same_item s g s' g' /\ c_parent (obj (s_state s') g') = Some i' /\
  Forall2 (fun a b => fst b = fst a /\ copy_work s (snd a) s' g' (snd b)) (children s g) (children s' g').
Definition copy_inventory (s : store) (i : nat) (s' : store) (i' : nat) : Prop :=
  let x := obj (s_state s) i in let y := obj (s_state s') i' in
  c_kind y = KInventory /\ c_id y = c_id x /\ c_parent y = None /\
  Forall2 (fun a b => fst b = fst a /\ copy_group s (snd a) s' i' (snd b)) (children s i) (children s' i').

(** A store to read into: what it says of these objects in the CTS vocabulary
    already agrees. *)
Definition receives (s : store) (i : nat) (s0 : store) : Prop :=
  graphs (s_state s0) <> [] /\
  forall u name o, In u (inventory_ids s i) ->
    In name [#"label"; #"description"; #"title"; #"groupname"; #"about"] ->
    In (URI u, cts name, o) (main_graph s0) -> In (URI u, cts name, o) (main_graph s).

(** ** Structured metadata: what the CapiTainS export adds *)

(** Statements in the CTS, DTS and RDF vocabularies are not structured
    metadata. *)
Definition other_vocabularies : list str :=
  [#"http://chs.harvard.edu/xmlns/cts/"; #"https://w3id.org/dts/api#"; #"http://www.w3.org/1999/02/22-rdf-syntax-ns#"].
Definition carried (qname : term -> str * str) (p : term) : Prop :=
  ~ In (text_of p) other_vocabularies /\ ~ In (snd (qname p)) other_vocabularies.

(** The predicate is a prefixed name and the object can be written; the prefix
    rdf is declared if it is needed. *)
Definition writable_statement (qname : term -> str * str) (s : store) (p o : term) : Prop :=
  let '(prefix, ns) := qname p in
  (exists name, p = URI (ns ++ name) /\ is_name name /\ ~ In 58%N name) /\
  prefix <> #"xml" /\ ~ In 125%N ns /\ ns <> #"http://chs.harvard.edu/xmlns/cts" /\
  writable_text (text_of o) /\
  forall t l d, o = Literal t l d ->
    (forall x, l = Some x -> plain_value x) /\
    (forall x, d = Some x -> plain_value x /\ exists n q r, In (n, q, r) (main_graph s) /\ fst (qname q) = #"rdf").

(** A prefix stands for one namespace, and cpt for the one of CapiTainS. *)
Definition one_meaning (qname : term -> str * str) (s : store) : Prop :=
  forall n p o, In (n, p, o) (main_graph s) -> fst (qname p) <> [] ->
    (fst (qname p) = #"cpt" -> snd (qname p) = #"http://purl.org/capitains/ns/1.0#") /\
    forall n' p' o', In (n', p', o') (main_graph s) -> fst (qname p') = fst (qname p) -> snd (qname p') = snd (qname p).

Definition describable (qname : term -> str * str) (s : store) (i : nat) : Prop :=
  one_meaning qname s /\
  forall u p o, u = c_id (obj (s_state s) i) \/ In u (inventory_ids s i) ->
    In (URI u, p, o) (main_graph s) -> carried qname p -> writable_statement qname s p o.

(** [j] is below the inventory, of class [k], under the identifier [u], in [q]. *)
Inductive placed_in (s : store) (i : nat) : kind -> str -> nat -> nat -> Prop :=
| in_inventory : forall u g, In (u, g) (children s i) -> placed_in s i KTextgroup u g i
| in_group : forall v g q u w, placed_in s i KTextgroup v g q -> In (u, w) (children s g) -> placed_in s i KWork u w g
| in_work : forall v w q u t k, placed_in s i KWork v w q -> In (u, t) (children s w) ->
    c_kind (obj (s_state s) t) = KText k -> placed_in s i (KText k) u t w.

(** The languages of works and texts are given as plain text that is read as
    such; [read] is what objectify makes of a text. *)
Definition languages_told (read : str -> guess) (s : store) (i : nat) : Prop :=
  forall k u j q l o, placed_in s i k u j q -> k <> KTextgroup -> language_is s j l ->
    In (URI u, URI #"http://purl.org/dc/elements/1.1/language", o) (main_graph s) ->
    o = Literal l None None /\ ~ address l /\ read l = GText l.

(** The object a statement is read back with: an address as such; text with its
    language, without its type; the type that the text seems to have. *)
Inductive comes_back (read : str -> guess) (o : term) : term -> Prop :=
| cb_address : address (guess_text (read (text_of o))) -> comes_back read o (URI (guess_text (read (text_of o))))
| cb_language : forall t l d, o = Literal t (Some l) d -> ~ address (guess_text (read t)) ->
    comes_back read o (Literal (guess_text (read t)) (language_tag l) None)
| cb_plain : (forall t l d, o <> Literal t (Some l) d) -> ~ address (guess_text (read (text_of o))) ->
    comes_back read o (Literal (guess_text (read (text_of o))) None
      (match read (text_of o) with
       | GInt _ => Some #"http://www.w3.org/2001/XMLSchema#integer"
       | GFloat _ => Some #"http://www.w3.org/2001/XMLSchema#float"
       | GText _ => None
       end)).

(** What reading says of [u]: the statements that were exported; the titles in
    other words; what it is in. *)
Inductive read_back (read : str -> guess) (s : store) (i : nat) (u : str) (p : term) : term -> Prop :=
| rb_statement : forall o o', In (URI u, p, o) (main_graph s) -> comes_back read o o' -> read_back read s i u p o'
| rb_title : forall k j q name o, placed_in s i k u j q -> title_element k name -> In p [rdfs_label; skos_prefLabel] ->
    In (URI u, cts name, o) (main_graph s) -> read_back read s i u p o
| rb_parent : forall k j q, placed_in s i k u j q -> p = URI #"http://purl.org/capitains/ns/1.0#parent" ->
    read_back read s i u p (URI (c_id (obj (s_state s) q))).
