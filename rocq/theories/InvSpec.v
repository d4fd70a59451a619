(** What an inventory document says, without reference to how it is read. *)

From Coq Require Import List NArith ZArith Arith Bool.
From Verif Require Import PyStr CiteModel XmlModel UrnModel MetaModel CollModel UtilModel InvModel.
Import ListNotations.

(** ** Elements *)
Definition cts_tag (name : str) : str := #"{http://chs.harvard.edu/xmlns/cts}" ++ name.
Definition named (name : str) (e : XmlModel.node) : list XmlModel.node :=
  filter (fun k => str_eqb (n_tag k) (cts_tag name)) (n_kids e).

(** All elements of a document, in document order. *)
Fixpoint document_order (e : XmlModel.node) : list XmlModel.node :=
  match e with
  | Elem t a x y kids => Elem t a x y kids :: flat_map document_order kids
  end.
Definition anywhere (name : str) (x : XmlModel.node) : list XmlModel.node :=
  filter (fun k => str_eqb (n_tag k) (cts_tag name)) (document_order x).

Definition urn_of (e : XmlModel.node) : option str := get_attr #"urn" (n_attrs e).
Definition lang_of (e : XmlModel.node) : option str :=
  get_attr #"{http://www.w3.org/XML/1998/namespace}lang" (n_attrs e).

(** The texts of a work: editions first, then translations, then commentaries. *)
Definition texts_in (w : XmlModel.node) : list (subtype * XmlModel.node) :=
  map (pair Edition) (named #"edition" w) ++ map (pair Translation) (named #"translation" w)
  ++ map (pair Commentary) (named #"commentary" w).

(** A URN that can be read, and its normal form. *)
Definition reads_urn (u t : str) : Prop := exists un, urn_parse u = Ok un /\ to_str un = Ok t.
Definition good_urn (e : XmlModel.node) : Prop := exists u t, urn_of e = Some u /\ reads_urn u t.

(** What a document must have: an inventory somewhere, and URNs that can be read
    on everything that gets an object; links must have one too. *)
Definition good_text (e : XmlModel.node) : Prop :=
  good_urn e /\ forall a, In a (named #"about" e) -> urn_of a <> None.
Definition good_work (e : XmlModel.node) : Prop :=
  good_urn e /\ forall k c, In (k, c) (texts_in e) -> good_text c.
Definition good_group (e : XmlModel.node) : Prop :=
  good_urn e /\ forall w, In w (named #"work" e) -> good_work w.
Definition good_inventory (x : XmlModel.node) : Prop :=
  anywhere #"TextInventory" x <> [] /\ forall g, In g (anywhere #"textgroup" x) -> good_group g.

(** Names as lxml gives them: plain, or a namespace in braces and a plain name. *)
Definition qualified (e : XmlModel.node) (ns name : str) : Prop :=
  n_tag e = [123%N] ++ ns ++ [125%N] ++ name /\ ~ In 125%N ns /\ ~ In 125%N name.
Definition clark_names (x : XmlModel.node) : Prop :=
  forall e, In e (document_order x) -> ~ In 123%N (n_tag e) \/ exists ns name, qualified e ns name.

(** ** Citations: each level is the first one in the level above. *)
Definition first_named (name : str) (e c : XmlModel.node) : Prop :=
  exists pre post, n_kids e = pre ++ c :: post /\ n_tag c = cts_tag name
    /\ forall k, In k pre -> n_tag k <> cts_tag name.
Definition level_of (e : XmlModel.node) : level :=
  (get_attr #"label" (n_attrs e),
   init_refsdecl (get_attr #"scope" (n_attrs e)) (get_attr #"xpath" (n_attrs e)) None).
Inductive levels : XmlModel.node -> list level -> Prop :=
| levels_last : forall e, named #"citation" e = [] -> levels e [level_of e]
| levels_more : forall e c l, first_named #"citation" e c -> levels c l -> levels e (level_of e :: l).

Definition mapped (e : XmlModel.node) : list XmlModel.node :=
  flat_map (named #"citation") (flat_map (named #"citationMapping") (named #"online" e)).
Definition citation_says (e : XmlModel.node) (l : list level) : Prop :=
  match mapped e with
  | [] => l = []
  | c :: _ => levels c l
  end.

(** The citation of an object: what was assigned last. *)
Definition citation_of (s : store) (i : nat) : option (list level) :=
  option_map snd (find (fun e => Nat.eqb (fst e) i) (s_cites s)).

(** ** Structure

    Of the entries of a list with the same key, the first. *)
Fixpoint first_of_each (l : list (str * nat)) : list (str * nat) :=
  match l with
  | [] => []
  | (k, v) :: l' => (k, v) :: filter (fun e => negb (str_eqb (fst e) k)) (first_of_each l')
  end.

(** The object [i] was made for an element, in the class [k]. *)
Definition made_for (s : store) (k : kind) (e : XmlModel.node) (parent : option nat) (i : nat) : Prop :=
  let x := obj (s_state s) i in
  i < length (objs (s_state s)) /\ c_kind x = k /\ urn_of e = Some (c_id x) /\
  reads_urn (c_id x) (c_urn x) /\ c_parent x = parent /\ c_graph x = 0.

(** The members of [i] are the objects [l] made for the elements [es], each
    registered under its URN unless an earlier one has the same. *)
Definition members_are (s : store) (i : nat) (es : list XmlModel.node) (l : list nat) : Prop :=
  (forall j, In j l -> i < j) /\
  c_children (obj (s_state s) i)
  = first_of_each (combine (map (fun e => match urn_of e with Some u => u | None => [] end) es) l).

Definition shows_text (s : store) (k : subtype) (e : XmlModel.node) (parent : option nat) (i : nat) : Prop :=
  made_for s (KText k) e parent i /\ c_children (obj (s_state s) i) = [] /\
  exists c, citation_of s i = Some c /\ citation_says e c.

Definition shows_work (s : store) (e : XmlModel.node) (parent : option nat) (i : nat) (texts : list nat) : Prop :=
  made_for s KWork e parent i /\ members_are s i (map snd (texts_in e)) texts /\
  Forall2 (fun ke j => shows_text s (fst ke) (snd ke) (Some i) j) (texts_in e) texts.

Definition shows_group (s : store) (e : XmlModel.node) (parent : option nat) (i : nat) : Prop :=
  made_for s KTextgroup e parent i /\
  exists works, members_are s i (named #"work" e) works /\
    Forall2 (fun w j => exists texts, shows_work s w (Some i) j texts) (named #"work" e) works.

Definition inventory_name (x : XmlModel.node) (name : str) : Prop :=
  exists t rest, anywhere #"TextInventory" x = t :: rest /\
    name = match get_attr #"tiid" (n_attrs t) with Some s => s | None => [] end.

Definition shows_inventory (s : store) (x : XmlModel.node) (i : nat) : Prop :=
  let o := obj (s_state s) i in
  i < length (objs (s_state s)) /\ c_kind o = KInventory /\ inventory_name x (c_id o) /\
  c_parent o = None /\ c_graph o = 0 /\
  exists groups, members_are s i (anywhere #"textgroup" x) groups /\
    Forall2 (fun g j => shows_group s g (Some i) j) (anywhere #"textgroup" x) groups.

(** ** Statements *)
Section Says.
Variable leaf : XmlModel.node -> guess.
Variable nsmap : XmlModel.node -> list (str * str).

Definition structured_in (e : XmlModel.node) : list XmlModel.node :=
  flat_map n_kids
    (filter (fun k => str_eqb (n_tag k) #"{http://purl.org/capitains/ns/1.0#}structured-metadata") (n_kids e)).

Definition shown (e : XmlModel.node) : str := match n_text e with [] => #"None" | s => s end.
Definition language_tag (l : str) : option str := match l with [] => None | _ => Some l end.
Definition address (s : str) : Prop :=
  exists p r, In p [#"urn:"; #"http:"; #"https:"; #"hdl:"] /\ s = p ++ r.
Definition datatype_attr : str := #"{http://www.w3.org/1999/02/22-rdf-syntax-ns#}datatype".
Definition written_out (d : str) : Prop := (exists r, d = #"http" ++ r) \/ ~ In 58%N d.

(** The value of an element of structured metadata, whose text is [s]. *)
Inductive value_says (e : XmlModel.node) (s : str) : term -> Prop :=
| vs_address : address s -> value_says e s (URI s)
| vs_lang : forall l, ~ address s -> lang_of e = Some l ->
    value_says e s (Literal s (language_tag l) None)
| vs_type : forall d, ~ address s -> lang_of e = None ->
    get_attr datatype_attr (n_attrs e) = Some d -> written_out d -> value_says e s (Literal s None (Some d))
| vs_prefixed : forall d, ~ address s -> lang_of e = None ->
    get_attr datatype_attr (n_attrs e) = Some d -> ~ written_out d ->
    value_says e s (Literal s None (Some (expand_namespace (nsmap e) d)))
| vs_guess : ~ address s -> lang_of e = None -> get_attr datatype_attr (n_attrs e) = None ->
    value_says e s (Literal s None
      (match leaf e with
       | GInt _ => Some #"http://www.w3.org/2001/XMLSchema#integer"
       | GFloat _ => Some #"http://www.w3.org/2001/XMLSchema#float"
       | GText _ => None
       end)).

Definition cts (name : str) : term := URI (#"http://chs.harvard.edu/xmlns/cts/" ++ name).

(** The element that names a collection of the class. *)
Inductive title_element : kind -> str -> Prop :=
| te_text : forall k, title_element (KText k) #"label"
| te_work : title_element KWork #"title"
| te_group : title_element KTextgroup #"groupname".

(** What an element says of its own URN: predicate and object. *)
Inductive described : kind -> XmlModel.node -> term -> term -> Prop :=
| d_title : forall k name e c l p, title_element k name -> In c (named name e) -> lang_of c = Some l ->
    In p [cts name; rdfs_label; skos_prefLabel] ->
    described k e p (Literal (shown c) (language_tag l) None)
| d_description : forall k e c l, In c (named #"description" e) -> lang_of c = Some l ->
    described (KText k) e (cts #"description") (Literal (shown c) (language_tag l) None)
| d_about : forall k e c u, In c (named #"about" e) -> urn_of c = Some u ->
    described (KText k) e (cts #"about") (URI u)
| d_structured : forall k e m ns name o, In m (structured_in e) -> qualified m ns name ->
    value_says m (guess_text (leaf m)) o -> described k e (URI (ns ++ name)) o.

(** The elements that get an object, with the identifier of what they are in. *)
Inductive listed (x : XmlModel.node) : kind -> XmlModel.node -> str -> Prop :=
| l_group : forall g name, inventory_name x name -> In g (anywhere #"textgroup" x) ->
    listed x KTextgroup g name
| l_work : forall g name w u, listed x KTextgroup g name -> urn_of g = Some u ->
    In w (named #"work" g) -> listed x KWork w u
| l_text : forall w name k e u, listed x KWork w name -> urn_of w = Some u ->
    In (k, e) (texts_in w) -> listed x (KText k) e u.

(** The statements a document makes. *)
Inductive said (x : XmlModel.node) : triple -> Prop :=
| said_own : forall k e up u p o, listed x k e up -> urn_of e = Some u -> described k e p o ->
    said x (URI u, p, o)
| said_parent : forall k e up u, listed x k e up -> urn_of e = Some u ->
    said x (URI u, URI #"http://purl.org/capitains/ns/1.0#parent", URI up).
End Says.

(** The three predicates that have one value at a time. *)
Definition single_valued (p : term) : Prop :=
  In p [URI #"http://www.w3.org/1999/02/22-rdf-syntax-ns#type";
        URI #"https://w3id.org/dts/api#model";
        URI #"http://purl.org/dc/elements/1.1/language"].

(** ** Languages

    A work is in the language its element names; a translation or commentary
    too, and in the language of the work if it names none; an edition is in the
    language of the work.  No language reads None. *)
Definition work_language (w : XmlModel.node) : str :=
  match lang_of w with Some l => l | None => #"None" end.
Definition text_language (w : XmlModel.node) (k : subtype) (e : XmlModel.node) : str :=
  match k, lang_of e with
  | Edition, _ => work_language w
  | _, Some l => l
  | _, None => work_language w
  end.

(** The URNs of everything in a document, in the order they are read. *)
Definition urn_list (es : list XmlModel.node) : list str :=
  map (fun e => match urn_of e with Some u => u | None => [] end) es.
Definition work_urns (w : XmlModel.node) : list str := urn_list (w :: map snd (texts_in w)).
Definition group_urns (g : XmlModel.node) : list str :=
  urn_list [g] ++ flat_map work_urns (named #"work" g).
Definition document_urns (x : XmlModel.node) : list str :=
  flat_map group_urns (anywhere #"textgroup" x).

(** A Dublin Core language among the structured metadata of a work or a text
    repeats the language of the work or text. *)
Definition languages_agree (leaf : XmlModel.node -> guess) (nsmap : XmlModel.node -> list (str * str))
    (x : XmlModel.node) : Prop :=
  forall g w m ns name o, In g (anywhere #"textgroup" x) -> In w (named #"work" g) ->
    qualified m ns name -> ns ++ name = #"http://purl.org/dc/elements/1.1/language" ->
    value_says leaf nsmap m (guess_text (leaf m)) o ->
    (In m (structured_in w) -> exists l, lang_of w = Some l /\ o = Literal l None None) /\
    (forall k e, In (k, e) (texts_in w) -> In m (structured_in e) -> o = Literal (text_language w k e) None None).

(** No element of structured metadata is a Dublin Core language. *)
Definition no_language_field (x : XmlModel.node) : Prop :=
  forall e ns name, In e (document_order x) -> qualified e ns name ->
    ns ++ name <> #"http://purl.org/dc/elements/1.1/language".
