(** What the files of a repository say of the URNs in them. *)

From Coq Require Import List NArith ZArith Arith Bool.
From Verif Require Import PyStr XmlModel UrnModel UrnSpec MetaModel CollModel UtilModel InvModel InvSpec LocalModel LoadModel LoadSpec AnswerSpec.
Import ListNotations.

(** The elements of a textgroup file and the files of its works. *)
Inductive in_file (f : described_group) : kind -> XmlModel.node -> Prop :=
| if_group : in_file f KTextgroup (fst f)
| if_work : forall folder w, In (folder, w) (works_in f) -> in_file f KWork w
| if_text : forall folder w k e, In (folder, w) (works_in f) -> In (k, e) (texts_in w) -> in_file f (KText k) e.

(** A file says [o] of the URN [u] with the predicate [p]: titles, descriptions,
    links, structured metadata (InvSpec.v). *)
Definition says_of (leaf : XmlModel.node -> guess) (nsmap : XmlModel.node -> list (str * str))
    (files : list located_group) (u : str) (p o : term) : Prop :=
  exists f k e, In f files /\ in_file (snd f) k e /\ urn_of e = Some u /\ described leaf nsmap k e p o.

(** The predicates of such statements: those with one value at a time and the one
    that links to the parent are looked at elsewhere. *)
Definition parent_link : term := URI #"http://purl.org/capitains/ns/1.0#parent".
Definition plain_predicate (p : term) : Prop := ~ single_valued p /\ p <> parent_link.

(** The statements about a collection are in a graph of the process. *)
Definition graphs_there (s : store) : Prop :=
  graphs (s_state s) <> [] /\ forall j, j < length (objs (s_state s)) -> c_graph (obj (s_state s) j) < length (graphs (s_state s)).

(** ** Languages

    [F] is the language of every URN: the files name it for each work and text, and
    fields of Dublin Core repeat it. *)
Definition repeats_language (leaf : XmlModel.node -> guess) (nsmap : XmlModel.node -> list (str * str)) (e : XmlModel.node) (l : str) : Prop :=
  forall m ns name o, In m (structured_in e) -> qualified m ns name ->
    ns ++ name = #"http://purl.org/dc/elements/1.1/language" ->
    value_says leaf nsmap m (guess_text (leaf m)) o -> o = Literal l None None.
Definition languages_said leaf nsmap (F : str -> str) (files : list located_group) : Prop :=
  forall f folder w, In f files -> In (folder, w) (works_in (snd f)) ->
    lang_of w = Some (F (own_urn w)) /\ repeats_language leaf nsmap w (F (own_urn w)) /\
    forall k e, In (k, e) (texts_in w) -> text_language w k e = F (own_urn e) /\ repeats_language leaf nsmap e (F (own_urn e)).

Definition has_language (k : kind) : Prop := k = KWork \/ exists b, k = KText b.

(** The URN of a work or of a text. *)
Definition work_or_text (u : str) : Prop :=
  exists ns cts p, plain_ns ns /\ plain_ns cts /\ plain_part p /\ 2 <= part_size p /\ u = write_urn ns cts p None.

(** All works and texts of the process have such URNs, and the language of their
    URN, in the graph of the process and in the one where their statements are. *)
Definition all_speak (F : str -> str) (s : store) : Prop :=
  forall j, j < length (objs (s_state s)) -> has_language (c_kind (obj (s_state s) j)) ->
    let u := c_id (obj (s_state s) j) in
    work_or_text u /\ speaks s u (F u) /\ speaks_in s (c_graph (obj (s_state s) j)) u (F u).

(** Editions have the language of their work. *)
Definition editions_fit (F : str -> str) (L : inventories source) : Prop :=
  forall n l k ws k2 ts u x, In (n, l) L -> In (k, ws) l -> In (k2, ts) ws -> In (u, x) ts ->
    src_kind x = Edition -> F u = F k2.
