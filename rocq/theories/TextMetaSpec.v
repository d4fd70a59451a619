(** What passages repeat of their collections or learn from the replies of an
    endpoint. *)

From Coq Require Import List NArith ZArith Arith Bool.
From Verif Require Import PyStr XmlModel XmlSpec MetaModel MetaSpec CollModel InvModel InvSpec RemoteSpec.
Import ListNotations.

Definition in_cts (name : str) : term := URI (#"http://chs.harvard.edu/xmlns/cts/" ++ name).
Definition in_dc (name : str) : term := URI (#"http://purl.org/dc/elements/1.1/" ++ name).

(** Information is kept under a key of CTS and under one of Dublin Core. *)
Inductive kept_under : str -> term -> Prop :=
| under_cts : forall name, kept_under name (in_cts name)
| under_creator : kept_under #"groupname" (in_dc #"creator")
| under_title : kept_under #"title" (in_dc #"title")
| under_subject : kept_under #"label" (in_dc #"subject")
| under_description : kept_under #"description" (in_dc #"description").

(** The statement of [s] in the language [l]: languages are kept, datatypes are not. *)
Definition stated (s : str) (l : option str) : term := Literal s (tag l) None.

(** ** From the collections *)

(** A collection says of itself that its name (title, ...) is [s] in the language [l]. *)
Definition says_of_itself (st : state) (c : nat) (name : str) (v : term) : Prop :=
  In (URI (c_id (obj st c)), in_cts name, v) (nth (c_graph (obj st c)) (graphs st) []).

(** What a passage of the text [t], of the work [w], of the textgroup [g] is told. *)
Inductive tells (st : state) (t w g : nat) : str -> term -> Prop :=
| tells_name : forall v, says_of_itself st g #"groupname" v -> tells st t w g #"groupname" v
| tells_title : forall v, says_of_itself st w #"title" v -> tells st t w g #"title" v
| tells_label : forall v, says_of_itself st t #"label" v -> tells st t w g #"label" v
| tells_description : forall v, says_of_itself st t #"description" v -> tells st t w g #"description" v.

(** ** From a reply *)

(** The elements below an element that have the name, in the order of the document. *)
Definition in_reply (e : XmlModel.node) (name : str) (k : XmlModel.node) : Prop :=
  In k (tl (document_order e)) /\ n_tag k = #"{http://chs.harvard.edu/xmlns/cts}" ++ name.

(** What is told: the text of the element (or the word None), in English. *)
Inductive replies (e : XmlModel.node) : str -> term -> Prop :=
| replies_with : forall name k, In name [#"groupname"; #"title"; #"label"; #"description"] -> in_reply e name k ->
    replies e name (Literal (match n_text k with [] => #"None" | s => s end) (Some #"eng") None).

(** Attributes of a parsed document: a prefix has become a namespace. *)
Definition no_prefixed_lang (x : XmlModel.node) : Prop :=
  forall e, In e (document_order x) -> get_attr #"xml:lang" (n_attrs e) = None.

(** The statements afterwards: the former ones, and those about [n] that the
    information makes. *)
Definition informed (before after : graph) (n : term) (info : str -> term -> Prop) : Prop :=
  forall a k v, In (a, k, v) after <-> In (a, k, v) before \/
    (a = n /\ exists name s l d, kept_under name k /\ info name (Literal s l d) /\ v = stated s l).

(** What a getter may give when there are these values: one in the language if there
    is one, else any of them, and nothing if there is none. *)
Definition chosen (values : term -> Prop) (lang : option str) (r : option term) : Prop :=
  match r with
  | None => forall v, ~ values v
  | Some v => values v /\
      forall l, lang = Some l -> written_in l v \/ forall w, values w -> ~ written_in l w
  end.

(** The first element of a document, in document order, at the end of a trail of the
    given kind. *)
Definition first_at (x : XmlModel.node) (kind : list str -> Prop) (p : path) (e : XmlModel.node) : Prop :=
  exists before after, positions x = before ++ (p, e) :: after /\ (exists ts, trail x p ts /\ kind ts) /\
    Forall (fun qm => forall ts, trail x (fst qm) ts -> ~ kind ts) before.
Definition nowhere_at (x : XmlModel.node) (kind : list str -> Prop) : Prop :=
  forall p ts, trail x p ts -> ~ kind ts.

Definition cts_name (name : str) : str := #"{http://chs.harvard.edu/xmlns/cts}" ++ name.
Definition reply_label (ts : list str) : Prop := exists l, ts = l ++ [cts_name #"reply"; cts_name #"label"].
Definition request (ts : list str) : Prop := exists l, ts = l ++ [cts_name #"request"].
Definition passage_tei (ts : list str) : Prop :=
  exists l, ts = l ++ [cts_name #"passage"; #"{http://www.tei-c.org/ns/1.0}TEI"].

(** The citation that is learnt from an element of a document: the one in force
    stays if it is set or if the document has none; otherwise the first one below
    the element is taken, unless the element itself is part of one. *)
Definition is_set (c : list level) : Prop := exists name rd l, c = (name, Some rd) :: l.
Definition part_of_citation (doc : XmlModel.node) (p : path) : Prop :=
  exists ts, trail doc p ts /\ In (cts_name #"citation") ts.
Definition first_below (e c : XmlModel.node) : Prop :=
  exists before after, tl (document_order e) = before ++ c :: after /\ n_tag c = cts_name #"citation" /\
    Forall (fun k => n_tag k <> cts_name #"citation") before.
Inductive learns (doc : XmlModel.node) (p : path) (e : XmlModel.node) (own : list level) : result (list level) -> Prop :=
| learns_nothing : is_set own \/ ~ has_tag doc (cts_name #"citation") -> learns doc p e own (Ok own)
| learns_first : forall c l, ~ is_set own -> ~ part_of_citation doc p -> first_below e c -> levels c l ->
    learns doc p e own (Ok l)
| learns_refused : ~ is_set own -> has_tag doc (cts_name #"citation") ->
    part_of_citation doc p \/ (forall c, ~ first_below e c) -> learns doc p e own (Err TypeError).

(** What comes of reading the first element of a kind: there must be one. *)
Definition reads_at (kind : list str -> Prop) (doc : XmlModel.node) (n : term) (own : list level) (g : graph) (out : graph * result (list level)) : Prop :=
  (exists p e, first_at doc kind p e /\ informed g (fst out) n (replies e) /\ learns doc p e own (snd out)) \/
  (nowhere_at doc kind /\ out = (g, Err IndexError)).
