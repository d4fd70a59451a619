(** The local resolver answering from the files of its texts: references,
    passages, siblings.

    Models /repo/MyCapytain/resolvers/cts/local.py lines 111-123, 314-348 and
    470-525, and /repo/MyCapytain/resources/texts/local/capitains/cts.py lines
    470-488.  The documents found at the paths arrive as a function: nothing, or
    the root of a document, or the exception its parsing raises. *)

From Coq Require Import List NArith ZArith Arith Bool.
From Verif Require Import PyStr RefModel CiteModel SchemeModel XmlModel XPathModel UrnModel MetaModel CollModel InvModel
  LocalModel LoadModel PassageModel.
Import ListNotations.

Definition tei (name : str) : str := #"{http://www.tei-c.org/ns/1.0}" ++ name.

(** _findCRefPattern (lines 476-488) and the paths of Citation.ingest
    (_capitains_cts.py line 942): a new text has no citation yet, so the first
    refsDecl for CTS of the document is read. *)
Definition declarations (x : XmlModel.node) : list XmlModel.node :=
  filter (fun e => match get_attr #"n" (n_attrs e) with Some v => str_eqb v #"CTS" | None => false end)
    (all_named (tei #"refsDecl") x).
Definition patterns_in (d : XmlModel.node) : list (option str * option str) :=
  map (fun e => (get_attr #"n" (n_attrs e), get_attr #"replacementPattern" (n_attrs e)))
    (filter (fun e => str_eqb (n_tag e) (tei #"cRefPattern")) (flat_map everywhere (n_kids d))).

(** The levels of the citation that is made: what iterating over it gives. *)
Definition level_of (h : cheap) (i : nat) : level :=
  match nth_error h i with Some c => (cn_name c, cn_rd c) | None => (None, None) end.
Definition citation_levels (x : XmlModel.node) : result (list level) :=
  match declarations x with
  | [] => Err MissingRefsDecl
  | d :: _ =>
      '(h, top) <- cit_ingest [] (patterns_in d) ;;
      l <- cit_iter h top ;;
      Ok (map (level_of h) l)
  end.

Definition documents : Type := str -> option (result XmlModel.node).

(** What the loading of folders finds at the paths (lines 111-123, 202-207). *)
Definition texts_at (docs : documents) : disk :=
  fun path => option_map (fun doc => x <- doc ;; citation_levels x) (docs path).

(** An opened text: the object and the patterns of its citation. *)
Record opened := MkOpened { op_text : tobj; op_scheme : list str }.

(** [__getText__] (lines 338-348).  The path of a text is None until it is set
    (collections/cts.py lines 194-204), which isfile refuses; other collections have
    no such attribute.  Without a file the text is None. *)
Definition path_attr (s : store) (t : nat) : result str :=
  match find (fun e => Nat.eqb (fst e) t) (s_paths s) with
  | Some e => Ok (snd e)
  | None => Err (match c_kind (obj (s_state s) t) with KText _ => TypeError | _ => AttributeError end)
  end.
Definition open_text (limit : nat) (docs : documents) (s : store) (root : nat) (urn : str) : result (option opened * nat) :=
  u <- read_urn limit (s_state s) root urn ;;
  n <- to_str u ;;
  t <- getitem limit (s_state s) root n ;;
  p <- path_attr s t ;;
  match docs p with
  | None => Ok (None, t)
  | Some doc =>
      x <- doc ;;
      ls <- citation_levels x ;;
      Ok (Some (MkOpened (OText x (Some u)) (map (fun l => match snd l with Some rd => rd | None => [] end) ls)), t)
  end.

(** A subreference is given as an object or as a string. *)
Inductive given := GivenRef (r : ref) | GivenStr (v : str).
Definition as_reference (g : given) : result (option ref) :=
  match g with GivenRef r => Ok (Some r) | GivenStr v => cts_reference (VStr v) end.

Section Serve.
Variable limit : nat.
Variable docs : documents.
Variable same : XmlModel.node -> XmlModel.node -> bool.
Variables (s : store) (root : nat).

(** A method of what [__getText__] returns: None has none. *)
Definition the_text (o : option opened * nat) : result opened :=
  match fst o with Some x => Ok x | None => Err AttributeError end.

(** getTextualNode (lines 470-491) without the metadata: the whole text comes as a
    simple passage. *)
Inductive textual := Whole (p : simple) | Passage (p : tobj).
Definition node_of (x : opened) (r : option ref) : result textual :=
  match r with
  | None => Ok (Whole (whole_node (op_text x)))
  | Some r => p <- get_node (op_scheme x) same (op_text x) r ;; Ok (Passage p)
  end.
Definition resolver_node (urn : str) (sub : option given) : result textual :=
  o <- open_text limit docs s root urn ;;
  r <- match sub with None => Ok None | Some g => as_reference g end ;;
  x <- the_text o ;;
  node_of x r.

(** getSiblings (lines 493-507). *)
Definition resolver_siblings (urn : str) (sub : given) : result (option ref * option ref) :=
  o <- open_text limit docs s root urn ;;
  r <- as_reference sub ;;
  x <- the_text o ;;
  n <- node_of x r ;;
  match n with
  | Whole p => simple_siblings (op_scheme x) same p
  | Passage p => siblings (op_scheme x) same p
  end.

(** getReffs (lines 509-525).  The empty string is passed on as it is: a level below
    one then counts as one (texts/local/capitains/cts.py lines 229-233). *)
Definition resolver_reffs (urn : str) (level : Z) (sub : option given) : result (list (option ref)) :=
  o <- open_text limit docs s root urn ;;
  match sub with
  | None => x <- the_text o ;; get_reffs (op_scheme x) same (op_text x) (Some level) None
  | Some (GivenStr []) =>
      x <- the_text o ;;
      get_reffs (op_scheme x) same (op_text x) (Some (if (level <=? 0)%Z then 1%Z else level)) None
  | Some g =>
      x <- the_text o ;;
      r <- as_reference g ;;
      n <- node_of x r ;;
      match n with
      | Whole p => simple_reffs (op_scheme x) same p level r
      | Passage p => get_reffs (op_scheme x) same p (Some level) r
      end
  end.
End Serve.
