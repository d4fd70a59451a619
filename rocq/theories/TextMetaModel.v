(** What passages and texts say about themselves: names, titles, labels,
    descriptions and citations, copied from the collections or read from the
    replies of an endpoint.

    Models /repo/MyCapytain/resources/prototypes/cts/text.py lines 94-126,
    /repo/MyCapytain/resources/prototypes/text.py lines 89-153 and 193-210,
    /repo/MyCapytain/resources/texts/remote/cts.py lines 63-88, 134-202, 345-354
    and 463-478, and /repo/MyCapytain/resolvers/cts/local.py lines 483-491.  A text or a passage is its blank
    node: its metadata live in the graph of [get_graph()], which is graph 0.
    Left out: the statement dts:implements every new text or passage adds. *)

From Coq Require Import List NArith ZArith Arith Bool.
From Verif Require Import PyStr RefModel XmlModel UrnModel MetaModel CollModel InvModel LocalModel PassageModel ServeModel HttpModel
  RemoteModel.
Import ListNotations.

(** rdflib's DC and DCTERMS. *)
Definition dc (name : str) : term := URI (#"http://purl.org/dc/elements/1.1/" ++ name).
Definition dcterms (name : str) : term := URI (#"http://purl.org/dc/terms/" ++ name).

(** ** Getters (prototypes/text.py lines 89-153) *)
Section Getters.
Variable order : list term -> list term.
Definition get_creator (g : graph) (n : term) (lang : option str) : result (option term) := md_get_single order g n (dc #"creator") lang.
Definition get_subject (g : graph) (n : term) (lang : option str) : result (option term) := md_get_single order g n (dc #"subject") lang.
Definition get_description (g : graph) (n : term) (lang : option str) : result (option term) :=
  md_get_single order g n (dc #"description") lang.
(** Whether a term counts as true: an empty text does not.  Literals with a
    datatype are taken to count by their text too, which is a simplification
    (the number 0 does not count). *)
Definition counts (o : option term) : bool :=
  match o with Some t => match MetaModel.text_of t with [] => false | _ => true end | None => false end.
Definition get_title (g : graph) (n : term) (lang : option str) : result (option term) :=
  a <- md_get_single order g n (dc #"title") lang ;;
  if counts a then Ok a else md_get_single order g n (dcterms #"title") lang.

(** [get_cts_metadata] (prototypes/cts/text.py lines 69-76). *)
Definition get_cts_metadata (g : graph) (n : term) (key : str) (lang : option str) : result (option term) :=
  md_get_single order g n (cts_term key) lang.
End Getters.

(** Both statements made of a value, by [metadata.add] and one of the setters of
    prototypes/text.py. *)
Definition note (n : term) (name also : str) (v : str) (l : option str) (g : graph) : graph :=
  md_add (md_add g n (cts_term name) (PStr v) l) n (dc also) (PStr v) l.

(** ** Metadata copied from the collections (prototypes/cts/text.py lines 94-126)

    The values are read from the graph of the collection; those that are not
    literals have no language.  The generator rdflib gives is taken as the list of
    what it would give at once: statements are added to another node only. *)
Section Local.
Variable order : list term -> list term.

Fixpoint note_all (n : term) (name also : str) (os : list term) (st : state) : state * result unit :=
  match os with
  | [] => (st, Ok tt)
  | o :: os' =>
      match language o with
      | Err e => (st, Err e)
      | Ok l => note_all n name also os' (with_graph st 0 (note n name also (MetaModel.text_of o) l))
      end
  end.
Definition note_from (n : term) (name also : str) (c : nat) (st : state) : state * result unit :=
  note_all n name also (g_objects order (CollModel.node (obj st c)) (cts_term name) (nth (c_graph (obj st c)) (graphs st) [])) st.

(** [is_set] of a citation given by its levels (_capitains_cts.py lines 874-880). *)
Definition citation_set (c : list level) : bool :=
  match c with (_, Some _) :: _ => true | _ => false end.

(** The citation of a collection; None has no [is_set]. *)
Definition edition_citation (s : store) (c : nat) : result (list level) :=
  match find (fun e => Nat.eqb (fst e) c) (s_cites s) with
  | Some (_, x :: l) => Ok (x :: l)
  | _ => Err AttributeError
  end.

Definition then_ (r : state * result unit) (k : state -> state * result unit) : state * result unit :=
  match snd r with Ok _ => k (fst r) | Err e => (fst r, Err e) end.

(** [set_metadata_from_collection]; [own] is the citation of the passage, and the
    value is its new citation. *)
Definition set_metadata (fuel : nat) (s : store) (n : term) (own : list level) (t : nat) : store * result (list level) :=
  match parents fuel (s_state s) t with
  | Err e => (s, Err e)
  | Ok (w :: g :: _) =>
      let '(st, r) :=
        then_ (note_from n #"groupname" #"creator" g (s_state s)) (fun st =>
        then_ (note_from n #"title" #"title" w st) (fun st =>
        then_ (note_from n #"label" #"subject" t st) (fun st =>
        note_from n #"description" #"description" t st))) in
      (MkStore st (s_cites s) (s_paths s),
       _ <- r ;;
       if citation_set own then Ok own
       else c <- edition_citation s t ;; Ok (if citation_set c then c else own))
  | Ok _ => (s, Err ValueError)
  end.

(** getTextualNode of the local resolver with metadata (local.py lines 483-491);
    [n] is the node of the passage, [own] its citation. *)
Definition resolver_node_metadata (fuel limit : nat) (docs : documents) (same : XmlModel.node -> XmlModel.node -> bool) (s : store) (root : nat)
    (urn : str) (sub : option ServeModel.given) (n : term) (own : list level) : store * result (textual * list level) :=
  match (o <- open_text limit docs s root urn ;;
         r <- match sub with None => Ok None | Some g => as_reference g end ;;
         x <- the_text o ;;
         p <- node_of same x r ;;
         Ok (p, snd o)) with
  | Err e => (s, Err e)
  | Ok (p, t) => let '(s', r) := set_metadata fuel s n own t in (s', c <- r ;; Ok (p, c))
  end.
End Local.

(** ** Metadata read from the replies of an endpoint (texts/remote/cts.py)

    [node.get("xml:lang")] looks for an attribute of that very name, in no
    namespace. *)
Definition reply_language (e : XmlModel.node) : str :=
  match get_attr #"xml:lang" (n_attrs e) with Some (c :: l) => c :: l | _ => #"eng" end.

(** [.//ti:name] from an element. *)
Definition inside (name : str) (e : XmlModel.node) : list XmlModel.node :=
  filter (fun k => str_eqb (n_tag k) (RemoteModel.ti name)) (flat_map everywhere (n_kids e)).

Definition note_replies (n : term) (name also : str) (e : XmlModel.node) (g : graph) : graph :=
  fold_left (fun g k => note n name also (text_or_none k) (Some (reply_language k)) g) (inside name e) g.

(** [.//ti:citation[not(ancestor::ti:citation)]] from an element given with the tags
    from itself up to the root, and the citation that is ingested there: None
    cannot be assigned (prototypes/text.py lines 206-210). *)
Definition top_citations (e : list str * XmlModel.node) : list XmlModel.node :=
  map snd (filter (fun x => tag_is (RemoteModel.ti #"citation") (fst x) && negb (existsb (str_eqb (RemoteModel.ti #"citation")) (tl (fst x))))
    (flat_map (elements (fst e)) (n_kids (snd e)))).
Definition ingest_top (doc : XmlModel.node) (e : list str * XmlModel.node) (own : list level) : result (list level) :=
  if negb (citation_set own) && existsb (fun x => tag_is (RemoteModel.ti #"citation") (fst x)) (elements [] doc) then
    match top_citations e with c :: _ => Ok (chain_of c) | [] => Err TypeError end
  else Ok own.

(** [_parse_request] (lines 159-187). *)
Definition parse_request (doc : XmlModel.node) (e : list str * XmlModel.node) (n : term) (own : list level) (g : graph)
  : graph * result (list level) :=
  (note_replies n #"description" #"description" (snd e)
    (note_replies n #"label" #"subject" (snd e)
      (note_replies n #"title" #"title" (snd e)
        (note_replies n #"groupname" #"creator" (snd e) g))),
   ingest_top doc e own).

(** [getLabel] (lines 189-202). *)
Definition get_label_reply (doc : XmlModel.node) (n : term) (own : list level) (g : graph) : graph * result (list level) :=
  match filter (fun x => tag_in (RemoteModel.ti #"label") (RemoteModel.ti #"reply") (fst x)) (elements [] doc) with
  | e :: _ => parse_request doc e n own g
  | [] => (g, Err IndexError)
  end.

(** What [getValidReff] and [getTextualNode] learn from a reply about the text or
    passage they are called on (lines 85-86 and 114-116). *)
Definition get_request_reply (doc : XmlModel.node) (n : term) (own : list level) (g : graph) : graph * result (list level) :=
  match filter (fun x => tag_is (RemoteModel.ti #"request") (fst x)) (elements [] doc) with
  | e :: _ => parse_request doc e n own g
  | [] => (g, Err IndexError)
  end.

(** A new passage (lines 463-478): its element and its citation; a passage is made
    without citation. *)
Definition unset : list level := [(None, None)].
Definition new_remote (doc : XmlModel.node) : result (XmlModel.node * list level) :=
  match filter (fun x => tag_in (tei #"TEI") (RemoteModel.ti #"passage") (fst x)) (elements [] doc) with
  | e :: _ => c <- ingest_top doc ([n_tag doc], doc) unset ;; Ok (snd e, c)
  | [] => Err IndexError
  end.

(** [getPassagePlus] (lines 134-157), on a text whose node is not touched: [n] is the
    node of the new passage.  The citation is also that of the text afterwards. *)
Definition passage_plus (doc : XmlModel.node) (n : term) (g : graph) : graph * result (XmlModel.node * list level) :=
  match new_remote doc with
  | Err e => (g, Err e)
  | Ok (x, c) => let '(g', r) := get_label_reply doc n c g in (g', c' <- r ;; Ok (x, c'))
  end.

(** [reffs] of a text (lines 345-354): the label is asked for when there is no
    citation, then each level.  [label] is the reply about the label, [valid i] the
    one for level [i]; the replies to the latter are read for metadata too. *)
Fixpoint reffs_from (valid : nat -> XmlModel.node) (n : term) (own : list level) (i k : nat) (g : graph) : graph * result (list str) :=
  match k with
  | 0 => (g, Ok [])
  | S k' =>
      let '(g1, r1) := get_request_reply (valid i) n own g in
      match (c <- r1 ;; l <- read_reffs (valid i) ;; Ok (c, l)) with
      | Err e => (g1, Err e)
      | Ok (c, l) => let '(g2, r2) := reffs_from valid n c (S i) k' g1 in (g2, l' <- r2 ;; Ok (l ++ l'))
      end
  end.
Definition text_reffs (label : XmlModel.node) (valid : nat -> XmlModel.node) (n : term) (own : list level) (g : graph) : graph * result (list str) :=
  let '(g1, r) := if citation_set own then (g, Ok own) else get_label_reply label n own g in
  match r with
  | Err e => (g1, Err e)
  | Ok c => reffs_from valid n c 1 (length c) g1
  end.
