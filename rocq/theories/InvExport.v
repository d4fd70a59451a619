(** Writing an inventory: the CTS XML of collections.

    Models the export to Mimetypes.XML.CTS and to Mimetypes.XML.CapiTainS.CTS,
    which adds the structured metadata, of
    /repo/MyCapytain/resources/prototypes/cts/inventory.py, of
    /repo/MyCapytain/common/reference/_capitains_cts.py and of
    /repo/MyCapytain/common/metadata.py.  CTS terms are written without prefix
    and CapiTainS terms with the prefix cpt: [bind_graph] (common/constants.py
    lines 114-131) binds their namespaces to these. *)

From Coq Require Import List NArith ZArith Arith Bool.
From Verif Require Import PyStr CiteModel XmlModel UrnModel MetaModel CollModel UtilModel InvModel.
Import ListNotations.

(** _capitains_cts.py line 689 and re.sub: double quotes become single ones. *)
Definition single_quotes (s : str) : str :=
  map (fun c => if N.eqb c c_dquote then c_quote else c) s.

(** _capitains_cts.py lines 882-901 and 918-921: a level without refsDecl is
    written as nothing, with all that is below it. *)
Fixpoint export_citation (l : list level) : result str :=
  match l with
  | [] => Ok []
  | (name, rd) :: l' =>
      if truthy_opt rd then
        '(scope, xpath) <- parse_xpath_scope rd ;;
        child <- export_citation l' ;;
        Ok (make_xml_node #"citation" false
              (Some [(#"xpath", single_quotes xpath); (#"scope", single_quotes scope);
                     (#"label", match name with Some n => n | None => [] end)])
              [] true child)
      else Ok []
  end.

(** The attribute [citation] of a text; no levels for None. *)
Definition text_citation (s : store) (i : nat) : list level :=
  match find (fun e => Nat.eqb (fst e) i) (s_cites s) with
  | Some (_, c) => c
  | None => []
  end.

(** prototypes/metadata.py lines 282-303.  [qname] is rdflib's compute_qname:
    prefix and namespace of a predicate; the predicates are supposed to have
    one.  [cpt] tells whether structured metadata are written. *)
Definition namespaces_header (cpt : bool) (order : list term -> list term) (qname : term -> str * str) (g : graph)
  : list (str * str) :=
  let bindings := fold_left (fun d p => let '(prefix, ns) := qname p in
                    dset (if truthy prefix then #"xmlns:" ++ prefix else #"xmlns") ns d)
                  (order (distinct (map (fun t : triple => snd (fst t)) g))) [] in
  map (fun kv => if str_eqb (snd kv) cts_ns then (fst kv, removelast (snd kv)) else kv)
    (if cpt then dset #"xmlns:cpt" #"http://purl.org/capitains/ns/1.0#" bindings else bindings).

Definition newline : str := [10%N].

(** The local part of the TYPE_URI; line 139-141 for collections of
    inventories. *)
Definition element_name (k : kind) : str :=
  match k with
  | KCollection => #"collection"
  | KText Unknown => #"text"
  | KText Edition => #"edition"
  | KText Translation => #"translation"
  | KText Commentary => #"commentary"
  | KWork => #"work"
  | KTextgroup => #"textgroup"
  | KInventory | KInventoryCollection => #"TextInventory"
  end.

(** CTS_PROPERTIES: lines 208, 444, 566; empty elsewhere. *)
Definition cts_properties (k : kind) : list str :=
  match k with
  | KText _ => [#"label"; #"description"]
  | KWork => [#"title"]
  | KTextgroup => [#"groupname"]
  | _ => []
  end.

(** The export is to CapiTainS.CTS if [cpt], to CTS if not.  [pairs] and [order]
    are the orders the graphs are iterated in. *)
Section Export.
Variable cpt : bool.
Variable pairs : list (term * term) -> list (term * term).
Variable order : list term -> list term.
Variable qname : term -> str * str.
Variable s : store.

Definition values_of (i : nat) (name : str) : list term :=
  let x := obj (s_state s) i in
  g_objects order (CollModel.node x) (cts_term name) (nth (c_graph x) (graphs (s_state s)) []).

(** Lines 144-151 and 296-302: a missing language is written None. *)
Definition property_node (name : str) (o : term) : result str :=
  match o with
  | Literal t l _ =>
      Ok (make_xml_node name false (Some [(#"xml:lang", match l with Some l => l | None => #"None" end)]) t true [])
  | _ => Err AttributeError
  end.
Definition property_nodes (i : nat) : result (list str) :=
  l <- mapM (fun name => mapM (property_node name) (values_of i name)) (cts_properties (c_kind (obj (s_state s) i))) ;;
  Ok (concat l).

(** Lines 304-313. *)
Definition link_nodes (i : nat) : list str :=
  map (fun o => make_xml_node #"about" false (Some [(#"urn", text_of o)]) [] true []) (values_of i #"about").

(** Lines 316-328. *)
Definition citation_nodes (i : nat) : result (list str) :=
  match text_citation s i with
  | [] => Ok []
  | l => c <- export_citation l ;;
         Ok [make_xml_node #"online" false None [] true
               (make_xml_node #"citationMapping" false None [] true c)]
  end.

(** common/metadata.py lines 179-188: predicates that are one of the excluded
    namespaces or in one of them are left out.  The statements are copied to a
    new graph and read from it, once each, in some order. *)
Definition excluded : list str :=
  [cts_ns; #"https://w3id.org/dts/api#"; #"http://www.w3.org/1999/02/22-rdf-syntax-ns#"].
Definition own_statements (i : nat) : list (term * term) :=
  let x := obj (s_state s) i in
  pairs (map (fun t : triple => (snd (fst t), snd t))
    (filter (fun t : triple =>
       negb (existsb (str_eqb (text_of (snd (fst t)))) excluded) &&
       negb (existsb (str_eqb (snd (qname (snd (fst t))))) excluded))
     (filter (matches (Some (CollModel.node x)) None None) (nth (c_graph x) (graphs (s_state s)) [])))).

(** rdflib's qname: the prefix, if there is one, and what follows the
    namespace. *)
Definition written_name (p : term) : str :=
  let '(prefix, ns) := qname p in
  let name := skipn (length ns) (text_of p) in
  if truthy prefix then prefix ++ #":" ++ name else name.

(** common/metadata.py lines 219-229. *)
Definition statement_attrs (o : term) : list (str * str) :=
  match o with
  | Literal _ l d =>
      match l with Some l => [(#"xml:lang", l)] | None => [] end
      ++ match d with Some d => [(#"rdf:type", d)] | None => [] end
  | _ => []
  end.
Definition statement_node (po : term * term) : str :=
  make_xml_node (written_name (fst po)) false (Some (statement_attrs (snd po))) (text_of (snd po)) true [].

(** Lines 159-166 and 327-336. *)
Definition structured_nodes (i : nat) : list str :=
  if cpt then
    [make_xml_node #"cpt:structured-metadata" false None [] false [];
     join newline (map statement_node (own_statements i));
     make_xml_node #"cpt:structured-metadata" true None [] false []]
  else [].

(** The URN of the parent, under the given name. *)
Definition parent_attr (i : nat) (name : str) : list (str * str) :=
  match c_parent (obj (s_state s) i) with
  | Some p => if truthy (c_id (obj (s_state s) p)) then [(name, c_id (obj (s_state s) p))] else []
  | None => []
  end.

Definition header (ns : bool) (i : nat) : list (str * str) :=
  if ns then namespaces_header cpt order qname (nth (c_graph (obj (s_state s) i)) (graphs (s_state s)) []) else [].

(** Texts: lines 275-341. *)
Definition export_text (ns : bool) (i : nat) : result str :=
  let x := obj (s_state s) i in
  lang <- get_lang order (s_state s) i ;;
  props <- property_nodes i ;;
  cites <- citation_nodes i ;;
  Ok (join newline
        ([make_xml_node (element_name (c_kind x)) false
            (Some ([(#"urn", c_id x); (#"xml:lang", lang)] ++ parent_attr i #"workUrn" ++ header ns i)) [] false []]
         ++ props ++ link_nodes i ++ cites ++ structured_nodes i
         ++ [make_xml_node (element_name (c_kind x)) true None [] false []])).

(** Line 528-542, 618-629, 673-688, 721-742: the attributes of the others. *)
Definition attrs_of (i : nat) : result (list (str * str)) :=
  let x := obj (s_state s) i in
  match c_kind x with
  | KWork => lang <- get_lang order (s_state s) i ;;
             Ok ([(#"urn", c_id x); (#"xml:lang", lang)] ++ parent_attr i #"groupUrn")
  | KTextgroup => Ok [(#"urn", c_id x)]
  | _ => Ok (if truthy (c_id x) then [(#"tiid", c_id x)] else [])
  end.

Definition members (i : nat) : list nat := map snd (c_children (obj (s_state s) i)).

(** Lines 127-180.  The recursion follows [members]; [fuel] is what Python's
    recursion limit leaves.  A collection of inventories has no CapiTainS export
    (lines 721-760: the method returns None), and None cannot be joined to the
    other nodes if it is a member. *)
Fixpoint export (fuel : nat) (ns : bool) (i : nat) : result str :=
  match fuel with
  | 0 => Err RecursionError
  | S fuel' =>
      let x := obj (s_state s) i in
      match c_kind x with
      | KCollection => Err NotImplementedError
      | KText _ => export_text ns i
      | k =>
          _ <- match k with
               | KInventoryCollection => if cpt then Err TypeError else Ok tt
               | _ => Ok tt
               end ;;
          attrs <- attrs_of i ;;
          props <- property_nodes i ;;
          inner <- mapM (export fuel' false)
                     (match k with
                      | KInventoryCollection => flat_map members (members i)
                      | _ => members i
                      end) ;;
          Ok (join newline
                ([make_xml_node (element_name k) false (Some (attrs ++ header ns i)) [] false []]
                 ++ props ++ structured_nodes i ++ inner ++ [make_xml_node (element_name k) true None [] false []]))
      end
  end.

(** What the caller gets: common/base.py lines 36-52 and inventory.py lines
    721-760.  None for a collection of inventories and CapiTainS. *)
Definition exported_answer (fuel : nat) (ns : bool) (i : nat) : result (option str) :=
  match c_kind (obj (s_state s) i), cpt with
  | KInventoryCollection, true => Ok None
  | _, _ => text <- export fuel ns i ;; Ok (Some text)
  end.
End Export.
