(** The DTS JSON export of a collection.

    Models /repo/MyCapytain/resources/prototypes/metadata.py lines 304-328
    ([export_base_dts]) and 330-427 (the part of [Collection.__export__] for
    JSON.DTS.Std, without a namespace manager given: with one, see
    [GraphModel.dts_graph]), and
    /repo/MyCapytain/common/utils/_json_ld.py lines 4-20 ([literal_to_dict]).

    rdflib's orders of enumeration, its names of blank nodes, its qualified names
    and the Python values of its literals are arguments.  Simplification:
    every name can be qualified (rdflib raises for those it cannot split). *)

From Coq Require Import List NArith ZArith Arith Bool.
From Verif Require Import PyStr Json MetaModel GraphModel TreeModel.
Import ListNotations.

(** constants.py lines 38-43 and rdflib's RDF, RDFS and DCTERMS. *)
Definition hydra_ns : str := #"https://www.w3.org/ns/hydra/core#".
Definition dts_ns : str := #"https://w3id.org/dts/api#".
Definition cap_ns : str := #"http://purl.org/capitains/ns/1.0#".
Definition rdf_ns : str := #"http://www.w3.org/1999/02/22-rdf-syntax-ns#".
Definition rdfs_ns : str := #"http://www.w3.org/2000/01/rdf-schema#".
Definition dct_ns : str := #"http://purl.org/dc/terms/".

(** What the export asks a collection for: its identifier, the graph it is
    described in and its size. *)
Record brief := Brief { b_id : str; b_graph : graph; b_size : Z }.

(** The attribute [citation]: none (or something else), a set, or a citation,
    which is a set by inheritance. *)
Inductive cites := NoCites | CiteSet (s : citation_set) | CiteRoot (c : citation).
Record source := Source { x_brief : brief; x_members : list brief; x_cites : cites }.

(** d[k] = v *)
Fixpoint jset (k : str) (v : json) (d : list (str * json)) : list (str * json) :=
  match d with
  | [] => [(k, v)]
  | (k', v') :: d' => if str_eqb k' k then (k, v) :: d' else (k', v') :: jset k v d'
  end.
Definition jset_if (b : bool) (k : str) (v : json) (d : list (str * json)) : list (str * json) :=
  if b then jset k v d else d.

Definition is_in (s : str) (l : list str) : bool := existsb (str_eqb s) l.

(** set(...), in the order it first sees its members. *)
Fixpoint distinct (l : list str) : list str :=
  match l with
  | [] => []
  | x :: l' => x :: filter (fun y => negb (str_eqb x y)) (distinct l')
  end.

Section Export.
Variable name : term -> str.
Variable objects_order : list term -> list term.
Variable triples_order : graph -> graph.
Variable predicates_order : list str -> list str.
Variable qn : str -> str * str * str.
Variable to_python : str -> option str -> json.

(** [nsm.qname] of rdflib: nothing stands before the local name when the prefix
    is empty. *)
Definition qname (u : str) : str :=
  let '(p, _, l) := qn u in match p with [] => l | _ => p ++ #":" ++ l end.
Definition namespace (u : str) : str := let '(_, n, _) := qn u in n.
Definition prefix (u : str) : str := let '(p, _, _) := qn u in p.

(** [literal_to_dict] *)
Definition literal_to_dict (t : term) : json :=
  match t with
  | Literal s (Some l) _ => JObj [(#"@value", JStr s); (#"@language", JStr l)]
  | Literal s None d => to_python s d
  | URI s => JObj [(#"@id", JStr s)]
  | BNode _ => JStr (name t)
  end.

(** [Collection.type] (lines 77-79) *)
Definition type_of (b : brief) : result str :=
  match g_objects objects_order (URI (b_id b)) (URI (rdf_ns ++ #"type")) (b_graph b) with
  | t :: _ => Ok (name t)
  | [] => Err IndexError
  end.

(** str of [Collection.get_label] (lines 125-140) without a language. *)
Definition label_text (b : brief) : str :=
  match g_objects objects_order (URI (b_id b)) (URI (rdfs_ns ++ #"label")) (b_graph b) with
  | t :: _ => name t
  | [] => #"None"
  end.

(** [export_base_dts] *)
Definition export_base (g : graph) (b : brief) : result (list (str * json)) :=
  t <- type_of b ;;
  let o := jset (qname (hydra_ns ++ #"totalItems")) (JInt (b_size b))
             (jset (qname (hydra_ns ++ #"title")) (JStr (label_text b))
                [(#"@id", JStr (b_id b)); (#"@type", JStr (qname t))]) in
  Ok (fold_left (fun o d => jset (qname (hydra_ns ++ #"description")) (JStr (name d)) o)
        (g_objects objects_order (URI (b_id b)) (URI (hydra_ns ++ #"description")) g) o).

(** Lines 362-367: the prefixes of the context. *)
Definition context_of (g : graph) : list (str * json) :=
  fold_left (fun d p =>
      match field (prefix p) d with
      | Some _ => d
      | None => if is_in (namespace p) [cap_ns; hydra_ns; rdf_ns; rdfs_ns] then d
                else jset (prefix p) (JStr (namespace p)) d
      end)
    (predicates_order (distinct (map (fun t => name (snd (fst t))) g))) [].

(** Lines 389-396: one more value under a key. *)
Definition add_value (k : str) (v : json) (d : list (str * json)) : list (str * json) :=
  match field k d with
  | Some (JList l) => jset k (JList (l ++ [v])) d
  | Some x => jset k (JList [x; v]) d
  | None => jset k (match v with JObj _ => JList [v] | _ => v end) d
  end.

(** Lines 369-396: the extensions and the Dublin Core. *)
Definition sort_out (g : graph) : list (str * json) * list (str * json) :=
  fold_left (fun ed t =>
      let '(_, p, o) := t in
      let '(e, d) := ed in
      let k := qname (name p) in
      if is_in (namespace (name p)) [cap_ns; hydra_ns; rdf_ns; rdfs_ns; dts_ns] then ed
      else if str_eqb (namespace (name p)) dct_ns then (e, add_value k (literal_to_dict o) d)
      else (add_value k (literal_to_dict o) e, d))
    (triples_order g) ([], []).

Definition cites_depth (c : cites) : Z :=
  match c with NoCites => 0%Z | CiteSet s => set_depth s | CiteRoot c => Z.of_nat (citation_depth c) end.
(** The structure is exported unless it is empty: a citation without children
    is. *)
Definition cites_structure (c : cites) : option json :=
  let t := qname (dts_ns ++ #"citeType") in
  let s := qname (dts_ns ++ #"citeStructure") in
  match c with
  | NoCites => None
  | CiteSet f => if is_empty (s_children f) then None else Some (set_export t s f)
  | CiteRoot c => if is_empty (c_children c) then None else Some (citation_export t s c)
  end.

(** [Collection.__export__] *)
Definition dts_export (fuel : nat) (x : source) : result json :=
  let b := x_brief x in
  g <- dts_graph name triples_order fuel false (b_graph b) (URI (b_id b)) ;;
  let '(ext, dub) := sort_out g in
  base <- export_base g b ;;
  let o := (#"@context", JObj (jset #"@vocab" (JStr hydra_ns) (context_of g))) :: base in
  let o := jset_if (match ext with [] => false | _ => true end) (qname (dts_ns ++ #"extensions")) (JObj ext) o in
  let o := jset_if (match dub with [] => false | _ => true end) (qname (dts_ns ++ #"dublincore")) (JObj dub) o in
  o <- (if (b_size b =? 0)%Z then Ok o
        else ms <- mapM (fun m => r <- export_base (b_graph b) m ;; Ok (JObj r)) (x_members x) ;;
             Ok (jset (qname (hydra_ns ++ #"member")) (JList ms) o)) ;;
  let o := jset_if (negb (cites_depth (x_cites x) =? 0)%Z) (qname (dts_ns ++ #"citeDepth")) (JInt (cites_depth (x_cites x))) o in
  let o := match cites_structure (x_cites x) with
           | Some j => jset (qname (dts_ns ++ #"citeStructure")) j o
           | None => o
           end in
  Ok (JObj o).
End Export.
