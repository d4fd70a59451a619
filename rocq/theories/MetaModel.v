(** The metadata of a node: an RDF graph and the [Metadata] view of it.

    Models /repo/MyCapytain/common/metadata.py lines 22-243.  The graph itself
    is rdflib's: it is modelled as a list of distinct triples.  The order in
    which rdflib enumerates the triples matching a pattern is not specified,
    so every function that enumerates takes that order as an argument
    ([order], any rearrangement of the matching triples). *)

From Coq Require Import List NArith ZArith Arith Bool.
From Verif Require Import PyStr.
Import ListNotations.

(** RDF terms: rdflib's [URIRef], [BNode] and [Literal] (lexical form,
    language, datatype).  Simplification: language tags are compared exactly
    (rdflib compares them up to letter case), and a literal is identified by
    its three fields. *)
Inductive term : Type :=
| URI (s : str)
| BNode (n : N)
| Literal (s : str) (lang : option str) (datatype : option str).

Definition term_eqb (a b : term) : bool :=
  match a, b with
  | URI s, URI s' => str_eqb s s'
  | BNode n, BNode n' => N.eqb n n'
  | Literal s l d, Literal s' l' d' =>
      str_eqb s s' && opt_eqb str_eqb l l' && opt_eqb str_eqb d d'
  | _, _ => false
  end.

Definition triple : Type := (term * term * term)%type.

Definition triple_eqb (a b : triple) : bool :=
  let '(s, p, o) := a in
  let '(s', p', o') := b in
  term_eqb s s' && term_eqb p p' && term_eqb o o'.

Definition graph : Type := list triple.

(** A pattern position: [None] matches everything. *)
Definition pos_matches (pat : option term) (t : term) : bool :=
  match pat with None => true | Some u => term_eqb u t end.

Definition matches (s p o : option term) (t : triple) : bool :=
  let '(s', p', o') := t in
  pos_matches s s' && pos_matches p p' && pos_matches o o'.

(** rdflib [Graph.add]. *)
Definition g_add (t : triple) (g : graph) : graph :=
  if existsb (triple_eqb t) g then g else g ++ [t].

(** rdflib [Graph.remove] with a pattern. *)
Definition g_remove (s p o : option term) (g : graph) : graph :=
  filter (fun t => negb (matches s p o t)) g.

(** rdflib [Graph.set]: forget every value of the subject for the predicate,
    then add the triple. *)
Definition g_set (t : triple) (g : graph) : graph :=
  let '(s, p, _) := t in
  g_add t (g_remove (Some s) (Some p) None g).

(** rdflib [Graph.objects]. *)
Definition g_objects (order : list term -> list term) (s p : term) (g : graph)
  : list term :=
  order (map snd (filter (matches (Some s) (Some p) None) g)).

(** What a caller may pass as a value: an RDF term, a string or a number. *)
Inductive pvalue : Type :=
| PTerm (t : term)
| PStr (s : str)
| PInt (z : Z).

Definition xsd_integer : str := #"http://www.w3.org/2001/XMLSchema#integer".

(** [str(z)] *)
Definition str_of_Z (z : Z) : str :=
  match z with
  | Z0 => #"0"
  | Zpos p => str_of_N (Npos p)
  | Zneg p => c_dash :: str_of_N (Npos p)
  end.

(** rdflib drops an empty language tag. *)
Definition lang_tag (lang : option str) : option str :=
  match lang with Some [] => None | _ => lang end.

(** rdflib's [Literal(value, lang)] on the values above: another literal
    keeps its own language and datatype, a number gets a datatype and loses
    the language, anything else is its text. *)
Definition mk_literal (v : pvalue) (lang : option str) : term :=
  let lang := lang_tag lang in
  match v with
  | PTerm (Literal s l d) =>
      Literal s (match lang with Some _ => lang | None => l end) d
  | PTerm (URI s) => Literal s lang None
  | PTerm (BNode n) => Literal (#"N" ++ str_of_N n) lang None
  | PStr s => Literal s lang None
  | PInt z => Literal (str_of_Z z) None (Some xsd_integer)
  end.

(** metadata.py lines 62-65 and 75-78: the object stored for a value. *)
Definition as_object (v : pvalue) (lang : option str) : term :=
  match v, lang with
  | PTerm (Literal _ _ _), _ => mk_literal v None
  | _, Some _ => mk_literal v lang
  | PTerm (BNode n), None => BNode n
  | PTerm (URI s), None => URI s
  | _, None => mk_literal v None
  end.

(** metadata.py lines 55-66: [Metadata.set]. *)
Definition md_set (g : graph) (node key : term) (v : pvalue) (lang : option str)
  : graph :=
  g_set (node, key, as_object v lang) g.

(** metadata.py lines 68-79: [Metadata.add]. *)
Definition md_add (g : graph) (node key : term) (v : pvalue) (lang : option str)
  : graph :=
  g_add (node, key, as_object v lang) g.

(** [o.language]: only literals have one. *)
Definition language (o : term) : result (option str) :=
  match o with
  | Literal _ l _ => Ok l
  | _ => Err AttributeError
  end.

(** The loop of metadata.py lines 89-91, run to its end. *)
Fixpoint in_language (l : str) (os : list term) : result (list term) :=
  match os with
  | [] => Ok []
  | o :: os' =>
      ol <- language o ;;
      rest <- in_language l os' ;;
      Ok (if opt_eqb str_eqb ol (Some l) then o :: rest else rest)
  end.

(** metadata.py lines 81-94: [list(Metadata.get(key, lang))]. *)
Definition md_get (order : list term -> list term) (g : graph)
    (node key : term) (lang : option str) : result (list term) :=
  match lang with
  | Some l => in_language l (g_objects order node key g)
  | None => Ok (g_objects order node key g)
  end.

(** The loop of metadata.py lines 107-112. *)
Fixpoint single_in (l : str) (default : option term) (os : list term)
  : result (option term) :=
  match os with
  | [] => Ok default
  | o :: os' =>
      ol <- language o ;;
      if opt_eqb str_eqb ol (Some l) then Ok (Some o)
      else single_in l (Some o) os'
  end.

(** metadata.py lines 96-115: [Metadata.get_single].  The conversion of the
    key to a [URIRef] is left to the caller. *)
Definition md_get_single (order : list term -> list term) (g : graph)
    (node key : term) (lang : option str) : result (option term) :=
  match lang with
  | Some l => single_in l None (g_objects order node key g)
  | None => Ok (hd_error (g_objects order node key g))
  end.

(** metadata.py lines 117-129: [metadata[key]] and [metadata[key, lang]]. *)
Definition md_item (order : list term -> list term) (g : graph)
    (node key : term) : result (list term) :=
  md_get order g node key None.

Definition md_item_lang (order : list term -> list term) (g : graph)
    (node key : term) (lang : option str) : result (option term) :=
  md_get_single order g node key lang.

(** metadata.py lines 131-137: [Metadata.remove]. *)
Definition md_remove (g : graph) (node : term) (predicate obj : option term)
  : graph :=
  g_remove (Some node) predicate obj g.

(** metadata.py lines 139-145: [Metadata.unlink]. *)
Definition md_unlink (g : graph) (node : term) (subj predicate : option term)
  : graph :=
  g_remove subj predicate (Some node) g.

(** Predicates used by the code: RDFS and SKOS labels. *)
Definition rdfs_label : term := URI #"http://www.w3.org/2000/01/rdf-schema#label".
Definition skos_prefLabel : term :=
  URI #"http://www.w3.org/2004/02/skos/core#prefLabel".

(** resources/prototypes/metadata.py lines 142-151: [Collection.set_label]. *)
Definition set_label (g : graph) (node : term) (label : pvalue)
    (lang : option str) : graph :=
  let lab := mk_literal label lang in
  g_add (node, rdfs_label, lab)
    (md_add g node skos_prefLabel (PTerm lab) None).

(** The loop of resources/prototypes/metadata.py lines 136-140. *)
Fixpoint label_in (lang : option str) (x : option term) (os : list term)
  : result (option term) :=
  match os with
  | [] => Ok x
  | o :: os' =>
      ol <- language o ;;
      if opt_eqb str_eqb ol lang then Ok (Some o)
      else label_in lang (Some o) os'
  end.

(** resources/prototypes/metadata.py lines 125-140: [Collection.get_label]. *)
Definition get_label (order : list term -> list term) (g : graph)
    (node : term) (lang : option str) : result (option term) :=
  match lang, g_objects order node rdfs_label g with
  | None, o :: _ => Ok (Some o)
  | None, [] => label_in None None []
  | Some _, os => label_in lang None os
  end.

(** The dictionary built by resources/prototypes/cts/inventory.py lines 77-79:
    later values of a language replace earlier ones, in place. *)
Fixpoint lset (l : option str) (o : term) (d : list (option str * term))
  : list (option str * term) :=
  match d with
  | [] => [(l, o)]
  | (l', o') :: d' =>
      if opt_eqb str_eqb l' l then (l', o) :: d' else (l', o') :: lset l o d'
  end.

Fixpoint lget (l : option str) (d : list (option str * term)) : option term :=
  match d with
  | [] => None
  | (l', o) :: d' => if opt_eqb str_eqb l' l then Some o else lget l d'
  end.

Fixpoint by_language (d : list (option str * term)) (os : list term)
  : result (list (option str * term)) :=
  match os with
  | [] => Ok d
  | o :: os' => l <- language o ;; by_language (lset l o d) os'
  end.

(** resources/prototypes/cts/inventory.py lines 66-84: [get_cts_property]
    without and with a language. *)
Definition get_cts_property_all (order : list term -> list term) (g : graph)
    (node prop : term) : result (list (option str * term)) :=
  by_language [] (g_objects order node prop g).

Definition get_cts_property (order : list term -> list term) (g : graph)
    (node prop : term) (lang : str) : result term :=
  x <- get_cts_property_all order g node prop ;;
  match lget (Some lang) x with
  | Some o => Ok o
  | None => match x with
            | (_, o) :: _ => Ok o
            | [] => Err StopIteration
            end
  end.

(** resources/prototypes/cts/inventory.py lines 86-104: [set_cts_property];
    [title_key] is the class's [DC_TITLE_KEY]. *)
Definition set_cts_property (g : graph) (node : term) (title_key : option term)
    (prop : term) (v : pvalue) (lang : option str) : graph :=
  let value := match v with
               | PTerm (Literal _ _ _ as t) => t
               | _ => mk_literal v lang
               end in
  let g1 := match title_key with
            | Some k => if term_eqb prop k
                        then set_label g node (PTerm value) lang else g
            | None => g
            end in
  md_add g1 node prop (PTerm value) None.

(** The writing calls, each made on the [Metadata] of some node. *)
Inductive call : Type :=
| Set_ (node key : term) (v : pvalue) (lang : option str)
| Add (node key : term) (v : pvalue) (lang : option str)
| Remove (node : term) (predicate obj : option term)
| Unlink (node : term) (subj predicate : option term).

Definition step (g : graph) (c : call) : graph :=
  match c with
  | Set_ n k v l => md_set g n k v l
  | Add n k v l => md_add g n k v l
  | Remove n p o => md_remove g n p o
  | Unlink n s p => md_unlink g n s p
  end.

Definition run (g : graph) (h : list call) : graph := fold_left step h g.

(** [str(t)] of a term. *)
Definition text_of (t : term) : str :=
  match t with
  | URI s => s
  | BNode n => #"N" ++ str_of_N n
  | Literal s _ _ => s
  end.

Definition str_mem (s : str) (l : list str) : bool := existsb (str_eqb s) l.

Fixpoint term_mem (t : term) (l : list term) : bool :=
  match l with
  | [] => false
  | x :: l' => term_eqb x t || term_mem t l'
  end.

(** An entry of the [only] and [exclude] arguments: a term, or a plain string
    (rdflib namespaces are strings).  rdflib terms are never equal to plain
    strings. *)
Inductive filter_entry : Type :=
| FTerm (t : term)
| FStr (s : str).

Definition entry_text (e : filter_entry) : str :=
  match e with FTerm t => text_of t | FStr s => s end.

Definition entry_is (t : term) (e : filter_entry) : bool :=
  match e with FTerm u => term_eqb u t | FStr _ => false end.

(** Distinct predicates of a node: [set(graph.predicates(subject=node))]. *)
Fixpoint distinct (l : list term) : list term :=
  match l with
  | [] => []
  | x :: l' => x :: filter (fun y => negb (term_eqb x y)) (distinct l')
  end.

Definition predicates_of (node : term) (g : graph) : list term :=
  distinct (map (fun t : triple => snd (fst t))
    (filter (matches (Some node) None None) g)).

(** metadata.py lines 168-191: the triples kept for an export, and what the
    caller's [only] list holds afterwards.  [namespace] is the second
    component of rdflib's [compute_qname]. *)
Definition kept_only (namespace : term -> str) (node : term) (g : graph)
    (only : list filter_entry) : list triple * list filter_entry :=
  let texts := map entry_text only in
  let only' := only ++ map FTerm
    (filter (fun p => negb (str_mem (text_of p) texts)
                      && str_mem (namespace p) texts)
            (predicates_of node g)) in
  (filter (fun t => matches (Some node) None None t
                    && existsb (entry_is (snd (fst t))) only') g, only').

Definition kept_exclude (namespace : term -> str) (node : term) (g : graph)
    (exclude : list filter_entry) : list triple :=
  let texts := map entry_text exclude in
  let kept := filter (fun p => negb (str_mem (text_of p) texts)
                               && negb (str_mem (namespace p) texts))
                     (predicates_of node g) in
  filter (fun t => matches (Some node) None None t
                   && term_mem (snd (fst t)) kept) g.

Definition kept (namespace : term -> str) (node : term) (g : graph)
    (only exclude : option (list filter_entry)) : list triple :=
  match only, exclude with
  | Some l, _ => fst (kept_only namespace node g l)
  | None, Some l => kept_exclude namespace node g l
  | None, None => filter (matches (Some node) None None) g
  end.

(** Several exports, each of a node of some graph, given the same list object as [only]
    (lines 168-178: the list is extended by each). *)
Fixpoint kept_in_turn (namespace : term -> str) (exports : list (term * graph))
    (only : list filter_entry) : list (list triple) :=
  match exports with
  | [] => []
  | (node, g) :: rest =>
      let '(ts, only') := kept_only namespace node g only in
      ts :: kept_in_turn namespace rest only'
  end.

(** The JSON export, metadata.py lines 193-207: for each predicate and each
    language one text, or a list of texts as soon as there are two.
    [title] is Python's [str.title]. *)
Inductive texts : Type :=
| One (s : str)
| Many (l : list str).

Definition lang_table : Type := list (option str * texts).

Fixpoint add_text (l : option str) (s : str) (t : lang_table) : lang_table :=
  match t with
  | [] => [(l, One s)]
  | (l', ts) :: t' =>
      if opt_eqb str_eqb l' l then
        (l', Many (match ts with One x => [x; s] | Many xs => xs ++ [s] end)) :: t'
      else (l', ts) :: add_text l s t'
  end.

Definition std_step (title : str -> str) (out : list (str * lang_table))
    (t : triple) : list (str * lang_table) :=
  let '(_, p, o) := t in
  let k := text_of p in
  let cur := match dget k out with Some x => x | None => [] end in
  dset k (match o with
          | Literal s l _ => add_text l (title s) cur
          | _ => cur
          end) out.

Definition export_std (title : str -> str) (order : list triple -> list triple)
    (ts : list triple) : list (str * lang_table) :=
  fold_left (std_step title) (order ts) [].

(** Python's [str.title] on ASCII text: a letter is put in upper case when no
    letter precedes it, in lower case otherwise. *)
Definition lower_char (c : char) : char := if is_upper c then (c + 32)%N else c.
Definition upper_char (c : char) : char := if is_lower c then (c - 32)%N else c.

Fixpoint title_from (in_word : bool) (s : str) : str :=
  match s with
  | [] => []
  | c :: s' =>
      (if in_word then lower_char c else upper_char c) :: title_from (is_alpha c) s'
  end.

Definition str_title (s : str) : str := title_from false s.
