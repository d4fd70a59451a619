(** The extraction of the part of a graph around a node.

    Models /repo/MyCapytain/common/utils/_graph.py lines 7-68 ([Subgraph]) and
    its two uses in /repo/MyCapytain/resources/prototypes/metadata.py lines
    339-357 and 431-440.  The source graph is a list of triples as in
    [MetaModel]; [order] is the order in which rdflib enumerates matching
    triples and [name] is str() of a term (only blank nodes are given a name by
    rdflib, so it is an argument). *)

From Coq Require Import List NArith ZArith Arith Bool.
From Verif Require Import PyStr MetaModel.
Import ListNotations.

(** self.graph, and the keys of self.downwards and self.updwards whose value is
    False.  Both are defaultdicts that give True, so a key that was only read
    counts as absent. *)
Record subgraph := Sub { s_graph : graph; s_down : list str; s_up : list str }.

(** Subgraph.__init__ (lines 12-19).  The bindings are given as None, as a
    dictionary, or as an rdflib object (a NamespaceManager or the generator
    that its method namespaces returns); neither of these has a method
    items. *)
Inductive bindings := NoBindings | Prefixes (l : list (str * str)) | RdflibObject.
Definition new_subgraph (b : bindings) : result subgraph :=
  match b with
  | Prefixes _ => Ok (Sub [] [] [])
  | NoBindings | RdflibObject => Err AttributeError
  end.

Definition is_bnode (t : term) : bool := match t with BNode _ => true | _ => false end.

Definition marked (n : str) (l : list str) : bool := existsb (str_eqb n) l.

Fixpoint loop {A S} (f : A -> S -> result S) (l : list A) (s : S) : result S :=
  match l with
  | [] => Ok s
  | a :: l' => s' <- f a s ;; loop f l' s'
  end.

Section Iter.
Variable name : term -> str.
Variable order : graph -> graph.

(** graphiter (lines 21-60); [fuel] is the recursion limit. *)
Fixpoint graphiter (fuel : nat) (g : graph) (target : term) (ascendants descendants : Z) (st : subgraph)
  : result subgraph :=
  match fuel with
  | 0 => Err RecursionError
  | S fuel' =>
      let asc := if Z.eqb ascendants 0 then 0%Z else (ascendants - 1)%Z in
      let desc := if Z.eqb descendants 0 then 0%Z else (descendants - 1)%Z in
      let t := name target in
      st1 <- (if negb (Z.eqb descendants 0) && negb (marked t (s_down st)) then
                loop (fun tr st =>
                        let '(_, _, obj) := tr in
                        if Z.eqb desc 0 && is_bnode obj then Ok st
                        else
                          let st' := Sub (g_add tr (s_graph st)) (s_down st) (s_up st) in
                          if negb (Z.eqb desc 0) && negb (marked (name obj) (s_down st'))
                          then graphiter fuel' g obj 0 desc st'
                          else Ok st')
                     (order (filter (matches (Some target) None None) g))
                     (Sub (s_graph st) (t :: s_down st) (s_up st))
              else Ok st) ;;
      if negb (Z.eqb ascendants 0) && negb (marked t (s_up st1)) then
        loop (fun tr st =>
                let '(s, _, _) := tr in
                if Z.eqb desc 0 && is_bnode s then Ok st
                else
                  let st' := Sub (g_add tr (s_graph st)) (s_down st) (s_up st) in
                  if negb (Z.eqb asc 0) && negb (marked (name s) (s_up st'))
                  then graphiter fuel' g s asc 0 st'
                  else Ok st')
             (order (filter (matches None None (Some target)) g))
             (Sub (s_graph st1) (s_down st1) (t :: s_up st1))
      else Ok st1
  end.

(** A new Subgraph and one call. *)
Definition extract (fuel : nat) (b : bindings) (g : graph) (target : term) (ascendants descendants : Z)
  : result graph :=
  st <- new_subgraph b ;;
  st' <- graphiter fuel g target ascendants descendants st ;;
  Ok (s_graph st').

(** The graph that the DTS export of a collection is made from (metadata.py
    lines 339-357): with its own prefixes, or with those of the manager it is
    given. *)
Definition dts_graph (fuel : nat) (manager : bool) (g : graph) (node : term) : result graph :=
  extract fuel (if manager then RdflibObject else Prefixes []) g node 0 1.

(** The graph that the JSON-LD and RDF exports are made from (lines 435-436). *)
Definition rdf_graph (fuel : nat) (g : graph) (node : term) : result graph :=
  extract fuel RdflibObject g node 1 (-1).
End Iter.
