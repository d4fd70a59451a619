(** Programs that work with several graphs.

    Models [set_graph], [get_graph] and [bind_graph] of
    /repo/MyCapytain/common/constants.py (lines 123-146), the constructors that ask
    [get_graph()] - [Metadata] (/repo/MyCapytain/common/metadata.py lines 36-42),
    [Collection] (/repo/MyCapytain/resources/prototypes/metadata.py lines 50-61) and
    [TextualElement] (/repo/MyCapytain/resources/prototypes/text.py lines 42-53) -
    [Metadata.getOr] (metadata.py lines 231-243), and the setters and getters of
    these objects.  Left out: the prefixes that graphs are bound to. *)

From Coq Require Import List NArith ZArith Arith Bool.
From Verif Require Import PyStr MetaModel CollModel FieldModel.
From Verif Require TextMetaModel.
Import ListNotations.

(** An object: metadata, a collection with its parent and its children by
    identifier, or a text with its own node and the graph and node of its metadata.
    All keep the graph they were made with. *)
Inductive thing : Type :=
| Meta (g : nat) (n : term)
| Coll (g : nat) (id : str) (parent : option nat) (kids : list (str * nat))
| Text (g : nat) (id : str) (n : term) (mg : nat) (mn : term).

(** The process: its graphs, which of them [get_graph()] gives, the objects made so
    far, and how many blank nodes were made. *)
Record world := MkWorld {
  w_graphs : list graph; w_now : nat; w_things : list thing; w_blanks : N }.

(** constants.py lines 136-137: one graph from the start. *)
Definition start : world := MkWorld [[]] 0 [] 0%N.

Definition put (w : world) (t : thing) : world :=
  MkWorld (w_graphs w) (w_now w) (w_things w ++ [t]) (w_blanks w).
Definition in_graph (w : world) (i : nat) (f : graph -> graph) : world :=
  MkWorld (upd (w_graphs w) i f) (w_now w) (w_things w) (w_blanks w).

(** constants.py lines 123-133, 140-146.  A graph that the program does not have
    cannot be set: this is refused here. *)
Definition bind_graph (w : world) : world :=
  MkWorld (w_graphs w ++ [[]]) (w_now w) (w_things w) (w_blanks w).
Definition set_graph (w : world) (i : nat) : world * result unit :=
  if i <? length (w_graphs w) then (MkWorld (w_graphs w) i (w_things w) (w_blanks w), Ok tt)
  else (w, Err TypeError).
Definition get_graph (w : world) : nat := w_now w.

(** rdflib's [BNode()]: a name that was never used. *)
Definition blank (w : world) : world * term :=
  (MkWorld (w_graphs w) (w_now w) (w_things w) (w_blanks w + 1)%N, BNode (w_blanks w)).

(** [Metadata.__init__] (metadata.py lines 36-42). *)
Definition metadata_init (w : world) (node : option term) : world * (nat * term) :=
  match node with
  | Some n => (w, (get_graph w, n))
  | None => let '(w1, n) := blank w in (w1, (get_graph w, n))
  end.
Definition new_metadata (w : world) (node : option term) : world :=
  let '(w1, (g, n)) := metadata_init w node in put w1 (Meta g n).

(** [Collection.__init__] (prototypes/metadata.py lines 50-61). *)
Definition new_collection (w : world) (id : str) : world :=
  let g := get_graph w in
  let w := in_graph w g (g_set (URI id, rdf_type, URI (dts_ns ++ #"collection"))) in
  let w := in_graph w g (g_set (URI id, dts_model, URI (dts_ns ++ #"collection"))) in
  put w (Coll g id None []).

(** [x.metadata], and a metadata object itself. *)
Definition metadata (w : world) (h : nat) : option (nat * term) :=
  match nth_error (w_things w) h with
  | Some (Meta g n) => Some (g, n)
  | Some (Coll g id _ _) => Some (g, URI id)
  | Some (Text _ _ _ mg mn) => Some (mg, mn)
  | None => None
  end.

(** [TextualElement.__init__] (prototypes/text.py lines 42-53), with the metadata
    of an object or None. *)
Definition implements : term := URI (dts_ns ++ #"implements").
Definition new_text (w : world) (id : str) (given : option nat) : world * result unit :=
  match given with
  | Some h =>
      match metadata w h with
      | None => (w, Err AttributeError)
      | Some (mg, mn) =>
          let g := get_graph w in
          let '(w, n) := blank w in
          (put (in_graph w g (g_add (n, implements, URI id))) (Text g id n mg mn), Ok tt)
      end
  | None =>
      let g := get_graph w in
      let '(w, n) := blank w in
      let '(w, (mg, mn)) := metadata_init w (Some n) in
      (put (in_graph w g (g_add (n, implements, URI id))) (Text g id n mg mn), Ok tt)
  end.

Section Order.
Variable order : list term -> list term.

(** [Metadata.getOr] (metadata.py lines 231-243). *)
Definition get_or (w : world) (s p : term) (node : option term) : world * result unit :=
  let g := nth (get_graph w) (w_graphs w) [] in
  if existsb (matches (Some s) (Some p) None) g then
    match g_objects order s p g with
    | o :: _ => (new_metadata w (Some o), Ok tt)
    | [] => (w, Err StopIteration)
    end
  else (new_metadata w node, Ok tt).
End Order.

(** ** Setters *)

(** [Metadata.add], [set], [remove] and [unlink] (metadata.py lines 55-79, 131-145). *)
Definition on_metadata (w : world) (h : nat) (f : term -> graph -> graph) : world * result unit :=
  match metadata w h with
  | Some (g, n) => (in_graph w g (f n), Ok tt)
  | None => (w, Err AttributeError)
  end.
Definition add_value (w : world) (h : nat) (key : term) (v : pvalue) (lang : option str) : world * result unit :=
  on_metadata w h (fun n g => md_add g n key v lang).
Definition set_value (w : world) (h : nat) (key : term) (v : pvalue) (lang : option str) : world * result unit :=
  on_metadata w h (fun n g => md_set g n key v lang).
Definition remove (w : world) (h : nat) (p o : option term) : world * result unit :=
  on_metadata w h (fun n g => md_remove g n p o).
Definition unlink (w : world) (h : nat) (s p : option term) : world * result unit :=
  on_metadata w h (fun n g => md_unlink g n s p).

(** The fields of collections (prototypes/metadata.py lines 71-95, 142-151). *)
Definition on_collection (w : world) (h : nat) (f : term -> graph -> graph) : world * result unit :=
  match nth_error (w_things w) h with
  | Some (Coll g id _ _) => (in_graph w g (f (URI id)), Ok tt)
  | _ => (w, Err AttributeError)
  end.
Definition set_type (w : world) (h : nat) (v : pvalue) : world * result unit :=
  match as_uri v with
  | Ok u => on_collection w h (fun n => g_set (n, rdf_type, u))
  | Err e => (w, Err e)
  end.
Definition set_model (w : world) (h : nat) (v : pvalue) : world * result unit :=
  match as_uri v with
  | Ok u => on_collection w h (fun n => g_set (n, dts_model, u))
  | Err e => (w, Err e)
  end.
Definition set_version (w : world) (h : nat) (v : pvalue) : world * result unit :=
  let value := match v with PTerm (Literal _ _ _ as t) => t | _ => mk_literal v None end in
  on_collection w h (fun n => g_set (n, dts_version, value)).
Definition label (w : world) (h : nat) (v : pvalue) (lang : option str) : world * result unit :=
  on_collection w h (fun n g => set_label g n v lang).

(** Assigning [parent] (prototypes/metadata.py lines 182-194), with [_add_member]
    (lines 196-207).  Texts and metadata have a node too, but no [_add_member]. *)
Definition as_node (t : thing) : term :=
  match t with Meta _ n => n | Coll _ id _ _ => URI id | Text _ _ n _ _ => n end.
Definition cpt_parent : term := URI (#"http://purl.org/capitains/ns/1.0#" ++ #"parent").
Definition put_parent (p : nat) (t : thing) : thing :=
  match t with Coll g id _ kids => Coll g id (Some p) kids | _ => t end.
Definition put_kid (id : str) (h : nat) (t : thing) : thing :=
  match t with
  | Coll g i p kids => Coll g i p (if existsb (fun k => str_eqb id (fst k)) kids then kids else kids ++ [(id, h)])
  | _ => t
  end.
Definition set_parent (w : world) (h p : nat) : world * result unit :=
  match nth_error (w_things w) h, nth_error (w_things w) p with
  | Some (Coll g id _ _), Some t =>
      let w := MkWorld (w_graphs w) (w_now w) (upd (w_things w) h (put_parent p)) (w_blanks w) in
      let w := in_graph w g (g_add (URI id, cpt_parent, as_node t)) in
      match t with
      | Coll _ _ _ _ => (MkWorld (w_graphs w) (w_now w) (upd (w_things w) p (put_kid id h)) (w_blanks w), Ok tt)
      | _ => (w, Err AttributeError)
      end
  | _, _ => (w, Err AttributeError)
  end.

(** [set_creator], [set_title], [set_description] and [set_subject] of texts
    (prototypes/text.py lines 98-153). *)
Inductive field : Type := Creator | Title | Description | Subject.
Definition field_key (f : field) : term :=
  TextMetaModel.dc match f with Creator => #"creator" | Title => #"title" | Description => #"description" | Subject => #"subject" end.
Definition set_field (w : world) (h : nat) (f : field) (v : pvalue) (lang : option str) : world * result unit :=
  match nth_error (w_things w) h with
  | Some (Text _ _ _ _ _) => add_value w h (field_key f) v lang
  | _ => (w, Err AttributeError)
  end.

(** ** Getters *)
Section Getters.
Variable order : list term -> list term.

(** [metadata.get] and [metadata.get_single]. *)
Definition values (w : world) (h : nat) (key : term) (lang : option str) : result (list term) :=
  match metadata w h with
  | Some (g, n) => md_get order (nth g (w_graphs w) []) n key lang
  | None => Err AttributeError
  end.
Definition single (w : world) (h : nat) (key : term) (lang : option str) : result (option term) :=
  match metadata w h with
  | Some (g, n) => md_get_single order (nth g (w_graphs w) []) n key lang
  | None => Err AttributeError
  end.

(** [get_creator], [get_title], [get_description], [get_subject] (prototypes/text.py
    lines 89-146). *)
Definition get_field (w : world) (h : nat) (f : field) (lang : option str) : result (option term) :=
  match nth_error (w_things w) h with
  | Some (Text _ _ _ mg mn) =>
      let g := nth mg (w_graphs w) [] in
      match f with
      | Creator => TextMetaModel.get_creator order g mn lang
      | Title => TextMetaModel.get_title order g mn lang
      | Description => TextMetaModel.get_description order g mn lang
      | Subject => TextMetaModel.get_subject order g mn lang
      end
  | _ => Err AttributeError
  end.

(** [type], [model], [version] and [get_label] of collections. *)
Definition of_collection {A} (w : world) (h : nat) (f : graph -> term -> result A) : result A :=
  match nth_error (w_things w) h with
  | Some (Coll g id _ _) => f (nth g (w_graphs w) []) (URI id)
  | _ => Err AttributeError
  end.
Definition type_of (w : world) (h : nat) : result term :=
  of_collection w h (fun g n => first_of (g_objects order n rdf_type g)).
Definition model_of (w : world) (h : nat) : result term :=
  of_collection w h (fun g n => first_of (g_objects order n dts_model g)).
Definition version_of (w : world) (h : nat) : result (option term) :=
  of_collection w h (fun g n => Ok (hd_error (g_objects order n dts_version g))).
Definition label_of (w : world) (h : nat) (lang : option str) : result (option term) :=
  of_collection w h (fun g n => get_label order g n lang).
End Getters.
