(** What it means for a copy of a collection to be one, and what a program that
    holds some collections can do. *)

From Coq Require Import List NArith ZArith Arith Bool.
From Verif Require Import PyStr UrnModel MetaModel CollModel UtilModel InvModel InvExport DtsOutModel CopyModel.
Import ListNotations.

(** The graph of the process is there, and so is what an object refers to. *)
Definition sound (s : store) : Prop :=
  0 < length (graphs (s_state s)) /\
  (forall x, x < length (objs (s_state s)) ->
     (forall p, c_parent (obj (s_state s) x) = Some p -> p < length (objs (s_state s))) /\
     (forall k y, In (k, y) (c_children (obj (s_state s) x)) -> y < length (objs (s_state s))) /\
     c_graph (obj (s_state s) x) < length (graphs (s_state s))) /\
  (forall i l, In (i, l) (s_cites s) -> i < length (objs (s_state s))) /\
  (forall i p, In (i, p) (s_paths s) -> i < length (objs (s_state s))).

Definition outcome {A B} (f : A -> B) (r : result A) : result B :=
  match r with Ok a => Ok (f a) | Err e => Err e end.

(** Whatever is asked of [c'] in [s'] gets the answer that [c] gets in [s], the
    objects answered being told by [name]. *)
Record answers_alike (name : nat -> nat) (s : store) (c : nat) (s' : store) (c' : nat) : Prop := {
  al_kind : c_kind (obj (s_state s') c') = c_kind (obj (s_state s) c);
  al_id : c_id (obj (s_state s') c') = c_id (obj (s_state s) c);
  al_urn : c_urn (obj (s_state s') c') = c_urn (obj (s_state s) c);
  al_parent : c_parent (obj (s_state s') c') = option_map name (c_parent (obj (s_state s) c));
  al_children : c_children (obj (s_state s') c')
      = map (fun e => (fst e, name (snd e))) (c_children (obj (s_state s) c));
  al_statements : nth (c_graph (obj (s_state s') c')) (graphs (s_state s')) []
      = nth (c_graph (obj (s_state s) c)) (graphs (s_state s)) [];
  al_citation : text_citation s' c' = text_citation s c;
  al_path : text_path_of s' c' = text_path_of s c;
  al_members : CollModel.members (s_state s') c' = map name (CollModel.members (s_state s) c);
  al_parents : forall fuel,
      parents fuel (s_state s') c' = outcome (map name) (parents fuel (s_state s) c);
  al_descendants : forall limit,
      descendants limit (s_state s') c' = outcome (map name) (descendants limit (s_state s) c);
  al_readable : forall limit,
      readable_descendants limit (s_state s') c'
      = outcome (map name) (readable_descendants limit (s_state s) c);
  al_getitem : forall limit key,
      getitem limit (s_state s') c' key = outcome name (getitem limit (s_state s) c key);
  al_contains : forall limit key,
      contains limit (s_state s') c' key = contains limit (s_state s) c key;
  al_len : coll_len (s_state s') c' = coll_len (s_state s) c;
  al_lang : forall order, get_lang order (s_state s') c' = get_lang order (s_state s) c;
  al_translations_in : forall order key,
      get_translation_in order (s_state s') c' key
      = outcome (map name) (get_translation_in order (s_state s) c key);
  al_translations : forall order key,
      text_translations order (s_state s') c' key
      = outcome (map name) (text_translations order (s_state s) c key);
  al_editions : text_editions (s_state s') c' = outcome (map name) (text_editions (s_state s) c);
  al_export : forall cpt pairs order qname fuel ns,
      export cpt pairs order qname s' fuel ns c' = export cpt pairs order qname s fuel ns c;
  al_dts : forall names objects_order triples_order predicates_order qn to_python fuel cites,
      dts_export names objects_order triples_order predicates_order qn to_python fuel (source_of s' c' cites)
      = dts_export names objects_order triples_order predicates_order qn to_python fuel (source_of s c cites)
}.

(** ** Programs

    A program holds some objects.  It can look at what they refer to, and do
    something with them.  [Edit] stands for any change of the graph of an object,
    [EditShared] for any change of the graph that [get_graph()] answers. *)
Inductive deed : Type :=
| Create (k : kind) (id urn : str)
| CreateCts (order : list term -> list term) (k : kind) (urn : str) (parent : option nat) (lang : option str)
| SetParent (c p : nat)
| ClearParent (c : nat)
| Delete (limit fuel : nat) (c : nat) (key : str)
| SetLang (c : nat) (l : str)
| UpdateWork (a b : nat)
| UpdateTextgroup (a b : nat)
| SetCitation (c : nat) (l : list level)
| SetPath (c : nat) (p : str)
| Edit (c : nat) (f : graph -> graph)
| EditShared (f : graph -> graph)
| DeepCopy (c : nat).

Definition in_state (s : store) (st : state) : store := MkStore st (s_cites s) (s_paths s).

Definition perform (s : store) (d : deed) : store :=
  let st := s_state s in
  match d with
  | Create k id urn => in_state s (fst (new_object st k id urn))
  | CreateCts order k urn parent lang => in_state s (fst (new_cts order st k urn parent lang))
  | SetParent c p => in_state s (set_parent st c p)
  | ClearParent c => in_state s (fst (set_parent_none st c))
  | Delete limit fuel c key => in_state s (fst (delitem limit fuel st c key))
  | SetLang c l => in_state s (set_lang st c l)
  | UpdateWork a b => in_state s (fst (work_update st a b))
  | UpdateTextgroup a b => in_state s (fst (textgroup_update st a b))
  | SetCitation c l => fst (set_citation c l s)
  | SetPath c p => MkStore st (s_cites s) ((c, p) :: s_paths s)
  | Edit c f => in_state s (with_graph st (c_graph (obj st c)) f)
  | EditShared f => in_state s (with_graph st 0 f)
  | DeepCopy c => fst (deep_copy s c)
  end.

(** The objects a program needs for it. *)
Definition needs (d : deed) : list nat :=
  match d with
  | Create _ _ _ | EditShared _ => []
  | CreateCts _ _ _ parent _ => match parent with Some p => [p] | None => [] end
  | SetParent c p => [c; p]
  | UpdateWork a b | UpdateTextgroup a b => [a; b]
  | ClearParent c | Delete _ _ c _ | SetLang c _ | SetCitation c _ | SetPath c _ | Edit c _ | DeepCopy c => [c]
  end.

(** The objects it receives. *)
Definition receives (s : store) (d : deed) : list nat :=
  match d with
  | Create _ _ _ | CreateCts _ _ _ _ _ => [length (objs (s_state s))]
  | DeepCopy c => [snd (deep_copy s c)]
  | _ => []
  end.

(** It makes a new collection, or asks for the graph of the process. *)
Definition global (d : deed) : Prop :=
  match d with
  | Create _ _ _ | CreateCts _ _ _ _ _ | EditShared _ => True
  | _ => False
  end.

(** [runs allowed s held s' held']: a program that holds [held] can turn [s] into
    [s'] and then hold [held'], with deeds that are [allowed]. *)
Inductive runs (allowed : deed -> Prop) (s : store) (held : list nat) : store -> list nat -> Prop :=
| runs_none : runs allowed s held s held
| runs_look : forall s' held' x y,
    runs allowed s held s' held' -> In x held' ->
    c_parent (obj (s_state s') x) = Some y \/ (exists k, In (k, y) (c_children (obj (s_state s') x))) ->
    runs allowed s held s' (y :: held')
| runs_do : forall s' held' d,
    runs allowed s held s' held' -> allowed d -> incl (needs d) held' ->
    runs allowed s held (perform s' d) (receives s' d ++ held').

(** At first there is only the graph of the process, and it is empty. *)
Definition nothing : store := MkStore (MkState [] [[]]) [] [].
