(** What the folders of a repository say, and what a resolver shows of them. *)

From Coq Require Import List NArith ZArith Arith Bool.
From Verif Require Import PyStr CiteModel CiteSpec XmlModel UrnModel UrnSpec MetaModel CollModel CollSpec
  InvModel InvSpec LocalModel LocalSpec LoadModel.
Import ListNotations.

(** ** Dictionaries

    [merge_in join d e]: the entry [e] goes to the end of [d], or is joined to the
    value its key has there. *)
Fixpoint merge_in {A} (join : A -> A -> A) (d : list (str * A)) (e : str * A) : list (str * A) :=
  match d with
  | [] => [e]
  | (k, v) :: d' => if str_eqb k (fst e) then (k, join v (snd e)) :: d' else (k, v) :: merge_in join d' e
  end.

(** The texts of a work replace those of the same URN; works and textgroups of the
    same URN are put together. *)
Definition work_of (A : Type) : Type := list (str * A).
Definition group_of (A : Type) : Type := list (str * work_of A).
Definition shelf_of (A : Type) : Type := list (str * group_of A).
Definition join_works {A} (d new : work_of A) : work_of A := fold_left (merge_in (fun _ t => t)) new d.
Definition join_groups {A} (d new : group_of A) : group_of A := fold_left (merge_in join_works) new d.
Definition add_group {A} (d : shelf_of A) (e : str * group_of A) : shelf_of A := merge_in join_groups d e.

(** Of the entries of one file with the same key, the first. *)
Fixpoint firsts_of {A} (l : list (str * A)) : list (str * A) :=
  match l with
  | [] => []
  | (k, v) :: l' => (k, v) :: filter (fun e => negb (str_eqb (fst e) k)) (firsts_of l')
  end.

(** ** What a textgroup file says

    It comes with the documents of its works and their folders.  Works can also be
    described in the textgroup file itself.  A text is an element of a work, and
    the folder, if any.  The textgroup file is at a path. *)
Definition described_group : Type := (XmlModel.node * list (str * XmlModel.node))%type.
Definition located_group : Type := (str * described_group)%type.
Definition as_file (f : located_group) : group_file :=
  MkGroupFile (fst f) (Ok (fst (snd f))) (map (fun dw => (fst dw, Ok (snd dw))) (snd (snd f))).

Record source := MkSource { src_kind : subtype; src_element : XmlModel.node; src_folder : option str }.

Definition own_urn (e : XmlModel.node) : str := match urn_of e with Some u => u | None => [] end.
Definition work_says (folder : option str) (w : XmlModel.node) : str * work_of source :=
  (own_urn w, firsts_of (map (fun ke => (own_urn (snd ke), MkSource (fst ke) (snd ke) folder)) (texts_in w))).
Definition works_in (f : described_group) : list (option str * XmlModel.node) :=
  map (fun w => (None, w)) (named #"work" (fst f)) ++ map (fun dw => (Some (fst dw), snd dw)) (snd f).
Definition group_says (f : described_group) : str * group_of source :=
  (own_urn (fst f), firsts_of (map (fun fw => work_says (fst fw) (snd fw)) (works_in f))).

(** A file describes a text; it does so once when nothing is repeated in it. *)
Definition describes (f : described_group) (u : str) (x : source) : Prop :=
  exists folder w kind e, In (folder, w) (works_in f) /\ In (kind, e) (texts_in w) /\
    urn_of e = Some u /\ x = MkSource kind e folder.
Definition no_repeats (f : described_group) : Prop :=
  NoDup (map (fun fw => urn_of (snd fw)) (works_in f)) /\
  forall fw, In fw (works_in f) -> NoDup (map (fun ke => urn_of (snd ke)) (texts_in (snd fw))).

(** The URNs of a file fit together. *)
Definition named_text (ns cts tg wk : str) (e : XmlModel.node) : Prop :=
  (exists vs, plain_part (Version tg wk vs) /\ urn_of e = Some (write_urn ns cts (Version tg wk vs) None)) /\
  forall a, In a (named #"about" e) -> urn_of a <> None.
Definition named_work (ns cts tg : str) (w : XmlModel.node) : Prop :=
  exists wk, plain_part (Work tg wk) /\ urn_of w = Some (write_urn ns cts (Work tg wk) None) /\
    forall k e, In (k, e) (texts_in w) -> named_text ns cts tg wk e.
Definition named_file (f : described_group) : Prop :=
  clark_names (fst f) /\ (forall dw, In dw (snd f) -> clark_names (snd dw)) /\
  exists ns cts tg, plain_ns ns /\ plain_ns cts /\ plain_part (Group tg) /\
    urn_of (fst f) = Some (write_urn ns cts (Group tg) None) /\
    forall fw, In fw (works_in f) -> named_work ns cts tg (snd fw).

(** ** Several inventories

    A textgroup some inventory has already goes there; a new one goes to the
    inventory the dispatcher chooses: the last filter that accepts it. *)
Definition inventories (A : Type) : Type := list (str * shelf_of A).
Definition held {A} (L : inventories A) (u : str) (x : A) : Prop :=
  exists n l k ws k2 ts, In (n, l) L /\ In (k, ws) l /\ In (k2, ts) ws /\ In (u, x) ts.
Definition has_key {A} (k : str) (d : list (str * A)) : bool := existsb (fun e => str_eqb (fst e) k) d.
Definition place {A} (choice : str -> option str) (L : inventories A) (k : str) : option str :=
  match find (fun e => has_key k (snd e)) L with
  | Some e => Some (fst e)
  | None => choice k
  end.
Definition shelve {A} (choice : str -> option str) (L : inventories A) (e : str * group_of A) : inventories A :=
  match place choice L (fst e) with
  | None => L
  | Some n => map (fun il => if str_eqb (fst il) n then (fst il, add_group (snd il) e) else il) L
  end.

(** Dispatchers whose filters look at the path of the textgroup file and the URN
    of the textgroup. *)
Definition tests_of : Type := list (str * (str -> str -> bool)).
Definition choice_of (tests : tests_of) (path k : str) : option str :=
  option_map fst (find (fun t => snd t path k) (rev tests)).
Definition filters_by_name (d : dispatcher) (tests : tests_of) : Prop :=
  Forall2 (fun m t => fst m = fst t /\ forall st c path, snd m st c (Some path) = Ok (snd t path (c_id (obj st c)))) (d_methods d) tests.

(** Files one after the other: each finds the inventories as the ones before it
    left them.  [placed] tells that each has a place when its turn comes. *)
Definition shelve_at {A} (tests : tests_of) (L : inventories A) (pe : str * (str * group_of A)) : inventories A :=
  shelve (choice_of tests (fst pe)) L (snd pe).
Definition file_says (f : located_group) : str * (str * group_of source) := (fst f, group_says (snd f)).
Definition shelved_by (tests : tests_of) (files : list located_group) (L : inventories source) : inventories source :=
  fold_left (shelve_at tests) (map file_says files) L.
Definition has_place (tests : tests_of) (L : inventories source) (f : located_group) : Prop :=
  place (choice_of tests (fst f)) L (own_urn (fst (snd f))) <> None.
Definition placed (tests : tests_of) (files : list located_group) (L : inventories source) : Prop :=
  forall pre f post, files = pre ++ f :: post -> has_place tests (shelved_by tests pre L) f.

(** ** The citation of a text

    The text described in a folder is expected in that folder, in a file called
    after its URN.  Its citation is that of the file, in double quotes, provided
    it can be read, has levels, and a pattern at each; otherwise it is the one of
    the metadata.  A pattern of one step is lost. *)
Definition in_double_quotes (s : str) : str := map (fun c => if N.eqb c 39%N then 34%N else c) s.
Definition level_copied (l l' : level) : Prop :=
  exists before last, Forall wf_step before /\ wf_step last /\
    snd l = Some (numbered 1 (write_steps (before ++ [last]))) /\ fst l' = fst l /\
    snd l' = match before with [] => None | _ => option_map in_double_quotes (snd l) end.
Definition readable_levels (ls : list level) : Prop :=
  forall l, In l ls -> exists before last, Forall wf_step before /\ wf_step last /\
    snd l = Some (numbered 1 (write_steps (before ++ [last]))).
Definition expected_at (dir : str) (e : XmlModel.node) (path : str) : Prop :=
  exists ns cts tg wk vs, plain_ns ns /\ plain_ns cts /\ plain_part (Version tg wk vs) /\
    urn_of e = Some (write_urn ns cts (Version tg wk vs) None) /\
    path = dir ++ #"/" ++ tg ++ #"." ++ wk ++ #"." ++ vs ++ #".xml".
Definition no_citation (r : option (result (list level))) : Prop :=
  match r with
  | Some (Ok ls) => ls = [] \/ exists l, In l ls /\ snd l = None
  | _ => True
  end.
Inductive citation_from (texts : disk) (e : XmlModel.node) : option str -> list level -> Prop :=
| from_metadata : forall c, citation_says e c -> citation_from texts e None c
| from_file : forall dir path ls c, expected_at dir e path -> texts path = Some (Ok ls) -> ls <> [] ->
    Forall2 level_copied ls c -> citation_from texts e (Some dir) c
| from_neither : forall dir path c, expected_at dir e path -> no_citation (texts path) ->
    citation_says e c -> citation_from texts e (Some dir) c.

(** Files whose citations are of the two kinds. *)
Definition sound_texts (texts : disk) : Prop :=
  forall path ls, texts path = Some (Ok ls) -> readable_levels ls \/ no_citation (Some (Ok ls)).

(** ** What a resolver shows

    An entry of a dictionary: registered under the key, which is its identifier
    and URN, and knowing what it is in. *)
Definition registered_as (s : store) (k : kind) (p : nat) (e : str * nat) (key : str) : Prop :=
  let x := obj (s_state s) (snd e) in
  fst e = key /\ snd e < length (objs (s_state s)) /\
  c_kind x = k /\ c_id x = key /\ c_urn x = key /\ c_parent x = Some p.
Definition entries (s : store) (i : nat) : list (str * nat) := c_children (obj (s_state s) i).

Definition path_of (s : store) (t : nat) : option str :=
  option_map snd (find (fun e => Nat.eqb (fst e) t) (s_paths s)).
Definition paths_known (s : store) : Prop := forall t path, In (t, path) (s_paths s) -> t < length (objs (s_state s)).
Definition kept_at (s : store) (t : nat) (x : source) : Prop :=
  match src_folder x with
  | Some dir => exists path, expected_at dir (src_element x) path /\ path_of s t = Some path
  | None => path_of s t = None
  end.
Definition shows_source (texts : disk) (s : store) (t : nat) (x : source) : Prop :=
  urn_of (src_element x) = Some (c_id (obj (s_state s) t)) /\
  (exists c, citation_of s t = Some c /\ citation_from texts (src_element x) (src_folder x) c) /\
  kept_at s t x.

Section Shown.
Context {A : Type}.
Variable leaf_kind : A -> subtype.
Variable leaf_shown : store -> nat -> A -> Prop.
Definition shown_texts (s : store) (w : nat) (l : work_of A) : Prop :=
  Forall2 (fun e x => registered_as s (KText (leaf_kind (snd x))) w e (fst x) /\ entries s (snd e) = [] /\
      leaf_shown s (snd e) (snd x)) (entries s w) l.
Definition shown_works (s : store) (g : nat) (l : group_of A) : Prop :=
  Forall2 (fun e x => registered_as s KWork g e (fst x) /\ shown_texts s (snd e) (snd x)) (entries s g) l.
Definition shown_groups (s : store) (i : nat) (l : shelf_of A) : Prop :=
  Forall2 (fun e x => registered_as s KTextgroup i e (fst x) /\ shown_works s (snd e) (snd x)) (entries s i) l.
Definition shown_inventories (s : store) (root : nat) (L : inventories A) : Prop :=
  Forall2 (fun e x => let o := obj (s_state s) (snd e) in
      fst e = fst x /\ snd e < length (objs (s_state s)) /\ c_kind o = KInventory /\ c_id o = fst x /\
      c_parent o = Some root /\ shown_groups s (snd e) (snd x)) (entries s root) L.
End Shown.

(** Names in order: inventories are not called like URNs and have different names;
    what is in them is called by URNs that fit together, without repetition. *)
Definition not_a_urn (n : str) : Prop := forall r, n <> #"urn:" ++ r.
Definition names_fit {A} (ns cts tg : str) (ws : group_of A) : Prop :=
  NoDup (keys ws) /\
  forall k ts, In (k, ts) ws -> exists wk, plain_part (Work tg wk) /\ k = write_urn ns cts (Work tg wk) None /\
    NoDup (keys ts) /\
    forall k2 t, In (k2, t) ts -> exists vs, plain_part (Version tg wk vs) /\ k2 = write_urn ns cts (Version tg wk vs) None.
Record in_order {A} (name : str) (L : inventories A) : Prop := {
  io_root : not_a_urn name;
  io_names : forall n l, In (n, l) L -> not_a_urn n /\ n <> name;
  io_distinct : NoDup (keys L);
  io_groups : NoDup (flat_map (fun il => keys (snd il)) L);
  io_urns : forall n l k ws, In (n, l) L -> In (k, ws) l ->
    exists ns cts tg, plain_ns ns /\ plain_ns cts /\ plain_part (Group tg) /\ k = write_urn ns cts (Group tg) None /\
      names_fit ns cts tg ws }.

Record resolver_shows (texts : disk) (s : store) (root : nat) (L : inventories source) : Prop := {
  rs_root : root < length (objs (s_state s));
  rs_kind : c_kind (obj (s_state s) root) = KInventoryCollection;
  rs_paths : paths_known s;
  rs_order : in_order (c_id (obj (s_state s) root)) L;
  rs_kinds : forall n l k ws k2 ts k3 t, In (n, l) L -> In (k, ws) l -> In (k2, ts) ws -> In (k3, t) ts ->
    src_kind t <> Unknown;
  rs_shown : shown_inventories src_kind (shows_source texts) s root L }.
