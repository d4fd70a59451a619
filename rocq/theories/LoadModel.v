(** The local resolver reading folders: textgroups, works, the citations of the
    texts, dispatching.

    Models /repo/MyCapytain/resolvers/cts/local.py lines 75-102, 125-309.  The
    file system arrives as two arguments: the metadata files, in the order glob
    gives them, and a function from paths to the texts found there.  A document
    is a tree (XmlModel.v) or the exception its parsing raises. *)

From Coq Require Import List NArith ZArith Arith Bool.
From Verif Require Import PyStr CiteModel XmlModel UrnModel MetaModel CollModel InvModel LocalModel.
Import ListNotations.

(** A textgroup file, with its path, and the work files of its subfolders, each
    with its folder. *)
Record group_file := MkGroupFile {
  gf_path : str;
  gf_doc : result XmlModel.node;
  gf_works : list (str * result XmlModel.node) }.

(** What is at a path: nothing, or a text, which is read into the levels of its
    citation (names and refsDecl, outermost first) or fails to be. *)
Definition disk : Type := str -> option (result (list level)).

Definition on_state (f : state -> state * result unit) : act unit :=
  fun s => let '(st, r) := f (s_state s) in (MkStore st (s_cites s) (s_paths s), r).

(** Lines 81-89: without a dispatcher, a collection with one inventory is made. *)
Definition default_resolver (s : store) : store * result dispatcher :=
  let '(st1, root) := new_object (s_state s) KInventoryCollection #"defaultTic" [] in
  let '(st2, inv) := new_object st1 KInventory #"default" [] in
  let st3 := set_parent st2 inv root in
  let st4 := with_graph st3 (c_graph (obj st3 inv)) (fun g =>
    set_label g (CollModel.node (obj st3 inv)) (PStr #"Default collection") (Some #"eng")) in
  (MkStore st4 (s_cites s) (s_paths s), new_dispatcher st4 root None).

Section Load.
Variable order : list term -> list term.
Variable leaf : XmlModel.node -> guess.
Variable nsmap : XmlModel.node -> list (str * str).
(** RAISE_ON_GENERIC_PARSING_ERROR and RAISE_ON_UNDISPATCHED (lines 60-61). *)
Variable raise_parsing raise_undispatched : bool.

(** Lines 125-137 and 151-165: the wrappers.  When the exception is not raised
    again they return None, which lines 289 and 296 cannot take apart. *)
Definition wrapped {A} (doc : result XmlModel.node) (parse : XmlModel.node -> act A) : act A :=
  fun s =>
    let '(s1, r) := match doc with Ok x => parse x s | Err e => (s, Err e) end in
    match r with
    | Ok a => (s1, Ok a)
    | Err e => (s1, Err (if raise_parsing then e else TypeError))
    end.

(** Lines 286-290. *)
Definition read_groups (files : list group_file) : act (list (nat * group_file)) :=
  collect files (fun f =>
    i <-- wrapped (gf_doc f) (fun x => parse_textgroup order leaf nsmap x None) ;;
    ret (i, f)).

(** Lines 292-297. *)
Definition read_works (groups : list (nat * group_file)) : act (list (nat * str)) :=
  l <-- collect groups (fun g =>
          collect (gf_works (snd g)) (fun dw =>
            r <-- wrapped (snd dw) (fun x => parse_work order leaf nsmap x (Some (fst g))) ;;
            ret (map (fun t => (t, fst dw)) (snd r)))) ;;
  ret (concat (concat l)).

(** Lines 196-201: the formatted None reads None. *)
Definition or_none (o : option str) : str := match o with Some s => s | None => #"None" end.
Definition text_path (dir : str) (u : urn) : str :=
  dir ++ #"/" ++ or_none (u_tg u) ++ #"." ++ or_none (u_wk u) ++ #"." ++ or_none (u_vs u) ++ #".xml".

(** Lines 206-219: the citation of the text is made anew, from the last level to
    the first, with other quotes; the levels that are left are listed in order. *)
Definition double_quoted (s : str) : str :=
  map (fun c => if N.eqb c c_quote then c_dquote else c) s.
Definition copy_level (l : level) : result level :=
  '(scope, xpath) <- parse_xpath_scope (snd l) ;;
  Ok (fst l, init_refsdecl (Some (double_quoted scope)) (Some (double_quoted xpath)) None).

(** Lines 185-235: the path is set whether there is a file or not; any exception
    between reading the file and setting the citation is caught.  The value tells
    whether all went well. *)
Definition read_text (files : disk) (t : nat) (dir : str) : act bool :=
  fun s =>
    match urn_parse (c_urn (obj (s_state s) t)) with
    | Err e => (s, Err e)
    | Ok u =>
        let s1 := MkStore (s_state s) (s_cites s) ((t, text_path dir u) :: s_paths s) in
        match files (text_path dir u) with
        | None => (s1, Ok false)
        | Some levels =>
            match (ls <- levels ;; mapM copy_level ls) with
            | Err _ => (s1, Ok false)
            | Ok [] => (s1, Ok false)
            | Ok ((name, refs) :: ls) =>
                (MkStore (s_state s1) ((t, (name, refs) :: ls) :: s_cites s1) (s_paths s1),
                 Ok match refs with Some _ => true | None => false end)
            end
        end
    end.

(** Lines 237-266.  What is called the directory is the path of the file: lines
    149 and 289-290. *)
Definition dispatch_container (limit : nat) (d : dispatcher) (tg : nat) (path : str) : act unit :=
  fun s =>
    let '(s1, r) := on_state (fun st => enter limit st d tg path) s in
    match r with
    | Err UndispatchedTextError => if raise_undispatched then (s1, r) else (s1, Ok tt)
    | _ => (s1, r)
    end.

(** Lines 276-309: [parse]; [_clean_invalids] does nothing. *)
Definition load (limit : nat) (d : dispatcher) (files : list group_file) (texts : disk) : act unit :=
  groups <-- read_groups files ;;
  ts <-- read_works groups ;;
  _ <-- for_each ts (fun td => _ <-- read_text texts (fst td) (snd td) ;; ret tt) ;;
  for_each groups (fun g => dispatch_container limit d (fst g) (gf_path (snd g))).
End Load.
