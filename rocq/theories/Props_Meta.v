(** Properties C27 and C28: metadata. *)

From Coq Require Import List NArith ZArith Bool Permutation.
From Verif Require RefModel.
From Verif Require Import PyStr PyStrFacts MetaModel MetaSpec MetaProofs.
Import ListNotations.

(** ** C27: metadata is a multi-valued map over a node *)

(** After any history of calls on any nodes, [get(key)] gives exactly the
    values stored and not erased since, each once, whatever the order in which
    the graph enumerates them. *)
Theorem C27_get : forall order, arranges order -> forall g0 h n k,
  exists vs, md_get order (run g0 h) n k None = Ok vs
    /\ (forall v, In v vs <-> holds g0 h n k v)
    /\ (NoDup g0 -> NoDup vs).
Proof. exact get_values. Qed.
Print Assumptions C27_get.

(** [metadata[key]] is the same list. *)
Theorem C27_item : forall order, arranges order -> forall g0 h n k,
  exists vs, md_item order (run g0 h) n k = Ok vs
    /\ (forall v, In v vs <-> holds g0 h n k v)
    /\ (NoDup g0 -> NoDup vs).
Proof. exact get_values. Qed.
Print Assumptions C27_item.

(** Right after a [set] the key has that one value. *)
Theorem C27_set : forall order, arranges order -> forall g0 h n k v lang,
  NoDup g0 ->
  md_get order (run g0 (h ++ [Set_ n k v lang])) n k None
  = Ok [stored_value v lang].
Proof. exact get_after_set. Qed.
Print Assumptions C27_set.

(** Right after an [add] the key has its former values and that one. *)
Theorem C27_add : forall order, arranges order -> forall g0 h n k v lang,
  exists before after,
    md_get order (run g0 h) n k None = Ok before
    /\ md_get order (run g0 (h ++ [Add n k v lang])) n k None = Ok after
    /\ forall w, In w after <-> In w before \/ w = stored_value v lang.
Proof. exact get_after_add. Qed.
Print Assumptions C27_add.

(** Right after [remove(predicate, obj)] exactly the matching values are gone. *)
Theorem C27_remove : forall order, arranges order -> forall g0 h n p o k,
  exists before after,
    md_get order (run g0 h) n k None = Ok before
    /\ md_get order (run g0 (h ++ [Remove n p o])) n k None = Ok after
    /\ forall w, In w after <-> In w before /\ ~ (covers p k /\ covers o w).
Proof. exact get_after_remove. Qed.
Print Assumptions C27_remove.

(** Calls on other keys or other nodes change nothing, in any language. *)
Theorem C27_frame : forall order g h n k,
  Forall (fun c => ~ touches c n k) h ->
  forall lang, md_get order (run g h) n k lang = md_get order g n k lang.
Proof. exact get_untouched. Qed.
Print Assumptions C27_frame.

(** [get(key, lang)] gives exactly the values written in the language... *)
Theorem C27_language : forall order, arranges order -> forall g0 h n k l,
  (forall v, holds g0 h n k v -> is_literal v) ->
  exists vs, md_get order (run g0 h) n k (Some l) = Ok vs
    /\ forall v, In v vs <-> holds g0 h n k v /\ written_in l v.
Proof. exact get_language. Qed.
Print Assumptions C27_language.

(** ... and fails as soon as one value of the key is not a literal. *)
Theorem C27_language_error : forall order, arranges order ->
  forall g0 h n k l,
  (exists v, holds g0 h n k v /\ ~ is_literal v) ->
  md_get order (run g0 h) n k (Some l) = Err AttributeError.
Proof. exact get_language_error. Qed.
Print Assumptions C27_language_error.

(** Exports.  Without a filter: the statements of the node. *)
Theorem C27_export_all : forall ns n g t,
  In t (kept ns n g None None) <-> In t g /\ exists p o, t = (n, p, o).
Proof. exact kept_all_spec. Qed.
Print Assumptions C27_export_all.

(** With [exclude]: those whose predicate and namespace are not listed. *)
Theorem C27_exclude : forall ns n g exclude t,
  In t (kept ns n g None (Some exclude))
  <-> In t g /\ exists p o, t = (n, p, o)
      /\ ~ In (text_of p) (map entry_text exclude)
      /\ ~ In (ns p) (map entry_text exclude).
Proof. exact kept_exclude_spec. Qed.
Print Assumptions C27_exclude.

(** With [only]: those whose predicate is listed as a term, or whose namespace
    is listed while the predicate itself is not listed as a string. *)
Theorem C27_only : forall ns n g only t,
  In t (kept ns n g (Some only) None)
  <-> In t g /\ exists p o, t = (n, p, o)
      /\ (In (FTerm p) only
          \/ (In (ns p) (map entry_text only)
              /\ ~ In (text_of p) (map entry_text only))).
Proof. exact kept_only_spec. Qed.
Print Assumptions C27_only.

(** The JSON export holds, under each predicate and language, the title-cased
    texts of the literals kept, and a key for each predicate kept. *)
Theorem C27_export_json : forall title order, arranges order ->
  forall ts k l,
  Permutation (exported k l (export_std title order ts))
              (flat_map (contributes title k l) ts).
Proof. exact export_std_texts. Qed.
Print Assumptions C27_export_json.

Theorem C27_export_json_keys : forall title order, arranges order ->
  forall ts k,
  In k (keys (export_std title order ts))
  <-> exists n p o, In (n, p, o) ts /\ text_of p = k.
Proof. exact export_std_keys. Qed.
Print Assumptions C27_export_json_keys.

(** Findings.  A predicate named by a plain string in [only] is not exported. *)
Theorem C27_only_string_refuted : exists ns n g p o,
  In (n, p, o) g /\ kept ns n g (Some [FStr (text_of p)]) None = [].
Proof.
  exists (fun _ => #"urn:dc/"), (URI #"a"), [(URI #"a", URI #"urn:dc/title", URI #"b")],
    (URI #"urn:dc/title"), (URI #"b").
  split; [ left; reflexivity | reflexivity ].
Qed.
Print Assumptions C27_only_string_refuted.

(** The list passed as [only] is changed by the export. *)
Theorem C27_only_argument_refuted : exists ns n g only,
  snd (kept_only ns n g only) <> only.
Proof.
  exists (fun _ => #"urn:dc/"), (URI #"a"), [(URI #"a", URI #"urn:dc/title", URI #"b")],
    [FStr #"urn:dc/"].
  vm_compute. discriminate.
Qed.
Print Assumptions C27_only_argument_refuted.

(** Still, one list can be given to any number of exports: each keeps what it would keep
    with a list of its own, as long as no predicate is the namespace of another. *)
Theorem C27_only_shared : forall ns only exports,
  (forall n g p o, In (n, g) exports -> In (n, p, o) g -> exists s, p = URI s) ->
  (forall n g p o n' g' p' o', In (n, g) exports -> In (n, p, o) g -> In (n', g') exports -> In (n', p', o') g' ->
     text_of p <> ns p') ->
  Forall2 (fun e ts => forall t, In t ts <-> In t (kept ns (fst e) (snd e) (Some only) None))
    exports (kept_in_turn ns exports only).
Proof.
  intros ns only exports Hu Hd.
  assert (G : forall ex P,
    (forall e, In e ex -> In e exports) ->
    (forall p, In p P -> (exists n g o, In (n, g) exports /\ In (n, p, o) g) /\
       In (ns p) (map entry_text only) /\ ~ In (text_of p) (map entry_text only)) ->
    Forall2 (fun e ts => forall t, In t ts <-> In t (kept ns (fst e) (snd e) (Some only) None))
      ex (kept_in_turn ns ex (only ++ map FTerm P))).
  { induction ex as [|[n g] ex IH]; intros P Hx HP; cbn [kept_in_turn]; [constructor|].
    assert (Hn : In (n, g) exports) by (apply Hx; left; reflexivity).
    assert (N : forall p o, In (n, p, o) g -> In (ns p) (map entry_text (only ++ map FTerm P)) -> In (ns p) (map entry_text only)).
    { intros p o Hp X. rewrite map_app, in_app_iff in X. destruct X as [X|X]; [exact X|]. rewrite map_map in X. apply in_map_iff in X.
      destruct X as (q & X & Hq). destruct (HP q Hq) as ((n' & g' & o' & A & B) & _). destruct (Hd n' g' q o' n g p o A B Hn Hp X). }
    assert (E : forall t, In t (fst (kept_only ns n g (only ++ map FTerm P))) <-> In t (kept ns n g (Some only) None)).
    { intros t. pose proof (C27_only ns n g (only ++ map FTerm P) t) as C. cbn [kept] in C. rewrite C, C27_only. clear C.
      split; intros (Ht & p & o & -> & H); (split; [exact Ht|]); exists p, o; (split; [reflexivity|]).
      - destruct H as [H|[H1 H2]].
        + apply in_app_iff in H. destruct H as [H|H]; [left; exact H|]. apply in_map_iff in H. destruct H as (q & [= ->] & Hq). right. apply (HP p Hq).
        + right. split; [exact (N p o Ht H1)|]. intros X. apply H2. rewrite map_app, in_app_iff. left. exact X.
      - destruct H as [H|[H1 H2]]; [left; apply in_app_iff; left; exact H|].
        destruct (in_dec str_eq_dec (text_of p) (map text_of P)) as [X|X].
        + apply in_map_iff in X. destruct X as (q & X & Hq). destruct (HP q Hq) as ((n' & g' & o' & A & B) & _).
          destruct (Hu n' g' q o' A B) as (a & ->). destruct (Hu n g p o Hn Ht) as (b & ->). cbn in X. subst a.
          left. apply in_app_iff. right. apply in_map. exact Hq.
        + right. split; [rewrite map_app, in_app_iff; left; exact H1|]. rewrite map_app, in_app_iff, map_map. intros [Y|Y]; [exact (H2 Y)|exact (X Y)]. }
    unfold kept_only in *. cbn [fst] in E. constructor; [exact E|]. rewrite <- app_assoc, <- map_app.
    apply IH; [intros e He; apply Hx; right; exact He|].
    intros p Hp. apply in_app_iff in Hp. destruct Hp as [Hp|Hp]; [exact (HP p Hp)|].
    apply filter_In in Hp. destruct Hp as [Hp1 Hp2]. apply andb_true_iff in Hp2. destruct Hp2 as [Hp2 Hp3].
    apply In_predicates in Hp1. destruct Hp1 as (o & Ho). apply str_mem_In in Hp3. apply negb_true_iff in Hp2.
    split; [exists n, g, o; split; assumption|]. split; [exact (N p o Ho Hp3)|]. intros X.
    assert (Y : str_mem (text_of p) (map entry_text (only ++ map FTerm P)) = true) by (apply str_mem_In; rewrite map_app, in_app_iff; left; exact X).
    congruence. }
  specialize (G exports [] (fun e He => He)). cbn [map] in G. rewrite app_nil_r in G. apply G. intros p [].
Qed.
Print Assumptions C27_only_shared.

(** A sample with two nodes, and the finding for a predicate that is a namespace: in
    the second export it lets in what is below it. *)
Definition up_to_slash (t : term) : str :=
  rev (RefModel.drop_while (fun c => negb (N.eqb c 47%N)) (match rev (text_of t) with c :: r => if N.eqb c 47%N then r else c :: r | [] => [] end)).
Example C27_shared_sample :
  let a := [(URI #"a", URI #"d/title", URI #"x"); (URI #"a", URI #"e/size", URI #"y")] in
  let b := [(URI #"b", URI #"d/date", URI #"x"); (URI #"b", URI #"d/title", URI #"z")] in
  kept_in_turn up_to_slash [(URI #"a", a); (URI #"b", b)] [FStr #"d/"] = [[(URI #"a", URI #"d/title", URI #"x")]; b].
Proof. vm_compute. reflexivity. Qed.
Theorem C27_only_shared_refuted : exists ns n g m k only t,
  In t (concat (kept_in_turn ns [(n, g); (m, k)] only)) /\ ~ In t (kept ns n g (Some only) None) /\ ~ In t (kept ns m k (Some only) None).
Proof.
  exists up_to_slash, (URI #"a"), [(URI #"a", URI #"d/e/", URI #"x")], (URI #"b"), [(URI #"b", URI #"d/e/f", URI #"y")], [FStr #"d/"], (URI #"b", URI #"d/e/f", URI #"y").
  vm_compute. intuition discriminate.
Qed.
Print Assumptions C27_only_shared_refuted.

(** The JSON export does not give the stored text back. *)
Theorem C27_json_text_refuted : exists s,
  exported #"p" None (export_std str_title (fun l => l)
    [(URI #"a", URI #"p", Literal s None None)]) <> [s].
Proof. exists #"de bello Gallico". vm_compute. discriminate. Qed.
Print Assumptions C27_json_text_refuted.

(** A literal given with a language keeps its own: [add] ignores [lang]. *)
Theorem C27_literal_language_refuted : exists g n k s l,
  md_get (fun x => x) (md_add g n k (PTerm (Literal s None None)) (Some l)) n k (Some l)
  = Ok [].
Proof.
  exists [], (URI #"a"), (URI #"p"), #"x", #"fr". reflexivity.
Qed.
Print Assumptions C27_literal_language_refuted.

(** A history on two nodes: values added, replaced, removed. *)
Example C27_history :
  let a := URI #"a" in let b := URI #"b" in
  let title := URI #"title" in let date := URI #"date" in
  let h := [Add a title (PStr #"Aeneid") (Some #"eng");
            Add a title (PStr #"Aeneis") (Some #"lat");
            Add b title (PStr #"Iliad") None;
            Set_ a date (PInt 19) None;
            Set_ a date (PInt (-19)) None;
            Remove b None None;
            Add a title (PStr #"Aeneid") (Some #"eng")] in
  md_get (@rev _) (run [] h) a title None
    = Ok [Literal #"Aeneis" (Some #"lat") None; Literal #"Aeneid" (Some #"eng") None]
  /\ md_get (@rev _) (run [] h) a title (Some #"lat")
    = Ok [Literal #"Aeneis" (Some #"lat") None]
  /\ md_get (@rev _) (run [] h) a date None
    = Ok [Literal #"-19" None (Some xsd_integer)]
  /\ md_get (@rev _) (run [] h) b title None = Ok []
  /\ arranges (@rev term).
Proof.
  repeat split; try reflexivity. intros l. apply Permutation_rev.
Qed.

Example C27_frame_applies :
  Forall (fun c => ~ touches c (URI #"a") (URI #"title"))
    [Set_ (URI #"a") (URI #"date") (PInt 1) None; Remove (URI #"b") None None].
Proof.
  repeat constructor; intros [[v H]|[v H]]; inversion H.
Qed.

Example C27_filters :
  let ns := fun p => if startswith (text_of p) #"dc/" then #"dc/" else #"other/" in
  let a := URI #"a" in
  let g := [(a, URI #"dc/title", URI #"x"); (a, URI #"dc/date", URI #"y");
            (a, URI #"cts/name", URI #"z"); (URI #"b", URI #"dc/title", URI #"x")] in
  kept ns a g (Some [FStr #"dc/"]) None
    = [(a, URI #"dc/title", URI #"x"); (a, URI #"dc/date", URI #"y")]
  /\ kept ns a g (Some [FTerm (URI #"cts/name")]) None = [(a, URI #"cts/name", URI #"z")]
  /\ kept ns a g None (Some [FStr #"dc/date"; FStr #"other/"])
    = [(a, URI #"dc/title", URI #"x")].
Proof. repeat split; reflexivity. Qed.

(** ** C28: selecting one value by language *)

(** With a language, on literal values: a value in the language when there is
    one, else some value, [None] exactly when there is none. *)
Theorem C28_single_language : forall order, arranges order ->
  forall g0 h n k l,
  (forall v, holds g0 h n k v -> is_literal v) ->
  exists r, md_get_single order (run g0 h) n k (Some l) = Ok r
    /\ match r with
       | None => forall v, ~ holds g0 h n k v
       | Some v => holds g0 h n k v
           /\ (written_in l v \/ forall w, holds g0 h n k w -> ~ written_in l w)
       end.
Proof. exact single_language. Qed.
Print Assumptions C28_single_language.

(** Without a language: some value, [None] exactly when there is none. *)
Theorem C28_single_any : forall order, arranges order -> forall g0 h n k,
  exists r, md_get_single order (run g0 h) n k None = Ok r
    /\ match r with
       | None => forall v, ~ holds g0 h n k v
       | Some v => holds g0 h n k v
       end.
Proof. exact single_any. Qed.
Print Assumptions C28_single_any.

(** [get_label] is such a selection among the labels. *)
Theorem C28_label : forall order, arranges order -> forall g0 h n l,
  (forall v, holds g0 h n rdfs_label v -> is_literal v) ->
  exists r, get_label order (run g0 h) n (Some l) = Ok r
    /\ match r with
       | None => forall v, ~ holds g0 h n rdfs_label v
       | Some v => holds g0 h n rdfs_label v
           /\ (written_in l v \/ forall w, holds g0 h n rdfs_label w -> ~ written_in l w)
       end.
Proof. exact label_language. Qed.
Print Assumptions C28_label.

(** A label just set is among those found in its language, and nowhere else. *)
Theorem C28_set_label : forall order, arranges order -> forall g n s l m k,
  l <> [] ->
  exists before after,
    md_get order g m k None = Ok before
    /\ md_get order (set_label g n (PStr s) (Some l)) m k None = Ok after
    /\ forall w, In w after <-> In w before
         \/ (m = n /\ (k = rdfs_label \/ k = skos_prefLabel)
             /\ w = Literal s (Some l) None).
Proof. exact set_label_values. Qed.
Print Assumptions C28_set_label.

(** CTS properties: the same choice, with an error when there is no value. *)
Theorem C28_cts_property : forall order, arranges order ->
  forall g0 h n k l,
  (forall v, holds g0 h n k v -> is_literal v) ->
  match get_cts_property order (run g0 h) n k l with
  | Ok v => holds g0 h n k v
      /\ (written_in l v \/ forall w, holds g0 h n k w -> ~ written_in l w)
  | Err e => e = StopIteration /\ forall v, ~ holds g0 h n k v
  end.
Proof. exact cts_property_language. Qed.
Print Assumptions C28_cts_property.

(** Without a language: one value for each language that has one. *)
Theorem C28_cts_property_table : forall order, arranges order ->
  forall g0 h n k,
  (forall v, holds g0 h n k v -> is_literal v) ->
  exists d, get_cts_property_all order (run g0 h) n k = Ok d
    /\ (forall l o, lget l d = Some o -> holds g0 h n k o /\ language o = Ok l)
    /\ (forall l, (exists o, holds g0 h n k o /\ language o = Ok l) ->
                  exists o, lget l d = Some o).
Proof. exact cts_property_table. Qed.
Print Assumptions C28_cts_property_table.

(** Setting a CTS property stores the value under the property, and as a
    label exactly when the property is the title of the class. *)
Theorem C28_set_cts_property : forall order, arranges order ->
  forall g n title prop s l m k,
  l <> [] ->
  exists before after,
    md_get order g m k None = Ok before
    /\ md_get order (set_cts_property g n title prop (PStr s) (Some l)) m k None = Ok after
    /\ forall w, In w after <-> In w before
         \/ (m = n /\ w = Literal s (Some l) None
             /\ (k = prop
                 \/ (title = Some prop /\ (k = rdfs_label \/ k = skos_prefLabel)))).
Proof. exact set_cts_property_values. Qed.
Print Assumptions C28_set_cts_property.

(** Finding: with a language, one value that is not a literal makes the
    selection fail in some orders although a value in the language exists. *)
Theorem C28_not_literal_refuted : exists order g n k l v,
  arranges order /\ In (n, k, v) g /\ written_in l v
  /\ md_get_single order g n k (Some l) = Err AttributeError.
Proof.
  exists (@rev term), [(URI #"a", URI #"p", Literal #"x" (Some #"en") None);
    (URI #"a", URI #"p", URI #"y")], (URI #"a"), (URI #"p"), #"en",
    (Literal #"x" (Some #"en") None).
  split; [ intros l; apply Permutation_rev | ].
  split; [ left; reflexivity | ]. split; [ exists #"x", None; reflexivity | reflexivity ].
Qed.
Print Assumptions C28_not_literal_refuted.

Example C28_choice :
  let a := URI #"a" in let p := URI #"p" in
  let h := [Add a p (PStr #"x") (Some #"en"); Add a p (PStr #"y") (Some #"fr");
            Add a p (PStr #"z") None] in
  md_get_single (@rev _) (run [] h) a p (Some #"en")
    = Ok (Some (Literal #"x" (Some #"en") None))
  /\ md_get_single (@rev _) (run [] h) a p (Some #"de")
    = Ok (Some (Literal #"x" (Some #"en") None))
  /\ md_get_single (fun l => l) (run [] h) a p (Some #"de")
    = Ok (Some (Literal #"z" None None))
  /\ get_cts_property (fun l => l) (run [] h) a p #"de"
    = Ok (Literal #"x" (Some #"en") None)
  /\ md_get_single (@rev _) (run [] h) a (URI #"q") (Some #"en") = Ok None
  /\ (forall v, holds [] h a p v -> is_literal v).
Proof.
  repeat split; try reflexivity. intros v H. apply run_In in H.
  cbn in H. destruct H as [H|[H|[H|[]]]]; injection H as <-; eexists _, _, _; reflexivity.
Qed.
