(** Property C76: textgroups, works and texts exported on their own. *)

From Coq Require Import List NArith ZArith Arith Bool Lia Permutation.
From Verif Require Import PyStr PyStrFacts CiteSpec CiteModel XmlModel UrnModel MetaModel MetaSpec MetaProofs
  CollModel UtilModel UtilSpec XmlReadSpec InvModel InvSpec InvExport InvExportSpec InvExportTree InvExportCopy InvExportBack
  InvPartModel InvPartSpec InvPart Props_Inv Props_InvExport Props_InvCpt.
Import ListNotations.

(** ** C76: in an inventory that XML can carry, every textgroup, work and text
    is exported on its own to a document - as text or as the tree of the default
    export - and the class of its kind reads the document, without a parent, to
    the same textgroup, work or text: identifier, titles, labels, descriptions
    and links, languages (but for a lone edition), citations and everything below
    it.  No object that was there before changes. *)
Theorem C76_part : forall order, arranges order -> forall pairs qname s i fuel,
  portable s i -> prefixes_fit qname s -> mentions_cts s -> 4 <= fuel ->
  forall k u j q, placed_in s i k u j q ->
  exists text d,
    export false pairs order qname s fuel true j = Ok text /\ read_document text = Some d /\
    export_tree pairs order qname s fuel j = Ok (Some d) /\
    forall order', arranges order' -> forall leaf nsmap s0, receives s i s0 ->
      exists s' j', parse_part order' leaf nsmap k d s0 = (s', Ok j') /\ alone k s j s' j' /\
        forall x, x < length (objs (s_state s0)) ->
          obj (s_state s') x = obj (s_state s0) x /\ citation_of s' x = citation_of s0 x.
Proof.
  intros order Ho pairs qname s i fuel P Hq M F k u j q Pl. unfold export_tree. rewrite (export_pairs pairs (fun l => l)).
  assert (Hp : arranges (fun l : list (term * term) => l)) by (intros l; reflexivity).
  set (pr := fun l : list (term * term) => l) in *.
  assert (Hd : false = true -> describable qname s i) by discriminate.
  destruct (part_way false pr Hp order Ho qname s Hq i P Hd M fuel k u j q F Pl) as (x & d & E & Rd & X).
  exists x, d. split; [ exact E | ]. split; [ exact Rd | ]. split; [ rewrite E; cbn [bind]; rewrite Rd; reflexivity | ].
  intros order' Ho' leaf nsmap s0 R.
  destruct (X order' Ho' leaf nsmap (fun t => GText t) ltac:(discriminate) ltac:(discriminate) s0 R) as (s' & j' & E' & A & _ & O).
  exists s', j'. auto.
Qed.
Print Assumptions C76_part.

(** With the structured metadata of the CapiTainS export: what is read says of
    the part and of what is in it exactly what was there before, the exported
    statements, the titles as labels, and of what is in it what it is in - not of
    the part itself. *)
Theorem C76_part_metadata : forall order, arranges order -> forall pairs : list (term * term) -> list (term * term), arranges pairs ->
  forall qname s i fuel,
  portable s i -> prefixes_fit qname s -> mentions_cts s -> describable qname s i -> 4 <= fuel ->
  forall k u j q, placed_in s i k u j q ->
  exists text d,
    export true pairs order qname s fuel true j = Ok text /\ read_document text = Some d /\
    forall order', arranges order' -> forall leaf nsmap read,
      (forall e, n_kids e = [] -> leaf e = read (n_text e)) -> languages_told read s i ->
      forall s0, receives s i s0 ->
      exists s' j', parse_part order' leaf nsmap k d s0 = (s', Ok j') /\ alone k s j s' j' /\
        (forall k' u' j1 q' p o', placed_in s i k' u' j1 q' -> In u' (part_ids s k j) -> carried qname p -> ~ single_valued p ->
          (In (URI u', p, o') (main_graph s') <->
           In (URI u', p, o') (main_graph s0) \/ read_alone read s i j u' p o')) /\
        forall x, x < length (objs (s_state s0)) ->
          obj (s_state s') x = obj (s_state s0) x /\ citation_of s' x = citation_of s0 x.
Proof.
  intros order Ho pairs Hp qname s i fuel P Hq M D F k u j q Pl.
  destruct (part_way true pairs Hp order Ho qname s Hq i P (fun _ => D) M fuel k u j q F Pl) as (x & d & E & Rd & X).
  exists x, d. split; [ exact E | ]. split; [ exact Rd | ].
  intros order' Ho' leaf nsmap read HL LT s0 R.
  destruct (X order' Ho' leaf nsmap read (fun _ => HL) (fun _ => LT) s0 R) as (s' & j' & E' & A & St & O).
  exists s', j'. split; [ exact E' | ]. split; [ exact A | ]. split; [ apply (St eq_refl) | exact O ].
Qed.
Print Assumptions C76_part_metadata.

(** The default export of the inventory itself is a tree too, that is read to a
    copy. *)
Theorem C76_tree : forall order, arranges order -> forall pairs qname s i fuel,
  portable s i -> prefixes_fit qname s -> mentions_cts s -> 4 <= fuel ->
  exists d, export_tree pairs order qname s fuel i = Ok (Some d) /\
    forall order', arranges order' -> forall leaf nsmap s0, receives s i s0 ->
      exists s' i', parse_part order' leaf nsmap KInventory d s0 = (s', Ok i') /\ copy_inventory s i s' i'.
Proof.
  intros order Ho pairs qname s i fuel P Hq M F.
  destruct (C58_round_trip order Ho pairs qname s i fuel P Hq M F) as (x & d & E & Rd & X).
  exists d. split; [ unfold export_tree; rewrite E; cbn [bind]; rewrite Rd; reflexivity | exact X ].
Qed.
Print Assumptions C76_tree.

(** ** The hypotheses are met: the textgroup, the work and the texts of the
    inventory of C58 ([C58_portable_example]), and of C65 ([C65_example]). *)
Example C76_example :
  placed_in ex_store 0 KTextgroup #"urn:cts:latinLit:phi1294" 1 0 /\
  placed_in ex_store 0 KWork #"urn:cts:latinLit:phi1294.phi002" 2 1 /\
  placed_in ex_store 0 (KText Edition) #"urn:cts:latinLit:phi1294.phi002.e1" 3 2 /\
  placed_in ex_store 0 (KText Translation) #"urn:cts:latinLit:phi1294.phi002.t1" 4 2 /\
  placed_in cpt_store 0 KWork #"urn:cts:latinLit:phi1294.phi002" 2 1.
Proof.
  assert (G : forall s, children s 0 = [(#"urn:cts:latinLit:phi1294", 1)] -> children s 1 = [(#"urn:cts:latinLit:phi1294.phi002", 2)] ->
    placed_in s 0 KTextgroup #"urn:cts:latinLit:phi1294" 1 0 /\ placed_in s 0 KWork #"urn:cts:latinLit:phi1294.phi002" 2 1).
  { intros s E0 E1. assert (X : placed_in s 0 KTextgroup #"urn:cts:latinLit:phi1294" 1 0) by (apply in_inventory; rewrite E0; left; reflexivity).
    split; [ exact X | ]. eapply in_group; [ exact X | rewrite E1; left; reflexivity ]. }
  split; [ apply G; reflexivity | ]. split; [ apply G; reflexivity | ].
  split; [ | split; [ | apply G; reflexivity ] ]; (eapply in_work; [ apply G; reflexivity | vm_compute; auto | vm_compute; reflexivity ]).
Qed.

(** The work, read back: its language, its texts, what they are in. *)
Definition part_back (cpt : bool) (k : kind) (j : nat) : option (store * result nat) :=
  match export cpt same_pairs same_order cpt_qname (if cpt then cpt_store else ex_store) 4 true j with
  | Ok text => option_map (fun d => parse_part same_order guesses no_ns k d blank) (read_document text)
  | Err _ => None
  end.
Example C76_work_example : exists s', part_back false KWork 2 = Some (s', Ok 0) /\
  language_is s' 0 #"lat" /\ c_parent (obj (s_state s') 0) = None /\
  children s' 0 = [(#"urn:cts:latinLit:phi1294.phi002.e1", 1); (#"urn:cts:latinLit:phi1294.phi002.t1", 2)] /\
  c_parent (obj (s_state s') 1) = Some 0 /\ language_is s' 1 #"lat" /\ language_is s' 2 #"eng".
Proof.
  eexists. split; [ vm_compute; reflexivity | ]. split; [ apply language_single; [ right | ]; vm_compute; reflexivity | ].
  split; [ reflexivity | ]. split; [ vm_compute; reflexivity | ]. split; [ reflexivity | ].
  split; apply language_single; try (left; eexists); vm_compute; reflexivity.
Qed.
Example C76_text_example : exists s', part_back false (KText Translation) 4 = Some (s', Ok 0) /\
  language_is s' 0 #"eng" /\ c_parent (obj (s_state s') 0) = None.
Proof.
  eexists. split; [ vm_compute; reflexivity | ]. split; [ apply language_single; [ left; eexists | ]; vm_compute; reflexivity | reflexivity ].
Qed.

(** An edition read on its own loses its language: it does not look at xml:lang,
    and there is no work to have it from.  The structured metadata of the
    CapiTainS export brings it back. *)
Theorem C76_edition_language_refuted :
  (language_is ex_store 3 #"lat" /\ exists s', part_back false (KText Edition) 3 = Some (s', Ok 0) /\ language_is s' 0 #"None") /\
  (language_is cpt_store 3 #"lat" /\ exists s', part_back true (KText Edition) 3 = Some (s', Ok 0) /\ language_is s' 0 #"lat").
Proof.
  split; (split; [ apply language_single; [ left; eexists | ]; vm_compute; reflexivity | ]); eexists; (split; [ vm_compute; reflexivity | ]).
  - intros o Hoo. unfold get_lang, g_objects.
    match goal with |- context [o ?l] => replace l with (@nil term) by (vm_compute; reflexivity) end.
    pose proof (Hoo []) as X. apply Permutation_nil in X. rewrite X. reflexivity.
  - apply language_single; [ left; eexists | ]; vm_compute; reflexivity.
Qed.
Print Assumptions C76_edition_language_refuted.
