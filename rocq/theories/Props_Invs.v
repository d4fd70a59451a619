(** Property C71: exporting a collection of inventories. *)

From Coq Require Import List NArith ZArith Arith Bool Lia Permutation.
From Verif Require Import PyStr PyStrFacts CiteSpec CiteModel XmlModel UrnModel MetaModel MetaSpec MetaProofs
  CollModel UtilModel UtilSpec XmlReadSpec InvModel InvSpec InvExport InvExportSpec InvExportTree InvExportCopy InvExportBack
  Props_Inv Props_InvExport InvsSpec InvsProofs.
From Verif Require Json TreeModel TreeSpec DtsModel JsonLdSpec DtsOutModel DtsOutSpec DtsOutMain Props_DtsOut InvsModel.
Import ListNotations.

(** ** C71: the CTS export of a collection of inventories that XML can carry is a
    document, and reading it makes one inventory with the identifier of the
    collection and copies of the textgroups of all its inventories, one
    inventory after the other, with their works and texts. *)
Theorem C71_round_trip : forall order, arranges order -> forall pairs qname s i fuel,
  portable_collection s i -> prefixes_fit qname s -> mentions_cts s -> 4 <= fuel ->
  exists text d,
    exported_answer false pairs order qname s fuel true i = Ok (Some text) /\ read_document text = Some d /\
    forall order', arranges order' -> forall leaf nsmap s0, receives_collection s i s0 ->
      exists s' i', parse_inventory order' leaf nsmap d s0 = (s', Ok i') /\ copy_collection s i s' i'.
Proof.
  intros order Ho pairs qname s i fuel P Hq M F.
  destruct (C58_round_trip order Ho pairs qname (joined s i) i fuel (portable_joined s i P) Hq M F) as (text & d & E & Rd & B).
  exists text, d. split; [ | split; [ exact Rd | ] ].
  - unfold exported_answer. rewrite (proj1 P).
    rewrite <- (root_written s i P pairs order qname fuel true), E. reflexivity.
  - intros order' Ho' leaf nsmap s0 R. destruct (B order' Ho' leaf nsmap s0 (received s i P s0 R)) as (s' & i' & E' & C).
    exists s', i'. split; [ exact E' | apply all_copied; assumption ].
Qed.
Print Assumptions C71_round_trip.

(** *** Two inventories *)
Definition greek_doc : XmlModel.node :=
  cel #"TextInventory" [(#"tiid", #"greek")] []
    [cel #"textgroup" [(#"urn", #"urn:cts:greekLit:tlg0012")] []
       [cel #"groupname" [lang_attr #"eng"] #"Homer" [];
        cel #"work" [(#"urn", #"urn:cts:greekLit:tlg0012.tlg001"); lang_attr #"grc"] []
          [cel #"title" [lang_attr #"eng"] #"Iliad" [];
           cel #"edition" [(#"urn", #"urn:cts:greekLit:tlg0012.tlg001.e1")] []
             [cel #"label" [lang_attr #"eng"] #"Iliad" []]]]].
(** A new collection that the inventories are put into. *)
Definition gather (s : store) (l : list nat) : store :=
  let '(st, r) := new_object (s_state s) KInventoryCollection #"both" [] in
  MkStore (fold_left (fun st i => set_parent st i r) l st) (s_cites s) (s_paths s).
Definition both_store : store := Eval vm_compute in
  gather (fst (parse_inventory same_order reader no_ns greek_doc ex_store)) [0; 5].

Example C71_portable_example : portable_collection both_store 9 /\ prefixes_fit ex_qname both_store /\ mentions_cts both_store /\
  receives_collection both_store 9 blank /\ receives_collection both_store 9 both_store.
Proof.
  split; [ | split; [ | split ] ].
  - split; [ vm_compute; reflexivity | ]. split; [ vm_compute; reflexivity | ]. split; [ apply plain_check; vm_compute; reflexivity | ].
    split; [ | vm_compute; repeat constructor; cbn; intros X; sweep X ].
    intros n v0 u g Hv Hg. vm_compute in Hv. destruct Hv as [Hv|[Hv|[]]]; injection Hv as <- <-;
      vm_compute in Hg; destruct Hg as [Hg|[]]; injection Hg as <- <-; (split; [ is_member | ]; split; [ facts | ]);
      intros v w Hw; vm_compute in Hw; destruct Hw as [Hw|[]]; injection Hw as <- <-; (split; [ is_member | ]; split; [ facts | ]).
    + assert (LW : language_is both_store 2 #"lat") by (apply language_single; [ right | ]; vm_compute; reflexivity).
      split; [ exists #"lat"; split; [ exact LW | apply plain_check; reflexivity ] | ].
      intros x t Ht. vm_compute in Ht. destruct Ht as [Ht|[Ht|[]]]; injection Ht as <- <-.
      * exists Edition, #"lat", #"lat". split; [ discriminate | ]. split; [ is_member | ]. split; [ facts | ].
        split; [ apply language_single; [ left; eexists | ]; vm_compute; reflexivity | ]. split; [ apply plain_check; reflexivity | ].
        split; [ exact LW | ]. split; [ auto | ].
        replace (cited both_store 3) with
          [(Some #"book", Some #"/TEI/body/div[@n='$1']"); (Some #"line", Some #"/TEI/body/div[@n='$1']//l[@n='$2']")]
          by (vm_compute; reflexivity).
        constructor; [ | constructor; [ | constructor ] ].
        -- exists #"book", [(1, #"TEI"); (1, #"body")], (1, #"div[@n='?']"). split; [ reflexivity | ]. split; [ discriminate | ].
           split; [ apply steps_wf; reflexivity | ].
           split; [ apply (Forall_inv (steps_wf [(1, #"div[@n='?']")] eq_refl)) | ]. split; apply plain_check; reflexivity.
        -- exists #"line", [(1, #"TEI"); (1, #"body"); (1, #"div[@n='?']")], (2, #"l[@n='?']"). split; [ reflexivity | ]. split; [ discriminate | ].
           split; [ apply steps_wf; reflexivity | ].
           split; [ apply (Forall_inv (steps_wf [(2, #"l[@n='?']")] eq_refl)) | ]. split; apply plain_check; reflexivity.
      * exists Translation, #"eng", #"lat". split; [ discriminate | ]. split; [ is_member | ]. split; [ facts | ].
        split; [ apply language_single; [ left; eexists | ]; vm_compute; reflexivity | ]. split; [ apply plain_check; reflexivity | ].
        split; [ exact LW | ]. split; [ discriminate | ].
        replace (cited both_store 4) with (@nil level) by (vm_compute; reflexivity). constructor.
    + assert (LW : language_is both_store 7 #"grc") by (apply language_single; [ right | ]; vm_compute; reflexivity).
      split; [ exists #"grc"; split; [ exact LW | apply plain_check; reflexivity ] | ].
      intros x t Ht. vm_compute in Ht. destruct Ht as [Ht|[]]; injection Ht as <- <-.
      exists Edition, #"grc", #"grc". split; [ discriminate | ]. split; [ is_member | ]. split; [ facts | ].
      split; [ apply language_single; [ left; eexists | ]; vm_compute; reflexivity | ]. split; [ apply plain_check; reflexivity | ].
      split; [ exact LW | ]. split; [ auto | ].
      replace (cited both_store 8) with (@nil level) by (vm_compute; reflexivity). constructor.
  - apply prefixes_check. vm_compute. reflexivity.
  - exists (URI #"urn:cts:latinLit:phi1294"), #"groupname", (Literal #"Martial" (Some #"eng") None). vm_compute. auto 40.
  - split; (split; [ discriminate | ]); [ intros u name o _ _ [] | auto ].
Qed.

Definition back_from (s : store) (i : nat) : option (store * result nat) :=
  match exported_answer false same_pairs same_order ex_qname s 4 true i with
  | Ok (Some text) => option_map (fun d => parse_inventory same_order reader no_ns d blank) (read_document text)
  | _ => None
  end.
Example C71_round_trip_example : exists s', back_from both_store 9 = Some (s', Ok 0) /\
  c_id (obj (s_state s') 0) = #"both" /\
  children s' 0 = [(#"urn:cts:latinLit:phi1294", 1); (#"urn:cts:greekLit:tlg0012", 5)] /\
  text_ids s' 6 = [#"urn:cts:greekLit:tlg0012.tlg001.e1"].
Proof. eexists. split; [ vm_compute; reflexivity | ]. split; [ vm_compute; reflexivity | ]. split; vm_compute; reflexivity. Qed.

(** ** When two inventories have the same textgroup it is written twice, and only
    the works of the first one are read. *)
Definition more_doc : XmlModel.node :=
  cel #"TextInventory" [(#"tiid", #"more")] []
    [cel #"textgroup" [(#"urn", #"urn:cts:latinLit:phi1294")] []
       [cel #"work" [(#"urn", #"urn:cts:latinLit:phi1294.phi001"); lang_attr #"lat"] []
          [cel #"edition" [(#"urn", #"urn:cts:latinLit:phi1294.phi001.e1")] [] []]]].
Theorem C71_repeated_refuted : exists s s', back_from s 9 = Some (s', Ok 0) /\
  In #"urn:cts:latinLit:phi1294.phi001.e1" (collection_ids s 9) /\
  inventory_ids s' 0 = inventory_ids ex_store 0 /\ ~ In #"urn:cts:latinLit:phi1294.phi001.e1" (inventory_ids s' 0).
Proof.
  let s := eval vm_compute in (gather (fst (parse_inventory same_order reader no_ns more_doc ex_store)) [0; 5]) in exists s.
  eexists. split; [ vm_compute; reflexivity | ]. split; [ vm_compute; tauto | ]. split; [ vm_compute; reflexivity | ].
  vm_compute. intros H. sweep H.
Qed.
Print Assumptions C71_repeated_refuted.

(** ** The CapiTainS export is announced and gives nothing: None, whatever the
    collection. *)
Theorem C71_capitains_refuted : forall pairs order qname s fuel ns i,
  c_kind (obj (s_state s) i) = KInventoryCollection ->
  exported_answer true pairs order qname s fuel ns i = Ok None.
Proof. intros pairs order qname s fuel ns i K. unfold exported_answer. rewrite K. reflexivity. Qed.
Print Assumptions C71_capitains_refuted.
Example C71_capitains_example : c_kind (obj (s_state both_store) 9) = KInventoryCollection.
Proof. vm_compute. reflexivity. Qed.

(** ** The DTS export.  A collection of several inventories, and any other
    collection, is found again in its document as C64 says. *)
Theorem C71_dts : forall name objects_order triples_order predicates_order qn to_python s i fuel,
  DtsOutSpec.texts name -> arranges objects_order -> arranges triples_order -> arranges predicates_order ->
  (c_kind (obj (s_state s) i) = KInventoryCollection -> 2 <= length (c_children (obj (s_state s) i))) ->
  DtsOutSpec.qualifies qn (DtsOutSpec.named (InvsModel.source_of s i)) ->
  DtsOutSpec.ready qn to_python (InvsModel.source_of s i) -> 2 <= fuel ->
  exists j e c,
    InvsModel.dts_export_of name objects_order triples_order predicates_order qn to_python s fuel i = Ok j /\
    JsonLdSpec.expand_document j = [e] /\ DtsModel.parse_coll e = Ok c /\
    DtsOutSpec.found name qn to_python (InvsModel.source_of s i) c.
Proof.
  intros name oo to po qn py s i fuel T O R P K Q X F. destruct fuel as [|[|fuel]]; [ lia | lia | ].
  destruct (Props_DtsOut.C64_round_trip name oo to po qn py (InvsModel.source_of s i) (S fuel) T O R P Q X) as (j & e & c & E & D & C & W); [ lia | ].
  exists j, e, c. split; [ | split; [ exact D | split; [ exact C | exact W ] ] ].
  cbn [InvsModel.dts_export_of]. destruct (c_kind (obj (s_state s) i)) eqn:Ki; try exact E.
  specialize (K eq_refl). unfold InvsModel.listed. rewrite Ki, map_length.
  replace (1 <? length (c_children (obj (s_state s) i))) with true by (symmetry; apply Nat.ltb_lt; lia). exact E.
Qed.
Print Assumptions C71_dts.

(** A collection of one inventory is exported as the inventory: the document has
    the identifier of the inventory, not of the collection; one of no inventory
    cannot be exported. *)
Theorem C71_dts_one_refuted : forall name objects_order triples_order predicates_order qn to_python s i n m fuel,
  DtsOutSpec.texts name -> arranges objects_order -> arranges triples_order -> arranges predicates_order ->
  c_kind (obj (s_state s) i) = KInventoryCollection -> c_children (obj (s_state s) i) = [(n, m)] ->
  c_kind (obj (s_state s) m) = KInventory -> c_id (obj (s_state s) m) <> c_id (obj (s_state s) i) ->
  DtsOutSpec.qualifies qn (DtsOutSpec.named (InvsModel.source_of s m)) ->
  DtsOutSpec.ready qn to_python (InvsModel.source_of s m) -> 3 <= fuel ->
  exists j e c,
    InvsModel.dts_export_of name objects_order triples_order predicates_order qn to_python s fuel i = Ok j /\
    JsonLdSpec.expand_document j = [e] /\ DtsModel.parse_coll e = Ok c /\
    DtsModel.co_id c = c_id (obj (s_state s) m) /\ DtsModel.co_id c <> c_id (obj (s_state s) i) /\
    DtsOutSpec.found name qn to_python (InvsModel.source_of s m) c.
Proof.
  intros name oo to po qn py s i n m fuel T O R P K Ch Km N Q X F. destruct fuel as [|fuel]; [ lia | ].
  destruct (C71_dts name oo to po qn py s m fuel T O R P) as (j & e & c & E & D & C & W); [ congruence | exact Q | exact X | lia | ].
  assert (I : DtsModel.co_id c = c_id (obj (s_state s) m)) by (destruct W as [[I _ _ _ _ _] _ _ _]; exact I).
  exists j, e, c. split; [ | split; [ exact D | split; [ exact C | split; [ exact I | split; [ congruence | exact W ] ] ] ] ].
  cbn [InvsModel.dts_export_of]. unfold InvsModel.listed. rewrite K, Ch. exact E.
Qed.
Print Assumptions C71_dts_one_refuted.

Theorem C71_dts_none_refuted : forall name objects_order triples_order predicates_order qn to_python s i fuel,
  c_kind (obj (s_state s) i) = KInventoryCollection -> c_children (obj (s_state s) i) = [] -> 1 <= fuel ->
  InvsModel.dts_export_of name objects_order triples_order predicates_order qn to_python s fuel i = Err IndexError.
Proof.
  intros name oo to po qn py s i fuel K Ch F. destruct fuel as [|fuel]; [ lia | ].
  cbn [InvsModel.dts_export_of]. unfold InvsModel.listed. rewrite K, Ch. reflexivity.
Qed.
Print Assumptions C71_dts_none_refuted.

(** An object that says something by an address, as a commentary says what it is about
    (collections/cts.py line 179), is exported and cannot be read; the others can. *)
Theorem C71_dts_link_refuted : forall name objects_order triples_order predicates_order qn to_python s i fuel,
  DtsOutSpec.texts name -> arranges objects_order -> arranges triples_order -> arranges predicates_order ->
  c_kind (obj (s_state s) i) <> KInventoryCollection ->
  DtsOutSpec.qualifies qn (DtsOutSpec.named (InvsModel.source_of s i)) ->
  DtsOutSpec.ready_links qn to_python (InvsModel.source_of s i) -> 2 <= fuel ->
  exists j e, InvsModel.dts_export_of name objects_order triples_order predicates_order qn to_python s fuel i = Ok j /\
    JsonLdSpec.expand_document j = [e] /\
    (DtsOutSpec.links qn (InvsModel.source_of s i) -> DtsModel.parse_coll e = Err KeyError) /\
    (~ DtsOutSpec.links qn (InvsModel.source_of s i) -> exists c, DtsModel.parse_coll e = Ok c).
Proof.
  intros name oo to po qn py s i fuel T O R P K Q X F. destruct fuel as [|[|fuel]]; [ lia | lia | ].
  assert (E : InvsModel.dts_export_of name oo to po qn py s (S (S fuel)) i = DtsOutModel.dts_export name oo to po qn py (S fuel) (InvsModel.source_of s i)).
  { cbn [InvsModel.dts_export_of]. destruct (c_kind (obj (s_state s) i)); try reflexivity. contradiction. }
  rewrite E.
  destruct (Props_DtsOut.C64_exported name oo to po qn py (InvsModel.source_of s i) (S fuel) T O R P Q X) as (j & e & D1 & D2); [ lia | ].
  exists j, e. split; [ exact D1 | ]. split; [ exact D2 | ]. split.
  - intros L. destruct (Props_DtsOut.C64_link_refuted name oo to po qn py (InvsModel.source_of s i) (S fuel) T O R P Q X) as (j' & e' & E1 & E2 & E3); [ lia | exact L | ].
    rewrite D1 in E1. injection E1 as <-. rewrite D2 in E2. injection E2 as <-. exact E3.
  - intros L. destruct (proj2 (Props_DtsOut.C64_readable name oo to po qn py (InvsModel.source_of s i) (S fuel) T O R P Q X ltac:(lia)) L) as (j' & e' & c & E1 & E2 & E3).
    rewrite D1 in E1. injection E1 as <-. rewrite D2 in E2. destruct E2 as [<-|[]]. exists c. exact E3.
Qed.
Print Assumptions C71_dts_link_refuted.

(** *** Two inventories and a collection of them, and one of the first only *)
Module Shelves.
Import Json TreeModel DtsModel DtsOutModel DtsOutSpec DtsOutMain Props_DtsOut InvsModel.
Definition described (u t : str) (label : str) : MetaModel.graph :=
  [(URI u, URI rdf_type, Props_DtsOut.cts t); (URI u, URI (dts #"model"), URI (dts #"collection"));
   (URI u, URI DtsOutSpec.rdfs_label, Literal label (Some #"eng") None); (URI u, Props_DtsOut.cts #"name", Literal label (Some #"eng") None)].
Definition shelves : store :=
  MkStore (MkState
    [MkColl KInventoryCollection #"urn:all" [] None [(#"urn:a", 1); (#"urn:b", 2)] 0;
     MkColl KInventory #"urn:a" [] (Some 0) [] 0; MkColl KInventory #"urn:b" [] (Some 0) [] 0;
     MkColl KInventoryCollection #"urn:one" [] None [(#"urn:a", 1)] 0; MkColl KInventoryCollection #"urn:none" [] None [] 0]
    [described #"urn:all" #"CtsTextInventoryCollection" #"All" ++ described #"urn:a" #"TextInventory" #"Latin" ++
     described #"urn:b" #"TextInventory" #"Greek"]) [] [].
Definition shelf_names : list str :=
  map hydra hydra_words ++ map dts dts_words ++
  [rdf_type; DtsOutSpec.rdfs_label; #"http://chs.harvard.edu/xmlns/cts/CtsTextInventoryCollection"; #"http://chs.harvard.edu/xmlns/cts/TextInventory";
   #"http://chs.harvard.edu/xmlns/cts/name"].

Ltac cases I :=
  repeat match type of I with
         | _ \/ _ => destruct I as [I|I]
         | False => destruct I
         end; try discriminate I.
Ltac spread I := cbn [In source_of brief_of listed shelves s_state obj nth objs graphs CollModel.c_kind CollModel.c_children c_graph c_id map snd length Z.of_nat
  b_graph x_brief b_id x_members described app] in I; cases I.

Lemma shelves_named : forall i u, In i [0; 1] -> named (source_of shelves i) u -> In u shelf_names.
Proof.
  intros i u Hi [u' o I|b u' B I|w W|w W].
  - destruct Hi as [<-|[<-|[]]]; spread I; injection I as <- <-; member.
  - destruct Hi as [<-|[<-|[]]]; spread B; subst b; spread I; injection I as <-; member.
  - unfold shelf_names. apply in_or_app. left. apply in_map, W.
  - unfold shelf_names. apply in_or_app. right. apply in_or_app. left. apply in_map, W.
Qed.
Lemma shelves_qualified : forall i, In i [0; 1] -> qualifies by_prefix (named (source_of shelves i)).
Proof.
  intros i Hi. apply (qualified_by_check _ _ shelf_names (fun u => shelves_named i u Hi)).
  - vm_compute. reflexivity.
  - vm_compute. reflexivity.
  - intros w W. cbn [In hydra_words] in W. repeat (destruct W as [<-|W]; [ reflexivity | ]). destruct W.
  - intros w W. cbn [In dts_words] in W. repeat (destruct W as [<-|W]; [ reflexivity | ]). destruct W.
Qed.
Lemma shelves_ready : forall i, In i [0; 1] -> ready by_prefix python (source_of shelves i).
Proof.
  intros i Hi.
  assert (NB : forall s l d, ~ is_blank (Literal s l d)) by (intros s l d [n E]; discriminate).
  assert (NU : forall s, ~ is_blank (URI s)) by (intros s [n E]; discriminate).
  assert (TC : forall w, ns_of by_prefix w = #"http://chs.harvard.edu/xmlns/cts/" -> type_declared by_prefix (source_of shelves i) w).
  { intros w W. right. destruct Hi as [<-|[<-|[]]]; eexists #"http://chs.harvard.edu/xmlns/cts/name", _;
      (split; [ vm_compute; member | ]; split; [ apply NB | ]; split; [ symmetry; exact W | ];
       apply is_in_not; reflexivity). }
  constructor.
  - assert (D : forall l : MetaModel.graph, (fix go (l : MetaModel.graph) := match l with [] => true | t :: l' => negb (existsb (triple_eqb t) l') && go l' end) l = true -> NoDup l).
    { induction l as [|t l IH]; intros H; constructor; apply andb_true_iff in H as [H1 H2].
      - intros I. apply negb_true_iff in H1. rewrite (proj2 (existsb_exists _ _)) in H1; [ discriminate | ].
        exists t. split; [ exact I | apply MetaProofs.triple_eqb_eq; reflexivity ].
      - apply IH, H2. }
    destruct Hi as [<-|[<-|[]]]; apply D; vm_compute; reflexivity.
  - intros p o I. destruct Hi as [<-|[<-|[]]]; spread I; injection I as <- <-; eexists; reflexivity.
  - intros u o I N R. destruct Hi as [<-|[<-|[]]]; spread I; injection I as <- <-;
      first [ exact Logic.I | (exfalso; apply R; apply is_in_In; vm_compute; reflexivity) ].
  - destruct Hi as [<-|[<-|[]]]; exists (dts #"model"), (URI (dts #"collection")); (split; [ vm_compute; member | ]; split; [ apply NU | reflexivity ]).
  - intros b B. destruct Hi as [<-|[<-|[]]]; spread B; subst b; constructor;
      try (intros; discriminate);
      try (intros t I; spread I; injection I as <-; eexists; split; [ reflexivity | apply TC; vm_compute; reflexivity ]);
      try solve [ intros o I; spread I ];
      try (eexists; vm_compute; member);
      (intros u r U; apply shelves_named in U; [ | cbn [In]; auto ]; unfold shelf_names in U; cbn [map app In hydra_words dts_words] in U;
       repeat (destruct U as [<-|U]; [ vm_compute; discriminate | ]); destruct U).
Qed.
Lemma plain_texts : texts plain_name.
Proof. split; reflexivity. Qed.

Definition out := dts_export_of plain_name (fun l => l) (fun l => l) (fun l => l) by_prefix python shelves.
Example C71_dts_example : exists j e c, out 2 0 = Ok j /\ JsonLdSpec.expand_document j = [e] /\ parse_coll e = Ok c /\
  found plain_name by_prefix python (source_of shelves 0) c /\ co_id c = #"urn:all" /\ map co_id (co_members c) = [#"urn:a"; #"urn:b"].
Proof.
  destruct (C71_dts plain_name (fun l => l) (fun l => l) (fun l => l) by_prefix python shelves 0 2) as (j & e & c & E & D & C & W);
    try (intros l; apply Permutation_refl); [ exact plain_texts | cbn; lia | apply shelves_qualified; cbn; auto | apply shelves_ready; cbn; auto | lia | ].
  exists j, e, c. split; [ exact E | ]. split; [ exact D | ]. split; [ exact C | ]. split; [ exact W | ].
  destruct W as [[I _ _ _ _ _] _ [_ M] _]. split; [ exact I | ]. specialize (M ltac:(discriminate)).
  inversion M as [|? y1 ? t1 [[I1 _ _ _ _ _] _] M1]; subst. inversion M1 as [|? y2 ? t2 [[I2 _ _ _ _ _] _] M2]; subst. inversion M2; subst.
  cbn [map]. rewrite I1, I2. reflexivity.
Qed.
Example C71_dts_one_example : exists j e c, out 3 3 = Ok j /\ JsonLdSpec.expand_document j = [e] /\ parse_coll e = Ok c /\
  co_id c = #"urn:a" /\ co_id c <> #"urn:one" /\ found plain_name by_prefix python (source_of shelves 1) c.
Proof.
  apply (C71_dts_one_refuted plain_name (fun l => l) (fun l => l) (fun l => l) by_prefix python shelves 3 #"urn:a" 1 3);
    try (intros l; apply Permutation_refl); try reflexivity; [ exact plain_texts | discriminate | apply shelves_qualified; cbn; auto | apply shelves_ready; cbn; auto ].
Qed.
Example C71_dts_none_example : out 1 4 = Err IndexError.
Proof. apply C71_dts_none_refuted; [ reflexivity | reflexivity | lia ]. Qed.

(** A commentary on the Epigrams. *)
Definition notes : store :=
  MkStore (MkState [MkColl (KText Commentary) #"urn:c" [] None [] 0]
    [described #"urn:c" #"commentary" #"Notes" ++ [(URI #"urn:c", Props_DtsOut.cts #"about", URI #"urn:cts:latinLit:phi1294.phi002")]]) [] [].
Definition note_names : list str :=
  map hydra hydra_words ++ map dts dts_words ++
  [rdf_type; DtsOutSpec.rdfs_label; #"http://chs.harvard.edu/xmlns/cts/commentary"; #"http://chs.harvard.edu/xmlns/cts/name"; #"http://chs.harvard.edu/xmlns/cts/about"].
Ltac spread_note I := cbn [In source_of brief_of listed notes s_state obj nth objs graphs CollModel.c_kind CollModel.c_children c_graph c_id map snd length Z.of_nat
  b_graph x_brief b_id x_members described app] in I; cases I.
Lemma notes_named : forall u, named (source_of notes 0) u -> In u note_names.
Proof.
  intros u [u' o I|b u' B I|w W|w W].
  - spread_note I; injection I as <- <-; member.
  - spread_note B; subst b; spread_note I; injection I as <-; member.
  - unfold note_names. apply in_or_app. left. apply in_map, W.
  - unfold note_names. apply in_or_app. right. apply in_or_app. left. apply in_map, W.
Qed.
Lemma notes_qualified : qualifies by_prefix (named (source_of notes 0)).
Proof.
  apply (qualified_by_check _ _ note_names notes_named).
  - vm_compute. reflexivity.
  - vm_compute. reflexivity.
  - intros w W. cbn [In hydra_words] in W. repeat (destruct W as [<-|W]; [ reflexivity | ]). destruct W.
  - intros w W. cbn [In dts_words] in W. repeat (destruct W as [<-|W]; [ reflexivity | ]). destruct W.
Qed.
Lemma notes_ready : ready_links by_prefix python (source_of notes 0).
Proof.
  assert (NB : forall s l d, ~ is_blank (Literal s l d)) by (intros s l d [n E]; discriminate).
  assert (NU : forall s, ~ is_blank (URI s)) by (intros s [n E]; discriminate).
  assert (TC : forall w, ns_of by_prefix w = #"http://chs.harvard.edu/xmlns/cts/" -> type_declared by_prefix (source_of notes 0) w).
  { intros w W. right. eexists #"http://chs.harvard.edu/xmlns/cts/name", _.
    split; [ vm_compute; member | ]; split; [ apply NB | ]; split; [ symmetry; exact W | ]. apply is_in_not; reflexivity. }
  constructor.
  - assert (D : forall l : MetaModel.graph, (fix go (l : MetaModel.graph) := match l with [] => true | t :: l' => negb (existsb (triple_eqb t) l') && go l' end) l = true -> NoDup l).
    { induction l as [|t l IH]; intros H; constructor; apply andb_true_iff in H as [H1 H2].
      - intros I. apply negb_true_iff in H1. rewrite (proj2 (existsb_exists _ _)) in H1; [ discriminate | ].
        exists t. split; [ exact I | apply MetaProofs.triple_eqb_eq; reflexivity ].
      - apply IH, H2. }
    apply D; vm_compute; reflexivity.
  - intros p o I. spread_note I; injection I as <- <-; eexists; reflexivity.
  - intros u o I N R. spread_note I; injection I as <- <-;
      first [ left; exact Logic.I | (exfalso; apply R; apply is_in_In; vm_compute; reflexivity) | right; eexists; reflexivity ].
  - exists (dts #"model"), (URI (dts #"collection")); (split; [ vm_compute; member | ]; split; [ apply NU | reflexivity ]).
  - intros b B. spread_note B; subst b; constructor;
      try (intros; discriminate);
      try (intros t I; spread_note I; injection I as <-; eexists; split; [ reflexivity | apply TC; vm_compute; reflexivity ]);
      try solve [ intros o I; spread_note I ];
      try (eexists; vm_compute; member);
      (intros u r U; apply notes_named in U; unfold note_names in U; cbn [map app In hydra_words dts_words] in U;
       repeat (destruct U as [<-|U]; [ vm_compute; discriminate | ]); destruct U).
Qed.
Example C71_dts_link_example : links by_prefix (source_of notes 0) /\ exists j e,
  dts_export_of plain_name (fun l => l) (fun l => l) (fun l => l) by_prefix python notes 2 0 = Ok j /\ JsonLdSpec.expand_document j = [e] /\ parse_coll e = Err KeyError.
Proof.
  assert (L : links by_prefix (source_of notes 0)).
  { exists #"http://chs.harvard.edu/xmlns/cts/about", #"urn:cts:latinLit:phi1294.phi002". split; [ vm_compute; member | ]. apply is_in_not. reflexivity. }
  split; [ exact L | ].
  destruct (C71_dts_link_refuted plain_name (fun l => l) (fun l => l) (fun l => l) by_prefix python notes 0 2) as (j & e & E & D & C & _);
    try (intros l; apply Permutation_refl); [ exact plain_texts | discriminate | exact notes_qualified | exact notes_ready | lia | ].
  exists j, e. split; [ exact E | ]. split; [ exact D | exact (C L) ].
Qed.
End Shelves.
