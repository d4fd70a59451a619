(** Property C58: exporting an inventory and reading it back. *)

From Coq Require Import List NArith ZArith Arith Bool Lia Permutation.
From Verif Require Import PyStr PyStrFacts CiteSpec CiteModel XmlModel UrnModel MetaModel MetaSpec MetaProofs
  CollModel UtilModel UtilSpec XmlReadSpec InvModel InvSpec InvExport InvExportSpec InvExportTree InvExportCopy InvExportBack
  Props_Inv.
Import ListNotations.

(** ** C58: an inventory that XML can carry is exported to a document, and
    reading the document makes an inventory with the same textgroups, works and
    texts under the same identifiers, the same titles, labels, descriptions and
    links, languages and citations.  [fuel] is Python's recursion limit; the
    copy may be read into a new store or into one that already has the same
    things (the same process). *)
Theorem C58_round_trip : forall order, arranges order -> forall pairs qname s i fuel,
  portable s i -> prefixes_fit qname s -> mentions_cts s -> 4 <= fuel ->
  exists text d,
    export false pairs order qname s fuel true i = Ok text /\ read_document text = Some d /\
    forall order', arranges order' -> forall leaf nsmap s0, receives s i s0 ->
      exists s' i', parse_inventory order' leaf nsmap d s0 = (s', Ok i') /\ copy_inventory s i s' i'.
Proof.
  intros order Ho pairs qname s i fuel P Hq M F. rewrite (export_pairs pairs (fun l => l)).
  assert (Hp : arranges (fun l : list (term * term) => l)) by (intros l; reflexivity).
  set (pr := fun l : list (term * term) => l) in *.
  assert (Hd : false = true -> describable qname s i) by discriminate.
  assert (Hs : false = true -> forall u p o, told s i u -> In (URI u, p, o) (main_graph s) -> carried qname p -> writable_statement qname s p o) by discriminate.
  destruct (exported_document false pr Hp order Ho qname s Hq i P Hd M fuel F) as (x & E & Rd).
  exists x, (doc false pr order qname s i). split; [ exact E | ]. split; [ exact Rd | ].
  intros order' Ho' leaf nsmap s0 R.
  destruct (read_again false pr Hp order Ho qname s Hq i P Hd order' Ho' leaf nsmap (fun t => GText t) ltac:(discriminate) ltac:(discriminate) s0 R)
    as (s' & i' & E' & B & _). eauto.
Qed.
Print Assumptions C58_round_trip.

(** Reading changes none of the objects that were there: the original is still
    the same, and so it is when it is read into its own store. *)
Theorem C58_original : forall order, arranges order -> forall pairs qname s i fuel text d order' leaf nsmap s' i',
  portable s i -> prefixes_fit qname s -> mentions_cts s -> 4 <= fuel ->
  export false pairs order qname s fuel true i = Ok text -> read_document text = Some d -> arranges order' ->
  parse_inventory order' leaf nsmap d s = (s', Ok i') ->
  copy_inventory s i s' i' /\
  forall j, j < length (objs (s_state s)) ->
    obj (s_state s') j = obj (s_state s) j /\ citation_of s' j = citation_of s j.
Proof.
  intros order Ho pairs qname s i fuel text d order' leaf nsmap s' i' P Hq M F E1 E2 Ho' E3.
  rewrite (export_pairs pairs (fun l => l)) in E1.
  assert (Hp : arranges (fun l : list (term * term) => l)) by (intros l; reflexivity).
  set (pr := fun l : list (term * term) => l) in *.
  assert (Hd : false = true -> describable qname s i) by discriminate.
  destruct (exported_document false pr Hp order Ho qname s Hq i P Hd M fuel F) as (x & E & Rd).
  rewrite E1 in E. injection E as <-. rewrite E2 in Rd. injection Rd as ->.
  assert (G : graphs (s_state s) <> []).
  { destruct M as (n & name & o & H). unfold main_graph in H. destruct (graphs (s_state s)); [ destruct H | discriminate ]. }
  destruct (read_again false pr Hp order Ho qname s Hq i P Hd order' Ho' leaf nsmap (fun t => GText t) ltac:(discriminate) ltac:(discriminate) s)
    as (s2 & i2 & X4 & X5 & _ & X6); [ split; [ exact G | auto ] | ].
  rewrite E3 in X4. injection X4 as <- <-. split; [ exact X5 | exact X6 ].
Qed.
Print Assumptions C58_original.

(** ** An inventory to export *)
Definition ex_doc : XmlModel.node :=
  cel #"TextInventory" [(#"tiid", #"small")] []
    [cel #"textgroup" [(#"urn", #"urn:cts:latinLit:phi1294")] []
       [cel #"groupname" [lang_attr #"eng"] #"Martial" [];
        cel #"work" [(#"urn", #"urn:cts:latinLit:phi1294.phi002"); lang_attr #"lat"] []
          [cel #"translation" [(#"urn", #"urn:cts:latinLit:phi1294.phi002.t1"); lang_attr #"eng"] []
             [cel #"about" [(#"urn", #"urn:cts:latinLit:phi1294.phi002.e1")] [] []];
           cel #"edition" [(#"urn", #"urn:cts:latinLit:phi1294.phi002.e1")] []
             [cel #"label" [lang_attr #"eng"] #"Epigrams & <more>" [];
              cel #"online" [] []
                [cel #"citationMapping" [] []
                   [cel #"citation" [(#"label", #"book"); (#"scope", #"/TEI/body"); (#"xpath", #"/div[@n='?']")] []
                      [cel #"citation" [(#"label", #"line"); (#"scope", #"/TEI/body/div[@n='?']"); (#"xpath", #"//l[@n='?']")] [] []]]]]]]].
Definition ex_store : store := Eval vm_compute in fst (parse_inventory same_order (fun e => GText (n_text e)) no_ns ex_doc blank).
Example ex_store_read : parse_inventory same_order (fun e => GText (n_text e)) no_ns ex_doc blank = (ex_store, Ok 0).
Proof. vm_compute. reflexivity. Qed.
Definition ex_prefixes : list (str * str) :=
  [(#"rdf", #"http://www.w3.org/1999/02/22-rdf-syntax-ns#"); (#"rdfs", #"http://www.w3.org/2000/01/rdf-schema#");
   (#"skos", #"http://www.w3.org/2004/02/skos/core#"); (#"dc", #"http://purl.org/dc/elements/1.1/");
   (#"dts", #"https://w3id.org/dts/api#"); (#"cpt", #"http://purl.org/capitains/ns/1.0#");
   ([], #"http://chs.harvard.edu/xmlns/cts/")].
Definition ex_qname (p : term) : str * str :=
  match p with
  | URI u => match find (fun e => startswith u (snd e)) ex_prefixes with Some e => e | None => (#"ns1", #"http://example.org/") end
  | _ => (#"ns1", #"http://example.org/")
  end.


Definition cts_ns : str := #"http://chs.harvard.edu/xmlns/cts/".
Lemma plain_check : forall v, forallb (fun c => xml_char c && negb (mem c [34; 38; 60; 9; 10; 13]%N)) v = true -> plain_value v.
Proof.
  intros v H c Hc. rewrite forallb_forall in H. apply H in Hc. apply andb_true_iff in Hc as [H1 H2]. split; [ exact H1 | ].
  intros I. apply mem_In in I. rewrite I in H2. discriminate.
Qed.
Lemma text_check : forall v, forallb (fun c => xml_char c && negb (c =? 13)%N) v = true -> writable_text v.
Proof.
  intros v H c Hc. rewrite forallb_forall in H. apply H in Hc. apply andb_true_iff in Hc as [H1 H2]. split; [ exact H1 | ].
  intros ->. discriminate.
Qed.
Lemma name_check : forall v, v <> [] -> forallb name_char v = true -> is_name v.
Proof. intros v N H. split; [ exact N | ]. intros c Hc. rewrite forallb_forall in H. apply H, Hc. Qed.

Definition plainb (v : str) : bool := forallb (fun c => xml_char c && negb (mem c [34; 38; 60; 9; 10; 13]%N)) v.
Definition textb (v : str) : bool := forallb (fun c => xml_char c && negb (c =? 13)%N) v.
Lemma facts_check : forall s k u,
  forallb (fun t : term * term * term =>
    let '(n, p, o) := t in
    if term_eqb n (URI u) then
      (if existsb (fun name => term_eqb p (cts name)) (match k with KText _ => [#"label"; #"description"] | KWork => [#"title"] | KTextgroup => [#"groupname"] | _ => [] end)
       then match o with Literal t (Some l) None => negb (str_eqb t []) && negb (str_eqb l []) && plainb l && textb t | _ => false end
       else true) &&
      (if match k with KText _ => term_eqb p (cts #"about") | _ => false end then match o with URI v => plainb v | _ => false end else true)
    else true) (main_graph s) = true -> writable_facts s k u.
Proof.
  intros s k u H. rewrite forallb_forall in H. split.
  - intros name o Hp Hin. apply H in Hin. rewrite (proj2 (term_eqb_eq _ _) eq_refl) in Hin. apply andb_true_iff in Hin as [A _].
    match type of A with (if existsb ?f ?l then _ else _) = true => assert (E : existsb f l = true) end.
    { apply existsb_exists. exists name. split; [ destruct Hp; cbn [In]; auto | apply term_eqb_eq; reflexivity ]. }
    rewrite E in A. destruct o as [?|?|t [l|] [d|]]; try discriminate A.
    repeat apply andb_true_iff in A as [A ?]. exists t, l. split; [ reflexivity | ].
    split; [ intros ->; discriminate | ]. split; [ intros ->; discriminate | ]. split; [ apply plain_check | apply text_check ]; assumption.
  - intros name o [[sub ->] ->] Hin. apply H in Hin. rewrite (proj2 (term_eqb_eq _ _) eq_refl) in Hin. apply andb_true_iff in Hin as [_ A].
    rewrite (proj2 (term_eqb_eq _ _) eq_refl) in A. destruct o as [v| |]; try discriminate A. exists v. split; [ reflexivity | apply plain_check, A ].
Qed.

Lemma prefixes_check : forall qname s,
  forallb (fun t : term * term * term => let '(_, p, _) := t in let '(prefix, ns) := qname p in
    match p with
    | URI u =>
        if str_eqb prefix [] then startswith u cts_ns && str_eqb ns cts_ns
        else negb (startswith u cts_ns) && forallb UtilSpec.name_char prefix && negb (mem 58%N prefix)
             && forallb (fun c => xml_char c && negb (mem c [34; 38; 60; 9; 10; 13]%N)) ns && negb (str_eqb ns cts_ns)
    | _ => false
    end) (main_graph s) = true -> prefixes_fit qname s.
Proof.
  intros qname s H n p o Hin. rewrite forallb_forall in H. apply H in Hin. clear H.
  destruct (qname p) as [prefix ns]. destruct p as [u| |]; try discriminate Hin.
  assert (C : (exists name, URI u = cts name) <-> startswith u cts_ns = true).
  { rewrite startswith_spec. unfold cts. split; intros [name E]; exists name; [ injection E as E; exact E | f_equal; exact E ]. }
  destruct (str_eqb_spec prefix []) as [E|E].
  - apply andb_true_iff in Hin as [A B]. apply str_eqb_eq in B. split; [ split; auto; intros _; apply C; exact A | ].
    split; [ intros _; exact B | intros X; contradiction ].
  - apply andb_true_iff in Hin as [Hin N]. apply andb_true_iff in Hin as [Hin P]. apply andb_true_iff in Hin as [Hin M].
    apply andb_true_iff in Hin as [S L]. apply negb_true_iff in S. apply negb_true_iff in M. apply negb_true_iff in N. apply str_eqb_neq in N.
    split; [ split; [ contradiction | intros X; apply C in X; congruence ] | ]. split; [ contradiction | ]. intros _.
    split; [ apply name_check; assumption | ]. split; [ intros X; apply mem_In in X; congruence | ].
    split; [ apply plain_check; exact P | exact N ].
Qed.

Lemma language_single : forall s j l, (exists k, c_kind (obj (s_state s) j) = KText k) \/ c_kind (obj (s_state s) j) = KWork ->
  map snd (filter (matches (Some (CollModel.node (obj (s_state s) j))) (Some dc_language) None)
             (nth (c_graph (obj (s_state s) j)) (graphs (s_state s)) [])) = [Literal l None None] ->
  language_is s j l.
Proof.
  intros s j l K E order Ho. unfold get_lang.
  replace (match c_kind (obj (s_state s) j) with KText _ | KWork => Ok match hd_error (g_objects order (CollModel.node (obj (s_state s) j)) dc_language
                 (nth (c_graph (obj (s_state s) j)) (graphs (s_state s)) [])) with Some t => text_of t | None => #"None" end | _ => Err AttributeError end)
    with (@Ok str match hd_error (g_objects order (CollModel.node (obj (s_state s) j)) dc_language
                 (nth (c_graph (obj (s_state s) j)) (graphs (s_state s)) [])) with Some t => text_of t | None => #"None" end)
    by (destruct K as [[k ->]| ->]; reflexivity).
  unfold g_objects. rewrite E. pose proof (Ho [Literal l None None]) as X. apply Permutation_length_1_inv in X. rewrite X. reflexivity.
Qed.

Definition ex_steps : list (nat * str) := [(1, #"TEI"); (1, #"body"); (1, #"div[@n='?']")].
Lemma steps_wf : forall l, forallb (fun st => (1 <=? fst st) && negb (str_eqb (snd st) [])
    && forallb (fun c => negb (N.eqb c c_dollar) && (N.eqb c c_qmark || step_symbol c)) (snd st)
    && (fix go s := match s with
                    | [] => true
                    | c :: s' => (negb (N.eqb c c_qmark) || match s' with d :: _ => negb (is_digit d) | [] => true end) && go s'
                    end) (snd st)) l = true -> Forall wf_step l.
Proof.
  intros l H. rewrite forallb_forall in H. apply Forall_forall. intros [n t] Hin. apply H in Hin. cbn [fst snd] in Hin.
  apply andb_true_iff in Hin as [Hin H4]. apply andb_true_iff in Hin as [Hin H3]. apply andb_true_iff in Hin as [H1 H2].
  split; [ apply Nat.leb_le; exact H1 | ]. split; [ intros E; cbn in E; subst; discriminate | ]. split.
  - intros c Hc. rewrite forallb_forall in H3. apply H3 in Hc. apply andb_true_iff in Hc as [A B].
    split; [ intros ->; discriminate | ]. apply orb_true_iff in B as [B|B]; [ left; apply N.eqb_eq; exact B | right; exact B ].
  - cbn [snd]. clear -H4. induction t as [|c t IH]; [ exact I | ]. apply andb_true_iff in H4 as [A B]. split; [ | apply IH; exact B ].
    intros ->. cbn in A. destruct t; [ exact I | ]. apply negb_true_iff in A. exact A.
Qed.

Ltac sweep H :=
  match type of H with
  | False => destruct H
  | _ \/ _ => destruct H as [H|H]; sweep H
  | _ => try discriminate H
  end.

Ltac is_member := split; [ vm_compute; reflexivity | split; [ vm_compute; reflexivity | split; [ vm_compute; reflexivity | split; [ vm_compute; reflexivity | split;
  [ apply plain_check; vm_compute; reflexivity | eexists; split; vm_compute; reflexivity ] ] ] ] ].
Ltac facts := apply facts_check; vm_compute; reflexivity.

Example C58_portable_example : portable ex_store 0 /\ prefixes_fit ex_qname ex_store /\ mentions_cts ex_store /\
  receives ex_store 0 blank /\ receives ex_store 0 ex_store.
Proof.
  split; [ | split; [ | split ] ].
  - split; [ vm_compute; reflexivity | ]. split; [ vm_compute; reflexivity | ]. split; [ apply plain_check; vm_compute; reflexivity | ].
    split; [ | vm_compute; repeat constructor; cbn; intros X; sweep X ].
    intros u g Hg. vm_compute in Hg. destruct Hg as [Hg|[]]. injection Hg as <- <-.
    split; [ is_member | ]. split; [ facts | ].
    intros v w Hw. vm_compute in Hw. destruct Hw as [Hw|[]]. injection Hw as <- <-.
    split; [ is_member | ]. split; [ facts | ].
    assert (LW : language_is ex_store 2 #"lat") by (apply language_single; [ right | ]; vm_compute; reflexivity).
    split; [ exists #"lat"; split; [ exact LW | apply plain_check; reflexivity ] | ].
    intros x t Ht. vm_compute in Ht. destruct Ht as [Ht|[Ht|[]]]; injection Ht as <- <-.
    + exists Edition, #"lat", #"lat". split; [ discriminate | ]. split; [ is_member | ]. split; [ facts | ].
      split; [ apply language_single; [ left; eexists | ]; vm_compute; reflexivity | ]. split; [ apply plain_check; reflexivity | ].
      split; [ exact LW | ]. split; [ auto | ].
      replace (cited ex_store 3) with
        [(Some #"book", Some #"/TEI/body/div[@n='$1']"); (Some #"line", Some #"/TEI/body/div[@n='$1']//l[@n='$2']")]
        by (vm_compute; reflexivity).
      constructor; [ | constructor; [ | constructor ] ].
      * exists #"book", [(1, #"TEI"); (1, #"body")], (1, #"div[@n='?']"). split; [ reflexivity | ]. split; [ discriminate | ].
        split; [ apply steps_wf; reflexivity | ].
        split; [ apply (Forall_inv (steps_wf [(1, #"div[@n='?']")] eq_refl)) | ]. split; apply plain_check; reflexivity.
      * exists #"line", [(1, #"TEI"); (1, #"body"); (1, #"div[@n='?']")], (2, #"l[@n='?']"). split; [ reflexivity | ]. split; [ discriminate | ].
        split; [ apply steps_wf; reflexivity | ].
        split; [ apply (Forall_inv (steps_wf [(2, #"l[@n='?']")] eq_refl)) | ]. split; apply plain_check; reflexivity.
    + exists Translation, #"eng", #"lat". split; [ discriminate | ]. split; [ is_member | ]. split; [ facts | ].
      split; [ apply language_single; [ left; eexists | ]; vm_compute; reflexivity | ]. split; [ apply plain_check; reflexivity | ].
      split; [ exact LW | ]. split; [ discriminate | ].
      replace (cited ex_store 4) with (@nil level) by (vm_compute; reflexivity). constructor.
  - apply prefixes_check. vm_compute. reflexivity.
  - exists (URI #"urn:cts:latinLit:phi1294"), #"groupname", (Literal #"Martial" (Some #"eng") None). vm_compute. auto 20.
  - split; (split; [ discriminate | ]); [ intros u name o _ _ [] | auto ].
Qed.

(** The exported text, read back: the labels, the languages and the citations. *)
Definition same_pairs (l : list (term * term)) : list (term * term) := l.
Definition reader (e : XmlModel.node) := GText (n_text e).
Definition back (s : store) : option (store * result nat) :=
  match export false same_pairs same_order ex_qname s 4 true 0 with
  | Ok text => option_map (fun d => parse_inventory same_order reader no_ns d blank) (read_document text)
  | Err _ => None
  end.
Example C58_round_trip_example : exists s', back ex_store = Some (s', Ok 0) /\
  children s' 2 = [(#"urn:cts:latinLit:phi1294.phi002.e1", 3); (#"urn:cts:latinLit:phi1294.phi002.t1", 4)] /\
  cited s' 3 = [(Some #"book", Some #"/TEI/body/div[@n='$1']"); (Some #"line", Some #"/TEI/body/div[@n='$1']//l[@n='$2']")] /\
  filter (fun t => term_eqb (snd (fst t)) (cts #"label")) (main_graph s') =
    [(URI #"urn:cts:latinLit:phi1294.phi002.e1", cts #"label", Literal #"Epigrams & <more>" (Some #"eng") None)].
Proof. eexists. split; [ vm_compute; reflexivity | ]. split; [ vm_compute; reflexivity | ]. split; vm_compute; reflexivity. Qed.

(** ** What cannot be dropped from the hypotheses *)

(** The same store with another shared graph, other objects, other citations. *)
Definition say (f : MetaModel.graph -> MetaModel.graph) (s : store) : store :=
  MkStore (MkState (objs (s_state s)) (upd (graphs (s_state s)) 0 f)) (s_cites s) (s_paths s).
Definition remake (j : nat) (f : coll -> coll) (s : store) : store :=
  MkStore (with_obj (s_state s) j f) (s_cites s) (s_paths s).
Definition cite (j : nat) (l : list level) (s : store) : store := MkStore (s_state s) [(j, l)] (s_paths s).

(** Without a statement in the CTS vocabulary the document declares no
    namespace for its elements: it cannot be read. *)
Theorem C58_no_statement_refuted : exists s text d,
  portable s 0 /\ prefixes_fit ex_qname s /\ children s 0 = [(#"urn:cts:latinLit:phi1294", 1)] /\
  export false same_pairs same_order ex_qname s 4 true 0 = Ok text /\ read_document text = Some d /\
  snd (parse_inventory same_order reader no_ns d blank) = Err IndexError.
Proof.
  let s := eval vm_compute in
    (fst (parse_inventory same_order reader no_ns
       (cel #"TextInventory" [(#"tiid", #"small")] [] [cel #"textgroup" [(#"urn", #"urn:cts:latinLit:phi1294")] [] []]) blank))
  in exists s.
  eexists _, _. split; [ | split; [ | split; [ | split; [ vm_compute; reflexivity | split; [ vm_compute; reflexivity | vm_compute; reflexivity ] ] ] ] ].
  - split; [ reflexivity | ]. split; [ reflexivity | ]. split; [ apply plain_check; reflexivity | ].
    split; [ | vm_compute; repeat constructor; intros [] ].
    intros u g Hg. vm_compute in Hg. destruct Hg as [Hg|[]]. injection Hg as <- <-.
    split; [ is_member | ]. split; [ facts | ]. intros v w Hw. vm_compute in Hw. destruct Hw.
  - apply prefixes_check. vm_compute. reflexivity.
  - reflexivity.
Qed.
Print Assumptions C58_no_statement_refuted.

(** An edition in another language than its work comes back in the language of
    the work. *)
Theorem C58_edition_language_refuted : exists s s', back s = Some (s', Ok 0) /\
  language_is s 3 #"grc" /\ c_id (obj (s_state s) 3) = #"urn:cts:latinLit:phi1294.phi002.e1" /\
  language_is s' 3 #"lat" /\ c_id (obj (s_state s') 3) = #"urn:cts:latinLit:phi1294.phi002.e1".
Proof.
  let s := eval vm_compute in
    (say (map (fun t : triple => if term_eqb (fst (fst t)) (URI #"urn:cts:latinLit:phi1294.phi002.e1") && term_eqb (snd (fst t)) dc_language
                                 then (fst t, Literal #"grc" None None) else t)) ex_store)
  in exists s.
  eexists. split; [ vm_compute; reflexivity | ].
  split; [ apply language_single; [ left; eexists | ]; vm_compute; reflexivity | ]. split; [ reflexivity | ].
  split; [ apply language_single; [ left; eexists | ]; vm_compute; reflexivity | reflexivity ].
Qed.
Print Assumptions C58_edition_language_refuted.

(** A text that is neither an edition, a translation nor a commentary does not
    come back. *)
Theorem C58_unknown_refuted : exists s s', back s = Some (s', Ok 0) /\
  children s 2 = [(#"urn:cts:latinLit:phi1294.phi002.e1", 3); (#"urn:cts:latinLit:phi1294.phi002.t1", 4)] /\
  c_kind (obj (s_state s) 4) = KText Unknown /\
  children s' 2 = [(#"urn:cts:latinLit:phi1294.phi002.e1", 3)].
Proof.
  let s := eval vm_compute in (remake 4 (fun x => MkColl (KText Unknown) (c_id x) (c_urn x) (c_parent x) (c_children x) (c_graph x)) ex_store)
  in exists s.
  eexists. split; [ vm_compute; reflexivity | ]. split; [ reflexivity | ]. split; reflexivity.
Qed.
Print Assumptions C58_unknown_refuted.

(** A title without language comes back in the language None. *)
Definition titles (s : store) : list term :=
  map snd (filter (fun t => term_eqb (snd (fst t)) (cts #"title")) (main_graph s)).
Theorem C58_no_language_refuted : exists s s', back s = Some (s', Ok 0) /\
  titles s = [Literal #"Epigrammata" None None] /\
  titles s' = [Literal #"Epigrammata" (Some #"None") None].
Proof.
  let s := eval vm_compute in
    (say (fun g => (URI #"urn:cts:latinLit:phi1294.phi002", cts #"title", Literal #"Epigrammata" None None) :: g) ex_store)
  in exists s.
  eexists. split; [ vm_compute; reflexivity | ]. split; reflexivity.
Qed.
Print Assumptions C58_no_language_refuted.

(** Identifiers are not escaped: with an ampersand the document is not XML. *)
Theorem C58_ampersand_refuted : exists s text, export false same_pairs same_order ex_qname s 4 true 0 = Ok text /\
  c_id (obj (s_state s) 0) = #"R&D" /\ read_document text = None.
Proof.
  let s := eval vm_compute in (remake 0 (fun x => MkColl (c_kind x) #"R&D" (c_urn x) (c_parent x) (c_children x) (c_graph x)) ex_store)
  in exists s.
  eexists. split; [ vm_compute; reflexivity | ]. split; vm_compute; reflexivity.
Qed.
Print Assumptions C58_ampersand_refuted.

(** Citations: a missing name comes back empty, double quotes as single ones;
    a level without refsDecl is dropped with the levels below it. *)
Theorem C58_citation_refuted :
  (exists s s', back s = Some (s', Ok 0) /\
     cited s 3 = [(None, Some #"/TEI/body/div[@n='$1']")] /\ cited s' 3 = [(Some [], Some #"/TEI/body/div[@n='$1']")]) /\
  (exists s s', back s = Some (s', Ok 0) /\
     cited s 3 = [(Some #"book", Some (#"/TEI/body/div[@n=" ++ [34%N] ++ #"$1" ++ [34%N] ++ #"]"))] /\
     cited s' 3 = [(Some #"book", Some #"/TEI/body/div[@n='$1']")]) /\
  (exists s s', back s = Some (s', Ok 0) /\
     cited s 3 = [(Some #"book", Some #"/TEI/body/div[@n='$1']"); (Some #"poem", None); (Some #"line", Some #"/TEI/body/div[@n='$1']//l[@n='$2']")] /\
     cited s' 3 = [(Some #"book", Some #"/TEI/body/div[@n='$1']")]).
Proof.
  split; [ | split ].
  - let s := eval vm_compute in (cite 3 [(None, Some #"/TEI/body/div[@n='$1']")] ex_store) in exists s.
    eexists. split; [ vm_compute; reflexivity | ]. split; reflexivity.
  - let s := eval vm_compute in (cite 3 [(Some #"book", Some (#"/TEI/body/div[@n=" ++ [34%N] ++ #"$1" ++ [34%N] ++ #"]"))] ex_store) in exists s.
    eexists. split; [ vm_compute; reflexivity | ]. split; reflexivity.
  - let s := eval vm_compute in (cite 3 [(Some #"book", Some #"/TEI/body/div[@n='$1']"); (Some #"poem", None); (Some #"line", Some #"/TEI/body/div[@n='$1']//l[@n='$2']")] ex_store) in exists s.
    eexists. split; [ vm_compute; reflexivity | ]. split; reflexivity.
Qed.
Print Assumptions C58_citation_refuted.
