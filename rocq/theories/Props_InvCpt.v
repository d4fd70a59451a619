(** Property C65: structured metadata in the CapiTainS export of an inventory. *)

From Coq Require Import List NArith ZArith Arith Bool Lia Permutation.
From Verif Require Import PyStr PyStrFacts CiteSpec CiteModel XmlModel UrnModel MetaModel MetaSpec MetaProofs
  CollModel UtilModel UtilSpec XmlReadSpec InvModel InvSpec InvExport InvExportSpec InvExportTree InvExportCopy InvExportBack
  Props_Inv Props_InvExport.
Import ListNotations.

(** ** C65: the CapiTainS export of an inventory can be read again like the CTS
    one, and what is read says of the textgroups, works and texts, outside of the
    CTS, DTS and RDF vocabularies, exactly what was there before in the store that
    it is read into, the exported statements, the titles as labels and what each
    is in.  [read] is what objectify makes of the text of an element. *)
Theorem C65_round_trip : forall order, arranges order -> forall pairs : list (term * term) -> list (term * term), arranges pairs ->
  forall qname s i fuel,
  portable s i -> prefixes_fit qname s -> mentions_cts s -> describable qname s i -> 4 <= fuel ->
  exists text d,
    export true pairs order qname s fuel true i = Ok text /\ read_document text = Some d /\
    forall order', arranges order' -> forall leaf nsmap read,
      (forall e, n_kids e = [] -> leaf e = read (n_text e)) -> languages_told read s i ->
      forall s0, receives s i s0 ->
      exists s' i', parse_inventory order' leaf nsmap d s0 = (s', Ok i') /\ copy_inventory s i s' i' /\
        forall k u j q p o', placed_in s i k u j q -> carried qname p -> ~ single_valued p ->
          (In (URI u, p, o') (main_graph s') <->
           In (URI u, p, o') (main_graph s0) \/ read_back read s i u p o').
Proof.
  intros order Ho pairs Hp qname s i fuel P Hq M D F.
  destruct (exported_document true pairs Hp order Ho qname s Hq i P (fun _ => D) M fuel F) as (x & E & Rd).
  exists x, (doc true pairs order qname s i). split; [ exact E | ]. split; [ exact Rd | ].
  intros order' Ho' leaf nsmap read HL LT s0 R.
  destruct (read_again true pairs Hp order Ho qname s Hq i P (fun _ => D) order' Ho' leaf nsmap read (fun _ => HL) (fun _ => LT) s0 R)
    as (s' & i' & E' & B & St & _).
  exists s', i'. split; [ exact E' | ]. split; [ exact B | ]. apply (St eq_refl).
Qed.
Print Assumptions C65_round_trip.

(** Objects that come back as they are: addresses; text in a language, untyped
    text that does not look like an address or a number, numbers as objectify
    writes them. *)
Inductive survives (read : str -> guess) : term -> Prop :=
| sv_address : forall u, address u -> guess_text (read u) = u -> survives read (URI u)
| sv_language : forall t l, l <> [] -> ~ address t -> guess_text (read t) = t -> survives read (Literal t (Some l) None)
| sv_text : forall t, ~ address t -> read t = GText t -> survives read (Literal t None None)
| sv_integer : forall t z, ~ address t -> read t = GInt z -> str_of_Z z = t ->
    survives read (Literal t None (Some #"http://www.w3.org/2001/XMLSchema#integer"))
| sv_float : forall t, ~ address t -> read t = GFloat t ->
    survives read (Literal t None (Some #"http://www.w3.org/2001/XMLSchema#float")).

Lemma survives_back : forall read o o', survives read o -> (comes_back read o o' <-> o' = o).
Proof.
  intros read o o' S. split.
  - intros B. destruct S as [u A E|t l N A E|t A E|t z A E Z|t A E].
    + destruct B as [A'|t l d X|_ N]; [ cbn [text_of]; rewrite E; reflexivity | discriminate X | cbn [text_of] in N; rewrite E in N; contradiction ].
    + destruct B as [A'|t' l' d X N'|X _].
      * cbn [text_of] in A'. rewrite E in A'. contradiction.
      * injection X as <- <- <-. rewrite E. destruct l; [ congruence | reflexivity ].
      * exfalso. eapply X. reflexivity.
    + destruct B as [A'|t' l' d X N'|X N]; [ cbn [text_of] in A'; rewrite E in A'; contradiction | discriminate X | cbn [text_of]; rewrite E; reflexivity ].
    + destruct B as [A'|t' l' d X N'|X N].
      * cbn [text_of] in A'. rewrite E in A'. cbn [guess_text] in A'. rewrite Z in A'. contradiction.
      * discriminate X.
      * cbn [text_of]. rewrite E. cbn [guess_text]. rewrite Z. reflexivity.
    + destruct B as [A'|t' l' d X N'|X N]; [ cbn [text_of] in A'; rewrite E in A'; contradiction | discriminate X | cbn [text_of]; rewrite E; reflexivity ].
  - intros ->. destruct S as [u A E|t l N A E|t A E|t z A E Z|t A E].
    + pose proof (cb_address read (URI u)) as X. cbn [text_of] in X. rewrite E in X. exact (X A).
    + pose proof (cb_language read (Literal t (Some l) None) t l None eq_refl) as X. rewrite E in X.
      destruct l; [ congruence | exact (X A) ].
    + pose proof (cb_plain read (Literal t None None)) as X. cbn [text_of] in X. rewrite E in X. cbn [guess_text] in X.
      apply X; [ intros; discriminate | exact A ].
    + pose proof (cb_plain read (Literal t None (Some #"http://www.w3.org/2001/XMLSchema#integer"))) as X. cbn [text_of] in X.
      rewrite E in X. cbn [guess_text] in X. rewrite Z in X. apply X; [ intros; discriminate | exact A ].
    + pose proof (cb_plain read (Literal t None (Some #"http://www.w3.org/2001/XMLSchema#float"))) as X. cbn [text_of] in X.
      rewrite E in X. cbn [guess_text] in X. apply X; [ intros; discriminate | exact A ].
Qed.

(** ** What is said with such objects is the same after reading: nothing is lost
    and nothing is added, if the titles were already given as labels and the
    parent as parent. *)
Theorem C65_faithful : forall order, arranges order -> forall pairs : list (term * term) -> list (term * term), arranges pairs ->
  forall qname s i fuel text d order' leaf nsmap read s0 s' i',
  portable s i -> prefixes_fit qname s -> mentions_cts s -> describable qname s i -> 4 <= fuel ->
  export true pairs order qname s fuel true i = Ok text -> read_document text = Some d ->
  arranges order' -> (forall e, n_kids e = [] -> leaf e = read (n_text e)) -> languages_told read s i -> receives s i s0 ->
  parse_inventory order' leaf nsmap d s0 = (s', Ok i') ->
  forall k u j q p, placed_in s i k u j q -> carried qname p -> ~ single_valued p ->
    (forall o, In (URI u, p, o) (main_graph s) -> survives read o) ->
    (forall o, In (URI u, p, o) (main_graph s0) -> In (URI u, p, o) (main_graph s)) ->
    (forall k' j' q' name o, placed_in s i k' u j' q' -> In p [rdfs_label; skos_prefLabel] -> title_element k' name ->
       In (URI u, cts name, o) (main_graph s) -> In (URI u, p, o) (main_graph s)) ->
    (forall k' j' q', placed_in s i k' u j' q' -> p = URI #"http://purl.org/capitains/ns/1.0#parent" ->
       In (URI u, p, URI (c_id (obj (s_state s) q'))) (main_graph s)) ->
    forall o, In (URI u, p, o) (main_graph s') <-> In (URI u, p, o) (main_graph s).
Proof.
  intros order Ho pairs Hp qname s i fuel text d order' leaf nsmap read s0 s' i' P Hq M D F E1 E2 Ho' HL LT R E3.
  intros k u j q p Pl Cp NS Sv Old Ti Pa o.
  destruct (C65_round_trip order Ho pairs Hp qname s i fuel P Hq M D F) as (text' & d' & X1 & X2 & X3).
  rewrite E1 in X1. injection X1 as <-. rewrite E2 in X2. injection X2 as <-.
  destruct (X3 order' Ho' leaf nsmap read HL LT s0 R) as (s2 & i2 & X4 & _ & X5). rewrite E3 in X4. injection X4 as <- <-.
  rewrite (X5 k u j q p o Pl Cp NS). split.
  - intros [H|H]; [ apply Old, H | ]. destruct H as [o o' I B|k' j' q' name o Pl' Ht Hpr I|k' j' q' Pl' Ep].
    + apply (survives_back read o o' (Sv o I)) in B. subst o'. exact I.
    + eapply Ti; eassumption.
    + apply (Pa k' j' q' Pl' Ep).
  - intros I. right. eapply rb_statement; [ exact I | ]. apply (survives_back read o o (Sv o I)). reflexivity.
Qed.
Print Assumptions C65_faithful.

(** ** An inventory with structured metadata *)
Definition dct (name : str) : str := #"{http://purl.org/dc/terms/}" ++ name.
Definition metadata (l : list XmlModel.node) : XmlModel.node :=
  Elem #"{http://purl.org/capitains/ns/1.0#}structured-metadata" [] [] [] l.
Definition cpt_doc : XmlModel.node :=
  cel #"TextInventory" [(#"tiid", #"small")] []
    [cel #"textgroup" [(#"urn", #"urn:cts:latinLit:phi1294")] []
       [cel #"groupname" [lang_attr #"eng"] #"Martial" [];
        metadata [Elem (dct #"created") [] #"86" [] []];
        cel #"work" [(#"urn", #"urn:cts:latinLit:phi1294.phi002"); lang_attr #"lat"] []
          [cel #"title" [lang_attr #"eng"] #"Epigrams & <more>" [];
           metadata [Elem (dct #"created") [lang_attr #"lat"] #"saeculo I" [] [];
                     Elem (dct #"source") [] #"http://example.org/?a=1&b=2" [] []];
           cel #"edition" [(#"urn", #"urn:cts:latinLit:phi1294.phi002.e1")] []
             [cel #"label" [lang_attr #"eng"] #"Epigrams" [];
              metadata [Elem (dct #"creator") [] #"Lindsay, W. M." [] []; Elem (dct #"creator") [lang_attr #"lat"] #"Lindsayus" [] []]]]]].
(** Objectify on the texts of the example. *)
Definition guess_of (t : str) : guess := if str_eqb t #"86" then GInt 86 else if str_eqb t #"1925" then GInt 1925 else GText t.
Definition guesses (e : XmlModel.node) : guess := guess_of (n_text e).
Definition cpt_store : store := Eval vm_compute in fst (parse_inventory same_order guesses no_ns cpt_doc blank).
Example cpt_store_read : parse_inventory same_order guesses no_ns cpt_doc blank = (cpt_store, Ok 0).
Proof. vm_compute. reflexivity. Qed.
Definition cpt_qname (p : term) : str * str :=
  match p with
  | URI u => if startswith u #"http://purl.org/dc/terms/" then (#"dct", #"http://purl.org/dc/terms/") else ex_qname p
  | _ => ex_qname p
  end.

Definition carriedb (qname : term -> str * str) (p : term) : bool :=
  negb (existsb (str_eqb (text_of p)) other_vocabularies) && negb (existsb (str_eqb (snd (qname p))) other_vocabularies).
Lemma existsb_In : forall v l, existsb (str_eqb v) l = true <-> In v l.
Proof.
  intros v l. rewrite existsb_exists. split; [ intros (x & H & E); apply str_eqb_eq in E; subst; exact H | ].
  intros H. exists v. split; [ exact H | apply str_eqb_refl ].
Qed.
Lemma carriedb_spec : forall qname p, carriedb qname p = true <-> carried qname p.
Proof.
  intros qname p. unfold carriedb, carried. rewrite andb_true_iff, !negb_true_iff, <- !not_true_iff_false, !existsb_In. reflexivity.
Qed.

Definition writableb (qname : term -> str * str) (s : store) (p o : term) : bool :=
  let '(prefix, ns) := qname p in
  match p with
  | URI u => startswith u ns && negb (str_eqb (skipn (length ns) u) []) && forallb name_char (skipn (length ns) u) && negb (mem 58%N (skipn (length ns) u))
  | _ => false
  end && negb (str_eqb prefix #"xml") && negb (mem 125%N ns) && negb (str_eqb ns #"http://chs.harvard.edu/xmlns/cts")
  && textb (text_of o)
  && match o with
     | Literal _ l d =>
         match l with Some x => plainb x | None => true end
         && match d with
            | Some x => plainb x && existsb (fun t : triple => str_eqb (fst (qname (snd (fst t)))) #"rdf") (main_graph s)
            | None => true
            end
     | _ => true
     end.
Lemma writableb_spec : forall qname s p o, writableb qname s p o = true -> writable_statement qname s p o.
Proof.
  intros qname s p o H. unfold writableb, writable_statement in *. destruct (qname p) as [prefix ns].
  apply andb_true_iff in H as [H H6]. apply andb_true_iff in H as [H H5]. apply andb_true_iff in H as [H H4].
  apply andb_true_iff in H as [H H3]. apply andb_true_iff in H as [H H2]. apply negb_true_iff in H2, H3, H4.
  split; [ | split; [ apply str_eqb_neq, H2 | split; [ intros X; apply mem_In in X; congruence | split; [ apply str_eqb_neq, H4 | split; [ apply text_check, H5 | ] ] ] ] ].
  - destruct p as [u| |]; try discriminate H.
    apply andb_true_iff in H as [H A4]. apply andb_true_iff in H as [H A3]. apply andb_true_iff in H as [A1 A2].
    apply startswith_spec in A1 as [r ->]. rewrite skipn_app, skipn_all, Nat.sub_diag in *. cbn [app skipn] in *.
    exists r. split; [ reflexivity | ]. apply negb_true_iff in A2, A4. split; [ apply name_check; [ apply str_eqb_neq, A2 | exact A3 ] | ].
    intros X. apply mem_In in X. congruence.
  - intros t l d ->. apply andb_true_iff in H6 as [B1 B2]. split.
    + intros x ->. apply plain_check, B1.
    + intros x ->. apply andb_true_iff in B2 as [B2 B3]. split; [ apply plain_check, B2 | ].
      apply existsb_exists in B3 as ([[n q] r] & I & E). exists n, q, r. split; [ exact I | apply str_eqb_eq, E ].
Qed.

Lemma describable_check : forall qname s i,
  forallb (fun t : triple => let p := snd (fst t) in
    str_eqb (fst (qname p)) [] ||
    ((negb (str_eqb (fst (qname p)) #"cpt") || str_eqb (snd (qname p)) #"http://purl.org/capitains/ns/1.0#") &&
     forallb (fun t' : triple => let p' := snd (fst t') in
       negb (str_eqb (fst (qname p')) (fst (qname p))) || str_eqb (snd (qname p')) (snd (qname p))) (main_graph s))) (main_graph s) = true ->
  forallb (fun t : triple => let '(_, p, o) := t in negb (carriedb qname p) || writableb qname s p o) (main_graph s) = true ->
  describable qname s i.
Proof.
  intros qname s i A B. rewrite forallb_forall in A, B. split.
  - intros n p o I N. apply A in I. cbn [fst snd] in I. apply orb_true_iff in I as [I|I]; [ apply str_eqb_eq in I; contradiction | ].
    apply andb_true_iff in I as [I1 I2]. split.
    + intros E. rewrite E in I1. change (str_eqb #"cpt" #"cpt") with true in I1. cbn [negb orb] in I1. apply str_eqb_eq, I1.
    + intros n' p' o' I' E'. rewrite forallb_forall in I2. apply I2 in I'. cbn [fst snd] in I'. rewrite E', str_eqb_refl in I'.
      cbn [negb orb] in I'. apply str_eqb_eq, I'.
  - intros u p o _ I C. apply B in I. apply carriedb_spec in C. rewrite C in I. cbn [negb orb] in I. apply writableb_spec, I.
Qed.

Lemma text_guess : forall t, negb (str_eqb t #"86") && negb (str_eqb t #"1925") = true -> guess_of t = GText t.
Proof. intros t H. apply andb_true_iff in H as [A B]. apply negb_true_iff in A, B. unfold guess_of. rewrite A, B. reflexivity. Qed.
Lemma no_address : forall t, existsb (fun p => startswith t p) [#"urn:"; #"http:"; #"https:"; #"hdl:"] = false -> ~ address t.
Proof.
  intros t H (p & r & I & ->). assert (X : existsb (fun q => startswith (p ++ r) q) [#"urn:"; #"http:"; #"https:"; #"hdl:"] = true).
  { apply existsb_exists. exists p. split; [ exact I | apply startswith_spec; exists r; reflexivity ]. }
  congruence.
Qed.

Example C65_example : portable cpt_store 0 /\ prefixes_fit cpt_qname cpt_store /\ mentions_cts cpt_store /\
  describable cpt_qname cpt_store 0 /\ languages_told guess_of cpt_store 0 /\ receives cpt_store 0 blank /\
  (forall e, n_kids e = [] -> guesses e = guess_of (n_text e)).
Proof.
  assert (LW : language_is cpt_store 2 #"lat") by (apply language_single; [ right | ]; vm_compute; reflexivity).
  assert (LE : language_is cpt_store 3 #"lat") by (apply language_single; [ left; eexists | ]; vm_compute; reflexivity).
  split; [ | split; [ | split; [ | split; [ | split; [ | split ] ] ] ] ].
  - split; [ vm_compute; reflexivity | ]. split; [ vm_compute; reflexivity | ]. split; [ apply plain_check; vm_compute; reflexivity | ].
    split; [ | vm_compute; repeat constructor; cbn; intros X; sweep X ].
    intros u g Hg. vm_compute in Hg. destruct Hg as [Hg|[]]. injection Hg as <- <-.
    split; [ is_member | ]. split; [ facts | ].
    intros v w Hw. vm_compute in Hw. destruct Hw as [Hw|[]]. injection Hw as <- <-.
    split; [ is_member | ]. split; [ facts | ].
    split; [ exists #"lat"; split; [ exact LW | apply plain_check; reflexivity ] | ].
    intros x t Ht. vm_compute in Ht. destruct Ht as [Ht|[]]; injection Ht as <- <-.
    exists Edition, #"lat", #"lat". split; [ discriminate | ]. split; [ is_member | ]. split; [ facts | ].
    split; [ exact LE | ]. split; [ apply plain_check; reflexivity | ].
    split; [ exact LW | ]. split; [ auto | ]. replace (cited cpt_store 3) with (@nil level) by (vm_compute; reflexivity). constructor.
  - apply prefixes_check. vm_compute. reflexivity.
  - exists (URI #"urn:cts:latinLit:phi1294"), #"groupname", (Literal #"Martial" (Some #"eng") None). vm_compute. auto 20.
  - apply describable_check; vm_compute; reflexivity.
  - assert (G : forall k u j q, placed_in cpt_store 0 k u j q -> k <> KTextgroup ->
      (u = #"urn:cts:latinLit:phi1294.phi002" /\ j = 2) \/ (u = #"urn:cts:latinLit:phi1294.phi002.e1" /\ j = 3)).
    { assert (A : forall u g q, placed_in cpt_store 0 KTextgroup u g q -> g = 1).
      { intros u g q H. inversion H as [u0 g0 I| |]; subst. vm_compute in I. destruct I as [I|[]]. injection I as _ <-. reflexivity. }
      assert (B : forall u w q, placed_in cpt_store 0 KWork u w q -> u = #"urn:cts:latinLit:phi1294.phi002" /\ w = 2).
      { intros u w q H. inversion H as [|v g q0 u0 w0 Hg I|]; subst. apply A in Hg. subst. vm_compute in I. destruct I as [I|[]].
        injection I as <- <-. split; reflexivity. }
      intros k u j q H N. destruct H as [u g I|v g q u w Hg I|v w q u t k Hw I K]; [ congruence | | ].
      - left. apply (B u w g). eapply in_group; eassumption.
      - right. apply B in Hw as [_ ->]. vm_compute in I. destruct I as [I|[]]. injection I as <- <-. split; reflexivity. }
    intros k u j q l o Pl N L I.
    assert (L' : l = #"lat").
    { destruct (G k u j q Pl N) as [[_ ->]|[_ ->]]; specialize (L same_order ltac:(intros x; reflexivity));
        vm_compute in L; injection L as <-; reflexivity. }
    subst l. split; [ | split; [ apply no_address; reflexivity | reflexivity ] ].
    assert (X : forallb (fun t : triple => negb (term_eqb (snd (fst t)) (URI #"http://purl.org/dc/elements/1.1/language")) || term_eqb (snd t) (Literal #"lat" None None)) (main_graph cpt_store) = true)
      by (vm_compute; reflexivity).
    rewrite forallb_forall in X. apply X in I. cbn [fst snd] in I. rewrite (proj2 (term_eqb_eq _ _) eq_refl) in I. cbn [negb orb] in I.
    apply term_eqb_eq, I.
  - split; [ discriminate | intros u name o _ _ [] ].
  - reflexivity.
Qed.

(** The labels of the edition are kept as they are: all conditions of
    [C65_faithful] hold of them. *)
Example C65_faithful_example :
  forall u, u = #"urn:cts:latinLit:phi1294.phi002.e1" ->
  placed_in cpt_store 0 (KText Edition) u 3 2 /\
  forall p, In p [rdfs_label; URI #"http://purl.org/dc/terms/creator"] ->
    carried cpt_qname p /\ ~ single_valued p /\ (exists o, In (URI u, p, o) (main_graph cpt_store)) /\
    (forall o, In (URI u, p, o) (main_graph cpt_store) -> survives guess_of o) /\
    (forall k' j' q' name o, placed_in cpt_store 0 k' u j' q' -> In p [rdfs_label; skos_prefLabel] -> title_element k' name ->
       In (URI u, cts name, o) (main_graph cpt_store) -> In (URI u, p, o) (main_graph cpt_store)) /\
    p <> URI #"http://purl.org/capitains/ns/1.0#parent".
Proof.
  intros u ->. split.
  - apply (in_work cpt_store 0 #"urn:cts:latinLit:phi1294.phi002" 2 1 #"urn:cts:latinLit:phi1294.phi002.e1" 3 Edition); [ | vm_compute; auto | vm_compute; reflexivity ].
    apply (in_group cpt_store 0 #"urn:cts:latinLit:phi1294" 1 0 #"urn:cts:latinLit:phi1294.phi002" 2); [ | vm_compute; auto ].
    apply (in_inventory cpt_store 0 #"urn:cts:latinLit:phi1294" 1). vm_compute. auto.
  - intros p Hp. split; [ apply carriedb_spec; destruct Hp as [<-|[<-|[]]]; vm_compute; reflexivity | ].
    split; [ unfold single_valued; destruct Hp as [<-|[<-|[]]]; vm_compute; intros X; sweep X | ].
    assert (G : forallb (fun t : triple => negb (term_eqb (fst (fst t)) (URI #"urn:cts:latinLit:phi1294.phi002.e1") && term_eqb (snd (fst t)) p) ||
        existsb (term_eqb (snd t)) [Literal #"Epigrams" (Some #"eng") None; Literal #"Lindsay, W. M." None None; Literal #"Lindsayus" (Some #"lat") None]) (main_graph cpt_store) = true)
      by (destruct Hp as [<-|[<-|[]]]; vm_compute; reflexivity).
    rewrite forallb_forall in G.
    assert (G' : forall o, In (URI #"urn:cts:latinLit:phi1294.phi002.e1", p, o) (main_graph cpt_store) ->
      In o [Literal #"Epigrams" (Some #"eng") None; Literal #"Lindsay, W. M." None None; Literal #"Lindsayus" (Some #"lat") None]).
    { intros o I. apply G in I. cbn [fst snd] in I. rewrite !(proj2 (term_eqb_eq _ _) eq_refl) in I. cbn [negb orb andb] in I.
      apply existsb_exists in I as (x & Hx & E). apply term_eqb_eq in E. subst. exact Hx. }
    split; [ destruct Hp as [<-|[<-|[]]]; vm_compute; eexists; repeat (first [ left; reflexivity | right ]) | ]. split; [ | split ].
    + intros o I. apply G' in I. destruct I as [<-|[<-|[<-|[]]]].
      * apply sv_language; [ discriminate | apply no_address; reflexivity | reflexivity ].
      * apply sv_text; [ apply no_address; reflexivity | reflexivity ].
      * apply sv_language; [ discriminate | apply no_address; reflexivity | reflexivity ].
    + intros k' j' q' name o _ Hl _ I. destruct Hp as [<-|[<-|[]]]; [ | vm_compute in Hl; sweep Hl ].
      assert (T : forallb (fun t : triple => negb (term_eqb (fst (fst t)) (URI #"urn:cts:latinLit:phi1294.phi002.e1")) || negb (startswith (text_of (snd (fst t))) (text_of (cts []))) ||
        existsb (fun t' : triple => term_eqb (fst (fst t')) (URI #"urn:cts:latinLit:phi1294.phi002.e1") && term_eqb (snd (fst t')) rdfs_label && term_eqb (snd t') (snd t)) (main_graph cpt_store)) (main_graph cpt_store) = true)
        by (vm_compute; reflexivity).
      rewrite forallb_forall in T. apply T in I. cbn [fst snd] in I. rewrite (proj2 (term_eqb_eq _ _) eq_refl) in I.
      replace (startswith (text_of (cts name)) (text_of (cts []))) with true in I
        by (symmetry; apply startswith_spec; exists name; reflexivity).
      cbn [negb orb] in I. apply existsb_exists in I as ([[a b] c] & H & E). cbn [fst snd] in E.
      apply andb_true_iff in E as [E E3]. apply andb_true_iff in E as [E1 E2]. apply term_eqb_eq in E1, E2, E3. subst. exact H.
    + destruct Hp as [<-|[<-|[]]]; discriminate.
Qed.

(** What comes back. *)
Definition cpt_back (s : store) : option (store * result nat) :=
  match export true same_pairs same_order cpt_qname s 4 true 0 with
  | Ok text => option_map (fun d => parse_inventory same_order guesses no_ns d blank) (read_document text)
  | Err _ => None
  end.
Definition said_of (u p : str) (s : store) : list term :=
  map snd (filter (fun t : triple => term_eqb (fst (fst t)) (URI u) && term_eqb (snd (fst t)) (URI p)) (main_graph s)).
Example C65_round_trip_example : exists s', cpt_back cpt_store = Some (s', Ok 0) /\
  (forall u p, In u [#"urn:cts:latinLit:phi1294"; #"urn:cts:latinLit:phi1294.phi002"; #"urn:cts:latinLit:phi1294.phi002.e1"] ->
     In p [#"http://purl.org/dc/terms/created"; #"http://purl.org/dc/terms/source"; #"http://purl.org/dc/terms/creator"] ->
     length (said_of u p s') = length (said_of u p cpt_store) /\ forall o, In o (said_of u p s') <-> In o (said_of u p cpt_store)) /\
  said_of #"urn:cts:latinLit:phi1294" #"http://purl.org/dc/terms/created" s' =
    [Literal #"86" None (Some #"http://www.w3.org/2001/XMLSchema#integer")] /\
  said_of #"urn:cts:latinLit:phi1294.phi002" #"http://purl.org/dc/terms/source" s' = [URI #"http://example.org/?a=1&b=2"] /\
  In (Literal #"Lindsayus" (Some #"lat") None) (said_of #"urn:cts:latinLit:phi1294.phi002.e1" #"http://purl.org/dc/terms/creator" s').
Proof.
  eexists. split; [ vm_compute; reflexivity | ]. split; [ | split; [ vm_compute; reflexivity | split; [ vm_compute; reflexivity | vm_compute; auto ] ] ].
  intros u p Hu Hp. cbn [In] in Hu, Hp.
  destruct Hu as [<-|[<-|[<-|[]]]]; destruct Hp as [<-|[<-|[<-|[]]]]; (split; [ vm_compute; reflexivity | intros o; split; vm_compute; intros H; sweep H; subst; auto ]).
Qed.

(** ** What does not come back as it was *)
Definition tell (u p : str) (o : term) (s : store) : store := say (fun g => (URI u, URI p, o) :: g) s.

(** The type of a typed text is lost: it is written as an attribute that is not
    read. *)
Theorem C65_datatype_refuted : exists s s', cpt_back s = Some (s', Ok 0) /\
  said_of #"urn:cts:latinLit:phi1294" #"http://purl.org/dc/terms/date" s = [Literal #"circa" None (Some #"http://www.w3.org/2001/XMLSchema#token")] /\
  said_of #"urn:cts:latinLit:phi1294" #"http://purl.org/dc/terms/date" s' = [Literal #"circa" None None].
Proof.
  let s := eval vm_compute in (tell #"urn:cts:latinLit:phi1294" #"http://purl.org/dc/terms/date" (Literal #"circa" None (Some #"http://www.w3.org/2001/XMLSchema#token")) cpt_store) in exists s.
  eexists. split; [ vm_compute; reflexivity | ]. split; vm_compute; reflexivity.
Qed.
Print Assumptions C65_datatype_refuted.

(** Text that looks like a number or an address comes back as one. *)
Theorem C65_text_refuted :
  (exists s s', cpt_back s = Some (s', Ok 0) /\
    said_of #"urn:cts:latinLit:phi1294" #"http://purl.org/dc/terms/date" s = [Literal #"1925" None None] /\
    said_of #"urn:cts:latinLit:phi1294" #"http://purl.org/dc/terms/date" s' = [Literal #"1925" None (Some #"http://www.w3.org/2001/XMLSchema#integer")]) /\
  (exists s s', cpt_back s = Some (s', Ok 0) /\
    said_of #"urn:cts:latinLit:phi1294" #"http://purl.org/dc/terms/date" s = [Literal #"http: a protocol" (Some #"eng") None] /\
    said_of #"urn:cts:latinLit:phi1294" #"http://purl.org/dc/terms/date" s' = [URI #"http: a protocol"]).
Proof.
  split.
  - let s := eval vm_compute in (tell #"urn:cts:latinLit:phi1294" #"http://purl.org/dc/terms/date" (Literal #"1925" None None) cpt_store) in exists s.
    eexists. split; [ vm_compute; reflexivity | ]. split; vm_compute; reflexivity.
  - let s := eval vm_compute in (tell #"urn:cts:latinLit:phi1294" #"http://purl.org/dc/terms/date" (Literal #"http: a protocol" (Some #"eng") None) cpt_store) in exists s.
    eexists. split; [ vm_compute; reflexivity | ]. split; vm_compute; reflexivity.
Qed.
Print Assumptions C65_text_refuted.

(** A URI that is no address comes back as text: a textgroup of an inventory with
    a plain name gets a second parent, which is not a URI. *)
Theorem C65_parent_refuted : exists s', cpt_back cpt_store = Some (s', Ok 0) /\
  said_of #"urn:cts:latinLit:phi1294" #"http://purl.org/capitains/ns/1.0#parent" cpt_store = [URI #"small"] /\
  said_of #"urn:cts:latinLit:phi1294" #"http://purl.org/capitains/ns/1.0#parent" s' = [URI #"small"; Literal #"small" None None].
Proof. eexists. split; [ vm_compute; reflexivity | ]. split; vm_compute; reflexivity. Qed.
Print Assumptions C65_parent_refuted.

(** What is said of the inventory itself is written, and not read. *)
Theorem C65_inventory_refuted : exists s s' text d,
  export true same_pairs same_order cpt_qname s 4 true 0 = Ok text /\ read_document text = Some d /\
  map (fun m => (n_tag m, n_text m)) (structured_in d) = [(dct #"title", #"My texts")] /\
  parse_inventory same_order guesses no_ns d blank = (s', Ok 0) /\
  said_of #"small" #"http://purl.org/dc/terms/title" s = [Literal #"My texts" (Some #"eng") None] /\
  said_of #"small" #"http://purl.org/dc/terms/title" s' = [].
Proof.
  let s := eval vm_compute in (tell #"small" #"http://purl.org/dc/terms/title" (Literal #"My texts" (Some #"eng") None) cpt_store) in exists s.
  eexists _, _, _. split; [ vm_compute; reflexivity | ]. split; [ vm_compute; reflexivity | ]. split; [ vm_compute; reflexivity | ].
  split; [ vm_compute; reflexivity | ]. split; vm_compute; reflexivity.
Qed.
Print Assumptions C65_inventory_refuted.

(** An edition in another language than its work has both languages after
    reading. *)
Theorem C65_edition_language_refuted : exists s s', cpt_back s = Some (s', Ok 0) /\
  said_of #"urn:cts:latinLit:phi1294.phi002.e1" #"http://purl.org/dc/elements/1.1/language" s = [Literal #"grc" None None] /\
  said_of #"urn:cts:latinLit:phi1294.phi002.e1" #"http://purl.org/dc/elements/1.1/language" s' = [Literal #"lat" None None; Literal #"grc" None None].
Proof.
  let s := eval vm_compute in
    (say (map (fun t : triple => if term_eqb (fst (fst t)) (URI #"urn:cts:latinLit:phi1294.phi002.e1") && term_eqb (snd (fst t)) dc_language
                                 then (fst t, Literal #"grc" None None) else t)) cpt_store)
  in exists s.
  eexists. split; [ vm_compute; reflexivity | ]. split; vm_compute; reflexivity.
Qed.
Print Assumptions C65_edition_language_refuted.
