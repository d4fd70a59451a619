(** Property C64: the DTS export of a collection can be read again. *)

From Coq Require Import List NArith ZArith Arith Bool Lia Permutation.
From Verif Require Import PyStr PyStrFacts Json MetaModel MetaSpec MetaProofs TreeModel TreeSpec DtsModel DtsSpec DtsProofs JsonLdSpec
  DtsOutModel DtsOutSpec DtsOutProofs DtsOutMain.
Import ListNotations.

(** ** C64: what is exported is found again *)

(** Whatever the orders in which rdflib enumerates, a collection that is ready is
    exported; the expansion of the document is one object; and the reader of DTS
    collections finds in it the identifier, a label, the type, the size, a
    description, every statement with its value and its language, the members
    and the citation scheme. *)
Theorem C64_round_trip : forall name objects_order triples_order predicates_order qn to_python x fuel,
  texts name -> arranges objects_order -> arranges triples_order -> arranges predicates_order ->
  qualifies qn (named x) -> ready qn to_python x -> 0 < fuel ->
  exists j e c, dts_export name objects_order triples_order predicates_order qn to_python fuel x = Ok j /\
    expand_document j = [e] /\ parse_coll e = Ok c /\ found name qn to_python x c.
Proof.
  intros name oo to po qn py x fuel T O R P Q X F.
  destruct (round_trip name oo to po qn py x (carried py) T O R P Q X (fun o H => H) fuel F) as [j [fs [c [E [D [S C]]]]]].
  exists j, (JObj fs), c. split; [ exact E | ]. split; [ exact D | ]. split; [ apply says_parse, S | exact C ].
Qed.
Print Assumptions C64_round_trip.

(** The collections of a resolver read it as well. *)
Theorem C64_http : forall name objects_order triples_order predicates_order qn to_python x fuel,
  texts name -> arranges objects_order -> arranges triples_order -> arranges predicates_order ->
  qualifies qn (named x) -> ready qn to_python x -> 0 < fuel ->
  exists j e c, dts_export name objects_order triples_order predicates_order qn to_python fuel x = Ok j /\
    expand_document j = [e] /\ http_coll e = Ok c /\ found name qn to_python x c.
Proof.
  intros name oo to po qn py x fuel T O R P Q X F.
  destruct (round_trip name oo to po qn py x (carried py) T O R P Q X (fun o H => H) fuel F) as [j [fs [c [E [D [S C]]]]]].
  exists j, (JObj fs), c. split; [ exact E | ]. split; [ exact D | ]. split; [ apply says_http; [ exact S | ] | exact C ].
  destruct C as [_ _ [M0 M] _]. destruct (Z.eq_dec (b_size (x_brief x)) 0) as [Z|Z]; [ rewrite (M0 Z); constructor | ].
  specialize (M Z). clear -M. induction M as [|b k ms cs H _ IH]; [ constructor | ]. constructor; [ exact (proj1 (proj2 H)) | exact IH ].
Qed.
Print Assumptions C64_http.

(** Conversely only what was exported is in the document: any reading of it is
    this one. *)
Theorem C64_only : forall name objects_order triples_order predicates_order qn to_python x fuel j e c,
  texts name -> arranges objects_order -> arranges triples_order -> arranges predicates_order ->
  qualifies qn (named x) -> ready qn to_python x -> 0 < fuel ->
  dts_export name objects_order triples_order predicates_order qn to_python fuel x = Ok j ->
  In e (expand_document j) -> parse_coll e = Ok c -> found name qn to_python x c.
Proof.
  intros name oo to po qn py x fuel j e c T O R P Q X F E I C.
  destruct (C64_round_trip name oo to po qn py x fuel T O R P Q X F) as [j' [e' [c' [E' [D [C' W]]]]]].
  rewrite E in E'. injection E' as <-. rewrite D in I. destruct I as [<-|[]]. rewrite C in C'. injection C' as <-. exact W.
Qed.
Print Assumptions C64_only.

(** A collection is exported exactly when it has a type, and so have its members;
    else the export fails with IndexError. *)
Theorem C64_typed : forall name objects_order triples_order predicates_order qn to_python x fuel,
  arranges objects_order -> arranges triples_order -> NoDup (b_graph (x_brief x)) -> 0 < fuel ->
  let typed b := exists t, In (URI (b_id b), URI rdf_type, t) (b_graph b) in
  let asked b := b = x_brief x \/ (b_size (x_brief x) <> 0%Z /\ In b (x_members x)) in
  ((forall b, asked b -> typed b) ->
   exists j, dts_export name objects_order triples_order predicates_order qn to_python fuel x = Ok j) /\
  (forall b, asked b -> ~ typed b ->
   dts_export name objects_order triples_order predicates_order qn to_python fuel x = Err IndexError).
Proof.
  intros name oo to po qn py x fuel O R N F typed asked.
  destruct fuel as [|f]; [ lia | ].
  assert (T : forall b, (exists t, type_of name oo b = Ok t) /\ typed b \/ type_of name oo b = Err IndexError /\ ~ typed b).
  { intros b. unfold type_of, typed. change (URI (rdf_ns ++ #"type")) with (URI rdf_type).
    destruct (g_objects oo (URI (b_id b)) (URI rdf_type) (b_graph b)) as [|t l] eqn:E.
    - right. split; [ reflexivity | ]. intros [t H]. apply (In_objects oo O) in H. rewrite E in H. destruct H.
    - left. split; [ eauto | ]. exists t. apply (In_objects oo O). rewrite E. left. reflexivity. }
  assert (B : forall g b, (exists r, export_base name oo qn g b = Ok r) /\ typed b \/ export_base name oo qn g b = Err IndexError /\ ~ typed b).
  { intros g b. unfold export_base. destruct (T b) as [[[t E] Y]|[E Y]]; rewrite E; cbn [bind]; [ left | right ]; eauto. }
  assert (M : forall g l, (exists ms, mapM (fun m => r <- export_base name oo qn g m ;; Ok (JObj r)) l = Ok ms) /\ (forall b, In b l -> typed b) \/
              mapM (fun m => r <- export_base name oo qn g m ;; Ok (JObj r)) l = Err IndexError /\ exists b, In b l /\ ~ typed b).
  { intros g l. induction l as [|b l IH]; [ left; split; [ exists []; reflexivity | intros b [] ] | ].
    cbn [mapM]. destruct (B g b) as [[[r E] Y]|[E Y]]; rewrite E; cbn [bind].
    - destruct IH as [[[ms Em] Ym]|[Em [b' [I Y']]]]; rewrite Em; cbn [bind].
      + left. split; [ eauto | ]. intros b' [<-|I]; auto.
      + right. split; [ reflexivity | ]. exists b'. split; [ right; exact I | exact Y' ].
    - right. split; [ reflexivity | ]. exists b. split; [ left; reflexivity | exact Y ]. }
  unfold dts_export. rewrite (graph_of_node name to f _ _ R N). cbn [bind].
  match goal with |- context [sort_out ?a ?b ?c ?d ?g] => destruct (sort_out a b c d g) as [ext dub]; generalize g end.
  intros g. destruct (B g (x_brief x)) as [[[base E] Y]|[E Y]]; rewrite E; cbn [bind].
  - destruct (b_size (x_brief x) =? 0)%Z eqn:Z; cbn [bind].
    + apply Z.eqb_eq in Z. split; [ eauto | ]. intros b [->|[H _]]; [ contradiction | congruence ].
    + apply Z.eqb_neq in Z. destruct (M (b_graph (x_brief x)) (x_members x)) as [[[ms Em] Ym]|[Em [b [I Yb]]]]; rewrite Em; cbn [bind].
      * split; [ eauto | ]. intros b [->|[_ H]]; [ contradiction | ]. intros X. exfalso. apply X, Ym, H.
      * split; [ | reflexivity ]. intros H. exfalso. apply Yb, H. right. auto.
  - split; [ | reflexivity ]. intros H. exfalso. apply Y, H. left. reflexivity.
Qed.
Print Assumptions C64_typed.

(** *** Qualified names by a list of prefixes *)

Fixpoint strip (p s : str) : option str :=
  match p, s with
  | [], _ => Some s
  | c :: p', d :: s' => if N.eqb c d then strip p' s' else None
  | _, _ => None
  end.
Fixpoint split_by (l : list (str * str)) (u : str) : str * str * str :=
  match l with
  | [] => (#"none", [], u)
  | (p, n) :: l' => match strip n u with Some r => (p, n, r) | None => split_by l' u end
  end.
Definition prefixes : list (str * str) :=
  [([], #"https://www.w3.org/ns/hydra/core#"); (#"dts", #"https://w3id.org/dts/api#"); (#"cts", #"http://chs.harvard.edu/xmlns/cts/");
   (#"dct", #"http://purl.org/dc/terms/"); (#"skos", #"http://www.w3.org/2004/02/skos/core#");
   (#"rdf", #"http://www.w3.org/1999/02/22-rdf-syntax-ns#"); (#"rdfs", #"http://www.w3.org/2000/01/rdf-schema#");
   (#"ns1", #"http://purl.org/capitains/ns/1.0#")].
Definition by_prefix (u : str) : str * str * str := split_by prefixes u.

(** A check that a list of names is qualified as asked. *)
Definition local_b (l : str) : bool := match l with [] => false | c :: _ => negb (N.eqb c 64) && negb (existsb (N.eqb 58) l) && negb (existsb (N.eqb 47) l) end.
Definition one_b (qn : str -> str * str * str) (u : str) : bool :=
  let '(p, n, l) := qn u in str_eqb u (n ++ l) && local_b l && (match p with [] => true | _ => local_b p end) &&
    (match rev n with c :: _ => existsb (N.eqb c) [58; 47; 63; 35; 91; 93; 64]%N | [] => false end).
Definition two_b (qn : str -> str * str * str) (u u' : str) : bool :=
  let '(p, n, l) := qn u in let '(p', n', l') := qn u' in
  Bool.eqb (str_eqb p p') (str_eqb n n') && (match p with [] => negb (str_eqb p' l) | _ => true end).

Lemma local_b_spec : forall l, local_b l = true -> local_name l.
Proof.
  intros [|c l]; cbn [local_b]; [ discriminate | ]. intros H. apply andb_true_iff in H as [H H3]. apply andb_true_iff in H as [H1 H2].
  apply negb_true_iff in H1, H2, H3. split; [ discriminate | ].
  assert (X : forall d, existsb (N.eqb d) (c :: l) = false -> ~ In d (c :: l)).
  { intros d E I. rewrite (proj2 (existsb_exists _ _)) in E; [ discriminate | ]. exists d. split; [ exact I | apply N.eqb_refl ]. }
  split; [ apply X, H2 | ]. split; [ apply X, H3 | ]. intros r E. injection E as -> _. discriminate.
Qed.

Lemma qualified_by_check : forall qn (U : str -> Prop) L, (forall u, U u -> In u L) ->
  forallb (one_b qn) L = true -> forallb (fun u => forallb (two_b qn u) L) L = true ->
  (forall w, In w hydra_words -> qn (hydra w) = ([], #"https://www.w3.org/ns/hydra/core#", w)) ->
  (forall w, In w dts_words -> qn (dts w) = (#"dts", #"https://w3id.org/dts/api#", w)) ->
  qualifies qn U.
Proof.
  intros qn U L HL H1 H2 Hh Hd. rewrite forallb_forall in H1, H2.
  assert (O : forall u p n l, U u -> qn u = (p, n, l) -> u = n ++ l /\ local_name l /\ (p = [] \/ local_name p) /\
    exists a c, n = a ++ [c] /\ In c [58; 47; 63; 35; 91; 93; 64]%N).
  { intros u p n l I E. specialize (H1 u (HL u I)). unfold one_b in H1. rewrite E in H1.
    apply andb_true_iff in H1 as [H1 B4]. apply andb_true_iff in H1 as [H1 B3]. apply andb_true_iff in H1 as [B1 B2].
    split; [ apply str_eqb_eq, B1 | ]. split; [ apply local_b_spec, B2 | ]. split.
    - destruct p; [ left; reflexivity | right; apply local_b_spec, B3 ].
    - destruct (rev n) as [|c r] eqn:R; [ discriminate | ]. exists (rev r), c. split.
      + rewrite <- (rev_involutive n), R. reflexivity.
      + apply existsb_exists in B4 as [d [I' E']]. apply N.eqb_eq in E'. subst d. exact I'. }
  assert (T : forall u u' p n l p' n' l', U u -> U u' -> qn u = (p, n, l) -> qn u' = (p', n', l') -> (p = p' <-> n = n') /\ (p = [] -> p' <> l)).
  { intros u u' p n l p' n' l' I I' E E'. specialize (H2 u (HL u I)). rewrite forallb_forall in H2. specialize (H2 u' (HL u' I')).
    unfold two_b in H2. rewrite E, E' in H2. apply andb_true_iff in H2 as [A B]. apply eqb_prop in A. split.
    - split; intros X; apply str_eqb_eq; apply str_eqb_eq in X; congruence.
    - intros ->. apply negb_true_iff, str_eqb_neq in B. exact B. }
  constructor.
  - intros u p n l I E. apply (O u p n l I E).
  - intros u p n l I E. apply (O u p n l I E).
  - intros u p n l I E. apply (O u p n l I E).
  - intros u p n l I E. apply (O u p n l I E).
  - intros u u' p n l p' n' l' I I' E E'. apply (T u u' p n l p' n' l' I I' E E').
  - intros u u' n l p n' l' I I' E E'. apply (proj2 (T u u' [] n l p n' l' I I' E E')). reflexivity.
  - exact Hh.
  - exact Hd.
Qed.

(** *** A work with two editions *)

Definition plain_name (t : term) : str := match t with URI s => s | Literal s _ _ => s | BNode n => 95%N :: [n] end.
Definition python (s : str) (d : option str) : json :=
  match d with Some d => if str_eqb d #"http://www.w3.org/2001/XMLSchema#integer" then JInt 12 else JStr s | None => JStr s end.
Definition cts (w : str) : term := URI (#"http://chs.harvard.edu/xmlns/cts/" ++ w).
Definition dct (w : str) : term := URI (#"http://purl.org/dc/terms/" ++ w).
Definition work : term := URI #"urn:cts:latinLit:phi1294.phi002".
Definition edition : term := URI #"urn:cts:latinLit:phi1294.phi002.perseus-lat2".
Definition translation : term := URI #"urn:cts:latinLit:phi1294.phi002.perseus-eng2".
Definition shelf : graph :=
  [(work, URI rdf_type, cts #"work"); (work, URI (dts #"model"), URI (dts #"collection"));
   (work, URI rdfs_label, Literal #"Epigrams" (Some #"eng") None);
   (work, cts #"title", Literal #"Epigrammata" (Some #"lat") None); (work, cts #"title", Literal #"Epigrams" (Some #"eng") None);
   (work, URI (hydra #"description"), Literal #"Twelve books" None None);
   (work, dct #"extent", Literal #"12" None (Some #"http://www.w3.org/2001/XMLSchema#integer"));
   (work, dct #"creator", Literal #"Martial" None None); (work, dct #"creator", Literal #"Martialis" (Some #"lat") None);
   (work, URI #"http://purl.org/capitains/ns/1.0#parent", URI #"urn:cts:latinLit:phi1294");
   (work, dct #"isPartOf", BNode 3);
   (edition, URI rdf_type, cts #"edition"); (edition, URI rdfs_label, Literal #"An edition" None None);
   (translation, URI rdf_type, cts #"translation"); (translation, URI rdfs_label, Literal #"A translation" None None);
   (translation, URI (hydra #"description"), Literal #"By no one" None None)].
Definition work_source : source :=
  Source (Brief #"urn:cts:latinLit:phi1294.phi002" shelf 2)
    [Brief #"urn:cts:latinLit:phi1294.phi002.perseus-lat2" shelf 0; Brief #"urn:cts:latinLit:phi1294.phi002.perseus-eng2" shelf 0]
    (CiteRoot (Cite (Some #"book") None [Cite (Some #"poem") None [Cite None None []]])).

Definition work_names : list str :=
  map hydra hydra_words ++ map dts dts_words ++
  [rdf_type; rdfs_label; #"http://chs.harvard.edu/xmlns/cts/work"; #"http://chs.harvard.edu/xmlns/cts/edition"; #"http://chs.harvard.edu/xmlns/cts/translation";
   #"http://chs.harvard.edu/xmlns/cts/title"; #"http://purl.org/dc/terms/extent"; #"http://purl.org/dc/terms/creator";
   #"http://purl.org/dc/terms/isPartOf"; #"http://purl.org/capitains/ns/1.0#parent"].

(** The cases of a membership in a graph given in full. *)
Ltac triples I :=
  cbn [In b_graph x_brief b_id work_source shelf x_members] in I;
  repeat match type of I with
         | _ \/ _ => destruct I as [I|I]
         | False => destruct I
         end; try discriminate I.
Ltac member := first [ left; reflexivity | right; member ].

Lemma work_named : forall u, named work_source u -> In u work_names.
Proof.
  intros u [u' o I|b u' B I|w W|w W].
  - triples I; injection I as <- <-; member.
  - assert (G : b_graph b = shelf). { triples B; subst b; reflexivity. } rewrite G in I. clear G.
    triples B; subst b; triples I; injection I as <-; member.
  - unfold work_names. apply in_or_app. left. apply in_map, W.
  - unfold work_names. apply in_or_app. right. apply in_or_app. left. apply in_map, W.
Qed.

Lemma work_qualified : qualifies by_prefix (named work_source).
Proof.
  apply (qualified_by_check _ _ work_names work_named).
  - vm_compute. reflexivity.
  - vm_compute. reflexivity.
  - intros w W. cbn [In hydra_words] in W. repeat (destruct W as [<-|W]; [ reflexivity | ]). destruct W.
  - intros w W. cbn [In dts_words] in W. repeat (destruct W as [<-|W]; [ reflexivity | ]). destruct W.
Qed.

Lemma work_ready : ready by_prefix python work_source.
Proof.
  assert (NB : forall s l d, ~ is_blank (Literal s l d)) by (intros s l d [n E]; discriminate).
  assert (NU : forall s, ~ is_blank (URI s)) by (intros s [n E]; discriminate).
  assert (TC : forall w, ns_of by_prefix w = #"http://chs.harvard.edu/xmlns/cts/" -> type_declared by_prefix work_source w).
  { intros w W. right. exists #"http://chs.harvard.edu/xmlns/cts/title", (Literal #"Epigrammata" (Some #"lat") None).
    split; [ cbn [work_source x_brief b_graph b_id shelf]; member | ]. split; [ apply NB | ]. split; [ symmetry; exact W | ].
    apply is_in_not. reflexivity. }
  constructor.
  - assert (D : forall l : graph, (fix go (l : graph) := match l with [] => true | t :: l' => negb (existsb (triple_eqb t) l') && go l' end) l = true -> NoDup l).
    { induction l as [|t l IH]; intros H; constructor; apply andb_true_iff in H as [H1 H2].
      - intros I. apply negb_true_iff in H1. rewrite (proj2 (existsb_exists _ _)) in H1; [ discriminate | ].
        exists t. split; [ exact I | apply MetaProofs.triple_eqb_eq; reflexivity ].
      - apply IH, H2. }
    apply D. vm_compute. reflexivity.
  - intros p o I. triples I; injection I as <- <-; eexists; reflexivity.
  - intros u o I N R. triples I; injection I as <- <-;
      first [ exact Logic.I | (left; eexists; vm_compute; reflexivity) | (right; eexists; vm_compute; reflexivity)
            | (exfalso; apply R; apply is_in_In; vm_compute; reflexivity) | (exfalso; apply N; eexists; reflexivity) ].
  - exists (dts #"model"), (URI (dts #"collection")). split; [ cbn [work_source x_brief b_graph b_id shelf]; member | ].
    split; [ apply NU | reflexivity ].
  - intros b B. triples B; subst b; constructor;
      try (intros; discriminate);
      try (intros t I; triples I; injection I as <-; eexists; split; [ reflexivity | apply TC; vm_compute; reflexivity ]);
      try (intros o I; triples I; injection I as <-; do 3 eexists; reflexivity);
      try (eexists; cbn [b_graph b_id shelf]; member);
      (intros u r U; apply work_named in U; unfold work_names in U; cbn [map app In hydra_words dts_words] in U;
       repeat (destruct U as [<-|U]; [ vm_compute; discriminate | ]); destruct U).
Qed.

Example C64_meets : exists j e c,
  dts_export plain_name (fun l => l) (fun l => l) (fun l => l) by_prefix python 1 work_source = Ok j /\ expand_document j = [e] /\ parse_coll e = Ok c /\
  found plain_name by_prefix python work_source c.
Proof.
  apply C64_round_trip; try (intros l; apply Permutation_refl); [ | exact work_qualified | exact work_ready | lia ].
  split; reflexivity.
Qed.

(** The document itself. *)
Example C64_document : exists ctx, dts_export plain_name (fun l => l) (fun l => l) (fun l => l) by_prefix python 1 work_source =
  Ok (JObj [(#"@context", ctx); (#"@id", JStr #"urn:cts:latinLit:phi1294.phi002"); (#"@type", JStr #"cts:work"); (#"title", JStr #"Epigrams");
            (#"totalItems", JInt 2); (#"description", JStr #"Twelve books");
            (#"dts:extensions", JObj [(#"cts:title", JList [JObj [(#"@value", JStr #"Epigrammata"); (#"@language", JStr #"lat")];
                                                            JObj [(#"@value", JStr #"Epigrams"); (#"@language", JStr #"eng")]])]);
            (#"dts:dublincore", JObj [(#"dct:extent", JInt 12);
                                      (#"dct:creator", JList [JStr #"Martial"; JObj [(#"@value", JStr #"Martialis"); (#"@language", JStr #"lat")]])]);
            (#"member", JList [JObj [(#"@id", JStr #"urn:cts:latinLit:phi1294.phi002.perseus-lat2"); (#"@type", JStr #"cts:edition");
                                     (#"title", JStr #"An edition"); (#"totalItems", JInt 0)];
                               JObj [(#"@id", JStr #"urn:cts:latinLit:phi1294.phi002.perseus-eng2"); (#"@type", JStr #"cts:translation");
                                     (#"title", JStr #"A translation"); (#"totalItems", JInt 0); (#"description", JStr #"By no one")]]);
            (#"dts:citeDepth", JInt 3);
            (#"dts:citeStructure", JObj [(#"dts:citeType", JStr #"book");
               (#"dts:citeStructure", JList [JObj [(#"dts:citeType", JStr #"poem"); (#"dts:citeStructure", JList [JObj [(#"dts:citeType", JNull)]])]])])]) /\
  ctx = JObj [(#"dts", JStr #"https://w3id.org/dts/api#"); (#"cts", JStr #"http://chs.harvard.edu/xmlns/cts/");
              (#"dct", JStr #"http://purl.org/dc/terms/"); (#"@vocab", JStr #"https://www.w3.org/ns/hydra/core#")].
Proof. eexists. split; vm_compute; reflexivity. Qed.

(** *** Where it fails

    [reads x r]: the export of [x] is read as [r]. *)
Definition reads (x : source) (r : result coll) : Prop :=
  exists j e, dts_export plain_name (fun l => l) (fun l => l) (fun l => l) by_prefix python 1 x = Ok j /\ expand_document j = [e] /\ parse_coll e = r.
Definition inventory (more : graph) (c : cites) : source :=
  Source (Brief #"urn:perseus" ([(URI #"urn:perseus", URI (dts #"model"), URI (dts #"collection"))] ++ more) 0) [] c.
Definition says_type (t : term) : triple := (URI #"urn:perseus", URI rdf_type, t).
Definition says_label (s : str) : triple := (URI #"urn:perseus", URI rdfs_label, Literal s None None).

(** A collection without a label is read as one whose label is None, in four
    letters. *)
Theorem C64_unlabelled_refuted : exists x c, reads x (Ok c) /\
  (forall o, ~ In (URI (b_id (x_brief x)), URI rdfs_label, o) (b_graph (x_brief x))) /\ cm_labels (co_meta c) = [JStr #"None"].
Proof.
  exists (inventory [says_type (URI (dts #"collection"))] NoCites). eexists. split; [ | split ].
  - eexists. eexists. split; [ vm_compute; reflexivity | ]. split; [ vm_compute; reflexivity | vm_compute; reflexivity ].
  - intros o I. cbn [In inventory x_brief b_graph app says_type] in I. destruct I as [I|[I|[]]]; discriminate I.
  - reflexivity.
Qed.
Print Assumptions C64_unlabelled_refuted.

(** The type of an inventory that has no statement in the namespace of CTS is not
    read as it was: the prefix is not declared. *)
Theorem C64_type_refuted : exists x c t, reads x (Ok c) /\
  In (URI (b_id (x_brief x)), URI rdf_type, URI t) (b_graph (x_brief x)) /\
  (forall t', In (URI (b_id (x_brief x)), URI rdf_type, t') (b_graph (x_brief x)) -> t' = URI t) /\
  cm_types (co_meta c) = [JStr #"cts:TextInventory"] /\ t = #"http://chs.harvard.edu/xmlns/cts/TextInventory".
Proof.
  exists (inventory [says_type (cts #"TextInventory"); says_label #"Perseus"] NoCites). eexists. eexists. split; [ | split; [ | split; [ | split ]]].
  - eexists. eexists. split; [ vm_compute; reflexivity | ]. split; [ vm_compute; reflexivity | vm_compute; reflexivity ].
  - right. left. reflexivity.
  - intros t' I. cbn [In inventory x_brief b_graph b_id app says_type says_label] in I.
    destruct I as [I|[I|[I|[]]]]; try discriminate I. injection I as <-. reflexivity.
  - reflexivity.
  - reflexivity.
Qed.
Print Assumptions C64_type_refuted.

(** A statement whose value is an address, such as what a commentary is about: the
    collection is exported, and the document cannot be read.  So it is for a commentary, *)
Example commentary_unread : reads (inventory [says_type (cts #"commentary"); says_label #"Notes"; (URI #"urn:perseus", cts #"about", URI #"urn:cts:a:b.c")] NoCites) (Err KeyError).
Proof. eexists. eexists. split; [ vm_compute; reflexivity | ]. split; [ vm_compute; reflexivity | vm_compute; reflexivity ]. Qed.

(** and for every collection that would be ready but for addresses among its values. *)
Theorem C64_link_refuted : forall name objects_order triples_order predicates_order qn to_python x fuel,
  texts name -> arranges objects_order -> arranges triples_order -> arranges predicates_order ->
  qualifies qn (named x) -> ready_links qn to_python x -> 0 < fuel -> links qn x ->
  exists j e, dts_export name objects_order triples_order predicates_order qn to_python fuel x = Ok j /\
    expand_document j = [e] /\ parse_coll e = Err KeyError.
Proof.
  intros name oo to po qn py x fuel T O R P Q X F L.
  exact (link_fails name oo to po qn py x _ T O R P Q X (fun o H => H) L fuel F).
Qed.
Print Assumptions C64_link_refuted.

(** It is exported whether there are addresses or not. *)
Lemma C64_exported : forall name objects_order triples_order predicates_order qn to_python x fuel,
  texts name -> arranges objects_order -> arranges triples_order -> arranges predicates_order ->
  qualifies qn (named x) -> ready_links qn to_python x -> 0 < fuel ->
  exists j e, dts_export name objects_order triples_order predicates_order qn to_python fuel x = Ok j /\ expand_document j = [e].
Proof.
  intros name oo to po qn py x fuel T O R P Q X F.
  destruct (document name oo to po qn py x _ T O R P Q X fuel F) as [j [t [lo [od [om [op [os [c [cs [E [D _]]]]]]]]]]]. eauto.
Qed.

(** Such collections are read exactly when there is no address among the values. *)
Theorem C64_readable : forall name objects_order triples_order predicates_order qn to_python x fuel,
  texts name -> arranges objects_order -> arranges triples_order -> arranges predicates_order ->
  qualifies qn (named x) -> ready_links qn to_python x -> 0 < fuel ->
  (exists j e c, dts_export name objects_order triples_order predicates_order qn to_python fuel x = Ok j /\
     In e (expand_document j) /\ parse_coll e = Ok c) <-> ~ links qn x.
Proof.
  intros name oo to po qn py x fuel T O R P Q X F. split.
  - intros [j [e [c [E [I C]]]]] L. destruct (C64_link_refuted name oo to po qn py x fuel T O R P Q X F L) as [j' [e' [E' [D C']]]].
    rewrite E in E'. injection E' as <-. rewrite D in I. destruct I as [<-|[]]. rewrite C in C'. discriminate C'.
  - intros L. assert (X' : ready qn py x).
    { destruct X as [X1 X2 X3 X4 X5]. constructor; try assumption. intros u o I N W. destruct (X3 u o I N W) as [H|[v ->]]; [ exact H | ].
      exfalso. apply L. exists u, v. auto. }
    destruct (C64_round_trip name oo to po qn py x fuel T O R P Q X' F) as [j [e [c [E [D [C _]]]]]].
    exists j, e, c. rewrite D. split; [ exact E | ]. split; [ left; reflexivity | exact C ].
Qed.
Print Assumptions C64_readable.

(** One address, under a key that is used already, makes any of the collections that
    are read unreadable. *)
Definition with_link (x : source) (u v : str) : source :=
  Source (Brief (b_id (x_brief x)) ((URI (b_id (x_brief x)), URI u, URI v) :: b_graph (x_brief x)) (b_size (x_brief x))) (x_members x) (x_cites x).
Theorem C64_one_link_refuted : forall name objects_order triples_order predicates_order qn to_python x fuel u o v,
  texts name -> arranges objects_order -> arranges triples_order -> arranges predicates_order ->
  qualifies qn (named x) -> ready qn to_python x -> 0 < fuel ->
  In (URI (b_id (x_brief x)), URI u, o) (b_graph (x_brief x)) -> ~ In (ns_of qn u) reserved -> u <> rdf_type ->
  ~ In (URI (b_id (x_brief x)), URI u, URI v) (b_graph (x_brief x)) ->
  exists j e, dts_export name objects_order triples_order predicates_order qn to_python fuel (with_link x u v) = Ok j /\
    expand_document j = [e] /\ parse_coll e = Err KeyError.
Proof.
  intros name oo to po qn py x fuel u o v T O R P Q X F I W NT NI.
  assert (Less : forall w, named (with_link x u v) w -> named x w).
  { intros w [w' o' J|b w' B J|y Y|y Y].
    - destruct J as [J|J]; [ injection J as <- <-; apply (named_key x u o I) | apply (named_key x w' o' J) ].
    - destruct B as [<-|B]; [ | apply (named_type x b w'); [ right; exact B | exact J ] ].
      destruct J as [J|J]; [ injection J as E _; contradiction | apply (named_type x (x_brief x) w'); [ left; reflexivity | exact J ] ].
    - apply named_hydra, Y.
    - apply named_dts, Y. }
  assert (Q' : qualifies qn (named (with_link x u v))).
  { destruct Q as [Q1 Q2 Q3 Q4 Q5 Q6 Q7 Q8]. constructor; try assumption; intros; eauto. }
  apply C64_link_refuted; try assumption.
  - destruct X as [X1 X2 X3 X4 X5].
    assert (TD : forall t, type_declared qn x t -> type_declared qn (with_link x u v) t).
    { intros t [E|[w [o' [J K]]]]; [ left; exact E | ]. right. exists w, o'. split; [ right; exact J | exact K ]. }
    assert (ND : u <> hydra #"description").
    { intros ->. apply W. unfold ns_of. rewrite (q_hydra _ _ Q) by (cbn; auto). cbn; auto. }
    constructor.
    + constructor; assumption.
    + intros p o' [J|J]; [ injection J as <- <-; eauto | exact (X2 p o' J) ].
    + intros w o' [J|J] N K; [ injection J as <- <-; right; eauto | left; exact (X3 w o' J N K) ].
    + destruct X4 as [w [o' [J K]]]. exists w, o'. split; [ right; exact J | exact K ].
    + assert (B : forall b, In b (x_brief x :: x_members x) -> brief_ready qn (with_link x u v) (b_graph (x_brief (with_link x u v))) b).
      { intros b B. destruct (X5 b B) as [Y1 Y2 Y3 Y4 Y5 Y6]. constructor; try assumption.
        - intros t J. destruct (Y2 t J) as [w [E K]]. exists w. split; [ exact E | apply TD, K ].
        - intros o' [J|J]; [ injection J as _ E _; contradiction | exact (Y4 o' J) ].
        - intros w r K. apply Y6, Less, K. }
      intros b [<-|J]; [ | apply B; right; exact J ]. destruct (B (x_brief x) (or_introl eq_refl)) as [Y1 Y2 Y3 Y4 Y5 Y6]. constructor; try assumption.
      * destruct Y1 as [t J]. exists t. right. exact J.
      * intros t [J|J]; [ injection J as E _; contradiction | exact (Y2 t J) ].
      * destruct Y3 as [t J]. exists t. right. exact J.
  - exists u, v. split; [ left; reflexivity | exact W ].
Qed.
Print Assumptions C64_one_link_refuted.

Example creator_linked : exists j e,
  dts_export plain_name (fun l => l) (fun l => l) (fun l => l) by_prefix python 1
    (with_link work_source #"http://purl.org/dc/terms/creator" #"http://viaf.org/viaf/100219162") = Ok j /\
  expand_document j = [e] /\ parse_coll e = Err KeyError.
Proof.
  apply (C64_one_link_refuted _ _ _ _ _ _ _ _ _ (Literal #"Martial" None None)); try (intros l; apply Permutation_refl); [ split; reflexivity | exact work_qualified | exact work_ready | lia | | | discriminate | ].
  - cbn [work_source x_brief b_graph b_id shelf]. member.
  - apply is_in_not. reflexivity.
  - intros I. triples I.
Qed.

(** Of two descriptions, one is found. *)
Theorem C64_descriptions_refuted : exists x c a b, reads x (Ok c) /\ a <> b /\
  In (URI (b_id (x_brief x)), URI (hydra #"description"), Literal a None None) (b_graph (x_brief x)) /\
  In (URI (b_id (x_brief x)), URI (hydra #"description"), Literal b None None) (b_graph (x_brief x)) /\
  ~ In (JStr a) (cm_descriptions (co_meta c)).
Proof.
  exists (inventory [says_type (URI (dts #"collection")); says_label #"Perseus";
    (URI #"urn:perseus", URI (hydra #"description"), Literal #"one" None None);
    (URI #"urn:perseus", URI (hydra #"description"), Literal #"two" None None)] NoCites).
  eexists. exists #"one", #"two". split; [ | split; [ discriminate | split; [ | split ]]].
  - eexists. eexists. split; [ vm_compute; reflexivity | ]. split; [ vm_compute; reflexivity | vm_compute; reflexivity ].
  - right. right. right. left. reflexivity.
  - right. right. right. right. left. reflexivity.
  - cbn [co_meta cm_descriptions In]. intros [E|[]]. discriminate E.
Qed.
Print Assumptions C64_descriptions_refuted.

(** A citation scheme of CTS of one level is not found: only its depth is. *)
Theorem C64_flat_refuted : exists x c n, x_cites x = CiteRoot (Cite (Some n) None []) /\ reads x (Ok c) /\
  cm_citation (co_meta c) = None /\ cm_depth (co_meta c) = Some (JInt 1).
Proof.
  exists (inventory [says_type (URI (dts #"collection")); says_label #"Perseus"] (CiteRoot (Cite (Some #"line") None []))). eexists. exists #"line".
  split; [ reflexivity | ]. split.
  - eexists. eexists. split; [ vm_compute; reflexivity | ]. split; [ vm_compute; reflexivity | vm_compute; reflexivity ].
  - split; reflexivity.
Qed.
Print Assumptions C64_flat_refuted.

Example C64_untyped : ~ (exists t, In (URI #"urn:perseus", URI rdf_type, t) (b_graph (x_brief (inventory [] NoCites)))) /\
  dts_export plain_name (fun l => l) (fun l => l) (fun l => l) by_prefix python 1 (inventory [] NoCites) = Err IndexError.
Proof. split; [ intros [t [H|[]]]; discriminate H | vm_compute; reflexivity ]. Qed.
