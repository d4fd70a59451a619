(** Property C57: reading an inventory. *)

From Coq Require Import List NArith ZArith Arith Bool Lia.
From Verif Require Import PyStr PyStrFacts CiteModel XmlModel XmlProofs UrnModel MetaModel MetaSpec MetaProofs
  CollModel CollSpec CollProofs CollHist CollLang UtilModel InvModel InvSpec InvProofs InvTrace InvTree InvDone.
Import ListNotations.

(** ** From documents to the hypotheses of the proofs *)
Lemma order_refl : forall x, In x (document_order x).
Proof. intros [t a y z kids]. left. reflexivity. Qed.

Lemma order_down : forall x e k, In e (document_order x) -> In k (n_kids e) -> In k (document_order x).
Proof.
  fix IH 1. intros [t a y z kids] e k H Hk. cbn [document_order] in *. destruct H as [<-|H].
  - cbn [n_kids] in Hk. right. apply in_flat_map. exists k. split; [ exact Hk | apply order_refl ].
  - right. induction kids as [|c kids IHk]; [ exact H | ]. cbn [flat_map] in *.
    apply in_app_iff in H as [H|H]; apply in_or_app; [ left; apply (IH c e k H Hk) | right; apply IHk; exact H ].
Qed.

Lemma order_named : forall x e name k, In e (document_order x) -> In k (named name e) -> In k (document_order x).
Proof. intros x e name k H Hk. apply filter_In in Hk as [Hk _]. eapply order_down; eassumption. Qed.

Lemma order_text : forall x w k e, In w (document_order x) -> In (k, e) (texts_in w) -> In e (document_order x).
Proof.
  intros x w k e H Hk. unfold texts_in in Hk.
  apply in_app_iff in Hk as [Hk|Hk]; [ | apply in_app_iff in Hk as [Hk|Hk] ];
    apply in_map_iff in Hk as (c & E & Hc); injection E as _ <-; eapply order_named; eassumption.
Qed.

Lemma order_anywhere : forall x name e, In e (anywhere name x) -> In e (document_order x).
Proof. intros x name e H. apply filter_In in H. apply H. Qed.

Lemma order_structured : forall x e m, In e (document_order x) -> In m (structured_in e) -> In m (document_order x).
Proof.
  intros x e m H Hm. apply in_flat_map in Hm as (b & Hb & Hm). apply filter_In in Hb as [Hb _].
  eapply order_down; [ eapply order_down; eassumption | exact Hm ].
Qed.

Lemma clark_fine : forall x e, clark_names x -> In e (document_order x) -> fine e.
Proof. intros x e H He m Hm. apply H. eapply order_structured; eassumption. Qed.
Lemma clark_work : forall x e, clark_names x -> In e (document_order x) -> fine_work e.
Proof.
  intros x e H He. split; [ eapply clark_fine; eassumption | ]. intros k c Hc.
  eapply clark_fine; [ exact H | eapply order_text; eassumption ].
Qed.
Lemma clark_group : forall x e, clark_names x -> In e (document_order x) -> fine_group e.
Proof.
  intros x e H He. split; [ eapply clark_fine; eassumption | ]. intros w Hw.
  eapply clark_work; [ exact H | eapply order_named; eassumption ].
Qed.

Lemma calm_of : forall leaf nsmap x g, languages_agree leaf nsmap x -> In g (anywhere #"textgroup" x) ->
  calm_group leaf nsmap g.
Proof.
  intros leaf nsmap x g H Hg w Hw. split.
  - intros m ns name o Hm Q X V. unfold dc_language in X. injection X as X.
    destruct (H g w m ns name o Hg Hw Q X V) as [A _]. destruct (A Hm) as (l & El & ->).
    unfold work_terms. rewrite El. left. reflexivity.
  - intros k e Hk m ns name o Hm Q X V. unfold dc_language in X. injection X as X.
    destruct (H g w m ns name o Hg Hw Q X V) as [_ A]. rewrite (A k e Hk Hm). left. reflexivity.
Qed.

(** In particular if there is none. *)
Lemma no_field_agrees : forall leaf nsmap x, no_language_field x -> languages_agree leaf nsmap x.
Proof.
  intros leaf nsmap x H g w m ns name o Hg Hw Q X V.
  apply order_anywhere in Hg. pose proof (order_named _ _ _ _ Hg Hw) as Hw'. split.
  - intros Hm. exfalso. eapply H; [ eapply order_structured; [ exact Hw' | exact Hm ] | exact Q | exact X ].
  - intros k e Hk Hm. exfalso. eapply H; [ | exact Q | exact X ].
    eapply order_structured; [ eapply order_text; [ exact Hw' | exact Hk ] | exact Hm ].
Qed.

(** ** An inventory to read

    One textgroup with two works, one of them with an edition, a translation and
    a commentary; a label without language; structured metadata of all kinds. *)
Definition cel (name : str) (attrs : list (str * str)) (text : str) (kids : list XmlModel.node) : XmlModel.node :=
  Elem (cts_tag name) attrs text [] kids.
Definition lang_attr (l : str) : str * str := (#"{http://www.w3.org/XML/1998/namespace}lang", l).
Definition dc_el (name : str) (attrs : list (str * str)) (text : str) : XmlModel.node :=
  Elem (#"{http://purl.org/dc/elements/1.1/}" ++ name) attrs text [] [].
Definition example_edition : XmlModel.node :=
  cel #"edition" [(#"urn", #"urn:cts:latinLit:phi1294.phi002.perseus-lat2"); lang_attr #"fre"] []
    [cel #"label" [lang_attr #"eng"] #"Epigrammata" [];
     cel #"label" [] #"no language" [];
     cel #"description" [lang_attr #"eng"] #"Edited in 1925" [];
     cel #"online" [] []
       [cel #"citationMapping" [] []
          [cel #"citation" [(#"label", #"book"); (#"scope", #"/TEI/body"); (#"xpath", #"/div[@n='?']")] []
             [cel #"citation" [(#"label", #"poem"); (#"xpath", #"/div[@n='?']"); (#"scope", #"/TEI/body/div[@n='?']")] [] []]]];
     Elem #"{http://purl.org/capitains/ns/1.0#}structured-metadata" [] [] []
       [dc_el #"creator" [lang_attr #"lat"] #"Martialis";
        dc_el #"source" [] #"http://example.org/1";
        dc_el #"date" [] #"1925";
        Elem #"noname" [] #"passed over" [] [];
        dc_el #"language" [] #"lat"]].
Definition example_translation : XmlModel.node :=
  cel #"translation" [(#"urn", #"urn:cts:latinLit:phi1294.phi002.perseus-eng2"); lang_attr #"eng"] [] [].
Definition example_commentary : XmlModel.node :=
  cel #"commentary" [(#"urn", #"urn:cts:latinLit:phi1294.phi002.comm-1")] []
    [cel #"about" [(#"urn", #"urn:cts:latinLit:phi1294.phi002.perseus-lat2")] [] []].
Definition example_work : XmlModel.node :=
  cel #"work" [(#"urn", #"urn:cts:latinLit:phi1294.phi002"); lang_attr #"lat"] []
    [cel #"title" [lang_attr #"eng"] #"Epigrams" []; example_commentary; example_edition; example_translation].
Definition example_group : XmlModel.node :=
  cel #"textgroup" [(#"urn", #"urn:cts:latinLit:phi1294")] []
    [cel #"groupname" [lang_attr #"eng"] #"Martial" []; example_work;
     cel #"work" [(#"urn", #"urn:cts:latinLit:phi1294.phi003")] [] []].
Definition example_doc : XmlModel.node :=
  cel #"TextInventory" [(#"tiid", #"phi")] [] [example_group].
Definition by_text (e : XmlModel.node) : guess :=
  if str_eqb (n_text e) #"1925" then GInt 1925 else GText (n_text e).
Definition no_ns (e : XmlModel.node) : list (str * str) := [].
Definition blank : store := MkStore (MkState [] [[]]) [] [].
Definition same_order (l : list term) : list term := l.

Lemma same_arranges : arranges same_order.
Proof. unfold arranges, same_order. intros l. apply Permutation.Permutation_refl. Qed.

Ltac settle := repeat (first [ left; reflexivity | right ]).

Lemma example_clark : clark_names example_doc.
Proof.
  intros e H. cbn in H.
  assert (X : forallb (fun e => match split 125%N (n_tag e) with
                                | [a] => negb (mem 123%N a)
                                | [a; b] => match a with c :: _ => (c =? 123)%N | [] => false end
                                | _ => false end) (document_order example_doc) = true) by (vm_compute; reflexivity).
  rewrite forallb_forall in X. specialize (X e H). clear H.
  destruct (split 125%N (n_tag e)) as [|a [|b [|? ?]]] eqn:S; try discriminate.
  - left. apply split_one in S as [E _]. rewrite E. apply negb_true_iff in X. intros Y. apply mem_In in Y. congruence.
  - right. destruct a as [|c a]; [ discriminate | ]. apply N.eqb_eq in X. subst c. exists a, b.
    apply split_two in S as (E & M1 & M2). split; [ exact E | ].
    split; intros Y.
    + assert (Z : mem 125%N (123%N :: a) = true) by (apply mem_In; right; exact Y). congruence.
    + apply mem_In in Y. congruence.
Qed.

Example example_read : exists s', parse_inventory same_order by_text no_ns example_doc blank = (s', Ok 0).
Proof. eexists. vm_compute. reflexivity. Qed.

(** ** C57: accepted documents, the objects made, what is said of them *)

(** A document is read when it has an inventory element, everything that gets an
    object has a URN that can be read, and links have a target; otherwise an
    exception is raised. *)
Theorem C57_accepts : forall order, arranges order -> forall leaf nsmap x s,
  clark_names x ->
  ((exists s' i, parse_inventory order leaf nsmap x s = (s', Ok i)) <-> good_inventory x).
Proof.
  intros order Ho leaf nsmap x s Hc.
  pose proof (parse_inventory_yields order Ho leaf nsmap x s
    (fun g Hg => clark_group x g Hc (order_anywhere _ _ _ Hg))) as Y.
  unfold yields in Y. destruct (parse_inventory order leaf nsmap x s) as [s' [i|e]].
  - split; [ intros _; apply Y | intros _; exists s', i; reflexivity ].
  - split; [ intros (a & b & E); discriminate | tauto ].
Qed.
Print Assumptions C57_accepts.

Lemma inventory_facts : forall order, arranges order -> forall leaf nsmap x s s' i,
  clark_names x -> parse_inventory order leaf nsmap x s = (s', Ok i) ->
  good_inventory x /\ inventory_done leaf nsmap x s s' i.
Proof.
  intros order Ho leaf nsmap x s s' i Hc E.
  pose proof (parse_inventory_yields order Ho leaf nsmap x s
    (fun g Hg => clark_group x g Hc (order_anywhere _ _ _ Hg))) as Y.
  unfold yields in Y. rewrite E in Y. exact Y.
Qed.

(** The objects made: the inventory, a textgroup for every textgroup element of
    the document, a work for every work element in one, and in it the editions,
    translations and commentaries; each in its class, with its URN, its parent,
    its members and, for texts, the citation scheme. *)
Theorem C57_structure : forall order, arranges order -> forall leaf nsmap x s s' i,
  clark_names x -> parse_inventory order leaf nsmap x s = (s', Ok i) -> shows_inventory s' x i.
Proof.
  intros order Ho leaf nsmap x s s' i Hc E.
  destruct (inventory_facts order Ho leaf nsmap x s s' i Hc E) as (_ & _ & name & _ & _ & H & _). exact H.
Qed.
Print Assumptions C57_structure.

(** Also for a textgroup or a work in a document of its own, with or without a
    parent; the work gives its texts back. *)
Theorem C57_parts : forall order, arranges order -> forall leaf nsmap e p s,
  clark_names e -> (forall q, p = Some q -> q < length (objs (s_state s))) ->
  (match parse_textgroup order leaf nsmap e p s with
   | (s', Ok i) => good_group e /\ shows_group s' e p i
   | (_, Err _) => ~ good_group e
   end) /\
  (match parse_work order leaf nsmap e p s with
   | (s', Ok (i, texts)) => good_work e /\ shows_work s' e p i texts
   | (_, Err _) => ~ good_work e
   end).
Proof.
  intros order Ho leaf nsmap e p s Hc Hp. split.
  - pose proof (parse_textgroup_yields order Ho leaf nsmap e p s) as Y. unfold yields in Y.
    destruct (parse_textgroup order leaf nsmap e p s) as [s' [i|x]].
    + destruct Y as [Y1 Y2]; [ destruct p; cbn; auto | apply (clark_group e e Hc), order_refl | ].
      split; [ exact Y1 | ]. destruct Y2 as (_ & u & _ & _ & H & _). exact H.
    + apply Y; [ destruct p; cbn; auto | apply (clark_group e e Hc), order_refl ].
  - pose proof (parse_work_yields order Ho leaf nsmap e p s) as Y. unfold yields in Y.
    destruct (parse_work order leaf nsmap e p s) as [s' [[i ts]|x]].
    + destruct Y as [Y1 Y2]; [ destruct p; cbn; auto | apply (clark_work e e Hc), order_refl | ].
      split; [ exact Y1 | ]. destruct Y2 as (_ & u & _ & _ & H & _). exact H.
    + apply Y; [ destruct p; cbn; auto | apply (clark_work e e Hc), order_refl ].
Qed.
Print Assumptions C57_parts.

(** Nothing that existed before changes: no object, no citation, no statement
    about another node. *)
Theorem C57_frame : forall order, arranges order -> forall leaf nsmap x s s' i,
  clark_names x -> parse_inventory order leaf nsmap x s = (s', Ok i) ->
  (forall j, j < length (objs (s_state s)) ->
     obj (s_state s') j = obj (s_state s) j /\ citation_of s' j = citation_of s j) /\
  length (graphs (s_state s')) = length (graphs (s_state s)) /\
  (forall h, 0 < h -> nth h (graphs (s_state s')) [] = nth h (graphs (s_state s)) []) /\
  (forall n name, inventory_name x name -> ~ In n (map URI (name :: document_urns x)) ->
     forall o p, g_objects o n p (nth 0 (graphs (s_state s')) []) = g_objects o n p (nth 0 (graphs (s_state s)) [])).
Proof.
  intros order Ho leaf nsmap x s s' i Hc E.
  destruct (inventory_facts order Ho leaf nsmap x s s' i Hc E) as (_ & _ & name & Hn & [_ X] & _ & _ & G & _).
  split; [ | split; [ | split ] ].
  - intros j Hj. destruct (X j Hj) as (A & _ & C). split; [ apply A; discriminate | exact C ].
  - unfold grows in G. destruct (graphs (s_state s)); [ rewrite G; reflexivity | ]. destruct G as (g' & -> & _). reflexivity.
  - intros [|h] Hh; [ lia | ]. unfold grows in G.
    destruct (graphs (s_state s)); [ rewrite G; reflexivity | ]. destruct G as (g' & -> & _). reflexivity.
  - intros n name' Hn' N o p.
    assert (name' = name).
    { destruct Hn as (t & r & E1 & ->), Hn' as (t' & r' & E2 & ->). rewrite E1 in E2. injection E2 as <- _. reflexivity. }
    subst name'. apply (grows_other _ _ (s_state s) (s_state s') o n p G N).
Qed.
Print Assumptions C57_frame.

Lemma inventory_name_one : forall x a b, inventory_name x a -> inventory_name x b -> a = b.
Proof.
  intros x a b (t & r & E1 & ->) (t' & r' & E2 & ->). rewrite E1 in E2. injection E2 as <- _. reflexivity.
Qed.

Lemma good_the : forall e, good_urn e -> urn_of e = Some (the_urn e).
Proof. intros e (u & t & E & _). unfold the_urn. rewrite E. reflexivity. Qed.

Lemma told_said : forall leaf nsmap x name t, good_inventory x -> inventory_name x name ->
  (inventory_told leaf nsmap name x t <-> said leaf nsmap x t).
Proof.
  intros leaf nsmap x name t [_ Hg] Hn. split.
  - intros (g & Hgx & H). destruct (Hg g Hgx) as [Ug Hw]. apply good_the in Ug.
    assert (Lg : listed x KTextgroup g name) by (constructor; assumption).
    destruct H as [H|[(p & o & D & ->)|(w & Hwg & H)]].
    + cbn in H. subst t. eapply said_parent; eassumption.
    + eapply said_own; eassumption.
    + destruct (Hw w Hwg) as [Uw Ht]. apply good_the in Uw.
      assert (Lw : listed x KWork w (the_urn g)) by (eapply l_work; eassumption).
      destruct H as [H|[(p & o & D & ->)|([k e] & Hke & H)]].
      * cbn in H. subst t. eapply said_parent; eassumption.
      * eapply said_own; eassumption.
      * destruct (Ht k e Hke) as [Ue _]. apply good_the in Ue. cbn [fst snd] in H.
        assert (Le : listed x (KText k) e (the_urn w)) by (eapply l_text; eassumption).
        destruct H as [H|(p & o & D & ->)].
        -- cbn in H. subst t. eapply said_parent; eassumption.
        -- eapply said_own; eassumption.
  - assert (K : forall k e up, listed x k e up -> forall u, urn_of e = Some u -> forall t,
      (parent_told u (Some up) t \/ own_told leaf nsmap k u e t) -> inventory_told leaf nsmap name x t).
    { intros k e up L. inversion L as [g n Hn1 Hg1|g n w v L1 Ev Hw1|w n k1 e1 v L1 Ev Ht1]; subst.
      - intros u Eu t0 H. exists e. split; [ exact Hg1 | ].
        assert (up = name) by (eapply inventory_name_one; eassumption). subst up.
        assert (u = the_urn e) by (unfold the_urn; rewrite Eu; reflexivity). subst u.
        destruct H as [H|H]; [ left; exact H | right; left; exact H ].
      - intros u Eu t0 H. inversion L1 as [g' n' Hn1 Hg1| |]; subst. exists g. split; [ exact Hg1 | ].
        right. right. exists e. split; [ exact Hw1 | ].
        assert (u = the_urn e) by (unfold the_urn; rewrite Eu; reflexivity).
        assert (up = the_urn g) by (unfold the_urn; rewrite Ev; reflexivity). subst u up.
        destruct H as [H|H]; [ left; exact H | right; left; exact H ].
      - intros u Eu t0 H. inversion L1 as [|g' n' w' v' L2 Ev' Hw2|]; subst.
        inversion L2 as [g2 n2 Hn2 Hg2| |]; subst. exists g'. split; [ exact Hg2 | ].
        right. right. exists w. split; [ exact Hw2 | ]. right. right. exists (k1, e). split; [ exact Ht1 | ].
        cbn [fst snd].
        assert (u = the_urn e) by (unfold the_urn; rewrite Eu; reflexivity).
        assert (up = the_urn w) by (unfold the_urn; rewrite Ev; reflexivity). subst u up. exact H. }
    intros S. inversion S as [k e up u p o L Eu D|k e up u L Eu]; subst.
    + eapply K; [ exact L | exact Eu | ]. right. exists p, o. auto.
    + eapply K; [ exact L | exact Eu | ]. left. reflexivity.
Qed.

(** The statements added are those of the document, and no other: labels and
    descriptions with their languages, links, structured metadata, parents. *)
Theorem C57_statements : forall order, arranges order -> forall leaf nsmap x s s' i,
  clark_names x -> parse_inventory order leaf nsmap x s = (s', Ok i) -> graphs (s_state s) <> [] ->
  forall n p o, ~ single_valued p ->
  (In (n, p, o) (nth 0 (graphs (s_state s')) []) <->
   In (n, p, o) (nth 0 (graphs (s_state s)) []) \/ said leaf nsmap x (n, p, o)).
Proof.
  intros order Ho leaf nsmap x s s' i Hc E Hg n p o Hp.
  destruct (inventory_facts order Ho leaf nsmap x s s' i Hc E) as (W & _ & name & Hn & _ & _ & _ & G & _).
  rewrite <- (told_said leaf nsmap x name _ W Hn). unfold grows in G.
  destruct (graphs (s_state s)) as [|g r]; [ congruence | ]. destruct G as (g' & -> & A & _).
  cbn [nth]. apply A. exact Hp.
Qed.
Print Assumptions C57_statements.

Example C57_statements_example :
  said by_text no_ns example_doc
    (URI #"urn:cts:latinLit:phi1294.phi002.comm-1", cts #"about", URI #"urn:cts:latinLit:phi1294.phi002.perseus-lat2")
  /\ said by_text no_ns example_doc
    (URI #"urn:cts:latinLit:phi1294.phi002.perseus-lat2", URI #"http://purl.org/dc/elements/1.1/date",
     Literal #"1925" None (Some #"http://www.w3.org/2001/XMLSchema#integer")).
Proof.
  assert (G : listed example_doc KTextgroup example_group #"phi").
  { constructor; [ exists example_doc, []; split; vm_compute; reflexivity | vm_compute; left; reflexivity ]. }
  assert (W : listed example_doc KWork example_work #"urn:cts:latinLit:phi1294").
  { eapply l_work; [ exact G | reflexivity | vm_compute; left; reflexivity ]. }
  split.
  - eapply said_own with (k := KText Commentary) (e := example_commentary);
      [ eapply l_text; [ exact W | reflexivity | vm_compute; right; right; left; reflexivity ] | reflexivity | ].
    eapply d_about; [ vm_compute; left; reflexivity | reflexivity ].
  - eapply said_own with (k := KText Edition) (e := example_edition);
      [ eapply l_text; [ exact W | reflexivity | vm_compute; left; reflexivity ] | reflexivity | ].
    eapply (d_structured by_text no_ns (KText Edition) example_edition (dc_el #"date" [] #"1925")
      #"http://purl.org/dc/elements/1.1/" #"date").
    + vm_compute. right. right. left. reflexivity.
    + split; [ reflexivity | ]. split; intros X; apply mem_In in X; vm_compute in X; discriminate.
    + change (guess_text (by_text (dc_el #"date" [] #"1925"))) with #"1925".
      change (Some #"http://www.w3.org/2001/XMLSchema#integer") with
        (match by_text (dc_el #"date" [] #"1925") with
         | GInt _ => Some #"http://www.w3.org/2001/XMLSchema#integer"
         | GFloat _ => Some #"http://www.w3.org/2001/XMLSchema#float"
         | GText _ => None end).
      apply vs_guess; [ | reflexivity | reflexivity ].
      intros (p & r & H & E). cbn [In] in H. destruct H as [<-|[<-|[<-|[<-|[]]]]]; discriminate.
Qed.

(** Languages: when no URN occurs twice, no work for which the document gives no
    language has one yet and structured fields give no other, works and texts have
    the language the document gives them, a text without one and any edition that
    of the work. *)
Theorem C57_languages : forall order, arranges order -> forall leaf nsmap x s s' i,
  clark_names x -> parse_inventory order leaf nsmap x s = (s', Ok i) -> graphs (s_state s) <> [] ->
  NoDup (document_urns x) -> languages_agree leaf nsmap x ->
  (forall g w u l, In g (anywhere #"textgroup" x) -> In w (named #"work" g) -> lang_of w = None ->
     urn_of w = Some u -> ~ In (URI u, URI #"http://purl.org/dc/elements/1.1/language", l) (nth 0 (graphs (s_state s)) [])) ->
  forall o, arranges o ->
  forall g w, In g (anywhere #"textgroup" x) -> In w (named #"work" g) ->
  (forall p j, made_for s' KWork w p j -> get_lang o (s_state s') j = Ok (work_language w)) /\
  (forall k e p j, In (k, e) (texts_in w) -> made_for s' (KText k) e p j ->
     get_lang o (s_state s') j = Ok (text_language w k e)).
Proof.
  intros order Ho leaf nsmap x s s' i Hc E Hg N Hl Hfr o Hoo g w Hgx Hw.
  destruct (inventory_facts order Ho leaf nsmap x s s' i Hc E) as (W & _ & name & Hn & _ & _ & _ & _ & L).
  assert (D : group_langs s' g).
  { apply (L) with (sp := fun u => exists g w, In g (anywhere #"textgroup" x) /\ In w (named #"work" g) /\ lang_of w = None /\ urn_of w = Some u);
      [ | exact Hg | | | exact N | exact Hgx ].
    - intros g0 Hg0. eapply calm_of; eassumption.
    - intros g0 w0 Hg0 Hw0 Hl0. exists g0, w0. repeat (split; [ assumption | ]).
      apply good_the. apply W in Hg0. apply Hg0 in Hw0. apply Hw0.
    - intros u Hu (g0 & w0 & Hg0 & Hw0 & Hl0 & Hu0) o' Ho'. unfold objects0.
      destruct (g_objects o' (URI u) dc_language (nth 0 (graphs (s_state s)) [])) as [|t l] eqn:Eo; [ reflexivity | ].
      exfalso. apply (Hfr g0 w0 u t Hg0 Hw0 Hl0 Hu0). apply (In_objects o' Ho'). unfold dc_language in Eo. rewrite Eo. left. reflexivity. }
  destruct (D w Hw) as [Dw Dt]. split.
  - intros p j (_ & K & U & _ & _ & Gr). unfold get_lang. rewrite K. unfold CollModel.node. rewrite Gr.
    assert (c_id (obj (s_state s') j) = the_urn w) as -> by (unfold the_urn; rewrite U; reflexivity).
    pose proof (Dw o Hoo) as X. unfold objects0 in X. rewrite X. unfold work_language.
    destruct (lang_of w); reflexivity.
  - intros k e p j Hk (_ & K & U & _ & _ & Gr). unfold get_lang. rewrite K. unfold CollModel.node. rewrite Gr.
    assert (c_id (obj (s_state s') j) = the_urn e) as -> by (unfold the_urn; rewrite U; reflexivity).
    pose proof (Dt k e Hk o Hoo) as X. unfold objects0 in X. rewrite X. reflexivity.
Qed.
Print Assumptions C57_languages.

Example C57_languages_example : NoDup (document_urns example_doc) /\ languages_agree by_text no_ns example_doc /\
  (exists m, In m (structured_in example_edition) /\ n_tag m = #"{http://purl.org/dc/elements/1.1/}language") /\
  text_language example_work Edition example_edition = #"lat" /\
  text_language example_work Translation example_translation = #"eng" /\
  text_language example_work Commentary example_commentary = #"lat".
Proof.
  split; [ | split; [ | split ] ].
  - vm_compute. repeat constructor; cbn; intuition discriminate.
  - intros g w m ns name o Hg Hw Q X V.
    assert (T : n_tag m = #"{http://purl.org/dc/elements/1.1/}language" -> n_attrs m = [] -> by_text m = GText #"lat" ->
      o = Literal #"lat" None None).
    { intros _ Ea Eg. rewrite Eg in V. cbn [guess_text] in V. destruct V as [A|l _ E|d _ _ E _|d _ _ E _|_ _ _];
        [ | unfold lang_of in E; rewrite Ea in E; discriminate E | rewrite Ea in E; discriminate E | rewrite Ea in E; discriminate E | ].
      - destruct A as (p & r & H & E). cbn [In] in H. destruct H as [<-|[<-|[<-|[<-|[]]]]]; discriminate E.
      - rewrite Eg. reflexivity. }
    assert (B : forall c, In c [example_edition; example_translation; example_commentary; example_work;
         cel #"work" [(#"urn", #"urn:cts:latinLit:phi1294.phi003")] [] []] -> In m (structured_in c) ->
       c = example_edition /\ o = Literal #"lat" None None).
    { intros c Hc Hm. destruct Q as [Et _].
      cbn [In] in Hc. destruct Hc as [<-|[<-|[<-|[<-|[<-|[]]]]]]; try (vm_compute in Hm; contradiction).
      split; [ reflexivity | ].
      change (structured_in example_edition) with [dc_el #"creator" [lang_attr #"lat"] #"Martialis";
        dc_el #"source" [] #"http://example.org/1"; dc_el #"date" [] #"1925";
        Elem #"noname" [] #"passed over" [] []; dc_el #"language" [] #"lat"] in Hm.
      assert (Y : forall c : N, In c (n_tag m) <-> c = 123%N \/ c = 125%N \/ In c (ns ++ name)).
      { intros c. rewrite Et. cbn [In]. rewrite !in_app_iff. cbn [In]. intuition. }
      assert (L : length (n_tag m) = S (S (length (ns ++ name)))).
      { rewrite Et. cbn [length]. rewrite !app_length. cbn [length]. lia. }
      rewrite X in L.
      cbn [In] in Hm. destruct Hm as [<-|[<-|[<-|[<-|[<-|[]]]]]]; try (vm_compute in L; discriminate L).
      apply T; reflexivity. }
    change (anywhere #"textgroup" example_doc) with [example_group] in Hg. destruct Hg as [<-|[]].
    change (named #"work" example_group) with [example_work; cel #"work" [(#"urn", #"urn:cts:latinLit:phi1294.phi003")] [] []] in Hw.
    split.
    + intros Hm. exfalso. destruct Hw as [<-|[<-|[]]]; vm_compute in Hm; contradiction.
    + intros k e Hk Hm. destruct Hw as [<-|[<-|[]]]; [ | destruct Hk ].
      change (texts_in example_work) with [(Edition, example_edition); (Translation, example_translation); (Commentary, example_commentary)] in Hk.
      destruct Hk as [E|[E|[E|[]]]]; injection E as <- <-.
      * destruct (B example_edition) as [_ ->]; [ left; reflexivity | exact Hm | reflexivity ].
      * destruct (B example_translation) as [C _]; [ right; left; reflexivity | exact Hm | discriminate C ].
      * destruct (B example_commentary) as [C _]; [ right; right; left; reflexivity | exact Hm | discriminate C ].
  - exists (dc_el #"language" [] #"lat"). split; [ vm_compute; auto 10 | reflexivity ].
  - vm_compute. auto.
Qed.

(** Findings. *)
Definition inventory_of (l : list XmlModel.node) : XmlModel.node :=
  cel #"TextInventory" [(#"tiid", #"x")] [] [cel #"textgroup" [(#"urn", #"urn:cts:a:g")] [] l].
Definition read_doc (order : list term -> list term) (x : XmlModel.node) : state :=
  s_state (fst (parse_inventory order (fun e => GText (n_text e)) no_ns x blank)).

(** The language of an edition is not looked at: an edition that says it is in
    French is in Latin when the work is. *)
Theorem C57_edition_language_refuted : exists x e i,
  In e (anywhere #"edition" x) /\ lang_of e = Some #"fre" /\
  urn_of e = Some (c_id (obj (read_doc same_order x) i)) /\
  get_lang same_order (read_doc same_order x) i = Ok #"lat".
Proof. exists example_doc, example_edition, 3. vm_compute. auto 10. Qed.
Print Assumptions C57_edition_language_refuted.

(** A second work with the URN of a first one gets an object with the textgroup
    as parent, which is not among its members. *)
Theorem C57_duplicate_refuted : exists x i g,
  let st := read_doc same_order x in
  c_kind (obj st i) = KWork /\ c_parent (obj st i) = Some g /\ ~ In i (map snd (c_children (obj st g))).
Proof.
  exists (inventory_of [cel #"work" [(#"urn", #"urn:cts:a:g.w")] [] []; cel #"work" [(#"urn", #"urn:cts:a:g.w")] [] []]), 3, 1.
  vm_compute. split; [ reflexivity | ]. split; [ reflexivity | ]. intros [X|[]]; discriminate.
Qed.
Print Assumptions C57_duplicate_refuted.

(** An empty title reads None; a title without a language is lost. *)
Theorem C57_title_refuted : exists x y,
  In (cel #"title" [lang_attr #"eng"] [] []) (anywhere #"title" x) /\
  In (URI #"urn:cts:a:g.w", cts #"title", Literal #"None" (Some #"eng") None) (nth 0 (graphs (read_doc same_order x)) []) /\
  In (cel #"title" [] #"De bello" []) (anywhere #"title" y) /\
  forall o, ~ In (URI #"urn:cts:a:g.w", cts #"title", o) (nth 0 (graphs (read_doc same_order y)) []).
Proof.
  exists (inventory_of [cel #"work" [(#"urn", #"urn:cts:a:g.w")] [] [cel #"title" [lang_attr #"eng"] [] []]]),
    (inventory_of [cel #"work" [(#"urn", #"urn:cts:a:g.w")] [] [cel #"title" [] #"De bello" []]]).
  split; [ vm_compute; auto | ]. split; [ vm_compute; auto 20 | ]. split; [ vm_compute; auto | ].
  intros o H. vm_compute in H. repeat (destruct H as [H|H]; [ discriminate | ]). exact H.
Qed.
Print Assumptions C57_title_refuted.

(** A structured field can give a second language, and which of the two the text
    is in depends on the order the store iterates in. *)
Theorem C57_two_languages_refuted : exists x i,
  arranges same_order /\ arranges (@rev term) /\
  get_lang same_order (read_doc same_order x) i <> get_lang (@rev term) (read_doc same_order x) i.
Proof.
  exists (inventory_of [cel #"work" [(#"urn", #"urn:cts:a:g.w"); lang_attr #"lat"] []
    [Elem #"{http://purl.org/capitains/ns/1.0#}structured-metadata" [] [] [] [dc_el #"language" [] #"grc"]]]), 2.
  split; [ apply same_arranges | ]. split; [ intros l; apply Permutation.Permutation_rev || (apply Permutation.Permutation_sym; apply Permutation.Permutation_rev) | ].
  vm_compute. discriminate.
Qed.
Print Assumptions C57_two_languages_refuted.

(** Inventories share one graph: reading a second document changes what is said
    of the texts of the first. *)
Theorem C57_shared_refuted : exists x y i,
  let s := fst (parse_inventory same_order (fun e => GText (n_text e)) no_ns x blank) in
  let s' := fst (parse_inventory same_order (fun e => GText (n_text e)) no_ns y s) in
  i < length (objs (s_state s)) /\
  get_lang same_order (s_state s) i = Ok #"lat" /\ get_lang same_order (s_state s') i = Ok #"grc".
Proof.
  exists (inventory_of [cel #"work" [(#"urn", #"urn:cts:a:g.w"); lang_attr #"lat"] [] []]),
    (inventory_of [cel #"work" [(#"urn", #"urn:cts:a:g.w"); lang_attr #"grc"] [] []]), 2.
  vm_compute. auto.
Qed.
Print Assumptions C57_shared_refuted.
