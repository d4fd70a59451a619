(** The inventory that is read back. *)

From Coq Require Import List NArith ZArith Arith Bool Lia Permutation.
From Verif Require Import PyStr PyStrFacts CiteSpec CiteModel CiteProofs XmlModel XmlProofs UrnModel MetaModel MetaSpec MetaProofs
  CollModel CollSpec CollProofs UtilModel UtilSpec XmlNodeProofs XmlReadSpec XmlReadProofs
  InvModel InvSpec InvProofs InvTrace InvExport InvExportSpec InvExportProofs InvExportTree InvExportDoc Props_Cite.
Import ListNotations.

Section Copy.
Variable cpt : bool.
Variable pairs : list (term * term) -> list (term * term).
Hypothesis Hp : arranges pairs.
Variable order : list term -> list term.
Hypothesis Ho : arranges order.
Variable qname : term -> str * str.
Variable s : store.

Notation st := (s_state s).
Notation label_raw := InvExportTree.label_raw.
Notation prop_raws := (InvExportTree.prop_raws order s).
Notation link_raws := (InvExportTree.link_raws order s).
Notation online_raws := (InvExportTree.online_raws s).
Notation text_raw := (InvExportTree.text_raw cpt pairs order qname s).
Notation work_raw := (InvExportTree.work_raw cpt pairs order qname s).
Notation group_raw := (InvExportTree.group_raw cpt pairs order qname s).
Notation inventory_raw := (InvExportTree.inventory_raw cpt pairs order qname s).
Notation meta_raws := (InvExportTree.meta_raws cpt pairs qname s).
Notation statement_raws := (InvExportTree.statement_raws pairs qname s).
Notation statement_raw := (InvExportTree.statement_raw qname).
Notation nl := newline.

(** The declarations of the document. *)
Definition env : list (str * str) := declarations (namespaces_header cpt order qname (main_graph s)).
Notation to_node := (InvExportDoc.to_node env).
Notation simple := (InvExportDoc.simple env).

(** ** Names *)
Definition small_names : list str :=
  [#"label"; #"description"; #"title"; #"groupname"; #"about"; #"online"; #"citationMapping"; #"citation";
   #"edition"; #"translation"; #"commentary"; #"text"; #"work"].

Lemma in_names : forall P : str -> Prop, forall n l, In n l -> Forall P l -> P n.
Proof using Type. intros P n l H F. rewrite Forall_forall in F. apply F, H. Qed.

Lemma label_name : forall name o, raw_name (label_raw name o) = name.
Proof using Type. intros name [u|b|t [l|] d]; reflexivity. Qed.
Lemma label_names : forall name o, names_in (label_raw name o) = [name].
Proof using Type. intros name [u|b|t [l|] d]; reflexivity. Qed.

Lemma prop_in : forall i r, In r (prop_raws i) ->
  exists name o, In name (cts_properties (c_kind (obj st i))) /\ In o (values_of order s i name) /\ r = label_raw name o.
Proof using Type.
  intros i r H. apply in_flat_map in H as (name & Hn & H). apply in_map_iff in H as (o & <- & H). eauto.
Qed.

Lemma property_small : forall k name, In name (cts_properties k) -> In name small_names.
Proof using Type. intros k name H. destruct k; cbn in H; repeat (destruct H as [<-|H]; [ cbn; auto 20 | ]); contradiction. Qed.

Definition small (r : raw) : Prop := forall n, In n (names_in r) -> In n small_names \/ In 58%N n.

Lemma small_node : forall n a t kids, In n small_names -> (forall k x, In (k, x) kids -> small k) -> small (Raw n a t kids).
Proof using Type.
  intros n a t kids Hn Hk m [<-|H]; [ left; exact Hn | ]. apply in_flat_map in H as ([k x] & H & Hm). exact (Hk k x H m Hm).
Qed.

Lemma in_tails : forall (rs : list raw) (y : str) k x, In (k, x) (map (fun r => (r, y)) rs) -> In k rs.
Proof using Type. intros rs y k x H. apply in_map_iff in H as (r & E & H). injection E as <- _. exact H. Qed.

Lemma prop_small : forall i r, In r (prop_raws i) -> small r.
Proof using Type.
  intros i r H. apply prop_in in H as (name & o & Hn & _ & ->). intros m Hm. rewrite label_names in Hm.
  destruct Hm as [<-|[]]. left. eapply property_small, Hn.
Qed.

Hypothesis Hq : prefixes_fit qname s.
Hypothesis OM : cpt = true -> one_meaning qname s.
Variable told : str -> Prop.
Hypothesis Hs : cpt = true -> forall u p o, told u -> In (URI u, p, o) (main_graph s) -> carried qname p -> writable_statement qname s p o.

Definition tells (i : nat) : Prop := c_graph (obj st i) = 0 /\ told (c_id (obj st i)).

Lemma meta_in : forall i r, In r (meta_raws i) -> cpt = true /\ exists t, r = Raw #"cpt:structured-metadata" [] t (lined (statement_raws i)).
Proof using Type.
  clear Hs OM. intros i r H. unfold InvExportTree.meta_raws in H. destruct cpt; [ | contradiction ]. destruct H as [<-|[]].
  split; [ reflexivity | eexists; reflexivity ].
Qed.
Lemma statement_in : forall i r, tells i -> cpt = true -> In r (statement_raws i) -> exists p o,
  r = statement_raw (p, o) /\ In (URI (c_id (obj st i)), p, o) (main_graph s) /\ carried qname p /\ writable_statement qname s p o.
Proof using Hp Hs.
  intros i r [G T] C H. apply in_map_iff in H as ([p o] & <- & H). apply (own_statements_in pairs Hp qname s i p o G) in H as [H1 H2].
  exists p, o. split; [ reflexivity | ]. split; [ exact H1 | ]. split; [ exact H2 | ]. eapply Hs; eassumption.
Qed.

Lemma meta_small : forall i r, tells i -> In r (meta_raws i) -> small r.
Proof using Hp Hq Hs.
  intros i r T H. apply meta_in in H as (C & t & ->). intros n [<-|H].
  - right. vm_compute. auto 20.
  - apply in_flat_map in H as ([k x] & H & Hn). apply in_tails in H. cbn [fst] in Hn.
    apply (statement_in i k T C) in H as (p & o & -> & H1 & H2 & H3).
    destruct (written_name_is qname s Hq _ p o H1 H2 H3) as (name & _ & _ & _ & E).
    destruct Hn as [<-|[]]. right. cbn [fst]. rewrite E. apply in_or_app. right. left. reflexivity.
Qed.

Lemma cite_small : forall l r, In r (cite_raw l) -> small r.
Proof using Type.
  induction l as [|[[name|] rd] l IH]; intros r H; cbn [cite_raw] in H; try contradiction.
  destruct (parse_xpath_scope rd) as [[scope xpath]|]; [ | contradiction ]. destruct H as [<-|[]].
  apply small_node; [ cbn; auto 20 | ]. intros k x Hk. apply in_tails in Hk. apply IH, Hk.
Qed.

Lemma text_small : forall ns i, (exists k, c_kind (obj st i) = KText k) -> tells i -> small (text_raw ns i).
Proof using Hp Hq Hs.
  intros ns i [k K] T. apply small_node; [ rewrite K; destruct k; cbn; auto 20 | ].
  intros r x H. apply in_tails in H. apply in_app_iff in H as [H|H]; [ eapply prop_small, H | ].
  apply in_app_iff in H as [H|H].
  { apply in_map_iff in H as (o & <- & _). apply small_node; [ cbn; auto 20 | intros ? ? [] ]. }
  apply in_app_iff in H as [H|H]; [ | eapply meta_small; eassumption ].
  - unfold InvExportTree.online_raws in H. destruct (cited s i) as [|lv l]; [ contradiction | ]. destruct H as [<-|[]].
    apply small_node; [ cbn; auto 20 | ]. intros k1 x1 [E|[]]. injection E as <- _.
    apply small_node; [ cbn; auto 20 | ]. intros k2 x2 H2. apply in_tails in H2. apply (cite_small (lv :: l)). exact H2.
Qed.

Lemma member_in : forall i j, In j (members s i) -> exists u, In (u, j) (children s i).
Proof using Type. intros i j H. apply in_map_iff in H as ([u j'] & E & H). cbn in E. subst. exists u. exact H. Qed.

Lemma text_kind : forall w u t, portable_text s w u t -> exists k, c_kind (obj st t) = KText k.
Proof using Type. intros w u t (k & _ & _ & _ & (K & _) & _). exists k. exact K. Qed.

Lemma text_tells : forall w u t, portable_text s w u t -> told u -> tells t.
Proof using Type. intros w u t (k & _ & _ & _ & (_ & U & _ & G & _) & _) T. split; [ exact G | rewrite U; exact T ]. Qed.
Lemma work_tells : forall g u w, portable_work s g u w -> told u -> tells w.
Proof using Type. intros g u w ((_ & U & _ & G & _) & _) T. split; [ exact G | rewrite U; exact T ]. Qed.
Lemma group_tells : forall i u g, portable_group s i u g -> told u -> tells g.
Proof using Type. intros i u g ((_ & U & _ & G & _) & _) T. split; [ exact G | rewrite U; exact T ]. Qed.

(** All of the object and of what is below it is told. *)
Definition tells_work (u : str) (w : nat) : Prop := told u /\ forall v, In v (text_ids s w) -> told v.
Definition tells_group (u : str) (g : nat) : Prop := told u /\ forall v, In v (work_ids s g) -> told v.
Definition tells_inventory (i : nat) : Prop := told (c_id (obj st i)) /\ forall v, In v (inventory_ids s i) -> told v.

Lemma tells_member_text : forall u w v t, tells_work u w -> In (v, t) (children s w) -> told v.
Proof using Type. intros u w v t [_ H] I. apply H. apply in_map_iff. exists (v, t). split; [ reflexivity | exact I ]. Qed.
Lemma tells_member_work : forall u g v w, tells_group u g -> In (v, w) (children s g) -> tells_work v w.
Proof using Type.
  intros u g v w [_ H] I. split; [ | intros x Hx ]; apply H; apply in_flat_map; exists (v, w); (split; [ exact I | ]); [ left; reflexivity | right; exact Hx ].
Qed.
Lemma tells_member_group : forall i v g, tells_inventory i -> In (v, g) (children s i) -> tells_group v g.
Proof using Type.
  intros i v g [_ H] I. split; [ | intros x Hx ]; apply H; apply in_flat_map; exists (v, g); (split; [ exact I | ]); [ left; reflexivity | right; exact Hx ].
Qed.

Lemma work_small : forall ns g u w, portable_work s g u w -> tells_work u w -> small (work_raw ns w).
Proof using Hp Hq Hs.
  intros ns g u w P T. pose proof (work_tells g u w P (proj1 T)) as Tw. destruct P as (_ & _ & _ & HT). apply small_node; [ cbn; auto 20 | ].
  intros r x H. apply in_tails in H. apply in_app_iff in H as [H|H]; [ eapply prop_small, H | ].
  apply in_app_iff in H as [H|H]; [ eapply meta_small; eassumption | ].
  apply in_map_iff in H as (t & <- & H). apply member_in in H as [v H].
  apply text_small; [ eapply text_kind, (HT v t H) | eapply text_tells; [ exact (HT v t H) | eapply tells_member_text; eassumption ] ].
Qed.

Lemma group_names : forall ns i u g n, portable_group s i u g -> tells_group u g -> In n (names_in (group_raw ns g)) ->
  n = #"textgroup" \/ In n small_names \/ In 58%N n.
Proof using Hp Hq Hs.
  intros ns i u g n P T. pose proof (group_tells i u g P (proj1 T)) as Tg. destruct P as (_ & _ & HT). intros [<-|H]; [ left; reflexivity | right ].
  apply in_flat_map in H as ([k x] & H & Hn). cbn [fst] in Hn. apply in_tails in H.
  apply in_app_iff in H as [H|H]; [ apply (prop_small g k H n Hn) | ].
  apply in_app_iff in H as [H|H]; [ apply (meta_small g k Tg H n Hn) | ].
  apply in_map_iff in H as (w & <- & H). apply member_in in H as [v H].
  eapply work_small; [ exact (HT v w H) | eapply tells_member_work; eassumption | exact Hn ].
Qed.

Lemma inventory_props : forall i, c_kind (obj st i) = KInventory -> prop_raws i = [].
Proof using Type. intros i K. unfold InvExportTree.prop_raws. rewrite K. reflexivity. Qed.

Lemma inventory_names : forall ns i n, portable s i -> tells_inventory i -> In n (names_in (inventory_raw ns i)) ->
  n = #"TextInventory" \/ n = #"textgroup" \/ In n small_names \/ In 58%N n.
Proof using Hp Hq Hs.
  intros ns i n (K & G & _ & HT & _) T [<-|H]; [ left; reflexivity | right ].
  apply in_flat_map in H as ([k x] & H & Hn). cbn [fst] in Hn. apply in_tails in H.
  rewrite (inventory_props i K) in H. cbn [app] in H.
  apply in_app_iff in H as [H|H]; [ right; apply (meta_small i k (conj G (proj1 T)) H n Hn) | ].
  apply in_map_iff in H as (w & <- & H). apply member_in in H as [v H].
  eapply group_names; [ exact (HT v w H) | eapply tells_member_group; eassumption | exact Hn ].
Qed.

Lemma not_small : forall n, In n [#"TextInventory"; #"textgroup"] -> ~ (In n small_names \/ In 58%N n).
Proof using Type.
  intros n H [X|X]; (destruct H as [<-|[<-|[]]]; cbn in X; repeat (destruct X as [X|X]; [ discriminate | ]); exact X).
Qed.

Lemma small_plain : forall n, In n small_names -> ~ In 58%N n /\ ~ In 125%N n.
Proof using Type.
  intros n H. assert (X : forallb (fun n => negb (mem 58%N n) && negb (mem 125%N n)) small_names = true) by (vm_compute; reflexivity).
  rewrite forallb_forall in X. apply X in H. apply andb_true_iff in H as [H1 H2].
  split; intros Y; apply mem_In in Y; rewrite Y in *; discriminate.
Qed.

(** ** Namespaces *)
Lemma simple_small : forall root n a t kids, In n small_names ->
  (forall k v, In (k, v) a -> (root = true /\ is_decl k) \/ fine_attr env k) ->
  (forall k x, In (k, x) kids -> simple false k) -> simple root (Raw n a t kids).
Proof using Type. intros root n a t kids Hn Ha Hk. constructor; [ left; apply small_plain, Hn | exact Ha | exact Hk ]. Qed.

Lemma own_fine : forall k, In k [#"urn"; #"xml:lang"; #"workUrn"; #"groupUrn"; #"tiid"; #"xpath"; #"scope"; #"label"] ->
  fine_attr env k.
Proof using Type.
  intros k H. assert (X : forall n, mem 58%N n = false -> ~ In 58%N n) by (intros n M Y; apply mem_In in Y; congruence).
  cbn [In] in H.
  repeat (destruct H as [<-|H]; [ split; [ reflexivity | first [ left; reflexivity | right; left; apply X; reflexivity ] ] | ]).
  contradiction.
Qed.

Lemma simple_prop : forall i r, In r (prop_raws i) -> simple false r.
Proof using Type.
  intros i r H. apply prop_in in H as (name & o & Hn & _ & ->). apply property_small in Hn.
  destruct o as [u|b|t [l|] d]; cbn [InvExportTree.label_raw]; (apply simple_small; [ exact Hn | | intros ? ? [] ]);
    intros k v Hk; cbn [In] in Hk; try contradiction.
  destruct Hk as [E|[]]. injection E as <- _. right. apply own_fine. cbn; auto 10.
Qed.

Lemma simple_cite : forall l r, In r (cite_raw l) -> simple false r.
Proof using Type.
  induction l as [|[[name|] rd] l IH]; intros r H; cbn [cite_raw] in H; try contradiction.
  destruct (parse_xpath_scope rd) as [[scope xpath]|]; [ | contradiction ]. destruct H as [<-|[]].
  apply simple_small; [ cbn; auto 20 | | intros k x Hk; apply in_tails in Hk; apply IH, Hk ].
  intros k v Hk. right. apply own_fine. cbn [In] in Hk.
  repeat (destruct Hk as [E|Hk]; [ injection E as <- _; cbn; auto 10 | ]). contradiction.
Qed.

Lemma header_simple : forall ns i k v, c_graph (obj st i) = 0 -> In (k, v) (header cpt order qname s ns i) -> ns = true /\ is_decl k.
Proof using Ho Hq.
  intros [|] i k v G H; unfold header in H; [ | contradiction ]. split; [ reflexivity | ]. rewrite G in H.
  apply (header_decls cpt order Ho qname s Hq). apply in_map_iff. exists (k, v). split; [ reflexivity | exact H ].
Qed.

Lemma parent_name : forall i name k v, In (k, v) (parent_attr s i name) -> k = name.
Proof using Type.
  intros i name k v H. unfold parent_attr in H. destruct (c_parent _) as [q|]; [ | contradiction ].
  destruct (truthy _); [ | contradiction ]. destruct H as [E|[]]. injection E as <- _. reflexivity.
Qed.

(** *** The statements *)
Lemma expanded_two : forall b p l u, mem 58%N p = false -> mem 58%N l = false -> str_eqb p #"xml" = false -> dget p env = Some u ->
  expanded env b (p ++ 58%N :: l) = Some ([123%N] ++ u ++ [125%N] ++ l).
Proof using Type. intros b p l u H1 H2 H3 H4. unfold expanded. rewrite split_app_sep, split_no_sep, H3, H4 by assumption. reflexivity. Qed.

Lemma declared_predicate : forall n p o, cpt = true -> In (n, p, o) (main_graph s) -> fst (qname p) <> [] ->
  dget (fst (qname p)) env = Some (snd (qname p)).
Proof using Ho Hq OM. intros n p o C H N. eapply header_of_predicate; eauto. Qed.

Lemma statement_tag : forall n p o, cpt = true -> In (n, p, o) (main_graph s) -> carried qname p -> writable_statement qname s p o ->
  exists ns name, p = URI (ns ++ name) /\ ~ In 125%N ns /\ ~ In 125%N name /\
    expanded env true (written_name qname p) = Some ([123%N] ++ ns ++ [125%N] ++ name) /\
    tag_of env (written_name qname p) = [123%N] ++ ns ++ [125%N] ++ name.
Proof using Ho Hq OM.
  intros n p o C H Cp W. destruct (written_name_is qname s Hq n p o H Cp W) as (name & E & N1 & N2 & X).
  pose proof (carried_prefix qname s Hq n p o H Cp) as N. pose proof (declared_predicate n p o C H N) as D.
  pose proof (Hq n p o H) as Q. unfold writable_statement in W. unfold env in *.
  destruct (qname p) as [prefix ns]. cbn [fst snd] in *. destruct W as (_ & W1 & W2 & W3 & _). destruct Q as (_ & _ & Q).
  destruct (Q N) as (_ & Q1 & _).
  assert (N3 : ~ In 125%N name). { intros Y. destruct N1 as [_ N1]. apply N1 in Y. vm_compute in Y. discriminate. }
  assert (Z : expanded env true (written_name qname p) = Some ([123%N] ++ ns ++ [125%N] ++ name)).
  { rewrite X. apply (expanded_two true prefix name ns); [ apply no_mem, Q1 | apply no_mem, N2 | apply str_eqb_neq, W1 | exact D ]. }
  exists ns, name. split; [ exact E | ]. split; [ exact W2 | ]. split; [ exact N3 | ]. split; [ exact Z | ].
  unfold tag_of. replace (mem 58%N (written_name qname p)) with true.
  - unfold env in Z. rewrite Z, foreign_made by assumption. reflexivity.
  - symmetry. apply mem_In. rewrite X. apply in_or_app. right. left. reflexivity.
Qed.

Lemma meta_tag : cpt = true -> expanded env true #"cpt:structured-metadata" = Some cpt_tag /\ tag_of env #"cpt:structured-metadata" = cpt_tag.
Proof using Ho Hq OM.
  intros C. pose proof (header_cpt cpt order Ho qname s Hq (OM C) C) as D. fold env in D.
  assert (E : expanded env true #"cpt:structured-metadata" = Some cpt_tag).
  { apply (expanded_two true #"cpt" #"structured-metadata" _ eq_refl eq_refl eq_refl D). }
  split; [ exact E | ]. unfold tag_of. change (mem 58%N #"cpt:structured-metadata") with true. rewrite E. reflexivity.
Qed.

Lemma simple_meta : forall i r, tells i -> In r (meta_raws i) -> simple false r.
Proof using Hp Ho Hq OM Hs.
  intros i r T H. apply meta_in in H as (C & t & ->). constructor; [ right; rewrite (proj2 (meta_tag C)); apply meta_tag, C | intros ? ? [] | ].
  intros k x H. apply in_tails in H. apply (statement_in i k T C) in H as (p & o & -> & H1 & H2 & H3).
  destruct (statement_tag _ p o C H1 H2 H3) as (ns & name & E & N1 & N2 & X1 & X2).
  constructor; [ right; cbn [fst]; rewrite X2; exact X1 | | intros ? ? [] ].
  intros a v Ha. right. cbn [snd] in Ha. unfold statement_attrs in Ha. destruct o as [u|b|w l d]; try contradiction.
  apply in_app_iff in Ha as [Ha|Ha].
  { destruct l as [l|]; [ | contradiction ]. destruct Ha as [Ha|[]]; injection Ha as <- _; split; [ reflexivity | left; reflexivity ]. }
  destruct d as [d|]; [ | contradiction ]. destruct Ha as [Ha|[]]. injection Ha as <- _. split; [ reflexivity | ]. right. right.
  unfold writable_statement in H3. destruct (qname p) as [prefix ns']. destruct H3 as (_ & _ & _ & _ & _ & H3).
  destruct (H3 w l (Some d) eq_refl) as [_ H4]. destruct (H4 d eq_refl) as (_ & n & q & r & I & Eq).
  pose proof (declared_predicate n q r C I) as D. rewrite Eq in D. specialize (D ltac:(discriminate)).
  exists ([123%N] ++ snd (qname q) ++ [125%N] ++ #"type").
  apply (expanded_two false #"rdf" #"type" _ eq_refl eq_refl eq_refl D).
Qed.

Lemma simple_text : forall ns i, (exists k, c_kind (obj st i) = KText k) -> tells i -> simple ns (text_raw ns i).
Proof using Hp Ho Hq OM Hs.
  intros ns i [k K] T. pose proof (proj1 T) as G. apply simple_small; [ rewrite K; destruct k; cbn; auto 20 | | ].
  - intros k0 v H. apply in_app_iff in H as [H|H]; [ right; apply own_fine | left; eapply header_simple; eassumption ].
    apply in_app_iff in H as [H|H]; [ | apply parent_name in H; subst; cbn; auto 10 ].
    cbn [In] in H. repeat (destruct H as [E|H]; [ injection E as <- _; cbn; auto 10 | ]). contradiction.
  - intros r x H. apply in_tails in H. apply in_app_iff in H as [H|H]; [ eapply simple_prop, H | ].
    apply in_app_iff in H as [H|H].
    { apply in_map_iff in H as (o & <- & _). apply simple_small; [ cbn; auto 20 | | intros ? ? [] ].
      intros k0 v [E|[]]. injection E as <- _. right. apply own_fine. cbn; auto. }
    apply in_app_iff in H as [H|H]; [ | eapply simple_meta; eassumption ].
    + unfold InvExportTree.online_raws in H. destruct (cited s i) as [|lv l]; [ contradiction | ]. destruct H as [<-|[]].
      apply simple_small; [ cbn; auto 20 | intros ? ? [] | ]. intros k1 x1 [E|[]]. injection E as <- _.
      apply simple_small; [ cbn; auto 20 | intros ? ? [] | ]. intros k2 x2 H2. apply in_tails in H2. apply (simple_cite (lv :: l)). exact H2.
Qed.

Lemma text_graph : forall w u t, portable_text s w u t -> c_graph (obj st t) = 0.
Proof using Type. intros w u t (k & _ & _ & _ & (_ & _ & _ & G & _) & _). exact G. Qed.

Lemma simple_work : forall ns g u w, portable_work s g u w -> tells_work u w -> simple ns (work_raw ns w).
Proof using Hp Ho Hq OM Hs.
  intros ns g u w P T. pose proof (work_tells g u w P (proj1 T)) as Tw. destruct P as ((_ & _ & _ & G & _) & _ & _ & HT). apply simple_small; [ cbn; auto 20 | | ].
  - intros k0 v H. apply in_app_iff in H as [H|H]; [ right; apply own_fine | left; eapply header_simple; eassumption ].
    apply in_app_iff in H as [H|H]; [ | apply parent_name in H; subst; cbn; auto 10 ].
    cbn [In] in H. repeat (destruct H as [E|H]; [ injection E as <- _; cbn; auto 10 | ]). contradiction.
  - intros r x H. apply in_tails in H. apply in_app_iff in H as [H|H]; [ eapply simple_prop, H | ].
    apply in_app_iff in H as [H|H]; [ eapply simple_meta; eassumption | ].
    apply in_map_iff in H as (t & <- & H). apply member_in in H as [v H].
    apply simple_text; [ eapply text_kind, (HT v t H) | eapply text_tells; [ exact (HT v t H) | eapply tells_member_text; eassumption ] ].
Qed.

Lemma simple_group : forall ns i u g, portable_group s i u g -> tells_group u g -> simple ns (group_raw ns g).
Proof using Hp Ho Hq OM Hs.
  intros ns i u g P T. pose proof (group_tells i u g P (proj1 T)) as Tg. destruct P as ((_ & _ & _ & G & _) & _ & HT). constructor.
  - left. intros X. apply mem_In in X. vm_compute in X. discriminate.
  - intros k0 v H. apply in_app_iff in H as [[E|[]]|H]; [ | left; eapply header_simple; eassumption ].
    injection E as <- _. right. apply own_fine. cbn; auto.
  - intros r x H. apply in_tails in H. apply in_app_iff in H as [H|H]; [ eapply simple_prop, H | ].
    apply in_app_iff in H as [H|H]; [ eapply simple_meta; eassumption | ].
    apply in_map_iff in H as (t & <- & H). apply member_in in H as [v H].
    eapply simple_work; [ exact (HT v t H) | eapply tells_member_work; eassumption ].
Qed.

Lemma simple_inventory : forall ns i, portable s i -> tells_inventory i -> simple ns (inventory_raw ns i).
Proof using Hp Ho Hq OM Hs.
  intros ns i (K & G & _ & HT & _) T. constructor.
  - left. intros X. apply mem_In in X. vm_compute in X. discriminate.
  - intros k0 v H. apply in_app_iff in H as [H|H]; [ | left; eapply header_simple; eassumption ].
    unfold inventory_attrs in H. destruct (truthy _); [ | contradiction ]. destruct H as [E|[]].
    injection E as <- _. right. apply own_fine. cbn; auto 10.
  - intros r x H. apply in_tails in H. rewrite (inventory_props i K) in H. cbn [app] in H.
    apply in_app_iff in H as [H|H]; [ eapply simple_meta; [ exact (conj G (proj1 T)) | exact H ] | ].
    apply in_map_iff in H as (t & <- & H). apply member_in in H as [v H].
    eapply simple_group; [ exact (HT v t H) | eapply tells_member_group; eassumption ].
Qed.

(** ** What the elements of the document are *)
Lemma declarations_app : forall a b, declarations (a ++ b) = declarations a ++ declarations b.
Proof using Type. intros. apply flat_map_app. Qed.

Lemma root_env : forall i a, c_graph (obj st i) = 0 ->
  (forall k v, In (k, v) a -> declares_ns k = None) -> declarations (a ++ header cpt order qname s true i) ++ [] = env.
Proof using Type.
  intros i a G H. rewrite app_nil_r, declarations_app, no_decls by exact H. cbn [app]. unfold header. rewrite G. reflexivity.
Qed.

Lemma inventory_document : forall i x, portable s i -> tells_inventory i -> mentions_cts s -> prints (inventory_raw true i) x ->
  read_document x = Some (to_node [] (inventory_raw true i)).
Proof using Hp Ho Hq OM Hs.
  intros i x P T M H. unfold read_document. rewrite (read_printed _ _ H).
  apply (in_scope_simple env true); [ apply simple_inventory; assumption | | apply header_default; assumption ].
  destruct P as (_ & G & _). unfold InvExportTree.inventory_raw. cbn [raw_attrs]. apply root_env; [ exact G | ].
  intros k v I. unfold inventory_attrs in I. destruct (truthy _); [ | contradiction ]. destruct I as [E|[]]. injection E as <- _. reflexivity.
Qed.

Definition doc (i : nat) : XmlModel.node := to_node [] (inventory_raw true i).
Definition group_node (g : nat) : XmlModel.node := to_node nl (group_raw false g).
Definition work_node (w : nat) : XmlModel.node := to_node nl (work_raw false w).
Definition text_node (t : nat) : XmlModel.node := to_node nl (text_raw false t).

Lemma doc_clark : forall i, portable s i -> tells_inventory i -> clark_names (doc i).
Proof using Hp Hq Hs.
  intros i P T. apply tree_clark. intros n Hn. apply (inventory_names true i n P T) in Hn as [->|[->|[Hn|Hn]]];
    [ right | right | right; apply small_plain, Hn | left; exact Hn ]; intros X; apply mem_In in X; vm_compute in X; discriminate.
Qed.

Lemma pick_metas : forall name i, mem 58%N name = false -> pick name (meta_raws i) = [].
Proof using Type.
  intros name i M. apply pick_none. intros r H. apply meta_in in H as (_ & t & ->). intros E. cbn [raw_name] in E. rewrite <- E in M. discriminate M.
Qed.

Lemma meta_not_in : forall name i r, tells i -> mem 58%N name = false -> ~ In name small_names -> In r (meta_raws i) -> ~ In name (names_in r).
Proof using Hp Hq Hs.
  intros name i r T M N H X. apply (meta_small i r T H) in X as [X|X]; [ contradiction | apply mem_In in X; congruence ].
Qed.

Lemma doc_groups : forall i, portable s i -> tells_inventory i ->
  anywhere #"textgroup" (doc i) = map (fun e => group_node (snd e)) (children s i).
Proof using Hp Hq Hs.
  intros i P T. destruct P as (K & G & Pi & HT & ND).
  unfold doc, InvExportTree.inventory_raw, lined. rewrite (inventory_props i K). cbn [app].
  rewrite anywhere_kids; [ | reflexivity | discriminate | ].
  - rewrite pick_app, pick_metas by reflexivity. cbn [app].
    rewrite pick_all; [ rewrite map_map, children_members, map_map; reflexivity | ].
    intros r H. apply in_map_iff in H as (g & <- & _). reflexivity.
  - intros r H. apply in_app_iff in H as [H|H].
    { left. apply (meta_not_in _ i r (conj G (proj1 T))); [ reflexivity | | exact H ]. intros X. apply (not_small #"textgroup"); [ cbn; auto | left; exact X ]. }
    apply in_map_iff in H as (g & <- & H). apply member_in in H as [u H]. right. split; [ reflexivity | ].
    apply anywhere_self; [ reflexivity | reflexivity | ]. intros k x Hk X. apply in_tails in Hk.
    apply (not_small #"textgroup"); [ cbn; auto | ].
    pose proof (tells_member_group i u g T H) as Tg.
    pose proof (group_tells i u g (HT u g H) (proj1 Tg)) as Tg'.
    destruct (HT u g H) as (_ & _ & HW).
    apply in_app_iff in Hk as [Hk|Hk]; [ apply (prop_small g k Hk), X | ].
    apply in_app_iff in Hk as [Hk|Hk]; [ apply (meta_small g k Tg' Hk), X | ].
    apply in_map_iff in Hk as (w & <- & Hw). apply member_in in Hw as [v Hw].
    eapply work_small; [ exact (HW v w Hw) | eapply tells_member_work; eassumption | exact X ].
Qed.

Lemma doc_root : forall i, portable s i -> tells_inventory i -> anywhere #"TextInventory" (doc i) = [doc i].
Proof using Hp Hq Hs.
  intros i P T. apply anywhere_self; [ reflexivity | reflexivity | ]. destruct P as (K & G & Pi & HT & ND).
  intros k x Hk X. apply in_tails in Hk. rewrite (inventory_props i K) in Hk. cbn [app] in Hk.
  apply in_app_iff in Hk as [Hk|Hk].
  { apply (not_small #"TextInventory"); [ cbn; auto | apply (meta_small i k (conj G (proj1 T)) Hk), X ]. }
  apply in_map_iff in Hk as (w & <- & Hw). apply member_in in Hw as [v Hw].
  apply (group_names false i v w _ (HT v w Hw) (tells_member_group i v w T Hw)) in X as [X|X]; [ discriminate | ].
  apply (not_small #"TextInventory"); [ cbn; auto | exact X ].
Qed.

Lemma header_filtered : forall ns i, c_graph (obj st i) = 0 -> filter not_decl (header cpt order qname s ns i) = [].
Proof using Ho Hq.
  intros ns i G. assert (X : forall k v, In (k, v) (header cpt order qname s ns i) -> is_decl k).
  { intros k v H. apply (header_simple ns i k v G H). }
  revert X. induction (header cpt order qname s ns i) as [|[k v] l IH]; intros X; [ reflexivity | ]. cbn [filter]. unfold not_decl at 1. cbn [fst].
  destruct (X k v (or_introl eq_refl)) as [p ->]. apply IH. intros k' v' I. apply (X k' v'). right. exact I.
Qed.

Lemma doc_name : forall i, portable s i -> tells_inventory i -> inventory_name (doc i) (c_id (obj st i)).
Proof using Hp Ho Hq Hs.
  intros i P T. exists (doc i), []. split; [ apply doc_root; assumption | ]. destruct P as (K & G & Pi & HT & ND).
  unfold doc, InvExportTree.inventory_raw. cbn [InvExportDoc.to_node n_attrs]. rewrite filter_app, (header_filtered true i G), app_nil_r.
  unfold inventory_attrs. destruct (c_id (obj st i)) as [|c u]; reflexivity.
Qed.

Lemma inventory_name_is : forall i name, portable s i -> tells_inventory i -> inventory_name (doc i) name -> name = c_id (obj st i).
Proof using Hp Ho Hq Hs.
  intros i name P T (t & r & E & ->). destruct (doc_name i P T) as (t' & r' & E' & ->). rewrite E in E'. injection E' as -> _. reflexivity.
Qed.

Lemma group_urn : forall g, urn_of (group_node g) = Some (c_id (obj st g)).
Proof using Type. reflexivity. Qed.
Lemma work_urn : forall w, urn_of (work_node w) = Some (c_id (obj st w)).
Proof using Type. reflexivity. Qed.
Lemma text_urn : forall t, urn_of (text_node t) = Some (c_id (obj st t)).
Proof using Type. reflexivity. Qed.
Lemma work_lang : forall w, lang_of (work_node w) = Some (lang_text order s w).
Proof using Type. reflexivity. Qed.
Lemma text_lang : forall t, lang_of (text_node t) = Some (lang_text order s t).
Proof using Type. reflexivity. Qed.

Lemma pick_props : forall name i, ~ In name (cts_properties (c_kind (obj st i))) -> pick name (prop_raws i) = [].
Proof using Type.
  intros name i N. apply pick_none. intros r H. apply prop_in in H as (m & o & Hm & _ & ->). rewrite label_name. intros ->. contradiction.
Qed.

Lemma pick_prop : forall name k i, c_kind (obj st i) = k -> property_of k name ->
  pick name (prop_raws i) = map (label_raw name) (values_of order s i name).
Proof using Type.
  intros name k i K H. unfold InvExportTree.prop_raws. rewrite K.
  assert (A : forall m, pick m (map (label_raw m) (values_of order s i m)) = map (label_raw m) (values_of order s i m)).
  { intros m. apply pick_all. intros r Hr. apply in_map_iff in Hr as (o & <- & _). apply label_name. }
  assert (B : forall m m', m <> m' -> pick m (map (label_raw m') (values_of order s i m')) = []).
  { intros m m' N. apply pick_none. intros r Hr. apply in_map_iff in Hr as (o & <- & _). rewrite label_name. congruence. }
  inversion H; subst; cbn [cts_properties flat_map]; rewrite ?pick_app, ?app_nil_r, ?A, ?(B #"label" #"description"), ?(B #"description" #"label"), ?app_nil_r by discriminate; reflexivity.
Qed.

Lemma group_works : forall i u g, portable_group s i u g ->
  named #"work" (group_node g) = map (fun e => work_node (snd e)) (children s g).
Proof using Type.
  intros i u g ((K & _) & _ & HT). unfold group_node, InvExportTree.group_raw, lined. rewrite named_tails, !pick_app, pick_metas by reflexivity.
  rewrite pick_props by (rewrite K; cbn; intros [X|[]]; discriminate). cbn [app].
  rewrite pick_all; [ rewrite map_map, children_members, map_map; reflexivity | ].
  intros r H. apply in_map_iff in H as (w & <- & _). reflexivity.
Qed.

Definition sub_of (t : nat) : subtype := match c_kind (obj st t) with KText k => k | _ => Unknown end.

Lemma text_raw_name : forall t, raw_name (text_raw false t) = element_name (c_kind (obj st t)).
Proof using Type. reflexivity. Qed.

Lemma pick_texts : forall k l, k <> Unknown -> (forall e, In e l -> exists k', c_kind (obj st (snd e)) = KText k') ->
  pick (element_name (KText k)) (map (text_raw false) (map snd l)) = map (fun e => text_raw false (snd e)) (of_kind s k l).
Proof using Type.
  intros k l Nk. induction l as [|[u t] l IH]; intros H; [ reflexivity | ]. cbn [map snd pick filter of_kind].
  fold (pick (element_name (KText k)) (map (text_raw false) (map snd l))). rewrite text_raw_name.
  destruct (H (u, t) (or_introl eq_refl)) as [k' K]. cbn [snd] in K. rewrite K.
  rewrite IH by (intros e He; apply H; right; exact He).
  unfold of_kind. destruct k', k; try congruence; reflexivity.
Qed.

Lemma of_kind_sub : forall k l e, k <> Unknown -> In e (of_kind s k l) -> In e l /\ sub_of (snd e) = k.
Proof using Type.
  intros k l e Nk H. apply filter_In in H as [H1 H2]. split; [ exact H1 | ]. unfold sub_of.
  destruct (c_kind (obj st (snd e))) as [|[]| | | |]; destruct k; try discriminate; try reflexivity; congruence.
Qed.

Lemma work_texts : forall g u w, portable_work s g u w ->
  texts_in (work_node w) = map (fun e => (sub_of (snd e), text_node (snd e))) (sorted_texts s w).
Proof using Type.
  intros g u w ((K & _) & _ & _ & HT).
  assert (N : forall k, k <> Unknown -> map (pair k) (named (element_name (KText k)) (work_node w)) =
    map (fun e => (sub_of (snd e), text_node (snd e))) (of_kind s k (children s w))).
  { intros k Nk. unfold work_node, InvExportTree.work_raw, lined. rewrite named_tails, !pick_app, pick_metas by (destruct k; reflexivity).
    rewrite pick_props by (rewrite K; cbn; destruct k; intros [X|[]]; discriminate). cbn [app].
    rewrite children_members, pick_texts by (first [ exact Nk | intros [v t] He; eapply text_kind, (HT v t He) ]).
    rewrite !map_map. apply map_ext_in. intros e He. apply of_kind_sub in He as [_ He]; [ | exact Nk ]. rewrite He. reflexivity. }
  unfold texts_in, sorted_texts. rewrite !map_app.
  change #"edition" with (element_name (KText Edition)). change #"translation" with (element_name (KText Translation)).
  change #"commentary" with (element_name (KText Commentary)). rewrite !N by discriminate. reflexivity.
Qed.

(** ** What the document says *)
Lemma label_node : forall name o, writable o -> exists t l, o = Literal t (Some l) None /\
  lang_of (to_node nl (label_raw name o)) = Some l /\ shown (to_node nl (label_raw name o)) = t /\ language_tag l = Some l.
Proof using Type.
  intros name o (t & l & -> & Nt & Nl & _ & _). exists t, l. split; [ reflexivity | ]. split; [ reflexivity | ]. split.
  - cbn. destruct t; [ congruence | reflexivity ].
  - destruct l; [ congruence | reflexivity ].
Qed.

Lemma cts_inj : forall a b, cts a = cts b -> a = b.
Proof using Type. intros a b H. unfold cts in H. injection H as H. exact H. Qed.

Lemma described_iff : forall leaf nsmap k j u e, c_kind (obj st j) = k -> c_id (obj st j) = u -> c_graph (obj st j) = 0 ->
  writable_facts s k u ->
  (forall name, property_of k name -> named name e = map (fun o => to_node nl (label_raw name o)) (values_of order s j name)) ->
  ((exists sub, k = KText sub) ->
     named #"about" e = map (fun o => to_node nl (Raw #"about" [(#"urn", text_of o)] [] [])) (values_of order s j #"about")) ->
  (forall m ns nm, In m (structured_in e) -> qualified m ns nm -> forall name, URI (ns ++ nm) <> cts name) ->
  forall name o, described leaf nsmap k e (cts name) o <-> exported k name /\ In (URI u, cts name, o) (main_graph s).
Proof using Ho.
  intros leaf nsmap k j u e K U G [W1 W2] N1 N2 N3 name o.
  assert (V : forall m x, In x (values_of order s j m) <-> In (URI u, cts m, x) (main_graph s)).
  { intros m x. rewrite (values_in order Ho s j m x G), U. reflexivity. }
  assert (D : forall m c l, property_of k m -> In c (named m e) -> lang_of c = Some l ->
    In (URI u, cts m, Literal (shown c) (language_tag l) None) (main_graph s)).
  { intros m c l Hpr Hc Hl. rewrite (N1 m Hpr) in Hc. apply in_map_iff in Hc as (x & <- & Hx). apply V in Hx.
    destruct (label_node m x (W1 m x Hpr Hx)) as (t & l' & -> & E1 & E2 & E3).
    rewrite E1 in Hl. injection Hl as <-. rewrite E2, E3. exact Hx. }
  split.
  - intros H. remember (cts name) as p eqn:Ep. revert Ep. revert K W1 W2 N1 N2 N3 D.
    destruct H as [k m e c l p Ht Hc Hl Hpr|k e c l Hc Hl|k e c v Hc Hv|k e m ns nm o0 Hm Q _]; intros K W1 W2 N1 N2 N3 D Ep.
    + assert (Pm : property_of k m) by (inversion Ht; constructor).
      subst p. destruct Hpr as [E|[E|[E|[]]]].
      * apply cts_inj in E. subst m. split; [ left; exact Pm | apply (D name c l Pm Hc Hl) ].
      * discriminate E.
      * discriminate E.
    + apply cts_inj in Ep. subst name. split; [ left; constructor | ].
      apply (D #"description" c l ltac:(constructor) Hc Hl).
    + apply cts_inj in Ep. subst name.
      split; [ right; split; [ exists k; reflexivity | reflexivity ] | ].
      rewrite N2 in Hc by (exists k; reflexivity). apply in_map_iff in Hc as (x & <- & Hx). apply V in Hx.
      destruct (W2 #"about" x) as (v' & -> & _); [ split; [ exists k; reflexivity | reflexivity ] | exact Hx | ].
      cbn in Hv. injection Hv as <-. exact Hx.
    + exfalso. exact (N3 m ns nm Hm Q name Ep).
  - intros [[Hpr|[[sub Hsb] ->]] Hin].
    + destruct (label_node name o (W1 name o Hpr Hin)) as (t & l & -> & E1 & E2 & E3).
      assert (Hc : In (to_node nl (label_raw name (Literal t (Some l) None))) (named name e)).
      { rewrite (N1 name Hpr). apply in_map_iff. eexists. split; [ reflexivity | ]. apply V. exact Hin. }
      inversion Hpr as [sub Ek En|sub Ek En|Ek En|Ek En]; rewrite <- Ek in *; subst name.
      * pose proof (d_title leaf nsmap (KText sub) #"label" e _ l (cts #"label") (te_text sub) Hc E1 (or_introl eq_refl)) as Z.
        rewrite E2, E3 in Z. exact Z.
      * pose proof (d_description leaf nsmap sub e _ l Hc E1) as Z. rewrite E2, E3 in Z. exact Z.
      * pose proof (d_title leaf nsmap KWork #"title" e _ l (cts #"title") te_work Hc E1 (or_introl eq_refl)) as Z.
        rewrite E2, E3 in Z. exact Z.
      * pose proof (d_title leaf nsmap KTextgroup #"groupname" e _ l (cts #"groupname") te_group Hc E1 (or_introl eq_refl)) as Z.
        rewrite E2, E3 in Z. exact Z.
    + destruct (W2 #"about" o) as (v & -> & _); [ split; [ exists sub; exact Hsb | reflexivity ] | exact Hin | ].
      rewrite Hsb. apply d_about with (c := to_node nl (Raw #"about" [(#"urn", v)] [] [])); [ | reflexivity ].
      rewrite N2 by (exists sub; exact Hsb). apply in_map_iff. exists (URI v). split; [ reflexivity | apply V; exact Hin ].
Qed.

(** *** Structured metadata *)
Lemma plain_names : forall rs, (forall r, In r rs -> In (raw_name r) small_names) -> metas env rs = [].
Proof using Type.
  intros rs H. apply metas_none. intros r Hr. apply no_mem. apply small_plain, H, Hr.
Qed.

Lemma meta_kids : forall ev i, flat_map n_kids (map (InvExportDoc.to_node ev nl) (meta_raws i)) =
  if cpt then map (InvExportDoc.to_node ev nl) (statement_raws i) else [].
Proof using Type.
  clear Hs OM. intros ev i. unfold InvExportTree.meta_raws. destruct cpt; [ | reflexivity ].
  cbn [map flat_map InvExportDoc.to_node n_kids]. rewrite app_nil_r. unfold lined. rewrite map_map. reflexivity.
Qed.
Lemma meta_metas : forall i, metas env (meta_raws i) = meta_raws i.
Proof using Ho Hq OM.
  intros i. assert (X : forall l, (forall r, In r l -> In r (meta_raws i)) -> metas env l = l).
  { induction l as [|r l IH]; intros H; [ reflexivity | ]. cbn [metas filter]. fold (metas env l).
    destruct (meta_in i r (H r (or_introl eq_refl))) as (C & t & ->). cbn [raw_name]. rewrite (proj2 (meta_tag C)), str_eqb_refl.
    f_equal. apply IH. intros x Hx. apply H. right. exact Hx. }
  apply X. auto.
Qed.

Lemma structured_is : forall n a t tail a1 a2 i, (forall r, In r (a1 ++ a2) -> raw_name r = #"textgroup" \/ In (raw_name r) small_names) ->
  structured_in (to_node tail (Raw n a t (lined (a1 ++ meta_raws i ++ a2)))) =
    if cpt then map (to_node nl) (statement_raws i) else [].
Proof using Ho Hq OM.
  intros n a t tail a1 a2 i H. unfold lined. rewrite structured_tails, !metas_app.
  assert (X : forall l, (forall r, In r l -> In r (a1 ++ a2)) -> metas env l = []).
  { intros l Hl. apply metas_none. intros r Hr. apply no_mem. intros Y. destruct (H r (Hl r Hr)) as [E|E].
    - rewrite E in Y. apply mem_In in Y. vm_compute in Y. discriminate.
    - apply small_plain in E. tauto. }
  rewrite (X a1), (X a2), app_nil_r by (intros r Hr; apply in_or_app; auto). cbn [app].
  rewrite meta_metas. apply meta_kids.
Qed.

(** An element of structured metadata stands for a statement. *)
Lemma statement_element : forall i m, tells i -> In m (if cpt then map (to_node nl) (statement_raws i) else []) -> exists p o,
  cpt = true /\ In (URI (c_id (obj st i)), p, o) (main_graph s) /\ carried qname p /\
  m = to_node nl (statement_raw (p, o)) /\ exists ns name, qualified m ns name /\ p = URI (ns ++ name).
Proof using Hp Ho Hq OM Hs.
  intros i m T H. assert (C : cpt = true) by (clear - H; destruct cpt; [ reflexivity | contradiction ]).
  assert (H' : In m (map (to_node nl) (statement_raws i))) by (clear - H C; rewrite C in H; exact H).
  apply in_map_iff in H' as (r & <- & Hr). apply (statement_in i r T C) in Hr as (p & o & -> & H1 & H2 & H3).
  destruct (statement_tag _ p o C H1 H2 H3) as (ns & name & E & N1 & N2 & _ & X).
  exists p, o. split; [ exact C | ]. split; [ exact H1 | ]. split; [ exact H2 | ]. split; [ reflexivity | ].
  exists ns, name. split; [ | exact E ]. split; [ exact X | split; assumption ].
Qed.
Lemma element_of_statement : forall i p o, tells i -> cpt = true -> In (URI (c_id (obj st i)), p, o) (main_graph s) -> carried qname p ->
  In (to_node nl (statement_raw (p, o))) (if cpt then map (to_node nl) (statement_raws i) else []).
Proof using Hp.
  intros i p o [G T] C H1 H2. assert (X : In (to_node nl (statement_raw (p, o))) (map (to_node nl) (statement_raws i))).
  { apply in_map, in_map. apply (own_statements_in pairs Hp qname s i p o G). split; assumption. }
  clear - X C. rewrite C. exact X.
Qed.

Lemma not_suffix : forall k u, last k 0%N <> 101%N \/ last (removelast (removelast (removelast (removelast k)))) 0%N <> 125%N ->
  str_eqb ([123%N] ++ u ++ [125%N] ++ #"type") k = false.
Proof using Type.
  intros k u H. apply str_eqb_neq. intros <-.
  replace ([123%N] ++ u ++ [125%N] ++ #"type") with (((((([123%N] ++ u) ++ [125%N]) ++ [116%N]) ++ [121%N]) ++ [112%N]) ++ [101%N]) in H by (rewrite <- !app_assoc; reflexivity).
  rewrite !removelast_last, !last_last in H. destruct H as [H|H]; congruence.
Qed.

Lemma statement_attributes : forall p o, cpt = true -> (exists n, In (n, p, o) (main_graph s)) -> writable_statement qname s p o ->
  lang_of (to_node nl (statement_raw (p, o))) = match o with Literal _ l _ => l | _ => None end /\
  get_attr datatype_attr (n_attrs (to_node nl (statement_raw (p, o)))) = None.
Proof using Ho Hq OM.
  intros p o C [n0 H0] W. unfold lang_of, InvExportTree.statement_raw. cbn [InvExportDoc.to_node n_attrs fst snd].
  destruct o as [u|b|w l d]; try (split; reflexivity). unfold statement_attrs.
  assert (D : forall x, d = Some x -> exists u, clark_attr env (#"rdf:type", x) = ([123%N] ++ u ++ [125%N] ++ #"type", x)).
  { intros x Ex. unfold writable_statement in W. destruct (qname p) as [prefix ns']. destruct W as (_ & _ & _ & _ & _ & W).
    destruct (W w l d eq_refl) as [_ W4]. destruct (W4 x Ex) as (_ & n & q & r & I & Eq).
    pose proof (declared_predicate n q r C I) as D. rewrite Eq in D. specialize (D ltac:(discriminate)).
    exists (snd (qname q)). unfold clark_attr. cbn [fst snd]. change (str_eqb #"rdf:type" #"xml:lang") with false. change (mem 58%N #"rdf:type") with true.
    cbn [fst snd]. rewrite (expanded_two false #"rdf" #"type" _ eq_refl eq_refl eq_refl D : expanded env false #"rdf:type" = _). reflexivity. }
  rewrite filter_app, map_app, !get_attr_app.
  assert (Z : forall k, (last k 0%N <> 101%N \/ last (removelast (removelast (removelast (removelast k)))) 0%N <> 125%N) ->
    get_attr k (map (clark_attr env) (filter not_decl match d with Some d => [(#"rdf:type", d)] | None => [] end)) = None).
  { intros k Hk. destruct d as [d|]; [ | reflexivity ]. destruct (D d eq_refl) as [u E]. cbn [filter map]. 
    change (not_decl (#"rdf:type", d)) with true. cbn [map get_attr]. rewrite E. cbn [get_attr]. rewrite not_suffix by exact Hk. reflexivity. }
  rewrite !Z by (first [ left; vm_compute; discriminate | right; vm_compute; discriminate ]).
  destruct l as [l|]; split; reflexivity.
Qed.

Lemma value_back : forall leaf nsmap (read : str -> guess) p o o', (forall e, n_kids e = [] -> leaf e = read (n_text e)) ->
  cpt = true -> (exists n, In (n, p, o) (main_graph s)) -> writable_statement qname s p o ->
  let m := to_node nl (statement_raw (p, o)) in
  (value_says leaf nsmap m (guess_text (leaf m)) o' <-> comes_back read o o').
Proof using Ho Hq OM.
  intros leaf nsmap read p o o' HL C H W m. destruct (statement_attributes p o C H W) as [A1 A2]. fold m in A1, A2.
  assert (EL : leaf m = read (text_of o)) by (apply (HL m); reflexivity). rewrite EL. clearbody m. split.
  - intros V. destruct V as [Ad|l Na Hl|d Na Hl Hd _|d Na Hl Hd _|Na Hl Hd]; try (rewrite A2 in Hd; discriminate).
    + apply cb_address. exact Ad.
    + rewrite A1 in Hl. destruct o as [u|b|t l' d]; try discriminate. cbn in Hl. rewrite Hl in *. eapply cb_language; [ reflexivity | exact Na ].
    + rewrite EL. rewrite A1 in Hl. apply cb_plain; [ | exact Na ]. intros t l' d ->. discriminate.
  - intros V. destruct V as [Ad|t l d E Na|N Na].
    + apply vs_address. exact Ad.
    + subst o. cbn [text_of]. apply vs_lang; [ exact Na | exact A1 ].
    + rewrite <- EL in *. apply vs_guess; [ exact Na | | exact A2 ]. rewrite A1.
      destruct o as [u|b|t [l|] d]; try reflexivity. exfalso. eapply N. reflexivity.
Qed.

Lemma not_cts : forall n p o name, In (n, p, o) (main_graph s) -> carried qname p -> p <> cts name.
Proof using Hq.
  intros n p o name H C E. pose proof (carried_prefix qname s Hq n p o H C) as N. pose proof (Hq n p o H) as Q.
  destruct (qname p) as [prefix ns]. cbn [fst] in N. destruct Q as (Q & _). apply N, Q. exists name. exact E.
Qed.

Lemma described_carried : forall leaf nsmap read k j u e, (forall e, n_kids e = [] -> leaf e = read (n_text e)) ->
  c_kind (obj st j) = k -> c_id (obj st j) = u -> tells j -> writable_facts s k u ->
  (forall name, property_of k name -> named name e = map (fun o => to_node nl (label_raw name o)) (values_of order s j name)) ->
  ((exists sub, k = KText sub) ->
     named #"about" e = map (fun o => to_node nl (Raw #"about" [(#"urn", text_of o)] [] [])) (values_of order s j #"about")) ->
  structured_in e = (if cpt then map (to_node nl) (statement_raws j) else []) ->
  forall p o', carried qname p ->
    (described leaf nsmap k e p o' <->
     (exists name, title_element k name /\ In p [rdfs_label; skos_prefLabel] /\ In (URI u, cts name, o') (main_graph s)) \/
     (cpt = true /\ exists o, In (URI u, p, o) (main_graph s) /\ comes_back read o o')).
Proof using Hp Ho Hq OM Hs.
  intros leaf nsmap read k j u e HL K U T W N1 N2 N3 p o' Cp.
  assert (DI := described_iff leaf nsmap k j u e K U (proj1 T) W N1 N2). rewrite N3 in DI.
  assert (DI' : forall name o, described leaf nsmap k e (cts name) o <-> exported k name /\ In (URI u, cts name, o) (main_graph s)).
  { apply DI. intros m ns nm Hm Q name. apply (statement_element j m T) in Hm as (p0 & o0 & _ & I & C0 & _ & ns0 & name0 & Q0 & ->).
    destruct (qualified_unique _ _ _ _ _ Q Q0) as [-> ->]. eapply not_cts; eassumption. }
  clear DI. split.
  - intros H. pose proof H as H0. revert H0. destruct H as [k m e c l p Ht Hc Hl Hpr|k e c l Hc Hl|k e c v Hc Hv|k e m ns nm o0 Hm Q V]; intros H0.
    + left. exists m. split; [ exact Ht | ].
      assert (Z : In (URI u, cts m, Literal (shown c) (language_tag l) None) (main_graph s)).
      { apply DI'. eapply d_title; [ exact Ht | exact Hc | exact Hl | left; reflexivity ]. }
      split; [ | exact Z ]. destruct Hpr as [<-|Hpr]; [ | exact Hpr ]. exfalso. apply (not_cts _ _ _ m Z Cp). reflexivity.
    + exfalso. apply DI' in H0 as [_ Z]. eapply not_cts; [ exact Z | exact Cp | reflexivity ].
    + exfalso. apply DI' in H0 as [_ Z]. eapply not_cts; [ exact Z | exact Cp | reflexivity ].
    + right. rewrite N3 in Hm. apply (statement_element j m T) in Hm as (p0 & o1 & C & I & C0 & -> & ns0 & name0 & Q0 & ->).
      destruct (qualified_unique _ _ _ _ _ Q Q0) as [-> ->]. split; [ exact C | ]. exists o1. rewrite <- U. split; [ exact I | ].
      apply (value_back leaf nsmap read (URI (ns0 ++ name0)) o1 o0 HL C); [ eexists; exact I | eapply Hs; [ exact C | apply T | exact I | exact C0 ] | exact V ].
  - intros [(name & Ht & Hpr & I)|(C & o & I & B)].
    + assert (X : exported k name) by (left; inversion Ht; constructor).
      pose proof (proj2 (DI' name o') (conj X I)) as D. destruct W as [W1 W2].
      assert (Pn : property_of k name) by (inversion Ht; constructor).
      destruct (label_node name o' (W1 name o' Pn I)) as (t & l & -> & E1 & E2 & E3).
      assert (Hc : In (to_node nl (label_raw name (Literal t (Some l) None))) (named name e)).
      2:{ pose proof (d_title leaf nsmap k name e _ l p Ht Hc E1 (or_intror Hpr)) as Z. rewrite E2, E3 in Z. exact Z. }
      rewrite (N1 name Pn). apply in_map_iff. eexists. split; [ reflexivity | ].
      apply (values_in order Ho s j name _ (proj1 T)). rewrite U. exact I.
    + rewrite <- U in I. pose proof (element_of_statement j p o T C I Cp) as Hm. pose proof Hm as Hm'.
      apply (statement_element j _ T) in Hm' as (p0 & o1 & _ & _ & _ & E & ns & name & Q & E0).
      pose proof (Hs C _ p o (proj2 T) I Cp) as Wst.
      destruct (statement_tag _ p o C I Cp Wst) as (ns1 & name1 & E1 & A1 & A2 & _ & X).
      rewrite E1. rewrite E1 in Hm, I, Wst. eapply d_structured; [ rewrite N3; exact Hm | | ].
      * rewrite <- E1. split; [ exact X | split; assumption ].
      * apply (value_back leaf nsmap read _ o o' HL C); [ eexists; exact I | exact Wst | exact B ].
Qed.
End Copy.
