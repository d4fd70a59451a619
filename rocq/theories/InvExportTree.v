(** The tree that the text written for an inventory stands for. *)

From Coq Require Import List NArith ZArith Arith Bool Lia Permutation.
From Verif Require Import PyStr PyStrFacts CiteSpec CiteModel CiteProofs XmlModel XmlProofs UrnModel MetaModel MetaSpec MetaProofs
  CollModel CollSpec CollProofs UtilModel UtilSpec XmlNodeProofs XmlReadSpec XmlReadProofs
  InvModel InvSpec InvProofs InvExport InvExportSpec InvExportProofs Props_Cite.
Import ListNotations.

(** ** Citations *)
Fixpoint cite_raw (l : list level) : list raw :=
  match l with
  | (Some name, rd) :: l' =>
      match parse_xpath_scope rd with
      | Ok (scope, xpath) =>
          [Raw #"citation" [(#"xpath", xpath); (#"scope", scope); (#"label", name)] [] (packed (cite_raw l'))]
      | Err _ => []
      end
  | _ => []
  end.

Lemma single_quotes_plain : forall v, plain_value v -> single_quotes v = v.
Proof.
  induction v as [|c v IH]; intros H; [ reflexivity | ]. unfold single_quotes in *. cbn [map].
  rewrite IH by (intros x Hx; apply H; right; exact Hx).
  destruct (N.eqb_spec c c_dquote) as [->|_]; [ | reflexivity ].
  exfalso. destruct (H c_dquote (or_introl eq_refl)) as [_ X]. apply X. left. reflexivity.
Qed.

Lemma numbered_nil : forall i v, numbered i v = [] -> v = [].
Proof. intros i [|c v]; [ reflexivity | ]. cbn [numbered]. destruct (N.eqb c c_qmark); [ intros H; discriminate | discriminate ]. Qed.

Lemma write_steps_app : forall a b, write_steps (a ++ b) = write_steps a ++ write_steps b.
Proof. intros. apply flat_map_app. Qed.

Lemma write_steps_nonempty : forall l, l <> [] -> Forall wf_step l -> write_steps l <> [].
Proof.
  intros [|[n t] l] N H; [ congruence | ]. inversion H as [|? ? W _]; subst. destruct W as (W & _). cbn [fst] in W.
  cbn [write_steps flat_map]. unfold write_step. cbn [fst]. destruct n; [ lia | ]. discriminate.
Qed.

Lemma plain_app : forall a b, plain_value (a ++ b) -> plain_value a /\ plain_value b.
Proof. intros a b H. split; intros c Hc; apply H, in_or_app; auto. Qed.

Lemma level_views : forall l, writable_level l -> exists name rd scope xpath,
  l = (Some name, Some rd) /\ rd <> [] /\ parse_xpath_scope (Some rd) = Ok (scope, xpath) /\
  plain_value name /\ plain_value scope /\ plain_value xpath /\
  init_refsdecl (Some scope) (Some xpath) None = Some rd.
Proof.
  intros l (name & before & last & -> & N & Hb & Hl & Pn & Pw).
  destruct (C13_views before last Hb Hl) as (scope & xpath & E & -> & -> & I).
  rewrite write_steps_app in Pw. destruct (plain_app _ _ Pw) as [P1 P2].
  assert (P3 : plain_value (write_step last)). { unfold write_steps in P2. cbn [flat_map] in P2. rewrite app_nil_r in P2. exact P2. }
  exists name, (numbered 1 (write_steps (before ++ [last]))), (write_steps before), (write_step last).
  split; [ reflexivity | ]. split.
  - intros X. apply numbered_nil in X. revert X. apply write_steps_nonempty; [ destruct before; discriminate | ].
    apply Forall_app. split; [ exact Hb | constructor; [ exact Hl | constructor ] ].
  - split; [ exact E | ]. split; [ exact Pn | ]. split; [ exact P1 | ]. split; [ exact P3 | ].
    apply I. apply write_steps_nonempty; assumption.
Qed.

Lemma cite_attrs : forall a b c, plain_value a -> plain_value b -> plain_value c ->
  attrs_ok [(#"xpath", a); (#"scope", b); (#"label", c)].
Proof.
  intros a b c Ha Hb Hc.
  repeat (apply attrs_ok_cons; [ apply name_lit; [ discriminate | reflexivity ] | assumption | | ]); [ | | | apply attrs_ok_nil ];
    cbn; intros H; repeat (destruct H as [H|H]; [ discriminate | ]); exact H.
Qed.

Lemma cites_print : forall l, Forall writable_level l ->
  exists ss, export_citation l = Ok (concat ss) /\ Forall2 prints (cite_raw l) ss.
Proof.
  induction l as [|lv l IH]; intros H; [ exists []; split; [ reflexivity | constructor ] | ].
  inversion H as [|? ? Hl Hr]; subst. destruct (IH Hr) as (ss & E & P).
  destruct (level_views lv Hl) as (name & rd & scope & xpath & -> & N & X & P1 & P2 & P3 & _).
  exists [make_xml_node #"citation" false (Some [(#"xpath", xpath); (#"scope", scope); (#"label", name)]) [] true (concat ss)].
  split.
  - cbn [export_citation]. destruct rd as [|c rd]; [ congruence | ]. cbn [truthy_opt].
    rewrite X. cbn [bind]. rewrite E. cbn [bind concat]. rewrite app_nil_r.
    rewrite !single_quotes_plain by assumption. reflexivity.
  - cbn [cite_raw]. rewrite X. constructor; [ | constructor ].
    apply packed_print; [ apply name_lit; [ discriminate | reflexivity ] | apply cite_attrs; assumption | apply empty_ok | left; reflexivity | exact P ].
Qed.

Section Tree.
Variable cpt : bool.
Variable pairs : list (term * term) -> list (term * term).
Hypothesis Hp : arranges pairs.
Variable order : list term -> list term.
Hypothesis Ho : arranges order.
Variable qname : term -> str * str.
Variable s : store.
Hypothesis Hq : prefixes_fit qname s.
(** The identifiers whose structured metadata are written. *)
Variable told : str -> Prop.
Hypothesis Hs : cpt = true -> forall u p o, told u -> In (URI u, p, o) (main_graph s) -> carried qname p -> writable_statement qname s p o.

Definition label_raw (name : str) (o : term) : raw :=
  match o with
  | Literal t (Some l) _ => Raw name [(#"xml:lang", l)] t []
  | _ => Raw name [] [] []
  end.
Definition prop_raws (i : nat) : list raw :=
  flat_map (fun name => map (label_raw name) (values_of order s i name)) (cts_properties (c_kind (obj (s_state s) i))).
Definition link_raws (i : nat) : list raw :=
  map (fun o => Raw #"about" [(#"urn", text_of o)] [] []) (values_of order s i #"about").
Definition online_raws (i : nat) : list raw :=
  match cited s i with
  | [] => []
  | l => [Raw #"online" [] [] (packed [Raw #"citationMapping" [] [] (packed (cite_raw l))])]
  end.
Definition lang_text (i : nat) : str :=
  match get_lang order (s_state s) i with Ok l => l | Err _ => [] end.
Definition text_attrs (i : nat) : list (str * str) :=
  [(#"urn", c_id (obj (s_state s) i)); (#"xml:lang", lang_text i)] ++ parent_attr s i #"workUrn".
Definition work_attrs (i : nat) : list (str * str) :=
  [(#"urn", c_id (obj (s_state s) i)); (#"xml:lang", lang_text i)] ++ parent_attr s i #"groupUrn".
Definition inventory_attrs (i : nat) : list (str * str) :=
  if truthy (c_id (obj (s_state s) i)) then [(#"tiid", c_id (obj (s_state s) i))] else [].
Definition statement_raw (po : term * term) : raw :=
  Raw (written_name qname (fst po)) (statement_attrs (snd po)) (text_of (snd po)) [].
Definition statement_raws (i : nat) : list raw := map statement_raw (own_statements pairs qname s i).
Definition meta_raws (i : nat) : list raw :=
  if cpt then
    [Raw #"cpt:structured-metadata" [] (match statement_raws i with [] => newline ++ newline | _ => newline end)
       (lined (statement_raws i))]
  else [].

Definition text_raw (ns : bool) (i : nat) : raw :=
  Raw (element_name (c_kind (obj (s_state s) i))) (text_attrs i ++ header cpt order qname s ns i) newline
    (lined (prop_raws i ++ link_raws i ++ online_raws i ++ meta_raws i)).
Definition work_raw (ns : bool) (i : nat) : raw :=
  Raw #"work" (work_attrs i ++ header cpt order qname s ns i) newline
    (lined (prop_raws i ++ meta_raws i ++ map (text_raw false) (members s i))).
Definition group_raw (ns : bool) (i : nat) : raw :=
  Raw #"textgroup" ([(#"urn", c_id (obj (s_state s) i))] ++ header cpt order qname s ns i) newline
    (lined (prop_raws i ++ meta_raws i ++ map (work_raw false) (members s i))).
Definition inventory_raw (ns : bool) (i : nat) : raw :=
  Raw #"TextInventory" (inventory_attrs i ++ header cpt order qname s ns i) newline
    (lined (prop_raws i ++ meta_raws i ++ map (group_raw false) (members s i))).

Lemma values_in : forall i name o, c_graph (obj (s_state s) i) = 0 ->
  (In o (values_of order s i name) <-> In (URI (c_id (obj (s_state s) i)), cts name, o) (main_graph s)).
Proof using Ho. intros i name o G. unfold values_of. rewrite G. apply (In_objects order Ho). Qed.

Lemma properties_spec : forall k name, In name (cts_properties k) <-> property_of k name.
Proof using Type.
  intros k name. split.
  - destruct k; cbn; intros H; repeat (destruct H as [<-|H]; [ constructor | ]); contradiction.
  - intros H. inversion H; cbn; auto.
Qed.

Lemma mapM_prints : forall {A} (f : A -> result str) (r : A -> raw) l,
  (forall a, In a l -> exists x, f a = Ok x /\ prints (r a) x) ->
  exists ss, mapM f l = Ok ss /\ Forall2 prints (map r l) ss.
Proof using Type.
  intros A f r. induction l as [|a l IH]; intros H; [ exists []; split; [ reflexivity | constructor ] | ].
  destruct (H a (or_introl eq_refl)) as (x & E & P).
  destruct (IH (fun b Hb => H b (or_intror Hb))) as (ss & Es & Ps).
  exists (x :: ss). cbn [mapM map]. rewrite E. cbn [bind]. rewrite Es. cbn [bind]. split; [ reflexivity | constructor; assumption ].
Qed.

Lemma property_print : forall name o, is_name name -> writable o ->
  exists x, property_node name o = Ok x /\ prints (label_raw name o) x.
Proof using Type.
  intros name o Hn (t & l & -> & _ & _ & Pl & Wt). cbn [property_node label_raw]. eexists. split; [ reflexivity | ].
  change (@nil (raw * str)) with (packed []).
  change (make_xml_node name false (Some [(#"xml:lang", l)]) t true [])
    with (make_xml_node name false (Some [(#"xml:lang", l)]) t true (concat [])).
  apply packed_print; [ exact Hn | | exact Wt | left; reflexivity | constructor ].
  apply attrs_ok_cons; [ apply name_lit; [ discriminate | reflexivity ] | exact Pl | intros [] | apply attrs_ok_nil ].
Qed.

Lemma property_name : forall k name, In name (cts_properties k) -> is_name name.
Proof using Type.
  intros k name. destruct k; cbn; intros H; repeat (destruct H as [<-|H]; [ apply name_lit; [ discriminate | reflexivity ] | ]); contradiction.
Qed.

Lemma properties_print : forall i k u, c_kind (obj (s_state s) i) = k -> c_id (obj (s_state s) i) = u ->
  c_graph (obj (s_state s) i) = 0 -> writable_facts s k u ->
  exists ss, property_nodes order s i = Ok ss /\ Forall2 prints (prop_raws i) ss.
Proof using Ho.
  intros i k u K U G [W _]. unfold property_nodes, prop_raws. rewrite K.
  assert (X : forall names, (forall name, In name names -> In name (cts_properties k)) ->
    exists l, mapM (fun name => mapM (property_node name) (values_of order s i name)) names = Ok l /\
      Forall2 prints (flat_map (fun name => map (label_raw name) (values_of order s i name)) names) (concat l)).
  { induction names as [|name names IH]; intros H; [ exists []; split; [ reflexivity | constructor ] | ].
    destruct (IH (fun n Hn => H n (or_intror Hn))) as (l & E & P).
    destruct (mapM_prints (property_node name) (label_raw name) (values_of order s i name)) as (ss & Es & Ps).
    { intros o Hin. apply property_print; [ apply (property_name k), H; left; reflexivity | ].
      apply (W name); [ apply properties_spec, H; left; reflexivity | ].
      rewrite <- U. apply values_in; assumption. }
    exists (ss :: l). cbn [mapM flat_map concat]. rewrite Es. cbn [bind]. rewrite E. cbn [bind].
    split; [ reflexivity | apply Forall2_app; assumption ]. }
  destruct (X (cts_properties k) (fun n H => H)) as (l & E & P). exists (concat l). rewrite E. split; [ reflexivity | exact P ].
Qed.

Lemma links_print : forall i k u, c_kind (obj (s_state s) i) = KText k -> c_id (obj (s_state s) i) = u ->
  c_graph (obj (s_state s) i) = 0 -> writable_facts s (KText k) u ->
  Forall2 prints (link_raws i) (link_nodes order s i).
Proof using Ho.
  intros i k u K U G [_ W]. unfold link_raws, link_nodes.
  assert (X : forall l, (forall o, In o l -> exists v, o = URI v /\ plain_value v) ->
    Forall2 prints (map (fun o => Raw #"about" [(#"urn", text_of o)] [] []) l)
      (map (fun o => make_xml_node #"about" false (Some [(#"urn", text_of o)]) [] true []) l)).
  { induction l as [|o l IH]; intros H; [ constructor | ]. cbn [map]. constructor; [ | apply IH; intros x Hx; apply H; right; exact Hx ].
    destruct (H o (or_introl eq_refl)) as (v & -> & P).
    change (@nil (raw * str)) with (packed []).
    change (make_xml_node #"about" false (Some [(#"urn", text_of (URI v))]) [] true [])
      with (make_xml_node #"about" false (Some [(#"urn", text_of (URI v))]) [] true (concat [])).
    apply packed_print; [ apply name_lit; [ discriminate | reflexivity ] | | apply empty_ok | left; reflexivity | constructor ].
    apply attrs_ok_cons; [ apply name_lit; [ discriminate | reflexivity ] | exact P | intros [] | apply attrs_ok_nil ]. }
  apply X. intros o Hin. apply (W #"about"); [ split; [ eexists; reflexivity | reflexivity ] | ].
  rewrite <- U. apply values_in; assumption.
Qed.

(** ** Structured metadata *)
Lemma own_statements_in : forall i p o, c_graph (obj (s_state s) i) = 0 ->
  (In (p, o) (own_statements pairs qname s i) <->
   In (URI (c_id (obj (s_state s) i)), p, o) (main_graph s) /\ carried qname p).
Proof using Hp.
  intros i p o G. unfold own_statements. rewrite G. fold (main_graph s).
  match goal with |- In _ (pairs ?l) <-> _ => transitivity (In (p, o) l) end.
  { split; apply Permutation_in; [ apply Permutation_sym | ]; apply Hp. }
  rewrite in_map_iff. unfold carried.
  assert (X : forall x, existsb (str_eqb x) excluded = true <-> In x other_vocabularies).
  { intros x. rewrite existsb_exists. split.
    - intros (y & Hy & E). apply str_eqb_eq in E. subst y. exact Hy.
    - intros Hx. exists x. split; [ exact Hx | apply str_eqb_refl ]. }
  assert (N : forall x, negb (existsb (str_eqb x) excluded) = true <-> ~ In x other_vocabularies).
  { intros x. rewrite <- X. destruct (existsb (str_eqb x) excluded); cbn; split; try congruence; intros H; elim H; reflexivity. }
  split.
  - intros ([[n q] r] & E & H). cbn [fst snd] in E. injection E as -> ->.
    apply filter_In in H as [H1 H2]. apply filter_In in H1 as [H1 H3]. cbn [fst snd] in *.
    apply andb_true_iff in H2 as [A B]. apply N in A. apply N in B. split; [ | split; assumption ].
    unfold matches, pos_matches in H3. rewrite !andb_true_r in H3. apply term_eqb_eq in H3. unfold CollModel.node in H3. rewrite H3. exact H1.
  - intros [H [A B]]. eexists (_, p, o). split; [ reflexivity | ]. apply filter_In. cbn [fst snd]. split.
    + apply filter_In. split; [ exact H | ]. unfold matches, pos_matches. rewrite !andb_true_r. apply term_eqb_eq. reflexivity.
    + apply andb_true_iff. split; apply N; assumption.
Qed.

Lemma carried_prefix : forall n p o, In (n, p, o) (main_graph s) -> carried qname p -> fst (qname p) <> [].
Proof using Hq.
  intros n p o H [_ C] E. pose proof (Hq n p o H) as Q. destruct (qname p) as [prefix ns]. cbn [fst snd] in *.
  destruct Q as (_ & Q & _). apply C. rewrite (Q E). left. reflexivity.
Qed.

Lemma written_name_is : forall n p o, In (n, p, o) (main_graph s) -> carried qname p -> writable_statement qname s p o ->
  exists name, p = URI (snd (qname p) ++ name) /\ is_name name /\ ~ In 58%N name /\
    written_name qname p = fst (qname p) ++ #":" ++ name.
Proof using Hq.
  intros n p o H C W. pose proof (carried_prefix n p o H C) as N. unfold writable_statement in W. unfold written_name.
  destruct (qname p) as [prefix ns]. cbn [fst snd] in *. destruct W as ((name & E & W1 & W2) & _).
  exists name. split; [ exact E | ]. split; [ exact W1 | ]. split; [ exact W2 | ].
  rewrite E. cbn [text_of]. rewrite skipn_app, skipn_all, Nat.sub_diag. cbn [app skipn].
  destruct prefix; [ congruence | reflexivity ].
Qed.

Lemma statement_print : forall n p o, In (n, p, o) (main_graph s) -> carried qname p -> writable_statement qname s p o ->
  prints (statement_raw (p, o)) (statement_node qname (p, o)).
Proof using Hq.
  intros n p o H C W. destruct (written_name_is n p o H C W) as (name & _ & N1 & N2 & E).
  unfold statement_raw, statement_node. cbn [fst snd].
  change (@nil (raw * str)) with (packed []).
  match goal with |- prints _ (make_xml_node ?a ?b ?c ?d true []) => change (make_xml_node a b c d true []) with (make_xml_node a b c d true (concat [])) end.
  assert (Np : is_name (fst (qname p))).
  { pose proof (carried_prefix n p o H C) as N. pose proof (Hq n p o H) as Q. destruct (qname p) as [prefix ns]. apply Q, N. }
  unfold writable_statement in W. destruct (qname p) as [prefix ns]. cbn [fst snd] in *. destruct W as (_ & _ & _ & _ & W1 & W2).
  apply packed_print; [ | | exact W1 | left; reflexivity | constructor ].
  - rewrite E. split; [ destruct prefix; discriminate | ]. intros c Hc. apply in_app_iff in Hc as [Hc|[<-|Hc]]; [ apply Np, Hc | reflexivity | apply N1, Hc ].
  - destruct o as [v|b|t l d]; try apply attrs_ok_nil. destruct (W2 t l d eq_refl) as [A B]. cbn [statement_attrs].
    destruct l as [l|], d as [d|]; cbn [app]; try apply attrs_ok_nil.
    + apply attrs_ok_cons; [ apply name_lit; [ discriminate | reflexivity ] | apply A; reflexivity | intros [X|[]]; discriminate X | ].
      apply attrs_ok_cons; [ apply name_lit; [ discriminate | reflexivity ] | apply (B d eq_refl) | intros [] | apply attrs_ok_nil ].
    + apply attrs_ok_cons; [ apply name_lit; [ discriminate | reflexivity ] | apply A; reflexivity | intros [] | apply attrs_ok_nil ].
    + apply attrs_ok_cons; [ apply name_lit; [ discriminate | reflexivity ] | apply (B d eq_refl) | intros [] | apply attrs_ok_nil ].
Qed.

(** The strings of the structured metadata, as one. *)
Definition meta_text (i : nat) : list str :=
  if cpt then [join newline (structured_nodes cpt pairs qname s i)] else [].

Lemma join_one : forall a b x y, join newline (a ++ [join newline (x :: y)] ++ b) = join newline (a ++ (x :: y) ++ b).
Proof using Type.
  assert (J : forall x y b, join newline (join newline (x :: y) :: b) = join newline ((x :: y) ++ b)).
  { intros x y. revert x. induction y as [|z y IH]; intros x b; [ reflexivity | ].
    cbn [app]. rewrite (join_cons newline x (z :: y ++ b)) by discriminate. change (z :: y ++ b) with ((z :: y) ++ b). rewrite <- IH.
    rewrite (join_cons newline x (z :: y)) by discriminate.
    destruct b as [|b0 b]; [ reflexivity | ]. rewrite !(join_cons newline _ (b0 :: b)) by discriminate. rewrite <- !app_assoc. reflexivity. }
  induction a as [|c a IH]; intros b x y; [ apply J | ]. specialize (IH b x y). cbn [app] in *.
  rewrite (join_cons newline c (a ++ join newline (x :: y) :: b)), (join_cons newline c (a ++ x :: y ++ b)) by (destruct a; discriminate).
  rewrite IH. reflexivity.
Qed.

Lemma join_meta : forall i a b, join newline (a ++ structured_nodes cpt pairs qname s i ++ b) = join newline (a ++ meta_text i ++ b).
Proof using Type.
  clear Hs. intros i a b. unfold meta_text. destruct cpt; [ | reflexivity ]. symmetry. apply join_one.
Qed.

Lemma join_text : forall i a b c,
  join newline (a ++ b ++ structured_nodes cpt pairs qname s i ++ c) = join newline (a ++ (b ++ meta_text i) ++ c).
Proof using Type. intros i a b c. rewrite (app_assoc a), join_meta, <- !app_assoc. reflexivity. Qed.
Lemma join_members : forall i a b c d,
  join newline (a ++ b ++ structured_nodes cpt pairs qname s i ++ c ++ d) = join newline (a ++ (b ++ meta_text i ++ c) ++ d).
Proof using Type. intros i a b c d. rewrite (app_assoc a), join_meta, <- !app_assoc. reflexivity. Qed.

Lemma structured_print : forall i, c_graph (obj (s_state s) i) = 0 -> told (c_id (obj (s_state s) i)) ->
  Forall2 prints (meta_raws i) (meta_text i).
Proof using Hp Hq Hs.
  intros i G T. unfold meta_raws, meta_text, structured_nodes. destruct cpt eqn:C; [ | constructor ]. constructor; [ | constructor ].
  assert (F : Forall2 prints (statement_raws i) (map (statement_node qname) (own_statements pairs qname s i))).
  { unfold statement_raws.
    assert (X : forall l, (forall p o, In (p, o) l -> In (p, o) (own_statements pairs qname s i)) ->
      Forall2 prints (map statement_raw l) (map (statement_node qname) l)).
    { induction l as [|[p o] l IH]; intros H; [ constructor | ]. cbn [map]. constructor; [ | apply IH; intros; apply H; right; assumption ].
      pose proof (H p o (or_introl eq_refl)) as I. apply (own_statements_in i p o G) in I as [I1 I2].
      eapply statement_print; [ exact I1 | exact I2 | ]. eapply (Hs eq_refl); eassumption. }
    apply X. auto. }
  remember (map (statement_node qname) (own_statements pairs qname s i)) as ss eqn:E.
  remember (statement_raws i) as rs eqn:E2.
  assert (N : is_name #"cpt:structured-metadata") by (apply name_lit; [ discriminate | reflexivity ]).
  rewrite join_cons by discriminate.
  destruct F as [|r x rs ss P F].
  - cbn [lined map]. rewrite (join_cons newline (join newline [])) by discriminate.
    match goal with |- prints _ (?o ++ newline ++ join newline [] ++ newline ++ join newline [?c]) =>
      replace (o ++ newline ++ join newline [] ++ newline ++ join newline [c]) with (o ++ escape (newline ++ newline) ++ [] ++ #"</" ++ #"cpt:structured-metadata" ++ #">") by reflexivity end.
    apply prints_node; [ exact N | apply attrs_ok_nil | | right; split; reflexivity | constructor ].
    intros c [<-|[<-|[]]]; (split; [ reflexivity | discriminate ]).
  - match goal with |- prints _ (?o ++ newline ++ join newline [join newline (x :: ss); ?c]) =>
      replace (join newline [join newline (x :: ss); c]) with (flat_map (fun x => x ++ newline) (x :: ss) ++ c) end.
    2:{ clear. revert x. induction ss as [|y ss IH]; intros x.
        - rewrite join_cons by discriminate. cbn [flat_map]. rewrite app_nil_r, <- app_assoc. reflexivity.
        - rewrite join_cons by discriminate. rewrite (join_cons newline x) by discriminate.
          specialize (IH y). rewrite join_cons in IH by discriminate. cbn [flat_map]. cbn [flat_map] in IH.
          rewrite <- !app_assoc. rewrite <- !app_assoc in IH. rewrite IH. reflexivity. }
    rewrite <- escape_newline at 2.
    apply prints_node; [ exact N | apply attrs_ok_nil | apply newline_ok | right; split; reflexivity | ].
    apply prints_lined. constructor; assumption.
Qed.

Lemma cited_model : forall i, text_citation s i = cited s i.
Proof using Type.
  intros i. unfold text_citation, cited, citation_of. destruct (find _ _) as [[j c]|]; reflexivity.
Qed.

Lemma online_print : forall i, Forall writable_level (cited s i) ->
  exists ss, citation_nodes s i = Ok ss /\ Forall2 prints (online_raws i) ss.
Proof using Type.
  intros i H. unfold citation_nodes, online_raws. rewrite cited_model.
  destruct (cited s i) as [|lv l]; [ exists []; split; [ reflexivity | constructor ] | ].
  destruct (cites_print _ H) as (ss & E & P). rewrite E. cbn [bind]. eexists. split; [ reflexivity | ].
  constructor; [ | constructor ].
  replace (make_xml_node #"citationMapping" false None [] true (concat ss))
    with (concat [make_xml_node #"citationMapping" false None [] true (concat ss)]) by (cbn [concat]; apply app_nil_r).
  apply packed_print; [ apply name_lit; [ discriminate | reflexivity ] | apply attrs_ok_nil | apply empty_ok | right; split; reflexivity | ].
  constructor; [ | constructor ].
  apply packed_print; [ apply name_lit; [ discriminate | reflexivity ] | apply attrs_ok_nil | apply empty_ok | right; split; reflexivity | exact P ].
Qed.

(** ** Attributes *)
Lemma header_attrs : forall ns i, c_graph (obj (s_state s) i) = 0 ->
  attrs_ok (header cpt order qname s ns i) /\ (forall n, In n (map fst (header cpt order qname s ns i)) -> is_decl n).
Proof using Ho Hq.
  intros [|] i G; unfold header.
  - rewrite G. split; [ apply header_ok; assumption | apply header_decls; assumption ].
  - split; [ apply attrs_ok_nil | intros n [] ].
Qed.

Lemma with_header : forall ns i a, c_graph (obj (s_state s) i) = 0 -> attrs_ok a ->
  (forall n, In n (map fst a) -> declares_ns n = None) -> attrs_ok (a ++ header cpt order qname s ns i).
Proof using Ho Hq.
  intros ns i a G A N. destruct (header_attrs ns i G) as [H1 H2]. apply attrs_ok_app; [ exact A | exact H1 | ].
  intros n Hn X. apply H2 in X as (p & X). rewrite (N n Hn) in X. discriminate.
Qed.

Definition own_names : list str := [#"urn"; #"xml:lang"; #"workUrn"; #"groupUrn"; #"tiid"].
Lemma own_no_decl : forall n, In n own_names -> declares_ns n = None.
Proof using Type. intros n H. repeat (destruct H as [<-|H]; [ reflexivity | ]). contradiction. Qed.

Lemma parent_attr_spec : forall i name q, c_parent (obj (s_state s) i) = Some q ->
  parent_attr s i name = [] \/ parent_attr s i name = [(name, c_id (obj (s_state s) q))].
Proof using Type. intros i name q E. unfold parent_attr. rewrite E. destruct (truthy _); auto. Qed.

Lemma item_attrs : forall i name q, In name [#"workUrn"; #"groupUrn"] ->
  plain_value (c_id (obj (s_state s) i)) -> plain_value (lang_text i) ->
  (c_parent (obj (s_state s) i) = Some q) -> plain_value (c_id (obj (s_state s) q)) ->
  let a := [(#"urn", c_id (obj (s_state s) i)); (#"xml:lang", lang_text i)] ++ parent_attr s i name in
  attrs_ok a /\ forall n, In n (map fst a) -> declares_ns n = None.
Proof using Type.
  intros i name q Hn P1 P2 Hpa P3 a.
  assert (S : forall n, In n (map fst a) -> In n own_names).
  { subst a. intros n H. rewrite map_app in H. apply in_app_iff in H as [H|H].
    - repeat (destruct H as [<-|H]; [ cbn; auto | ]). contradiction.
    - destruct (parent_attr_spec i name q Hpa) as [E|E]; rewrite E in H; [ contradiction | ].
      destruct H as [H|[]]. cbn in H. subst n. destruct Hn as [<-|[<-|[]]]; cbn; auto. }
  split; [ | intros n H; apply own_no_decl, S, H ].
  subst a. cbn [app].
  assert (T : attrs_ok (parent_attr s i name) /\ forall n, In n (map fst (parent_attr s i name)) -> n = name).
  { destruct (parent_attr_spec i name q Hpa) as [E|E]; rewrite E.
    - split; [ apply attrs_ok_nil | intros n [] ].
    - split; [ | intros n [<-|[]]; reflexivity ].
      apply attrs_ok_cons; [ | exact P3 | intros [] | apply attrs_ok_nil ].
      destruct Hn as [<-|[<-|[]]]; (apply name_lit; [ discriminate | reflexivity ]). }
  destruct T as [T1 T2].
  apply attrs_ok_cons; [ apply name_lit; [ discriminate | reflexivity ] | exact P1 | | apply attrs_ok_cons; [ apply name_lit; [ discriminate | reflexivity ] | exact P2 | | exact T1 ] ].
  - cbn [map fst]. intros [X|X]; [ discriminate | ]. apply T2 in X. subst name. destruct Hn as [X|[X|[]]]; discriminate.
  - intros X. apply T2 in X. subst name. destruct Hn as [X|[X|[]]]; discriminate.
Qed.

(** ** Objects *)
Lemma lang_text_is : forall i l, language_is s i l -> get_lang order (s_state s) i = Ok l /\ lang_text i = l.
Proof using Ho. intros i l H. unfold lang_text. rewrite (H order Ho). split; reflexivity. Qed.

Lemma element_is_name : forall k, is_name (element_name k).
Proof using Type. intros [|[]| | | |]; (apply name_lit; [ discriminate | reflexivity ]). Qed.

Lemma text_print : forall ns w u t f, portable_text s w u t -> plain_value (c_id (obj (s_state s) w)) -> told u ->
  exists x, export cpt pairs order qname s (S f) ns t = Ok x /\ prints (text_raw ns t) x.
Proof using Hp Ho Hq Hs.
  intros ns w u t f (k & lang & wlang & _ & (K & U & Hpa & G & Pu & _) & Wf & HL & PL & _ & _ & HC) Pw T.
  destruct (lang_text_is t lang HL) as [L1 L2].
  destruct (properties_print t (KText k) u K U G Wf) as (ps & E1 & P1).
  pose proof (links_print t k u K U G Wf) as P2.
  destruct (online_print t HC) as (cs & E3 & P3).
  cbn [export]. rewrite K. unfold export_text. rewrite K, L1. cbn [bind]. rewrite E1. cbn [bind]. rewrite E3. cbn [bind].
  eexists. split; [ reflexivity | ]. unfold text_raw. rewrite K.
  replace ([make_xml_node (element_name (KText k)) false
        (Some ([(#"urn", c_id (obj (s_state s) t)); (#"xml:lang", lang)] ++ parent_attr s t #"workUrn" ++ header cpt order qname s ns t)) [] false []] ++
     ps ++ link_nodes order s t ++ cs ++ structured_nodes cpt pairs qname s t ++ [make_xml_node (element_name (KText k)) true None [] false []])
    with ([make_xml_node (element_name (KText k)) false (Some (text_attrs t ++ header cpt order qname s ns t)) [] false []] ++
     (ps ++ link_nodes order s t ++ cs) ++ structured_nodes cpt pairs qname s t ++ [make_xml_node (element_name (KText k)) true None [] false []]).
  2:{ unfold text_attrs. rewrite L2, <- !app_assoc. reflexivity. }
  rewrite join_text.
  pose proof (structured_print t G ltac:(rewrite U; exact T)) as P4.
  replace (prop_raws t ++ link_raws t ++ online_raws t ++ meta_raws t) with ((prop_raws t ++ link_raws t ++ online_raws t) ++ meta_raws t)
    by (rewrite <- !app_assoc; reflexivity).
  apply lines_print; [ apply element_is_name | | repeat apply Forall2_app; assumption ].
  apply with_header; [ exact G | | ]; apply (item_attrs t #"workUrn" w); cbn [In]; auto; rewrite ?U, ?L2; assumption.
Qed.

Lemma children_members : forall i, members s i = map snd (children s i).
Proof using Type. reflexivity. Qed.

Lemma members_print : forall f (r : bool -> nat -> raw) i,
  (forall u j, In (u, j) (children s i) -> exists x, export cpt pairs order qname s f false j = Ok x /\ prints (r false j) x) ->
  exists ss, mapM (export cpt pairs order qname s f false) (members s i) = Ok ss /\ Forall2 prints (map (r false) (members s i)) ss.
Proof using Type.
  intros f r i H. apply mapM_prints. intros j Hj. apply in_map_iff in Hj as ([u j'] & E & Hj). cbn in E. subst j'.
  exact (H u j Hj).
Qed.

Lemma work_print : forall ns g u w f, portable_work s g u w -> plain_value (c_id (obj (s_state s) g)) ->
  told u -> (forall v, In v (text_ids s w) -> told v) ->
  exists x, export cpt pairs order qname s (S (S f)) ns w = Ok x /\ prints (work_raw ns w) x.
Proof using Hp Ho Hq Hs.
  intros ns g u w f ((K & U & Hpa & G & Pu & _) & Wf & (lang & HL & PL) & HT) Pg T TT.
  destruct (lang_text_is w lang HL) as [L1 L2].
  destruct (properties_print w KWork u K U G Wf) as (ps & E1 & P1).
  destruct (members_print (S f) text_raw w) as (ms & E2 & P2).
  { intros v t Hv. apply (text_print false w v t f (HT v t Hv)); [ rewrite U; exact Pu | ]. apply TT, in_map_iff. exists (v, t). auto. }
  remember (S f) as f1. cbn [export]. rewrite K. cbv iota zeta. unfold attrs_of. rewrite K, L1. cbn [bind].
  rewrite E1. cbn [bind]. rewrite E2. cbn [bind].
  eexists. split; [ reflexivity | ]. unfold work_raw.
  rewrite join_members.
  pose proof (structured_print w G ltac:(rewrite U; exact T)) as P4.
  replace ([(#"urn", c_id (obj (s_state s) w)); (#"xml:lang", lang)] ++ parent_attr s w #"groupUrn") with (work_attrs w)
    by (unfold work_attrs; rewrite L2; reflexivity).
  apply lines_print; [ apply element_is_name | | repeat apply Forall2_app; assumption ].
  apply with_header; [ exact G | | ]; apply (item_attrs w #"groupUrn" g); cbn [In]; auto; rewrite ?U, ?L2; assumption.
Qed.

Lemma one_attr : forall n v, In n own_names -> plain_value v ->
  attrs_ok [(n, v)] /\ forall m, In m (map fst [(n, v)]) -> declares_ns m = None.
Proof using Type.
  intros n v Hn Hv. split.
  - apply attrs_ok_cons; [ | exact Hv | intros [] | apply attrs_ok_nil ].
    repeat (destruct Hn as [<-|Hn]; [ apply name_lit; [ discriminate | reflexivity ] | ]). contradiction.
  - intros m [<-|[]]. apply own_no_decl, Hn.
Qed.

Lemma group_print : forall ns i u g f, portable_group s i u g -> told u -> (forall v, In v (work_ids s g) -> told v) ->
  exists x, export cpt pairs order qname s (S (S (S f))) ns g = Ok x /\ prints (group_raw ns g) x.
Proof using Hp Ho Hq Hs.
  intros ns i u g f ((K & U & Hpa & G & Pu & _) & Wf & HT) T TT.
  destruct (properties_print g KTextgroup u K U G Wf) as (ps & E1 & P1).
  destruct (members_print (S (S f)) work_raw g) as (ms & E2 & P2).
  { intros v t Hv. apply (work_print false g v t f (HT v t Hv)); [ rewrite U; exact Pu | | ].
    - apply TT, in_flat_map. exists (v, t). split; [ exact Hv | left; reflexivity ].
    - intros x Hx. apply TT, in_flat_map. exists (v, t). split; [ exact Hv | right; exact Hx ]. }
  remember (S (S f)) as f1. cbn [export]. rewrite K. cbv iota zeta. unfold attrs_of. rewrite K. cbn [bind].
  rewrite E1. cbn [bind]. rewrite E2. cbn [bind].
  eexists. split; [ reflexivity | ]. unfold group_raw.
  rewrite join_members.
  pose proof (structured_print g G ltac:(rewrite U; exact T)) as P4.
  apply lines_print; [ apply element_is_name | | repeat apply Forall2_app; assumption ].
  apply with_header; [ exact G | | ]; apply one_attr; cbn; rewrite ?U; auto.
Qed.

Lemma inventory_print : forall ns i f, portable s i ->
  told (c_id (obj (s_state s) i)) -> (forall v, In v (inventory_ids s i) -> told v) ->
  exists x, export cpt pairs order qname s (S (S (S (S f)))) ns i = Ok x /\ prints (inventory_raw ns i) x.
Proof using Hp Ho Hq Hs.
  intros ns i f (K & G & Pu & HT & _) T TT.
  destruct (properties_print i KInventory (c_id (obj (s_state s) i)) K eq_refl G) as (ps & E1 & P1).
  { split; [ intros name o H; inversion H | intros name o [[sub H] _]; discriminate ]. }
  destruct (members_print (S (S (S f))) group_raw i) as (ms & E2 & P2).
  { intros v t Hv. apply (group_print false i v t f (HT v t Hv)).
    - apply TT, in_flat_map. exists (v, t). split; [ exact Hv | left; reflexivity ].
    - intros x Hx. apply TT, in_flat_map. exists (v, t). split; [ exact Hv | right; exact Hx ]. }
  remember (S (S (S f))) as f1. cbn [export]. rewrite K. cbv iota zeta. unfold attrs_of. rewrite K. cbn [bind].
  rewrite E1. cbn [bind]. rewrite E2. cbn [bind].
  eexists. split; [ reflexivity | ]. unfold inventory_raw.
  rewrite join_members.
  pose proof (structured_print i G ltac:(exact T)) as P4.
  change (if truthy (c_id (obj (s_state s) i)) then [(#"tiid", c_id (obj (s_state s) i))] else []) with (inventory_attrs i).
  apply lines_print; [ apply element_is_name | | repeat apply Forall2_app; assumption ].
  unfold inventory_attrs. apply with_header; [ exact G | | ]; destruct (truthy _);
    try (apply one_attr; [ cbn; auto 10 | exact Pu ]); [ apply attrs_ok_nil | intros n [] ].
Qed.
End Tree.
