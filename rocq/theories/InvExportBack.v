(** Reading the exported document gives a copy. *)

From Coq Require Import List NArith ZArith Arith Bool Lia Permutation.
From Verif Require Import PyStr PyStrFacts CiteSpec CiteModel CiteProofs XmlModel XmlProofs UrnModel MetaModel MetaSpec MetaProofs
  CollModel CollSpec CollProofs UtilModel UtilSpec XmlNodeProofs XmlReadSpec XmlReadProofs
  InvModel InvSpec InvProofs InvTrace InvTree InvDone InvExport InvExportSpec InvExportProofs InvExportTree InvExportDoc
  InvExportCopy Props_Cite Props_Inv.
Import ListNotations.

(** ** Citations *)
Lemma single_inj : forall {A} (a b : A), [a] = [b] -> a = b.
Proof. intros A a b H. injection H. auto. Qed.

Lemma cite_raw_one : forall lv l, Forall writable_level (lv :: l) -> exists name rd scope xpath,
  lv = (Some name, Some rd) /\ init_refsdecl (Some scope) (Some xpath) None = Some rd /\
  cite_raw (lv :: l) = [Raw #"citation" [(#"xpath", xpath); (#"scope", scope); (#"label", name)] [] (packed (cite_raw l))].
Proof.
  intros lv l H. inversion H as [|? ? W _]; subst.
  destruct (level_views lv W) as (name & rd & scope & xpath & -> & _ & E & _ & _ & _ & I).
  exists name, rd, scope, xpath. split; [ reflexivity | ]. split; [ exact I | ]. cbn [cite_raw]. rewrite E. reflexivity.
Qed.

Lemma cite_raw_pick : forall l, pick #"citation" (cite_raw l) = cite_raw l.
Proof.
  intros l. apply pick_all. intros r H. destruct l as [|[[name|] rd] l]; cbn [cite_raw] in H; try contradiction.
  destruct (parse_xpath_scope rd) as [[scope xpath]|]; [ | contradiction ]. destruct H as [<-|[]]. reflexivity.
Qed.

Lemma levels_back : forall env l lv r c, Forall writable_level (lv :: l) -> cite_raw (lv :: l) = [r] ->
  levels (to_node env [] r) c -> c = lv :: l.
Proof.
  intros env. induction l as [|lv2 l IH]; intros lv r c W E L.
  - destruct (cite_raw_one _ _ W) as (name & rd & scope & xpath & -> & I & E'). rewrite E in E'. apply single_inj in E'. subst r.
    inversion L as [e N|e c0 l0 F L0]; subst.
    + unfold level_of. cbn [to_node n_attrs]. f_equal. change (Some name, init_refsdecl (Some scope) (Some xpath) None) with (Some name, init_refsdecl (Some scope) (Some xpath) None). rewrite <- I. reflexivity.
    + destruct F as (pre & post & F & _). cbn [to_node n_kids packed map cite_raw] in F. destruct pre; discriminate.
  - destruct (cite_raw_one _ _ W) as (name & rd & scope & xpath & -> & I & E'). rewrite E in E'. apply single_inj in E'. subst r.
    inversion W as [|? ? _ W2]; subst.
    destruct (cite_raw_one _ _ W2) as (name2 & rd2 & scope2 & xpath2 & -> & I2 & E2).
    inversion L as [e N|e c0 l0 F L0]; subst.
    + exfalso. unfold packed in N. rewrite named_tails, cite_raw_pick, E2 in N by reflexivity. discriminate.
    + destruct F as (pre & post & F & Ft & Fp). unfold packed in F. rewrite E2 in F. cbn [to_node n_kids map fst snd] in F.
      destruct pre as [|p pre]; [ | destruct pre; discriminate ]. cbn [app] in F. injection F as <- _.
      f_equal.
      * unfold level_of. cbn [to_node n_attrs]. rewrite <- I. reflexivity.
      * eapply IH; [ exact W2 | exact E2 | exact L0 ].
Qed.

(** ** Members *)
Lemma forallb_filter_id : forall {A} (f : A -> bool) l, forallb f l = true -> filter f l = l.
Proof.
  intros A f. induction l as [|a l IH]; intros H; [ reflexivity | ]. cbn [forallb filter] in *.
  apply andb_true_iff in H as [-> H]. rewrite IH by exact H. reflexivity.
Qed.

Lemma first_of_each_id : forall l, NoDup (map fst l) -> first_of_each l = l.
Proof.
  induction l as [|[k v] l IH]; intros N; [ reflexivity | ]. inversion N as [|? ? H N']; subst. cbn [first_of_each].
  rewrite IH by exact N'. f_equal. apply forallb_filter_id. apply forallb_forall. intros [k' v'] H'. cbn [fst].
  apply negb_true_iff, str_eqb_neq. intros ->. apply H. apply in_map_iff. exists (k, v'). split; [ reflexivity | exact H' ].
Qed.

Lemma combine_fst : forall {A B} (a : list A) (b : list B), length a = length b -> map fst (combine a b) = a.
Proof. intros A B. induction a as [|x a IH]; intros [|y b] H; try discriminate; [ reflexivity | ]. cbn. f_equal. apply IH. cbn in H. lia. Qed.

Lemma Forall2_length : forall {A B} (R : A -> B -> Prop) l l', Forall2 R l l' -> length l = length l'.
Proof. intros A B R l l' H. induction H; cbn; congruence. Qed.

Lemma copied_members : forall (cs : list (str * nat)) (F : nat -> XmlModel.node) (R : str * nat -> nat -> Prop) (Q : nat -> nat -> Prop)
  s' i' js,
  NoDup (map fst cs) -> (forall e, In e cs -> urn_of (F (snd e)) = Some (fst e)) ->
  c_children (obj (s_state s') i')
    = first_of_each (combine (map (fun e => match urn_of e with Some u => u | None => [] end) (map (fun e => F (snd e)) cs)) js) ->
  Forall2 R cs js -> (forall e j, In e cs -> R e j -> Q (snd e) j) ->
  Forall2 (fun a b => fst b = fst a /\ Q (snd a) (snd b)) cs (children s' i').
Proof.
  intros cs F R Q s' i' js N U E H HQ. unfold children. rewrite E.
  replace (map _ (map (fun e => F (snd e)) cs)) with (map (@fst str nat) cs).
  - rewrite first_of_each_id.
    + clear N U E. induction H as [|e j cs js H _ IH]; [ constructor | ]. cbn [map combine]. constructor.
      * split; [ reflexivity | ]. apply HQ; [ left; reflexivity | exact H ].
      * apply IH. intros e' j' I. apply HQ. right. exact I.
    + rewrite combine_fst; [ exact N | ]. rewrite map_length. eapply Forall2_length, H.
  - rewrite map_map. apply map_ext_in. intros e He. rewrite (U e He). reflexivity.
Qed.

Lemma Forall2_of_map : forall {A B C} (f : A -> B) (R : B -> C -> Prop) l l', Forall2 R (map f l) l' -> Forall2 (fun a c => R (f a) c) l l'.
Proof. intros A B C f R. induction l as [|a l IH]; intros l' H; inversion H; subst; constructor; auto. Qed.

Lemma plain_back : forall read l o, ~ address l -> read l = GText l -> comes_back read (Literal l None None) o -> o = Literal l None None.
Proof.
  intros read l o N R H. destruct H as [A|t l' d E|_ _].
  - cbn [text_of] in A. rewrite R in A. contradiction.
  - discriminate E.
  - cbn [text_of]. rewrite R. reflexivity.
Qed.

Section Back.
Variable cpt : bool.
Variable pairs : list (term * term) -> list (term * term).
Hypothesis Hp : arranges pairs.
Variable order : list term -> list term.
Hypothesis Ho : arranges order.
Variable qname : term -> str * str.
Variable s : store.
Hypothesis Hq : prefixes_fit qname s.
Variable i : nat.
Hypothesis P : portable s i.
Hypothesis Hd : cpt = true -> describable qname s i.

Definition told (u : str) : Prop := u = c_id (obj (s_state s) i) \/ In u (inventory_ids s i).
Lemma OM : cpt = true -> one_meaning qname s.
Proof using Hd. intros C. apply (Hd C). Qed.
Lemma Hs : cpt = true -> forall u p o, told u -> In (URI u, p, o) (main_graph s) -> carried qname p -> writable_statement qname s p o.
Proof using Hd. intros C u p o T. apply (proj2 (Hd C) u p o T). Qed.
Lemma TI : tells_inventory s told i.
Proof using Type. split; [ left; reflexivity | intros v Hv; right; exact Hv ]. Qed.

Notation to_node := (InvExportDoc.to_node (InvExportCopy.env cpt order qname s)).

Notation st := (s_state s).
Notation nl := newline.
Notation label_raw := InvExportTree.label_raw.
Notation doc := (InvExportCopy.doc cpt pairs order qname s i).
Notation group_node := (InvExportCopy.group_node cpt pairs order qname s).
Notation work_node := (InvExportCopy.work_node cpt pairs order qname s).
Notation text_node := (InvExportCopy.text_node cpt pairs order qname s).

(** ** The places of the tree *)
Definition is_group (u : str) (g : nat) : Prop := In (u, g) (children s i).
Definition is_work (g : nat) (u : str) (w : nat) : Prop := (exists v, is_group v g) /\ In (u, w) (children s g).
Definition is_text (w : nat) (u : str) (t : nat) : Prop := (exists g v, is_work g v w) /\ In (u, t) (children s w).

Lemma group_of : forall u g, is_group u g -> portable_group s i u g.
Proof using P Hp Hq Hd. intros u g H. destruct P as (_ & _ & _ & HT & _). apply HT, H. Qed.
Lemma work_of : forall g u w, is_work g u w -> portable_work s g u w.
Proof using P Hp Hq Hd. intros g u w [[v H] Hw]. apply group_of in H. apply H, Hw. Qed.
Lemma text_of_ : forall w u t, is_text w u t -> portable_text s w u t.
Proof using P Hp Hq Hd. intros w u t [(g & v & H) Ht]. apply work_of in H. apply H, Ht. Qed.

Lemma sorted_in : forall g u w v t, is_work g u w -> (In (v, t) (sorted_texts s w) <-> In (v, t) (children s w)).
Proof using P Hp Hq Hd.
  intros g u w v t H. unfold sorted_texts. rewrite !in_app_iff. split.
  - intros [X|[X|X]]; apply filter_In in X; apply X.
  - intros X. destruct (work_of _ _ _ H) as (_ & _ & _ & HT). destruct (HT v t X) as (k & _ & _ & Nk & (K & _) & _).
    destruct k; [ congruence | left | right; left | right; right ]; (apply filter_In; split; [ exact X | cbn [snd]; rewrite K; reflexivity ]).
Qed.

Lemma in_groups : forall e, In e (anywhere #"textgroup" doc) <-> exists u g, is_group u g /\ e = group_node g.
Proof using P Hp Hq Hd.
  intros e. rewrite (doc_groups cpt pairs Hp order qname s Hq told Hs i P TI), in_map_iff. split.
  - intros ([u g] & <- & H). exists u, g. split; [ exact H | reflexivity ].
  - intros (u & g & H & ->). exists (u, g). split; [ reflexivity | exact H ].
Qed.
Lemma in_works : forall u g e, is_group u g -> (In e (named #"work" (group_node g)) <-> exists v w, is_work g v w /\ e = work_node w).
Proof using P Hp Hq Hd.
  intros u g e H. rewrite (group_works cpt pairs order qname s i u g (group_of u g H)), in_map_iff. split.
  - intros ([v w] & <- & Hw). exists v, w. split; [ split; [ exists u; exact H | exact Hw ] | reflexivity ].
  - intros (v & w & [_ Hw] & ->). exists (v, w). split; [ reflexivity | exact Hw ].
Qed.
Lemma in_texts : forall g u w k e, is_work g u w ->
  (In (k, e) (texts_in (work_node w)) <-> exists v t, is_text w v t /\ k = sub_of s t /\ e = text_node t).
Proof using P Hp Hq Hd.
  intros g u w k e H. rewrite (work_texts cpt pairs order qname s g u w (work_of _ _ _ H)), in_map_iff. split.
  - intros ([v t] & E & Ht). injection E as <- <-. exists v, t. split; [ | split; reflexivity ].
    split; [ exists g, u; exact H | apply (sorted_in g u w v t H), Ht ].
  - intros (v & t & [_ Ht] & -> & ->). exists (v, t). split; [ reflexivity | ]. apply (sorted_in g u w v t H). exact Ht.
Qed.

(** ** Good documents *)
Lemma good_item : forall k q u j e, member_of s q k u j -> urn_of e = Some (c_id (obj st j)) -> good_urn e.
Proof using Type. intros k q u j e (_ & U & _ & _ & _ & R) E. exists u, (c_urn (obj st j)). rewrite E, U. split; [ reflexivity | exact R ]. Qed.

Lemma text_about : forall w u t, is_text w u t ->
  named #"about" (text_node t) = map (fun o => to_node nl (Raw #"about" [(#"urn", text_of o)] [] [])) (values_of order s t #"about").
Proof using P Hp Hq Hd.
  intros w u t H. destruct (text_of_ _ _ _ H) as (k & _ & _ & _ & (K & _) & _).
  unfold InvExportCopy.text_node, InvExportTree.text_raw, lined. rewrite named_tails, !pick_app, (pick_metas cpt pairs qname s) by (first [ reflexivity | inversion Hn; reflexivity ]).
  rewrite (pick_props order s) by (rewrite K; cbn; intros [X|[X|[]]]; discriminate). cbn [app].
  rewrite pick_all by (intros r Hr; apply in_map_iff in Hr as (o & <- & _); reflexivity).
  rewrite pick_none.
  - rewrite app_nil_r. unfold link_raws. rewrite map_map. reflexivity.
  - intros r Hr. unfold online_raws in Hr. destruct (cited s t); [ contradiction | ]. destruct Hr as [<-|[]]. discriminate.
Qed.

Lemma doc_good : good_inventory doc.
Proof using P Hp Hq Hd.
  split.
  - rewrite (doc_root cpt pairs Hp order qname s Hq told Hs i P TI). discriminate.
  - intros e He. apply in_groups in He as (u & g & Hg & ->). pose proof (group_of _ _ Hg) as (Mg & _).
    split; [ eapply good_item; [ exact Mg | reflexivity ] | ].
    intros e He. apply (in_works u g e Hg) in He as (v & w & Hw & ->). pose proof (work_of _ _ _ Hw) as (Mw & _).
    split; [ eapply good_item; [ exact Mw | reflexivity ] | ].
    intros k e He. apply (in_texts g v w k e Hw) in He as (x & t & Ht & -> & ->).
    pose proof (text_of_ _ _ _ Ht) as (k & _ & _ & _ & Mt & _).
    split; [ eapply good_item; [ exact Mt | reflexivity ] | ].
    intros a Ha. rewrite (text_about w x t Ht) in Ha. apply in_map_iff in Ha as (o & <- & _). discriminate.
Qed.

(** ** Statements *)
Lemma text_labels : forall w u t, is_text w u t -> forall name, property_of (KText (sub_of s t)) name ->
  named name (text_node t) = map (fun o => to_node nl (label_raw name o)) (values_of order s t name).
Proof using P Hp Hq Hd.
  intros w u t H name Hn. destruct (text_of_ _ _ _ H) as (k & _ & _ & _ & (K & _) & _).
  assert (S : sub_of s t = k) by (unfold sub_of; rewrite K; reflexivity). rewrite S in Hn.
  unfold InvExportCopy.text_node, InvExportTree.text_raw, lined. rewrite named_tails, !pick_app, (pick_metas cpt pairs qname s) by (first [ reflexivity | inversion Hn; reflexivity ]).
  rewrite (pick_prop order s name (KText k) t K Hn), !pick_none, app_nil_r; [ rewrite map_map; reflexivity | | ].
  - intros r Hr. unfold online_raws in Hr. destruct (cited s t); [ contradiction | ]. destruct Hr as [<-|[]]. inversion Hn; discriminate.
  - intros r Hr. apply in_map_iff in Hr as (o & <- & _). inversion Hn; discriminate.
Qed.
Lemma work_labels : forall g u w, is_work g u w -> forall name, property_of KWork name ->
  named name (work_node w) = map (fun o => to_node nl (label_raw name o)) (values_of order s w name).
Proof using P Hp Hq Hd.
  intros g u w H name Hn. destruct (work_of _ _ _ H) as ((K & _) & _ & _ & HT).
  unfold InvExportCopy.work_node, InvExportTree.work_raw, lined. rewrite named_tails, !pick_app, (pick_metas cpt pairs qname s) by (first [ reflexivity | inversion Hn; reflexivity ]).
  rewrite (pick_prop order s name KWork w K Hn), pick_none, app_nil_r; [ rewrite map_map; reflexivity | ].
  intros r Hr. apply in_map_iff in Hr as (t & <- & Ht). apply member_in in Ht as [v Ht].
  destruct (text_kind s w v t (HT v t Ht)) as [k Kt]. rewrite (text_raw_name cpt pairs order qname s), Kt. inversion Hn; destruct k; discriminate.
Qed.
Lemma group_labels : forall u g, is_group u g -> forall name, property_of KTextgroup name ->
  named name (group_node g) = map (fun o => to_node nl (label_raw name o)) (values_of order s g name).
Proof using P Hp Hq Hd.
  intros u g H name Hn. destruct (group_of _ _ H) as ((K & _) & _ & HT).
  unfold InvExportCopy.group_node, InvExportTree.group_raw, lined. rewrite named_tails, !pick_app, (pick_metas cpt pairs qname s) by (first [ reflexivity | inversion Hn; reflexivity ]).
  rewrite (pick_prop order s name KTextgroup g K Hn), pick_none, app_nil_r; [ rewrite map_map; reflexivity | ].
  intros r Hr. apply in_map_iff in Hr as (t & <- & Ht). inversion Hn; discriminate.
Qed.

(** An object of the tree and its element. *)
Inductive placed : kind -> str -> nat -> XmlModel.node -> str -> Prop :=
| pl_group : forall u g, is_group u g -> placed KTextgroup u g (group_node g) (c_id (obj st i))
| pl_work : forall g u w, is_work g u w -> placed KWork u w (work_node w) (c_id (obj st g))
| pl_text : forall w u t, is_text w u t -> placed (KText (sub_of s t)) u t (text_node t) (c_id (obj st w)).

Lemma placed_item : forall k u j e up, placed k u j e up ->
  c_kind (obj st j) = k /\ c_id (obj st j) = u /\ c_graph (obj st j) = 0 /\ writable_facts s k u /\
  urn_of e = Some u /\ reads_urn u (c_urn (obj st j)).
Proof using P Hp Hq Hd.
  intros k u j e up H. inversion H as [u0 g Hg|g u0 w Hw|w u0 t Ht]; subst.
  - destruct (group_of _ _ Hg) as ((K & U & _ & G & _ & R) & W & _).
    split; [ exact K | ]. split; [ exact U | ]. split; [ exact G | ]. split; [ exact W | ]. split; [ rewrite <- U; reflexivity | exact R ].
  - destruct (work_of _ _ _ Hw) as ((K & U & _ & G & _ & R) & W & _).
    split; [ exact K | ]. split; [ exact U | ]. split; [ exact G | ]. split; [ exact W | ]. split; [ rewrite <- U; reflexivity | exact R ].
  - destruct (text_of_ _ _ _ Ht) as (k & _ & _ & _ & (K & U & _ & G & _ & R) & W & _).
    assert (S : sub_of s j = k) by (unfold sub_of; rewrite K; reflexivity). rewrite S.
    split; [ exact K | ]. split; [ exact U | ]. split; [ exact G | ]. split; [ exact W | ]. split; [ rewrite <- U; reflexivity | exact R ].
Qed.

Lemma placed_id : forall k u j e up, placed k u j e up -> In u (inventory_ids s i).
Proof using Type.
  intros k u j e up H. unfold inventory_ids. apply in_flat_map.
  assert (B : forall g v w, is_work g v w -> In v (work_ids s g) /\ (forall x, In x (text_ids s w) -> In x (work_ids s g))).
  { intros g v w [_ Hw]. unfold work_ids. split; [ | intros x Hx ]; apply in_flat_map; exists (v, w); (split; [ exact Hw | ]).
    - left. reflexivity.
    - right. exact Hx. }
  inversion H as [u0 g Hg|g u0 w Hw|w u0 t Ht]; subst.
  - exists (u, j). split; [ exact Hg | left; reflexivity ].
  - destruct Hw as [[v Hg] Hw0]. exists (v, g). split; [ exact Hg | ]. right. apply (proj1 (B g u j (conj (ex_intro _ v Hg) Hw0))).
  - destruct Ht as [(g & v & Hw) Ht0]. pose proof Hw as [[v' Hg] _]. exists (v', g). split; [ exact Hg | ]. right.
    apply (proj2 (B g v w Hw)). apply in_map_iff. exists (u, j). split; [ reflexivity | exact Ht0 ].
Qed.

Lemma placed_tells : forall k u j e up, placed k u j e up -> tells s told j.
Proof using Hp Hq P Hd.
  intros k u j e up H. destruct (placed_item k u j e up H) as (_ & U & G & _). split; [ exact G | ]. rewrite U. right. eapply placed_id, H.
Qed.

Lemma placed_structured : forall k u j e up, placed k u j e up ->
  structured_in e = if cpt then map (to_node nl) (statement_raws pairs qname s j) else [].
Proof using Hp Ho Hq P Hd.
  intros k u j e up H. inversion H as [u0 g Hg|g u0 w Hw|w u0 t Ht]; subst.
  - apply (structured_is cpt pairs order Ho qname s Hq OM).
    intros r Hr. right. apply in_app_iff in Hr as [Hr|Hr].
    + apply (prop_in order s) in Hr as (name & o & Hn & _ & ->). rewrite label_name. eapply property_small, Hn.
    + apply in_map_iff in Hr as (w & <- & _). cbn; auto 20.
  - apply (structured_is cpt pairs order Ho qname s Hq OM).
    intros r Hr. right. apply in_app_iff in Hr as [Hr|Hr].
    + apply (prop_in order s) in Hr as (name & o & Hn & _ & ->). rewrite label_name. eapply property_small, Hn.
    + apply in_map_iff in Hr as (t & <- & Ht). apply member_in in Ht as [v Ht].
      destruct (work_of _ _ _ Hw) as (_ & _ & _ & HT). destruct (text_kind s j v t (HT v t Ht)) as [k Kt].
      rewrite (text_raw_name cpt pairs order qname s), Kt. destruct k; cbn; auto 20.
  - unfold InvExportCopy.text_node, InvExportTree.text_raw.
    replace (prop_raws order s j ++ link_raws order s j ++ online_raws s j ++ meta_raws cpt pairs qname s j)
      with ((prop_raws order s j ++ link_raws order s j ++ online_raws s j) ++ meta_raws cpt pairs qname s j ++ [])
      by (rewrite app_nil_r, <- !app_assoc; reflexivity).
    apply (structured_is cpt pairs order Ho qname s Hq OM).
    intros r Hr. right. rewrite app_nil_r in Hr. apply in_app_iff in Hr as [Hr|Hr].
    + apply (prop_in order s) in Hr as (name & o & Hn & _ & ->). rewrite label_name. eapply property_small, Hn.
    + apply in_app_iff in Hr as [Hr|Hr]; [ apply in_map_iff in Hr as (o & <- & _); cbn; auto 20 | ].
      unfold online_raws in Hr. destruct (cited s j); [ contradiction | ]. destruct Hr as [<-|[]]. cbn; auto 20.
Qed.

Lemma placed_listed : forall k e up, listed doc k e up <-> exists u j, placed k u j e up.
Proof using Hp Ho Hq P Hd.
  intros k e up. split.
  - intros H. induction H as [g name Hn Hg|g name w u _ [u0 [j IH]] U Hw|w name k e u _ [u0 [j IH]] U Hk].
    + apply in_groups in Hg as (u & g' & Hg & ->). apply (inventory_name_is cpt pairs Hp order Ho qname s Hq told Hs i name P TI) in Hn. subst name.
      exists u, g'. constructor. exact Hg.
    + inversion IH as [u1 g' Hg| |]; subst. apply (in_works u0 j w Hg) in Hw as (v & w' & Hw & ->).
      exists v, w'. rewrite (group_urn cpt pairs order qname s) in U. injection U as <-. constructor. exact Hw.
    + inversion IH as [|g' u1 w' Hw|]; subst. apply (in_texts g' u0 j k e Hw) in Hk as (v & t & Ht & -> & ->).
      exists v, t. rewrite (work_urn cpt pairs order qname s) in U. injection U as <-. constructor. exact Ht.
  - assert (A : forall u g, is_group u g -> listed doc KTextgroup (group_node g) (c_id (obj st i))).
    { intros u g Hg. apply l_group; [ apply (doc_name cpt pairs Hp order Ho qname s Hq told Hs i P TI) | ]. apply in_groups. exists u, g. auto. }
    assert (B : forall g u w, is_work g u w -> listed doc KWork (work_node w) (c_id (obj st g))).
    { intros g u w Hw. destruct Hw as [[v Hg] Hw0]. eapply l_work; [ apply (A v g Hg) | reflexivity | ].
      apply (in_works v g _ Hg). exists u, w. split; [ split; [ exists v; exact Hg | exact Hw0 ] | reflexivity ]. }
    intros (u & j & H). inversion H as [u0 g Hg|g u0 w Hw|w u0 t Ht]; subst.
    + eapply A, Hg.
    + eapply B, Hw.
    + destruct Ht as [(g & v & Hw) Ht0]. eapply l_text; [ apply (B g v w Hw) | reflexivity | ].
      apply (in_texts g v w _ _ Hw). exists u, j. split; [ split; [ exists g, v; exact Hw | exact Ht0 ] | split; reflexivity ].
Qed.

Lemma placed_described : forall leaf nsmap k u j e up, placed k u j e up ->
  forall name o, described leaf nsmap k e (cts name) o <-> exported k name /\ In (URI u, cts name, o) (main_graph s).
Proof using Hp Ho Hq P Hd.
  intros leaf nsmap k u j e up H. destruct (placed_item k u j e up H) as (K & U & G & W & _).
  apply (described_iff cpt order Ho qname s leaf nsmap k j u e K U G W).
  - inversion H as [u0 g Hg|g u0 w Hw|w u0 t Ht]; subst.
    + eapply group_labels, Hg.
    + eapply work_labels, Hw.
    + eapply text_labels, Ht.
  - intros [sub E]. inversion H as [u0 g Hg|g u0 w Hw|w u0 t Ht]; subst; try congruence. eapply text_about, Ht.
  - intros m ns nm Hm Q name. rewrite (placed_structured k u j e up H) in Hm.
    apply (statement_element cpt pairs Hp order Ho qname s Hq OM told Hs j m (placed_tells k u j e up H)) in Hm as (p0 & o0 & _ & I & C0 & _ & ns0 & name0 & Q0 & ->).
    destruct (qualified_unique _ _ _ _ _ Q Q0) as [-> ->]. eapply (not_cts qname s Hq); eassumption.
Qed.

Lemma placed_carried : forall leaf nsmap read k u j e up, (forall e, n_kids e = [] -> leaf e = read (n_text e)) -> placed k u j e up ->
  forall p o', carried qname p ->
    (described leaf nsmap k e p o' <->
     (exists name, title_element k name /\ In p [rdfs_label; skos_prefLabel] /\ In (URI u, cts name, o') (main_graph s)) \/
     (cpt = true /\ exists o, In (URI u, p, o) (main_graph s) /\ comes_back read o o')).
Proof using Hp Ho Hq P Hd.
  intros leaf nsmap read k u j e up HL H. destruct (placed_item k u j e up H) as (K & U & G & W & _).
  apply (described_carried cpt pairs Hp order Ho qname s Hq OM told Hs leaf nsmap read k j u e HL K U (placed_tells k u j e up H) W).
  - inversion H as [u0 g Hg|g u0 w Hw|w u0 t Ht]; subst.
    + eapply group_labels, Hg.
    + eapply work_labels, Hw.
    + eapply text_labels, Ht.
  - intros [sub E]. inversion H as [u0 g Hg|g u0 w Hw|w u0 t Ht]; subst; try congruence. eapply text_about, Ht.
  - apply (placed_structured k u j e up H).
Qed.

Lemma said_iff : forall leaf nsmap k u j e up name o, placed k u j e up -> exported k name ->
  (In (URI u, cts name, o) (main_graph s) <-> In (URI u, cts name, o) (main_graph s) /\ said leaf nsmap doc (URI u, cts name, o)).
Proof using Hp Ho Hq P Hd.
  intros leaf nsmap k u j e up name o H X. split; [ | tauto ]. intros I. split; [ exact I | ].
  destruct (placed_item k u j e up H) as (_ & _ & _ & _ & U & _).
  apply (said_own leaf nsmap doc k e up u).
  - apply placed_listed. exists u, j. exact H.
  - exact U.
  - apply (placed_described leaf nsmap k u j e up H). split; assumption.
Qed.

Lemma said_graph : forall leaf nsmap n name o, said leaf nsmap doc (n, cts name, o) -> In (n, cts name, o) (main_graph s).
Proof using Hp Ho Hq P Hd.
  intros leaf nsmap n name o H. inversion H as [k e up u p o0 L U D E|k e up u L U E]; subst.
  apply placed_listed in L as (u' & j & L). destruct (placed_item _ _ _ _ _ L) as (_ & _ & _ & _ & U' & _).
  rewrite U in U'. injection U' as <-. apply (placed_described leaf nsmap _ _ _ _ _ L) in D. apply D.
Qed.

Lemma exported_names : forall k name, exported k name ->
  In name [#"label"; #"description"; #"title"; #"groupname"; #"about"].
Proof using Type. intros k name [H|[_ ->]]; [ inversion H | ]; cbn; auto 10. Qed.

(** ** Distinct URNs *)
Lemma sorted_perm : forall g u w, is_work g u w -> Permutation (sorted_texts s w) (children s w).
Proof using P Hp Hq Hd.
  intros g u w H. destruct (work_of _ _ _ H) as (_ & _ & _ & HT). unfold sorted_texts.
  assert (X : forall l, (forall e, In e l -> exists k, k <> Unknown /\ c_kind (obj st (snd e)) = KText k) ->
    Permutation (of_kind s Edition l ++ of_kind s Translation l ++ of_kind s Commentary l) l).
  { induction l as [|e l IH]; intros Hl; [ constructor | ].
    specialize (IH (fun x Hx => Hl x (or_intror Hx))).
    destruct (Hl e (or_introl eq_refl)) as (k & Nk & K). unfold of_kind in *. cbn [filter]. rewrite K.
    destruct k; [ congruence | | | ]; cbn [app].
    - constructor. exact IH.
    - etransitivity; [ apply Permutation_sym, Permutation_middle | ]. constructor. exact IH.
    - etransitivity; [ | constructor; exact IH ]. rewrite !app_assoc.
      etransitivity; [ apply Permutation_sym, Permutation_middle | ]. reflexivity. }
  apply X. intros [v t] Ht. destruct (HT v t Ht) as (k & _ & _ & Nk & (K & _) & _). exists k. split; assumption.
Qed.

Lemma flat_map_perm : forall {A B} (f g : A -> list B) l, (forall a, In a l -> Permutation (f a) (g a)) ->
  Permutation (flat_map f l) (flat_map g l).
Proof using Type.
  intros A B f g. induction l as [|a l IH]; intros H; [ constructor | ]. cbn [flat_map]. apply Permutation_app.
  - apply H. left. reflexivity.
  - apply IH. intros b Hb. apply H. right. exact Hb.
Qed.

Lemma flat_map_map : forall {A B C} (f : B -> list C) (g : A -> B) l, flat_map f (map g l) = flat_map (fun a => f (g a)) l.
Proof using Type. intros A B C f g. induction l as [|a l IH]; [ reflexivity | ]. cbn. rewrite IH. reflexivity. Qed.

Lemma doc_urns : Permutation (document_urns doc) (inventory_ids s i).
Proof using P Hp Hq Hd.
  unfold document_urns, inventory_ids. rewrite (doc_groups cpt pairs Hp order qname s Hq told Hs i P TI), flat_map_map.
  apply flat_map_perm. intros [u g] Hg. cbn [fst snd]. pose proof (group_of u g Hg) as PG.
  unfold group_urns, urn_list. cbn [map]. rewrite (group_urn cpt pairs order qname s g).
  destruct PG as ((_ & U & _) & _ & _). rewrite U. cbn [app]. constructor.
  rewrite (group_works cpt pairs order qname s i u g (group_of u g Hg)), flat_map_map. unfold work_ids.
  apply flat_map_perm. intros [v w] Hw. cbn [fst snd].
  assert (W : is_work g v w) by (split; [ exists u; exact Hg | exact Hw ]).
  unfold work_urns, urn_list. cbn [map]. rewrite (work_urn cpt pairs order qname s w).
  destruct (work_of _ _ _ W) as ((_ & Uw & _) & _ & _ & HT). rewrite Uw. constructor.
  rewrite (work_texts cpt pairs order qname s g v w (work_of _ _ _ W)), !map_map. unfold text_ids. cbn [snd].
  etransitivity; [ | apply Permutation_map, (sorted_perm g v w W) ].
  match goal with |- Permutation ?a ?b => replace a with b; [ reflexivity | ] end.
  apply map_ext_in. intros [x t] Ht. cbn [fst snd]. rewrite (text_urn cpt pairs order qname s t).
  apply (sorted_in g v w x t W) in Ht. destruct (HT x t Ht) as (k & _ & _ & _ & (_ & Ut & _) & _). symmetry. exact Ut.
Qed.

Lemma doc_urns_nodup : NoDup (document_urns doc).
Proof using P Hp Hq Hd. eapply Permutation_NoDup; [ apply Permutation_sym, doc_urns | ]. destruct P as (_ & _ & _ & _ & N). exact N. Qed.

Lemma NoDup_flat_part : forall {A B} (f : A -> list B) l a, NoDup (flat_map f l) -> In a l -> NoDup (f a).
Proof using Type.
  intros A B f. induction l as [|b l IH]; intros a N I; [ contradiction | ]. cbn [flat_map] in N.
  apply NoDup_app_parts in N as (N1 & N2 & _). destruct I as [->|I]; [ exact N1 | apply IH; assumption ].
Qed.

Lemma NoDup_flat_keys : forall {A B} (h : A -> B) (f : A -> list B) l, NoDup (flat_map (fun a => h a :: f a) l) -> NoDup (map h l).
Proof using Type.
  intros A B h f. induction l as [|a l IH]; intros N; [ constructor | ]. cbn [flat_map map] in *.
  inversion N as [|? ? N1 N2]; subst. constructor.
  - intros X. apply N1. apply in_or_app. right. apply in_map_iff in X as (b & E & Hb). apply in_flat_map. exists b.
    split; [ exact Hb | left; exact E ].
  - apply IH. apply NoDup_app_parts in N2. apply N2.
Qed.

Lemma groups_nodup : NoDup (map fst (children s i)).
Proof using P Hp Hq Hd. destruct P as (_ & _ & _ & _ & N). apply NoDup_flat_keys in N. exact N. Qed.
Lemma works_nodup : forall u g, is_group u g -> NoDup (map fst (children s g)).
Proof using P Hp Hq Hd.
  intros u g H. destruct P as (_ & _ & _ & _ & N). unfold inventory_ids in N.
  pose proof (NoDup_flat_part _ _ (u, g) N H) as M. cbn [fst snd] in M. inversion M as [|? ? _ M']; subst.
  unfold work_ids in M'. apply NoDup_flat_keys in M'. exact M'.
Qed.
Lemma texts_nodup : forall g u w, is_work g u w -> NoDup (map fst (sorted_texts s w)).
Proof using P Hp Hq Hd.
  intros g u w H. eapply Permutation_NoDup; [ apply Permutation_sym, Permutation_map, (sorted_perm g u w H) | ].
  destruct P as (_ & _ & _ & _ & N). unfold inventory_ids in N. destruct H as [[v Hg] Hw].
  pose proof (NoDup_flat_part _ _ (v, g) N Hg) as M. cbn [fst snd] in M. inversion M as [|? ? _ M']; subst.
  unfold work_ids in M'. pose proof (NoDup_flat_part _ _ (u, w) M' Hw) as M2. cbn [fst snd] in M2. inversion M2. assumption.
Qed.

(** ** Citations *)
Lemma text_mapped : forall w u t, is_text w u t ->
  mapped (text_node t) = map (to_node []) (cite_raw (cited s t)).
Proof using P Hp Hq Hd.
  intros w u t H. destruct (text_of_ _ _ _ H) as (k & _ & _ & _ & (K & _) & _ & _ & _ & _ & _ & C).
  unfold mapped. unfold InvExportCopy.text_node, InvExportTree.text_raw, lined. rewrite named_tails, !pick_app, (pick_metas cpt pairs qname s) by (first [ reflexivity | inversion Hn; reflexivity ]).
  rewrite (pick_props order s) by (rewrite K; cbn; intros [X|[X|[]]]; discriminate). cbn [app].
  rewrite (pick_none _ (link_raws order s t)) by (intros r Hr; apply in_map_iff in Hr as (o & <- & _); discriminate).
  cbn [app]. rewrite app_nil_r. unfold online_raws. destruct (cited s t) as [|lv l]; [ reflexivity | ].
  cbn [pick filter raw_name]. change (str_eqb #"online" #"online") with true. cbn [map flat_map]. rewrite app_nil_r.
  unfold packed at 1. rewrite named_tails by reflexivity. cbn [pick filter raw_name].
  change (str_eqb #"citationMapping" #"citationMapping") with true. cbn [map flat_map]. rewrite app_nil_r.
  unfold packed. rewrite named_tails, cite_raw_pick by reflexivity. reflexivity.
Qed.

Lemma citation_back : forall w u t c, is_text w u t -> citation_says (text_node t) c -> c = cited s t.
Proof using P Hp Hq Hd.
  intros w u t c H S. unfold citation_says in S. rewrite (text_mapped w u t H) in S.
  destruct (text_of_ _ _ _ H) as (k & _ & _ & _ & _ & _ & _ & _ & _ & _ & C).
  destruct (cited s t) as [|lv l] eqn:E; [ exact S | ].
  destruct (cite_raw_one lv l C) as (name & rd & scope & xpath & _ & _ & E1). rewrite E1 in S. cbn [map] in S.
  eapply (levels_back _); [ exact C | exact E1 | exact S ].
Qed.

(** ** The copy *)
Section Read.
Variable order' : list term -> list term.
Hypothesis Ho' : arranges order'.
Variable leaf : XmlModel.node -> guess.
Variable nsmap : XmlModel.node -> list (str * str).
Variable read : str -> guess.
Hypothesis HL : cpt = true -> forall e, n_kids e = [] -> leaf e = read (n_text e).
Hypothesis LT : cpt = true -> languages_told read s i.
Variable s0 : store.
Hypothesis R : receives s i s0.
Variable s' : store.
Variable i' : nat.
Hypothesis E : parse_inventory order' leaf nsmap doc s0 = (s', Ok i').

Lemma statements_back : forall k u j e up, placed k u j e up -> forall name o, exported k name ->
  (In (URI u, cts name, o) (main_graph s') <-> In (URI u, cts name, o) (main_graph s)).
Proof using Hp Ho Hq P Hd Ho' HL LT R E.
  intros k u j e up H name o X. destruct R as [R1 R2]. pose proof (doc_clark cpt pairs Hp order qname s Hq told Hs i P TI) as C.
  assert (NS : ~ single_valued (cts name)).
  { intros [Y|[Y|[Y|[]]]]; discriminate Y. }
  unfold main_graph at 1. rewrite (C57_statements order' Ho' leaf nsmap doc s0 s' i' C E R1 (URI u) (cts name) o NS). split.
  - intros [Y|Y]; [ apply R2; [ eapply placed_id, H | eapply exported_names, X | exact Y ] | eapply said_graph, Y ].
  - intros Y. right. apply (said_iff leaf nsmap k u j e up name o H X). exact Y.
Qed.

Lemma reads_urn_one : forall u a b, reads_urn u a -> reads_urn u b -> a = b.
Proof using Type. intros u a b (x & E1 & E2) (y & E3 & E4). rewrite E1 in E3. injection E3 as <-. rewrite E2 in E4. injection E4 as <-. reflexivity. Qed.

Lemma item_back : forall k u j e up p j', placed k u j e up -> made_for s' k e p j' -> same_item s j s' j'.
Proof using Hp Ho Hq P Hd Ho' HL LT R E.
  intros k u j e up p j' H (_ & K' & U' & R' & _ & _). destruct (placed_item k u j e up H) as (K & U & G & W & Ue & Ru).
  rewrite Ue in U'. injection U' as U'. unfold same_item. rewrite K, K', U, <- U'. split; [ reflexivity | ]. split; [ reflexivity | ].
  split; [ | apply (statements_back k u j e up H) ].
  rewrite <- U' in R'. eapply reads_urn_one; eassumption.
Qed.

Lemma one_language : forall j a b, language_is s j a -> language_is s j b -> a = b.
Proof using Ho. intros j a b A B. specialize (A order Ho). rewrite (B order Ho) in A. injection A as <-. reflexivity. Qed.

Lemma text_language_is : forall g v w u t l, is_work g v w -> is_text w u t -> language_is s t l ->
  text_language (work_node w) (sub_of s t) (text_node t) = l.
Proof using Hp Ho Hq P Hd.
  intros g v w u t l Hw Ht Hl.
  destruct (text_of_ _ _ _ Ht) as (k & lang & wlang & Nk & (K & _) & _ & L1 & _ & L2 & L3 & _).
  assert (S : sub_of s t = k) by (unfold sub_of; rewrite K; reflexivity). rewrite S.
  rewrite <- (one_language t lang l L1 Hl).
  unfold text_language. rewrite (text_lang cpt pairs order qname s t). destruct (lang_text_is order Ho s t lang L1) as [_ ->].
  destruct k; [ congruence | | reflexivity | reflexivity ].
  unfold work_language. rewrite (work_lang cpt pairs order qname s w). destruct (lang_text_is order Ho s w wlang L2) as [_ ->].
  symmetry. apply L3. reflexivity.
Qed.

Lemma placed_places : forall k u j e up, placed k u j e up -> exists q, placed_in s i k u j q /\ up = c_id (obj st q).
Proof using Hp Hq P Hd.
  assert (A : forall g u w, is_work g u w -> placed_in s i KWork u w g).
  { intros g u w [[v Hg] Hw]. eapply in_group; [ apply in_inventory, Hg | exact Hw ]. }
  intros k u j e up H. inversion H as [u0 g Hg|g u0 w Hw|w u0 t Ht]; subst.
  - exists i. split; [ apply in_inventory, Hg | reflexivity ].
  - exists g. split; [ apply A, Hw | reflexivity ].
  - exists w. split; [ | reflexivity ]. pose proof Ht as [(g & v & Hw) Ht0]. eapply in_work; [ apply (A g v w Hw) | exact Ht0 | ].
    destruct (text_of_ _ _ _ Ht) as (k & _ & _ & _ & (K & _) & _). unfold sub_of. rewrite K. reflexivity.
Qed.
Lemma places_placed : forall k u j q, placed_in s i k u j q -> exists e, placed k u j e (c_id (obj st q)).
Proof using Type.
  assert (A : forall u g q, placed_in s i KTextgroup u g q -> is_group u g /\ q = i).
  { intros u g q H. inversion H; subst. split; [ assumption | reflexivity ]. }
  assert (B : forall u w q, placed_in s i KWork u w q -> is_work q u w).
  { intros u w q H. inversion H as [|v g q0 u0 w0 Hg Hw|]; subst. apply A in Hg as [Hg _]. split; [ exists v; exact Hg | exact Hw ]. }
  intros k u j q H. destruct k as [|k| | | |]; try (inversion H; fail).
  - pose proof H as H'. inversion H' as [| |v w q0 u0 t k0 Hw Ht K]; subst. apply B in Hw.
    replace k with (sub_of s j) by (unfold sub_of; rewrite K; reflexivity).
    exists (text_node j). constructor. split; [ exists q0, v; exact Hw | exact Ht ].
  - apply B in H. exists (work_node j). constructor. exact H.
  - apply A in H as [H ->]. exists (group_node j). constructor. exact H.
Qed.

(** The languages among the structured metadata. *)
Lemma language_statement : forall k u j e up m ns name o l, placed k u j e up -> k <> KTextgroup -> language_is s j l ->
  In m (structured_in e) -> qualified m ns name -> ns ++ name = #"http://purl.org/dc/elements/1.1/language" ->
  value_says leaf nsmap m (guess_text (leaf m)) o -> o = Literal l None None.
Proof using Hp Ho Hq P Hd HL LT.
  intros k u j e up m ns name o l H Nk Hl Hm Q En V. pose proof (placed_tells k u j e up H) as T.
  destruct (placed_item k u j e up H) as (_ & U & _).
  rewrite (placed_structured k u j e up H) in Hm.
  apply (statement_element cpt pairs Hp order Ho qname s Hq OM told Hs j m T) in Hm as (p0 & o1 & C & I & C0 & -> & ns0 & name0 & Q0 & E0).
  destruct (qualified_unique _ _ _ _ _ Q Q0) as [-> ->]. pose proof (Hs C _ p0 o1 (proj2 T) I C0) as W.
  apply (value_back cpt order Ho qname s Hq OM leaf nsmap read p0 o1 o (HL C) C (ex_intro (fun n => In (n, p0, o1) (main_graph s)) _ I) W) in V.
  destruct (placed_places k u j e up H) as (q & Pl & _). rewrite U in I. rewrite En in E0. subst p0.
  destruct (LT C k u j q l o1 Pl Nk Hl I) as (-> & Na & Rl). eapply plain_back; eassumption.
Qed.

Lemma doc_languages : languages_agree leaf nsmap doc.
Proof using Hp Ho Hq P Hd HL LT.
  intros g0 w0 m ns name o Hg0 Hw0 Q En V. apply in_groups in Hg0 as (u & g & Hg & ->).
  apply (in_works u g w0 Hg) in Hw0 as (v & w & Hw & ->). split.
  - intros Hm. destruct (work_of _ _ _ Hw) as (_ & _ & (lang & HLg & _) & _). exists lang. split.
    + rewrite (work_lang cpt pairs order qname s w). destruct (lang_text_is order Ho s w lang HLg) as [_ ->]. reflexivity.
    + eapply (language_statement KWork v w); [ apply pl_work, Hw | discriminate | exact HLg | exact Hm | exact Q | exact En | exact V ].
  - intros k e He Hm. apply (in_texts g v w k e Hw) in He as (x & t & Ht & -> & ->).
    destruct (text_of_ _ _ _ Ht) as (k & lang & wlang & Nk & (K & _) & _ & L1 & _).
    rewrite (text_language_is g v w x t lang Hw Ht L1).
    eapply (language_statement _ x t); [ apply (pl_text w), Ht | discriminate | exact L1 | exact Hm | exact Q | exact En | exact V ].
Qed.

Lemma languages : forall o, arranges o -> forall u g v w, is_group u g -> is_work g v w ->
  (forall p j, made_for s' KWork (work_node w) p j -> get_lang o (s_state s') j = Ok (work_language (work_node w))) /\
  (forall k e p j, In (k, e) (texts_in (work_node w)) -> made_for s' (KText k) e p j ->
     get_lang o (s_state s') j = Ok (text_language (work_node w) k e)).
Proof using Hp Ho Hq P Hd Ho' HL LT R E.
  intros o Hoo u g v w Hg Hw. pose proof (doc_clark cpt pairs Hp order qname s Hq told Hs i P TI) as C. destruct R as [R1 _].
  apply (C57_languages order' Ho' leaf nsmap doc s0 s' i' C E R1 doc_urns_nodup doc_languages) with (g := group_node g); [ | exact Hoo | | ].
  - intros g0 w0 u0 l Hg0 Hw0 N. exfalso. apply in_groups in Hg0 as (u1 & g1 & Hg1 & ->).
    apply (in_works u1 g1 w0 Hg1) in Hw0 as (v1 & w1 & _ & ->). discriminate.
  - apply in_groups. exists u, g. auto.
  - apply (in_works u g _ Hg). exists v, w. auto.
Qed.

Lemma text_back : forall g v w u t w' j', is_work g v w -> is_text w u t ->
  shows_text s' (sub_of s t) (text_node t) (Some w') j' -> copy_text s t s' w' j'.
Proof using Hp Ho Hq P Hd Ho' HL LT R E.
  intros g v w u t w' j' Hw Ht (M & _ & c & C1 & C2). pose proof (pl_text w u t Ht) as PL.
  split; [ eapply item_back; [ exact PL | exact M ] | ]. split; [ apply M | ]. split.
  - intros l Hl o Hoo. destruct Hw as [[x Hg] Hw0].
    assert (W : is_work g v w) by (split; [ exists x; exact Hg | exact Hw0 ]).
    destruct (languages o Hoo x g v w Hg W) as [_ LX].
    rewrite (LX (sub_of s t) (text_node t) (Some w') j'); [ | | exact M ].
    2:{ apply (in_texts g v w _ _ W). exists u, t. split; [ exact Ht | split; reflexivity ]. }
    f_equal. eapply text_language_is; eassumption.
  - unfold cited at 1. rewrite C1. eapply citation_back; eassumption.
Qed.

Lemma work_back : forall x g v w g' w' ts, is_group x g -> is_work g v w ->
  shows_work s' (work_node w) (Some g') w' ts -> copy_work s w s' g' w'.
Proof using Hp Ho Hq P Hd Ho' HL LT R E.
  intros x g v w g' w' ts Hg Hw (M & [_ Mem] & F). pose proof (pl_work g v w Hw) as PL.
  split; [ eapply item_back; [ exact PL | exact M ] | ]. split; [ apply M | ]. split.
  - intros l Hl o Hoo. destruct (languages o Hoo x g v w Hg Hw) as [LW _]. rewrite (LW (Some g') w' M). f_equal.
    unfold work_language. rewrite (work_lang cpt pairs order qname s w). apply (lang_text_is order Ho s w l Hl).
  - rewrite (work_texts cpt pairs order qname s g v w (work_of _ _ _ Hw)) in F, Mem. rewrite (map_map _ (@snd subtype XmlModel.node)) in Mem. cbn [snd] in Mem.
    apply Forall2_of_map in F. cbn [fst snd] in F.
    eapply (copied_members (sorted_texts s w) text_node _ (fun a b => copy_text s a s' w' b)); [ eapply texts_nodup, Hw | | exact Mem | exact F | ].
    + intros [u t] Ht. cbn [fst snd]. apply (sorted_in g v w u t Hw) in Ht.
      assert (T : is_text w u t) by (split; [ exists g, v; exact Hw | exact Ht ]).
      destruct (placed_item _ _ _ _ _ (pl_text w u t T)) as (_ & _ & _ & _ & U & _). exact U.
    + intros [u t] j Ht H. cbn [fst snd] in *. apply (sorted_in g v w u t Hw) in Ht.
      eapply text_back; [ exact Hw | split; [ exists g, v; exact Hw | exact Ht ] | exact H ].
Qed.

Lemma group_back : forall u g g', is_group u g -> shows_group s' (group_node g) (Some i') g' -> copy_group s g s' i' g'.
Proof using Hp Ho Hq P Hd Ho' HL LT R E.
  intros u g g' Hg (M & ws & [_ Mem] & F). pose proof (pl_group u g Hg) as PL.
  split; [ eapply item_back; [ exact PL | exact M ] | ]. split; [ apply M | ].
  rewrite (group_works cpt pairs order qname s i u g (group_of _ _ Hg)) in F, Mem.
  apply Forall2_of_map in F.
  eapply (copied_members (children s g) work_node _ (fun a b => copy_work s a s' g' b)); [ eapply works_nodup, Hg | | exact Mem | exact F | ].
  - intros [v w] Hw. cbn [fst snd]. assert (W : is_work g v w) by (split; [ exists u; exact Hg | exact Hw ]).
    destruct (placed_item _ _ _ _ _ (pl_work g v w W)) as (_ & _ & _ & _ & U & _). exact U.
  - intros [v w] j Hw [ts H]. cbn [fst snd] in *. eapply work_back; [ exact Hg | split; [ exists u; exact Hg | exact Hw ] | exact H ].
Qed.

Lemma inventory_back : copy_inventory s i s' i'.
Proof using Hp Ho Hq P Hd Ho' HL LT R E.
  pose proof (doc_clark cpt pairs Hp order qname s Hq told Hs i P TI) as C.
  destruct (C57_structure order' Ho' leaf nsmap doc s0 s' i' C E) as (_ & K & N & Pa & _ & gs & [_ Mem] & F).
  split; [ exact K | ]. split; [ apply (inventory_name_is cpt pairs Hp order Ho qname s Hq told Hs i _ P TI); assumption | ]. split; [ exact Pa | ].
  rewrite (doc_groups cpt pairs Hp order qname s Hq told Hs i P TI) in F, Mem. apply Forall2_of_map in F.
  eapply (copied_members (children s i) group_node _ (fun a b => copy_group s a s' i' b)); [ exact groups_nodup | | exact Mem | exact F | ].
  - intros [v w] Hw. cbn [fst snd]. destruct (placed_item _ _ _ _ _ (pl_group v w Hw)) as (_ & _ & _ & _ & U & _). exact U.
  - intros [v w] j Hw H. cbn [fst snd] in *. eapply group_back; [ exact Hw | exact H ].
Qed.

(** The structured metadata of what is below the inventory. *)
Lemma told_back : cpt = true -> forall k u j q p o', placed_in s i k u j q -> carried qname p -> ~ single_valued p ->
  (In (URI u, p, o') (main_graph s') <-> In (URI u, p, o') (main_graph s0) \/ read_back read s i u p o').
Proof using Hp Ho Hq P Hd Ho' HL LT R E.
  intros C k u j q p o' Pl Cp NS. destruct R as [R1 _]. pose proof (doc_clark cpt pairs Hp order qname s Hq told Hs i P TI) as Cn.
  unfold main_graph at 1. rewrite (C57_statements order' Ho' leaf nsmap doc s0 s' i' Cn E R1 (URI u) p o' NS).
  assert (S : said leaf nsmap doc (URI u, p, o') <-> read_back read s i u p o'); [ | unfold main_graph; rewrite S; reflexivity ].
  pose proof (conj C I) as C'. pose proof (HL C) as HLC. clear C. split.
  - intros H. inversion H as [k0 e up u0 p0 o0 L U D E0|k0 e up u0 L U E0]; subst.
    + apply placed_listed in L as (u' & j' & L). destruct (placed_item _ _ _ _ _ L) as (_ & _ & _ & _ & U' & _).
      rewrite U in U'. injection U' as <-. destruct (placed_places _ _ _ _ _ L) as (q' & Pl' & _).
      apply (placed_carried leaf nsmap read _ _ _ _ _ HLC L p o' Cp) in D as [(name & Ht & Hpr & I)|(_ & o & I & B)].
      * eapply rb_title; eassumption.
      * eapply rb_statement; eassumption.
    + apply placed_listed in L as (u' & j' & L). destruct (placed_item _ _ _ _ _ L) as (_ & _ & _ & _ & U' & _).
      rewrite U in U'. injection U' as <-. destruct (placed_places _ _ _ _ _ L) as (q' & Pl' & ->). eapply rb_parent; [ exact Pl' | reflexivity ].
  - intros H. destruct H as [o o' I B|k' j' q' name o Pl' Ht Hpr I|k' j' q' Pl' ->].
    + destruct (places_placed k u j q Pl) as [e L]. destruct (placed_item _ _ _ _ _ L) as (_ & _ & _ & _ & U & _).
      eapply said_own; [ apply placed_listed; exists u, j; exact L | exact U | ].
      apply (placed_carried leaf nsmap read _ _ _ _ _ HLC L p o' Cp). right. split; [ apply C' | ]. exists o. split; assumption.
    + destruct (places_placed k' u j' q' Pl') as [e L]. destruct (placed_item _ _ _ _ _ L) as (_ & _ & _ & _ & U & _).
      eapply said_own; [ apply placed_listed; exists u, j'; exact L | exact U | ].
      apply (placed_carried leaf nsmap read _ _ _ _ _ HLC L p o Cp). left. exists name. split; [ exact Ht | split; assumption ].
    + destruct (places_placed k' u j' q' Pl') as [e L]. destruct (placed_item _ _ _ _ _ L) as (_ & _ & _ & _ & U & _).
      eapply said_parent; [ apply placed_listed; exists u, j'; exact L | exact U ].
Qed.
End Read.
End Back.

(** ** The whole way *)
Lemma mapM_same : forall {A B} (f g : A -> result B) l, (forall a, f a = g a) -> mapM f l = mapM g l.
Proof. intros A B f g l H. induction l as [|a l IH]; [ reflexivity | ]. cbn [mapM]. rewrite H, IH. reflexivity. Qed.

Lemma export_pairs : forall pairs pairs' order qname s fuel ns i,
  export false pairs order qname s fuel ns i = export false pairs' order qname s fuel ns i.
Proof.
  intros pairs pairs' order qname s. induction fuel as [|fuel IH]; intros ns i; [ reflexivity | ].
  cbn [export]. rewrite !(mapM_same (export false pairs order qname s fuel false) (export false pairs' order qname s fuel false) _ (IH false)).
  reflexivity.
Qed.

Section Whole.
Variable cpt : bool.
Variable pairs : list (term * term) -> list (term * term).
Hypothesis Hp : arranges pairs.
Variable order : list term -> list term.
Hypothesis Ho : arranges order.
Variable qname : term -> str * str.
Variable s : store.
Hypothesis Hq : prefixes_fit qname s.
Variable i : nat.
Hypothesis P : portable s i.
Hypothesis Hd : cpt = true -> describable qname s i.

Lemma exported_document : mentions_cts s -> forall fuel, 4 <= fuel -> exists text,
  export cpt pairs order qname s fuel true i = Ok text /\ read_document text = Some (InvExportCopy.doc cpt pairs order qname s i).
Proof using Hp Ho Hq P Hd.
  intros M fuel F. destruct fuel as [|[|[|[|f]]]]; try lia. pose proof (TI s i) as [T1 T2].
  destruct (inventory_print cpt pairs Hp order Ho qname s Hq (told s i) (Hs cpt qname s i Hd) true i f P T1 T2) as (x & E & Pr).
  exists x. split; [ exact E | ].
  exact (inventory_document cpt pairs Hp order Ho qname s Hq (OM cpt qname s i Hd) (told s i) (Hs cpt qname s i Hd) i x P (TI s i) M Pr).
Qed.

Lemma read_again : forall order', arranges order' -> forall leaf nsmap read,
  (cpt = true -> forall e, n_kids e = [] -> leaf e = read (n_text e)) -> (cpt = true -> languages_told read s i) ->
  forall s0, receives s i s0 ->
  exists s' i', parse_inventory order' leaf nsmap (InvExportCopy.doc cpt pairs order qname s i) s0 = (s', Ok i') /\
    copy_inventory s i s' i' /\
    (cpt = true -> forall k u j q p o', placed_in s i k u j q -> carried qname p -> ~ single_valued p ->
      (In (URI u, p, o') (main_graph s') <-> In (URI u, p, o') (main_graph s0) \/ read_back read s i u p o')) /\
    forall j, j < length (objs (s_state s0)) -> obj (s_state s') j = obj (s_state s0) j /\ citation_of s' j = citation_of s0 j.
Proof using Hp Ho Hq P Hd.
  intros order' Ho' leaf nsmap read HL LT s0 R.
  pose proof (doc_clark cpt pairs Hp order qname s Hq (told s i) (Hs cpt qname s i Hd) i P (TI s i)) as C.
  pose proof (doc_good cpt pairs Hp order qname s Hq i P Hd) as W.
  apply (C57_accepts order' Ho' leaf nsmap _ s0 C) in W as (s' & i' & E').
  exists s', i'. split; [ exact E' | ]. split; [ | split ].
  - eapply (inventory_back cpt pairs Hp order Ho qname s Hq i P Hd order' Ho' leaf nsmap read HL LT s0 R s' i' E').
  - intros T. eapply (told_back cpt pairs Hp order Ho qname s Hq i P Hd order' Ho' leaf nsmap read HL LT s0 R s' i' E' T).
  - apply (C57_frame order' Ho' leaf nsmap _ s0 s' i' C E').
Qed.
End Whole.
