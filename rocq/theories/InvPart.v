(** Reading an exported part of an inventory gives a copy of it. *)

From Coq Require Import List NArith ZArith Arith Bool Lia Permutation.
From Verif Require Import PyStr PyStrFacts CiteSpec CiteModel CiteProofs XmlModel XmlProofs UrnModel MetaModel MetaSpec MetaProofs
  CollModel CollSpec CollProofs UtilModel UtilSpec XmlNodeProofs XmlReadSpec XmlReadProofs
  InvModel InvSpec InvProofs InvTrace InvTree InvDone InvExport InvExportSpec InvExportProofs InvExportTree InvExportDoc
  InvExportCopy InvExportBack InvPartModel InvPartSpec Props_Cite Props_Inv.
Import ListNotations.

Lemma flat_unique : forall {A B} (f : A -> list B) l a b x, NoDup (flat_map f l) -> In a l -> In b l -> In x (f a) -> In x (f b) -> a = b.
Proof.
  intros A B f. induction l as [|c l IH]; intros a b x N Ha Hb Xa Xb; [ contradiction | ]. cbn [flat_map] in N.
  apply NoDup_app_parts in N as (_ & N2 & N3). destruct Ha as [->|Ha], Hb as [->|Hb]; [ reflexivity | | | eapply IH; eassumption ].
  - exfalso. apply (N3 x Xa). apply in_flat_map. exists b. auto.
  - exfalso. apply (N3 x Xb). apply in_flat_map. exists a. auto.
Qed.

(** The tail of an element is not looked at. *)
Definition retail (tail : str) (e : XmlModel.node) : XmlModel.node :=
  match e with Elem t a x _ k => Elem t a x tail k end.
Lemma parse_part_retail : forall order leaf nsmap k tail e, k = KTextgroup \/ k = KWork \/ (exists sub, k = KText sub) ->
  parse_part order leaf nsmap k (retail tail e) = parse_part order leaf nsmap k e.
Proof. intros order leaf nsmap k tail [t a x y z] [->|[->|[sub ->]]]; reflexivity. Qed.

Lemma grows_main : forall told ids s s', grows told ids (graphs (s_state s)) (graphs (s_state s')) -> graphs (s_state s) <> [] ->
  forall n p o, ~ single_valued p -> (In (n, p, o) (main_graph s') <-> In (n, p, o) (main_graph s) \/ told (n, p, o)).
Proof.
  intros told ids s s' G N n p o S. unfold main_graph. unfold grows in G. destruct (graphs (s_state s)) as [|g r]; [ congruence | ].
  destruct G as (g' & -> & A & _). cbn [nth]. apply A. exact S.
Qed.

(** A text read without parent: the language it says. *)
Lemma parse_text_alone : forall order, arranges order -> forall leaf nsmap k e s l, k <> Edition -> fine e -> lang_of e = Some l ->
  calm leaf nsmap e [Literal l None None] -> graphs (s_state s) <> [] ->
  yields (parse_text order leaf nsmap k e None) s (good_text e)
    (fun s' _ => lang_is s' (the_urn e) [Literal l None None]).
Proof.
  intros order Ho leaf nsmap k e s l Nk Hf El Hcalm Hg. unfold parse_text.
  eapply yields_weaken.
  - eapply yields_bind; [ apply (make_yields order Ho); exact I | ].
    intros s1 i (Ei & u & t & Hu & Ht & O1 & C1 & G1 & L1).
    assert (A1 : at0 i u s1) by (eapply made_at0; eassumption).
    assert (N1 : graphs (s_state s1) <> []) by (eapply grows_nonempty; eassumption).
    eapply yields_bind with (w1 := True) (Q1 := fun s2 (_ : unit) => quiet (fun _ => False) u s1 s2 /\ lang_is s2 u [Literal l None None]).
    { assert (B : yields (assign_lang i e) s1 True (fun s2 (_ : unit) => quiet (fun _ => False) u s1 s2 /\ lang_is s2 u [Literal l None None])).
      { eapply yields_weaken; [ apply assign_lang_yields; exact A1 | reflexivity | ].
        intros s2 [] [Q2 L2]. rewrite El in L2. split; [ exact Q2 | ]. intros o Hoo. apply (L2 N1 o Hoo). }
      destruct k; try exact B. congruence. }
    intros s2 [] [Q2 L2].
    assert (A2 : at0 i u s2) by (eapply at0_objs; [ apply Q2 | exact A1 ]).
    eapply yields_bind; [ apply (parse_labels_yields i u (KText k) #"description" e); [ discriminate | exact A2 ] | ].
    intros s3 [] [Q3 M3].
    assert (A3 : at0 i u s3) by (eapply at0_objs; [ apply Q3 | exact A2 ]).
    eapply yields_bind; [ apply (parse_labels_yields i u (KText k) #"label" e); [ discriminate | exact A3 ] | ].
    intros s4 [] [Q4 M4].
    assert (A4 : at0 i u s4) by (eapply at0_objs; [ apply Q4 | exact A3 ]).
    eapply yields_bind; [ apply set_citation_yields | ].
    intros s5 [] E5.
    assert (A5 : at0 i u s5) by (rewrite E5; exact A4).
    eapply yields_bind; [ apply (parse_about_yields i u e); exact A5 | ].
    intros s6 [] [Q6 M6].
    assert (A6 : at0 i u s6) by (eapply at0_objs; [ apply Q6 | exact A5 ]).
    eapply yields_bind; [ apply (parse_structured_yields leaf nsmap i u e s6 Hf A6) | ].
    intros s7 [] [Q7 M7].
    apply (yields_ret i s7 True); [ exact I | ].
    instantiate (1 := fun s' (_ : nat) => lang_is s' (the_urn e) [Literal l None None]). cbn beta.
    unfold the_urn. rewrite Hu. apply (M7 _ Hcalm). intros o Hoo. rewrite M6. subst s5. cbn [s_state]. rewrite M4, M3. apply L2, Hoo.
  - unfold good_text. tauto.
  - cbn beta. auto.
Qed.

Section Part.
Variable cpt : bool.
Variable pairs : list (term * term) -> list (term * term).
Hypothesis Hp : arranges pairs.
Variable order : list term -> list term.
Hypothesis Ho : arranges order.
Variable qname : term -> str * str.
Variable s : store.
Hypothesis Hq : prefixes_fit qname s.
Variable i : nat.
Hypothesis P : portable s i.
Hypothesis Hd : cpt = true -> describable qname s i.

Notation st := (s_state s).
Notation nl := newline.
Notation doc := (InvExportCopy.doc cpt pairs order qname s i).
Notation group_node := (InvExportCopy.group_node cpt pairs order qname s).
Notation work_node := (InvExportCopy.work_node cpt pairs order qname s).
Notation text_node := (InvExportCopy.text_node cpt pairs order qname s).
Notation env := (InvExportCopy.env cpt order qname s).
Notation is_group := (InvExportBack.is_group s i).
Notation is_work := (InvExportBack.is_work s i).
Notation is_text := (InvExportBack.is_text s i).
Notation placed := (InvExportBack.placed cpt pairs order qname s i).
Notation told := (InvExportBack.told s i).
Notation OM := (InvExportBack.OM cpt qname s i Hd).
Notation Hs := (InvExportBack.Hs cpt qname s i Hd).
Notation TI := (InvExportBack.TI s i).
Notation group_of := (InvExportBack.group_of cpt pairs Hp qname s Hq i P Hd).
Notation work_of := (InvExportBack.work_of cpt pairs Hp qname s Hq i P Hd).
Notation text_of_ := (InvExportBack.text_of_ cpt pairs Hp qname s Hq i P Hd).
Notation in_groups := (InvExportBack.in_groups cpt pairs Hp order qname s Hq i P Hd).
Notation in_works := (InvExportBack.in_works cpt pairs Hp order qname s Hq i P Hd).
Notation in_texts := (InvExportBack.in_texts cpt pairs Hp order qname s Hq i P Hd).
Notation sorted_in := (InvExportBack.sorted_in cpt pairs Hp qname s Hq i P Hd).
Notation placed_item := (InvExportBack.placed_item cpt pairs Hp order qname s Hq i P Hd).
Notation placed_described := (InvExportBack.placed_described cpt pairs Hp order Ho qname s Hq i P Hd).
Notation placed_id := (InvExportBack.placed_id cpt pairs order qname s i).
Notation pl_group := (InvExportBack.pl_group cpt pairs order qname s i).
Notation pl_work := (InvExportBack.pl_work cpt pairs order qname s i).
Notation pl_text := (InvExportBack.pl_text cpt pairs order qname s i).

Lemma group_told_ids : forall u g, is_group u g -> tells_group s told u g.
Proof using Type. intros u g H. eapply tells_member_group; [ exact TI | exact H ]. Qed.
Lemma work_told_ids : forall g u w, is_work g u w -> tells_work s told u w.
Proof using Type. intros g u w [[v Hg] Hw]. eapply tells_member_work; [ eapply group_told_ids, Hg | exact Hw ]. Qed.
Lemma text_told_id : forall w u t, is_text w u t -> told u.
Proof using Type. intros w u t [(g & v & Hw) Ht]. eapply tells_member_text; [ eapply work_told_ids, Hw | exact Ht ]. Qed.

(** ** The documents *)
Lemma root_document : forall j n a t kids x, c_graph (obj st j) = 0 -> mentions_cts s ->
  (forall k v, In (k, v) a -> declares_ns k = None) ->
  simple env true (Raw n (a ++ header cpt order qname s true j) t kids) ->
  prints (Raw n (a ++ header cpt order qname s true j) t kids) x ->
  read_document x = Some (retail [] (to_node env nl (Raw n (a ++ header cpt order qname s false j) t kids))).
Proof using Ho Hq.
  intros j n a t kids x G M D Si Pr. unfold read_document. rewrite (read_printed _ _ Pr).
  rewrite (in_scope_simple env true _ Si); [ | | apply header_default; assumption ].
  - f_equal. cbn [to_node retail]. rewrite !filter_app, !(header_filtered cpt order Ho qname s Hq) by exact G. reflexivity.
  - cbn [raw_attrs]. apply (root_env cpt order qname s); assumption.
Qed.

Lemma parent_attr_decl : forall j name k v, declares_ns name = None -> In (k, v) (parent_attr s j name) -> declares_ns k = None.
Proof using Type. intros j name k v N H. apply parent_name in H. subst. exact N. Qed.

Lemma group_document : forall u g fuel, is_group u g -> mentions_cts s -> 4 <= fuel -> exists x,
  export cpt pairs order qname s fuel true g = Ok x /\ read_document x = Some (retail [] (group_node g)).
Proof using Hp Ho Hq P Hd.
  intros u g fuel H M F. destruct fuel as [|[|[|f]]]; try lia. pose proof (group_of u g H) as PG. pose proof (group_told_ids u g H) as T.
  destruct (group_print cpt pairs Hp order Ho qname s Hq told Hs true i u g f PG (proj1 T) (proj2 T)) as (x & E & Pr).
  exists x. split; [ exact E | ].
  pose proof (simple_group cpt pairs Hp order Ho qname s Hq OM told Hs true i u g PG T) as Si.
  unfold group_raw in Pr, Si. destruct PG as ((_ & _ & _ & G & _) & _).
  eapply root_document in Pr; [ | exact G | exact M | | exact Si ]; [ exact Pr | ].
  intros k v [E0|[]]. injection E0 as <- _. reflexivity.
Qed.
Lemma work_document : forall g u w fuel, is_work g u w -> mentions_cts s -> 4 <= fuel -> exists x,
  export cpt pairs order qname s fuel true w = Ok x /\ read_document x = Some (retail [] (work_node w)).
Proof using Hp Ho Hq P Hd.
  intros g u w fuel H M F. destruct fuel as [|[|[|f]]]; try lia. pose proof (work_of g u w H) as PW. pose proof (work_told_ids g u w H) as T.
  assert (Pg : plain_value (c_id (obj st g))).
  { destruct H as [[v Hg] _]. destruct (group_of v g Hg) as ((_ & U & _ & _ & Pv & _) & _). rewrite U. exact Pv. }
  destruct (work_print cpt pairs Hp order Ho qname s Hq told Hs true g u w (S f) PW Pg (proj1 T) (proj2 T)) as (x & E & Pr).
  exists x. split; [ exact E | ].
  pose proof (simple_work cpt pairs Hp order Ho qname s Hq OM told Hs true g u w PW T) as Si.
  unfold work_raw in Pr, Si. destruct PW as ((_ & _ & _ & G & _) & _).
  eapply root_document in Pr; [ | exact G | exact M | | exact Si ]; [ exact Pr | ].
  intros k v Hk. apply in_app_iff in Hk as [Hk|Hk]; [ | eapply parent_attr_decl; [ | exact Hk ]; reflexivity ].
  destruct Hk as [E0|[E0|[]]]; injection E0 as <- _; reflexivity.
Qed.
Lemma text_document : forall w u t fuel, is_text w u t -> mentions_cts s -> 4 <= fuel -> exists x,
  export cpt pairs order qname s fuel true t = Ok x /\ read_document x = Some (retail [] (text_node t)).
Proof using Hp Ho Hq P Hd.
  intros w u t fuel H M F. destruct fuel as [|f]; try lia. pose proof (text_of_ w u t H) as PT. pose proof (text_told_id w u t H) as T.
  assert (Pw : plain_value (c_id (obj st w))).
  { destruct H as [(g & v & Hw) _]. destruct (work_of g v w Hw) as ((_ & U & _ & _ & Pv & _) & _). rewrite U. exact Pv. }
  destruct (text_print cpt pairs Hp order Ho qname s Hq told Hs true w u t f PT Pw T) as (x & E & Pr).
  exists x. split; [ exact E | ].
  pose proof (simple_text cpt pairs Hp order Ho qname s Hq OM told Hs true t (text_kind s w u t PT) (text_tells s told w u t PT T)) as Si.
  unfold text_raw in Pr, Si. pose proof (text_graph s w u t PT) as G.
  eapply root_document in Pr; [ | exact G | exact M | | exact Si ]; [ exact Pr | ].
  intros k v Hk. apply in_app_iff in Hk as [Hk|Hk]; [ | eapply parent_attr_decl; [ | exact Hk ]; reflexivity ].
  destruct Hk as [E0|[E0|[]]]; injection E0 as <- _; reflexivity.
Qed.

(** ** Identifiers tell what is where *)
Lemma position : forall k u j e up, placed k u j e up -> exists v g, In (v, g) (children s i) /\
  ((k = KTextgroup /\ u = v /\ j = g /\ e = group_node g /\ up = c_id (obj st i)) \/
   exists x w, In (x, w) (children s g) /\
   ((k = KWork /\ u = x /\ j = w /\ e = work_node w /\ up = c_id (obj st g)) \/
    (In (u, j) (children s w) /\ k = KText (sub_of s j) /\ e = text_node j /\ up = c_id (obj st w)))).
Proof using Type.
  intros k u j e up H. inversion H as [u0 g Hg|g u0 w Hw|w u0 t Ht]; subst.
  - exists u, j. split; [ exact Hg | ]. left. auto.
  - destruct Hw as [[v Hg] Hw]. exists v, g. split; [ exact Hg | ]. right. exists u, j. split; [ exact Hw | ]. left. auto.
  - destruct Ht as [(g & x & [[v Hg] Hw]) Ht]. exists v, g. split; [ exact Hg | ]. right. exists x, w. split; [ exact Hw | ]. right. auto.
Qed.

Lemma same_fst : forall (l : list (str * nat)) u a b, NoDup (map fst l) -> In (u, a) l -> In (u, b) l -> a = b.
Proof using Type.
  induction l as [|[v c] l IH]; intros u a b N Ha Hb; [ contradiction | ]. cbn [map fst] in N. inversion N as [|? ? N1 N2]; subst.
  assert (X : forall x, In (v, x) l -> False) by (intros x Hx; apply N1, in_map_iff; exists (v, x); auto).
  destruct Ha as [Ha|Ha], Hb as [Hb|Hb]; [ congruence | | | eapply IH; eassumption ];
    [ injection Ha as -> _ | injection Hb as -> _ ]; exfalso; eapply X; eassumption.
Qed.

Lemma placed_unique : forall u k j e up k' j' e' up', placed k u j e up -> placed k' u j' e' up' ->
  k = k' /\ j = j' /\ e = e' /\ up = up'.
Proof using P.
  intros u k j e up k' j' e' up' H H'.
  apply position in H as (v & g & Hg & H), H' as (v' & g' & Hg' & H'). destruct P as (_ & _ & _ & _ & N). unfold inventory_ids in N.
  assert (W : forall x w g, In (x, w) (children s g) -> In x (work_ids s g)).
  { intros x w g0 Hw. unfold work_ids. apply in_flat_map. exists (x, w). split; [ exact Hw | left; reflexivity ]. }
  assert (T : forall x w g u t, In (x, w) (children s g) -> In (u, t) (children s w) -> In u (work_ids s g)).
  { intros x w g0 u0 t Hw Ht. unfold work_ids. apply in_flat_map. exists (x, w). split; [ exact Hw | right ].
    apply in_map_iff. exists (u0, t). auto. }
  assert (X : (v, g) = (v', g')).
  { apply (flat_unique _ _ (v, g) (v', g') u N Hg Hg'); cbn [fst snd].
    - destruct H as [(_ & -> & _)|(x & w & Hw & [(_ & -> & _)|(Ht & _)])]; [ left; reflexivity | right; eapply W, Hw | right; eapply T; eassumption ].
    - destruct H' as [(_ & -> & _)|(x & w & Hw & [(_ & -> & _)|(Ht & _)])]; [ left; reflexivity | right; eapply W, Hw | right; eapply T; eassumption ]. }
  injection X as <- <-.
  pose proof (NoDup_flat_part _ _ (v, g) N Hg) as M. cbn [fst snd] in M. inversion M as [|? ? M1 M2]; subst. clear M.
  destruct H as [(-> & -> & -> & -> & ->)|(x & w & Hw & H)], H' as [(-> & E & -> & -> & ->)|(x' & w' & Hw' & H')].
  - auto.
  - exfalso. apply M1. destruct H' as [(_ & -> & _)|(Ht & _)]; [ eapply W, Hw' | eapply T; eassumption ].
  - exfalso. apply M1. subst u. destruct H as [(_ & -> & _)|(Ht & _)]; [ eapply W, Hw | eapply T; eassumption ].
  - assert (Y : (x, w) = (x', w')).
    { unfold work_ids in M2. apply (flat_unique _ _ (x, w) (x', w') u M2 Hw Hw'); cbn [fst snd].
      - destruct H as [(_ & -> & _)|(Ht & _)]; [ left; reflexivity | right; apply in_map_iff; exists (u, j); auto ].
      - destruct H' as [(_ & -> & _)|(Ht & _)]; [ left; reflexivity | right; apply in_map_iff; exists (u, j'); auto ]. }
    injection Y as <- <-. unfold work_ids in M2.
    pose proof (NoDup_flat_part _ _ (x, w) M2 Hw) as M. cbn [fst snd] in M. inversion M as [|? ? M3 M4]; subst. clear M.
    destruct H as [(-> & -> & -> & -> & ->)|(Ht & -> & -> & ->)], H' as [(-> & E & -> & -> & ->)|(Ht' & -> & -> & ->)].
    + auto.
    + exfalso. apply M3. apply in_map_iff. exists (x, j'). auto.
    + exfalso. apply M3. subst u. apply in_map_iff. exists (x, j). auto.
    + assert (j = j') by (eapply same_fst; eassumption). subst j'. auto.
Qed.

(** ** What the element of a part says *)
Section Read.
Variable order' : list term -> list term.
Hypothesis Ho' : arranges order'.
Variable leaf : XmlModel.node -> guess.
Variable nsmap : XmlModel.node -> list (str * str).
Variable read : str -> guess.
Hypothesis HL : cpt = true -> forall e, n_kids e = [] -> leaf e = read (n_text e).
Hypothesis LT : cpt = true -> languages_told read s i.
Variable s0 : store.
Hypothesis R : receives s i s0.

Notation parent_uri := (URI #"http://purl.org/capitains/ns/1.0#parent").

(** [says] is what the elements of the objects with identifiers [ids] say, [top]
    being the part itself. *)
Definition says_part (ids : list str) (top : str) (says : triple -> Prop) : Prop :=
  forall t, says t <-> exists k u j e up, placed k u j e up /\ In u ids /\
    (own_told leaf nsmap k u e t \/ (u <> top /\ t = (URI u, parent_uri, URI up))).

Lemma the_urn_is : forall k u j e up, placed k u j e up -> the_urn e = u.
Proof using Hp Hq P Hd. intros k u j e up H. destruct (placed_item k u j e up H) as (_ & _ & _ & _ & U & _). unfold the_urn. rewrite U. reflexivity. Qed.

Lemma text_says : forall w u t, is_text w u t ->
  says_part (part_ids s (KText (sub_of s t)) t) u (text_told leaf nsmap (sub_of s t) u None (text_node t)).
Proof using Hp Hq P Hd.
  intros w u t H x. pose proof (pl_text w u t H) as PL. destruct (placed_item _ _ _ _ _ PL) as (_ & U & _).
  unfold part_ids. rewrite U. unfold text_told. split.
  - intros [[]|X]. exists (KText (sub_of s t)), u, t, (text_node t), (c_id (obj st w)). split; [ exact PL | ]. split; [ left; reflexivity | left; exact X ].
  - intros (k & u' & j & e & up & PL' & [<-|[]] & X). destruct (placed_unique _ _ _ _ _ _ _ _ _ PL PL') as (<- & <- & <- & <-).
    destruct X as [X|[X _]]; [ right; exact X | congruence ].
Qed.

Lemma part_work_in : forall g u w v, is_work g u w -> In v (text_ids s w) -> exists t, is_text w v t.
Proof using Type.
  intros g u w v H Hv. apply in_map_iff in Hv as ([x t] & <- & Ht). exists t. split; [ exists g, u; exact H | exact Ht ].
Qed.

Lemma top_fresh_work : forall g u w v t, is_work g u w -> is_text w v t -> v <> u.
Proof using P cpt pairs order qname.
  intros g u w v t Hw Ht ->. destruct (placed_unique _ _ _ _ _ _ _ _ _ (pl_work g u w Hw) (pl_text w u t Ht)) as (X & _). discriminate.
Qed.
Lemma top_fresh_group : forall u g v w, is_group u g -> is_work g v w -> v <> u.
Proof using P cpt pairs order qname.
  intros u g v w Hg Hw ->. destruct (placed_unique _ _ _ _ _ _ _ _ _ (pl_group u g Hg) (pl_work g u w Hw)) as (X & _). discriminate.
Qed.
Lemma top_fresh_group_text : forall u g v w t, is_group u g -> is_text w v t -> v <> u.
Proof using P cpt pairs order qname.
  intros u g v w t Hg Ht ->. destruct (placed_unique _ _ _ _ _ _ _ _ _ (pl_group u g Hg) (pl_text w u t Ht)) as (X & _). discriminate.
Qed.

(** What is said of the texts of a work, and of the works of a textgroup. *)
Lemma texts_say : forall g u w x, is_work g u w ->
  (texts_told leaf nsmap (work_node w) x <-> exists v t, is_text w v t /\
     (own_told leaf nsmap (KText (sub_of s t)) v (text_node t) x \/ x = (URI v, parent_uri, URI (c_id (obj st w))))).
Proof using Hp Hq P Hd.
  intros g u w x H. pose proof (the_urn_is _ _ _ _ _ (pl_work g u w H)) as Uw.
  assert (Iw : c_id (obj st w) = u) by (apply (placed_item _ _ _ _ _ (pl_work g u w H))).
  unfold texts_told. split.
  - intros ([k e] & He & X). cbn [fst snd] in X. apply (in_texts g u w k e H) in He as (v & t & Ht & -> & ->).
    rewrite (the_urn_is _ _ _ _ _ (pl_text w v t Ht)), Uw in X. exists v, t. split; [ exact Ht | ]. rewrite Iw.
    destruct X as [X|X]; [ right; exact X | left; exact X ].
  - intros (v & t & Ht & X). exists (sub_of s t, text_node t). split.
    + apply (in_texts g u w _ _ H). exists v, t. auto.
    + cbn [fst snd]. rewrite (the_urn_is _ _ _ _ _ (pl_text w v t Ht)), Uw. rewrite Iw in X.
      destruct X as [X|X]; [ right; exact X | left; exact X ].
Qed.

Lemma work_says : forall g u w, is_work g u w ->
  says_part (part_ids s KWork w) u (work_told leaf nsmap None (work_node w)).
Proof using Hp Hq P Hd.
  intros g u w H x. pose proof (pl_work g u w H) as PL. destruct (placed_item _ _ _ _ _ PL) as (_ & U & _).
  unfold part_ids. rewrite U. unfold work_told. rewrite (the_urn_is _ _ _ _ _ PL), (texts_say g u w x H). split.
  - intros [[]|[X|(v & t & Ht & X)]].
    + exists KWork, u, w, (work_node w), (c_id (obj st g)). split; [ exact PL | ]. split; [ left; reflexivity | left; exact X ].
    + exists (KText (sub_of s t)), v, t, (text_node t), (c_id (obj st w)). split; [ apply pl_text, Ht | ]. split.
      * right. apply in_map_iff. exists (v, t). split; [ reflexivity | apply Ht ].
      * destruct X as [X|X]; [ left; exact X | right ]. split; [ eapply top_fresh_work; eassumption | exact X ].
  - intros (k & u' & j & e & up & PL' & [<-|Hu] & X).
    + destruct (placed_unique _ _ _ _ _ _ _ _ _ PL PL') as (<- & <- & <- & <-).
      destruct X as [X|[X _]]; [ right; left; exact X | congruence ].
    + apply (part_work_in g u w u' H) in Hu as [t Ht]. right. right. exists u', t. split; [ exact Ht | ].
      destruct (placed_unique _ _ _ _ _ _ _ _ _ (pl_text w u' t Ht) PL') as (<- & <- & <- & <-).
      destruct X as [X|[_ X]]; auto.
Qed.

Lemma group_says : forall u g, is_group u g ->
  says_part (part_ids s KTextgroup g) u (group_told leaf nsmap None (group_node g)).
Proof using Hp Hq P Hd.
  intros u g H x. pose proof (pl_group u g H) as PL. destruct (placed_item _ _ _ _ _ PL) as (_ & U & _).
  unfold part_ids. rewrite U. unfold group_told. rewrite (the_urn_is _ _ _ _ _ PL).
  assert (IW : forall v w, In (v, w) (children s g) -> is_work g v w) by (intros v w Hw; split; [ exists u; exact H | exact Hw ]).
  split.
  - intros [[]|[X|(e & He & X)]].
    + exists KTextgroup, u, g, (group_node g), (c_id (obj st i)). split; [ exact PL | ]. split; [ left; reflexivity | left; exact X ].
    + apply (in_works u g e H) in He as (v & w & Hw & ->). pose proof (pl_work g v w Hw) as PW.
      assert (Iv : In v (work_ids s g)) by (apply in_flat_map; exists (v, w); split; [ apply Hw | left; reflexivity ]).
      unfold work_told in X. rewrite (the_urn_is _ _ _ _ _ PW), (texts_say g v w x Hw) in X.
      destruct X as [X|[X|(y & t & Ht & X)]].
      * exists KWork, v, w, (work_node w), (c_id (obj st g)). split; [ exact PW | ]. split; [ right; exact Iv | ]. right.
        split; [ eapply top_fresh_group; eassumption | rewrite U; exact X ].
      * exists KWork, v, w, (work_node w), (c_id (obj st g)). split; [ exact PW | ]. split; [ right; exact Iv | left; exact X ].
      * exists (KText (sub_of s t)), y, t, (text_node t), (c_id (obj st w)). split; [ apply pl_text, Ht | ]. split.
        -- right. apply in_flat_map. exists (v, w). split; [ apply Hw | right ]. apply in_map_iff. exists (y, t). split; [ reflexivity | apply Ht ].
        -- destruct X as [X|X]; [ left; exact X | right ]. split; [ eapply top_fresh_group_text; eassumption | exact X ].
  - intros (k & u' & j & e & up & PL' & [<-|Hu] & X).
    + destruct (placed_unique _ _ _ _ _ _ _ _ _ PL PL') as (<- & <- & <- & <-).
      destruct X as [X|[X _]]; [ right; left; exact X | congruence ].
    + right. right. apply in_flat_map in Hu as ([v w] & Hw & Hu). cbn [fst snd] in Hu. apply IW in Hw.
      exists (work_node w). split; [ apply (in_works u g _ H); exists v, w; auto | ].
      pose proof (pl_work g v w Hw) as PW. unfold work_told. rewrite (the_urn_is _ _ _ _ _ PW), (texts_say g v w x Hw).
      destruct Hu as [<-|Hu].
      * destruct (placed_unique _ _ _ _ _ _ _ _ _ PW PL') as (<- & <- & <- & <-). rewrite U in X.
        destruct X as [X|[_ X]]; [ right; left; exact X | left; exact X ].
      * apply (part_work_in g v w u' Hw) in Hu as [t Ht]. right. right. exists u', t. split; [ exact Ht | ].
        destruct (placed_unique _ _ _ _ _ _ _ _ _ (pl_text w u' t Ht) PL') as (<- & <- & <- & <-).
        destruct X as [X|[_ X]]; auto.
Qed.

(** ** The copy of a part *)
Section Copied.
Variable ids : list str.
Variable top : str.
Variable says : triple -> Prop.
Hypothesis S : says_part ids top says.
Variable s' : store.
Variable written : list str.
Hypothesis G : grows says written (graphs (s_state s0)) (graphs (s_state s')).

Lemma part_statements : forall k u j e up, placed k u j e up -> In u ids -> forall name o, exported k name ->
  (In (URI u, cts name, o) (main_graph s') <-> In (URI u, cts name, o) (main_graph s)).
Proof using Hp Ho Hq P Hd R S G.
  intros k u j e up H Hu name o X. destruct R as [R1 R2].
  assert (NS : ~ single_valued (cts name)) by (intros [Y|[Y|[Y|[]]]]; discriminate Y).
  rewrite (grows_main says written s0 s' G R1 (URI u) (cts name) o NS). split.
  - intros [Y|Y]; [ apply R2; [ eapply placed_id, H | eapply exported_names, X | exact Y ] | ].
    apply S in Y as (k' & u' & j' & e' & up' & PL & _ & [(p & o' & D & E)|[_ E]]).
    + injection E as <- <- <-. apply (placed_described leaf nsmap k' u j' e' up' PL) in D. apply D.
    + discriminate E.
  - intros Y. right. apply S. exists k, u, j, e, up. split; [ exact H | ]. split; [ exact Hu | ]. left.
    exists (cts name), o. split; [ | reflexivity ]. apply (placed_described leaf nsmap k u j e up H). auto.
Qed.

Lemma part_item : forall k u j e up p j', placed k u j e up -> In u ids -> made_for s' k e p j' -> same_item s j s' j'.
Proof using Hp Ho Hq P Hd R S G.
  intros k u j e up p j' H Hu (_ & K' & U' & R' & _ & _). destruct (placed_item k u j e up H) as (K & U & _ & W & Ue & Ru).
  rewrite Ue in U'. injection U' as U'. unfold same_item. rewrite K, K', U, <- U'. split; [ reflexivity | ]. split; [ reflexivity | ].
  split; [ | apply (part_statements k u j e up H Hu) ].
  rewrite <- U' in R'. eapply reads_urn_one; eassumption.
Qed.

Lemma lang_of_object : forall k e p j l, (k = KWork \/ exists sub, k = KText sub) -> made_for s' k e p j ->
  lang_is s' (the_urn e) [Literal l None None] -> language_is s' j l.
Proof using Type.
  intros k e p j l Hk (_ & K & U & _ & _ & Gr) L o Hoo. unfold get_lang. rewrite K. unfold CollModel.node. rewrite Gr.
  assert (X : c_id (obj (s_state s') j) = the_urn e) by (unfold the_urn; rewrite U; reflexivity). rewrite X.
  specialize (L o Hoo). unfold objects0 in L. rewrite L. destruct Hk as [->|[sub ->]]; reflexivity.
Qed.

Lemma text_copied : forall g v w u t w' j', is_work g v w -> is_text w u t -> In u ids -> work_langs s' (work_node w) ->
  shows_text s' (sub_of s t) (text_node t) (Some w') j' -> copy_text s t s' w' j'.
Proof using Hp Ho Hq P Hd R S G.
  intros g v w u t w' j' Hw Ht Hu [_ L] (M & _ & c & C1 & C2). pose proof (pl_text w u t Ht) as PL.
  split; [ eapply part_item; eassumption | ]. split; [ apply M | ]. split.
  - intros l Hl. eapply lang_of_object; [ right; eexists; reflexivity | exact M | ].
    rewrite <- (text_language_is cpt pairs Hp order Ho qname s Hq i P Hd g v w u t l Hw Ht Hl).
    apply (L (sub_of s t) (text_node t)). apply (in_texts g v w _ _ Hw). exists u, t. auto.
  - unfold cited at 1. rewrite C1. eapply (citation_back cpt pairs Hp order qname s Hq i P Hd); eassumption.
Qed.

Lemma work_members : forall g v w p w' ts, is_work g v w -> (forall u, In u (text_ids s w) -> In u ids) -> work_langs s' (work_node w) ->
  shows_work s' (work_node w) p w' ts ->
  Forall2 (fun a b => fst b = fst a /\ copy_text s (snd a) s' w' (snd b)) (sorted_texts s w) (children s' w').
Proof using Hp Ho Hq P Hd R S G.
  intros g v w p w' ts Hw HI L (M & [_ Mem] & F).
  rewrite (work_texts cpt pairs order qname s g v w (work_of _ _ _ Hw)) in F, Mem. rewrite (map_map _ (@snd subtype XmlModel.node)) in Mem. cbn [snd] in Mem.
  apply Forall2_of_map in F. cbn [fst snd] in F.
  eapply (copied_members (sorted_texts s w) text_node _ (fun a b => copy_text s a s' w' b));
    [ eapply (texts_nodup cpt pairs Hp qname s Hq i P Hd), Hw | | exact Mem | exact F | ].
  - intros [u t] Ht. cbn [fst snd]. apply (sorted_in g v w u t Hw) in Ht.
    assert (T : is_text w u t) by (split; [ exists g, v; exact Hw | exact Ht ]).
    destruct (placed_item _ _ _ _ _ (pl_text w u t T)) as (_ & _ & _ & _ & U & _). exact U.
  - intros [u t] j Ht H. cbn [fst snd] in *. apply (sorted_in g v w u t Hw) in Ht.
    eapply text_copied; [ exact Hw | split; [ exists g, v; exact Hw | exact Ht ] | | exact L | exact H ].
    apply HI, in_map_iff. exists (u, t). auto.
Qed.

Lemma work_language_back : forall g v w p w' , is_work g v w -> work_langs s' (work_node w) -> made_for s' KWork (work_node w) p w' ->
  same_language s w s' w'.
Proof using Ho.
  intros g v w p w' Hw [L _] M l Hl. eapply lang_of_object; [ left; reflexivity | exact M | ].
  rewrite (work_lang cpt pairs order qname s w) in L. destruct (lang_text_is order Ho s w l Hl) as [_ E]. rewrite E in L. exact L.
Qed.

Lemma work_copied : forall g v w g' w' ts, is_work g v w -> In v ids -> (forall u, In u (text_ids s w) -> In u ids) ->
  work_langs s' (work_node w) -> shows_work s' (work_node w) (Some g') w' ts -> copy_work s w s' g' w'.
Proof using Hp Ho Hq P Hd R S G.
  intros g v w g' w' ts Hw Hv HI L X. pose proof X as (M & _). pose proof (pl_work g v w Hw) as PL.
  split; [ eapply part_item; eassumption | ]. split; [ apply M | ].
  split; [ eapply work_language_back; eassumption | eapply work_members; eassumption ].
Qed.

Lemma group_members : forall u g p g', is_group u g -> (forall v, In v (work_ids s g) -> In v ids) -> group_langs s' (group_node g) ->
  shows_group s' (group_node g) p g' ->
  Forall2 (fun a b => fst b = fst a /\ copy_work s (snd a) s' g' (snd b)) (children s g) (children s' g').
Proof using Hp Ho Hq P Hd R S G.
  intros u g p g' Hg HI L (M & ws & [_ Mem] & F).
  rewrite (group_works cpt pairs order qname s i u g (group_of _ _ Hg)) in F, Mem. apply Forall2_of_map in F.
  eapply (copied_members (children s g) work_node _ (fun a b => copy_work s a s' g' b));
    [ eapply (works_nodup cpt pairs Hp qname s Hq i P Hd), Hg | | exact Mem | exact F | ].
  - intros [v w] Hw. cbn [fst snd]. assert (W : is_work g v w) by (split; [ exists u; exact Hg | exact Hw ]).
    destruct (placed_item _ _ _ _ _ (pl_work g v w W)) as (_ & _ & _ & _ & U & _). exact U.
  - intros [v w] j Hw [ts H]. cbn [fst snd] in *. assert (W : is_work g v w) by (split; [ exists u; exact Hg | exact Hw ]).
    eapply work_copied; [ exact W | | | | exact H ].
    + apply HI, in_flat_map. exists (v, w). split; [ exact Hw | left; reflexivity ].
    + intros x Hx. apply HI, in_flat_map. exists (v, w). split; [ exact Hw | right; exact Hx ].
    + apply L. apply (in_works u g _ Hg). exists v, w. auto.
Qed.

Lemma part_told : cpt = true -> forall root, top = c_id (obj st root) ->
  forall k u j q p o', placed_in s i k u j q -> In u ids -> carried qname p -> ~ single_valued p ->
  (In (URI u, p, o') (main_graph s') <-> In (URI u, p, o') (main_graph s0) \/ read_alone read s i root u p o').
Proof using Hp Ho Hq P Hd HL R S G.
  intros C root Et k u j q p o' Pl Hu Cp NS. destruct R as [R1 _].
  rewrite (grows_main says written s0 s' G R1 (URI u) p o' NS).
  assert (X : says (URI u, p, o') <-> read_alone read s i root u p o'); [ | rewrite X; reflexivity ].
  pose proof (HL C) as HLC. destruct (places_placed cpt pairs order qname s i k u j q Pl) as [e PL]. split.
  - intros Y. apply S in Y as (k' & u' & j' & e' & up' & PL' & _ & [(p' & o & D & E)|[N E]]).
    + injection E as <- <- <-. destruct (placed_unique _ _ _ _ _ _ _ _ _ PL PL') as (<- & <- & <- & <-).
      apply (placed_carried cpt pairs Hp order Ho qname s Hq i P Hd leaf nsmap read _ _ _ _ _ HLC PL p o' Cp) in D as [(name & Ht & Hpr & I)|(_ & o & I & B)].
      * eapply ra_title; eassumption.
      * eapply ra_statement; eassumption.
    + injection E as <- -> ->. destruct (placed_unique _ _ _ _ _ _ _ _ _ PL PL') as (<- & <- & <- & <-).
      eapply ra_parent; [ exact Pl | congruence | reflexivity ].
  - intros Y. apply S.
    assert (D : (exists name, title_element k name /\ In p [rdfs_label; skos_prefLabel] /\ In (URI u, cts name, o') (main_graph s)) \/
      (cpt = true /\ exists o, In (URI u, p, o) (main_graph s) /\ comes_back read o o') ->
      exists k0 u0 j0 e0 up, placed k0 u0 j0 e0 up /\ In u0 ids /\
        (own_told leaf nsmap k0 u0 e0 (URI u, p, o') \/ (u0 <> top /\ (URI u, p, o') = (URI u0, parent_uri, URI up)))).
    { intros D. exists k, u, j, e, (c_id (obj st q)). split; [ exact PL | ]. split; [ exact Hu | ]. left. exists p, o'. split; [ | reflexivity ].
      apply (placed_carried cpt pairs Hp order Ho qname s Hq i P Hd leaf nsmap read _ _ _ _ _ HLC PL p o' Cp). exact D. }
    destruct Y as [o o' I B|k' j' q' name o Pl' Ht Hpr I|k' j' q' Pl' N ->].
    + apply D. right. split; [ exact C | ]. exists o. auto.
    + apply D. left. destruct (places_placed cpt pairs order qname s i k' u j' q' Pl') as [e' PL'].
      destruct (placed_unique _ _ _ _ _ _ _ _ _ PL PL') as (<- & <- & <- & _). exists name. auto.
    + destruct (places_placed cpt pairs order qname s i k' u j' q' Pl') as [e' PL'].
      exists k', u, j', e', (c_id (obj st q')). split; [ exact PL' | ]. split; [ exact Hu | ]. right. split; [ congruence | reflexivity ].
Qed.
End Copied.

(** ** Reading the element of a part *)
Lemma group_node_in : forall u g, is_group u g -> In (group_node g) (anywhere #"textgroup" doc).
Proof using Hp Hq P Hd. intros u g H. apply in_groups. exists u, g. auto. Qed.
Lemma doc_is_clark : clark_names doc.
Proof using Hp Hq P Hd. exact (doc_clark cpt pairs Hp order qname s Hq told Hs i P TI). Qed.
Lemma doc_calm : forall u g, is_group u g -> calm_group leaf nsmap (group_node g).
Proof using Hp Ho Hq P Hd HL LT.
  intros u g H. eapply calm_of; [ | eapply group_node_in, H ].
  exact (doc_languages cpt pairs Hp order Ho qname s Hq i P Hd leaf nsmap read HL LT).
Qed.
Lemma group_urns_nodup : forall u g, is_group u g -> NoDup (group_urns (group_node g)).
Proof using Hp Hq P Hd.
  intros u g H. pose proof (doc_urns_nodup cpt pairs Hp order qname s Hq i P Hd) as N. unfold document_urns in N.
  eapply NoDup_flat_part in N; [ exact N | eapply group_node_in, H ].
Qed.

Definition result_is (k : kind) (j : nat) (e : XmlModel.node) : Prop := exists s' j',
  parse_part order' leaf nsmap k e s0 = (s', Ok j') /\ alone k s j s' j' /\
  (cpt = true -> forall k' u' j1 q p o', placed_in s i k' u' j1 q -> In u' (part_ids s k j) -> carried qname p -> ~ single_valued p ->
    (In (URI u', p, o') (main_graph s') <-> In (URI u', p, o') (main_graph s0) \/ read_alone read s i j u' p o')) /\
  forall x, x < length (objs (s_state s0)) -> obj (s_state s') x = obj (s_state s0) x /\ citation_of s' x = citation_of s0 x.

Lemma group_result : forall u g, is_group u g -> result_is KTextgroup g (group_node g).
Proof using Hp Ho Hq P Hd Ho' HL LT R.
  intros u g H. pose proof (pl_group u g H) as PL. destruct (placed_item _ _ _ _ _ PL) as (_ & U & _).
  assert (Hin : In (group_node g) (document_order doc)) by (eapply order_anywhere, group_node_in, H).
  pose proof (parse_textgroup_yields order' Ho' leaf nsmap (group_node g) None s0 I (clark_group doc _ doc_is_clark Hin)) as Y.
  assert (W : good_group (group_node g)).
  { apply (doc_good cpt pairs Hp order qname s Hq i P Hd). eapply group_node_in, H. }
  unfold yields in Y. unfold result_is, parse_part. destruct (parse_textgroup order' leaf nsmap (group_node g) None s0) as [s' [j'|e]]; [ | tauto ].
  destruct Y as [_ (_ & u' & _ & [_ X] & Sh & G & L)]. exists s', j'. split; [ reflexivity | ].
  pose proof (group_says u g H) as S. destruct R as [R1 _].
  assert (GL : group_langs s' (group_node g)).
  { apply (L (doc_calm u g H) R1 (fun _ => False)); [ | intros ? ? [] | eapply group_urns_nodup, H ].
    intros w Hw. apply (in_works u g w H) in Hw as (v & w' & _ & ->). discriminate. }
  split; [ | split ].
  - cbn [alone]. split; [ | split ].
    + eapply part_item; [ exact S | exact G | exact PL | unfold part_ids; rewrite U; left; reflexivity | apply Sh ].
    + apply Sh.
    + eapply group_members; [ exact S | exact G | exact H | | exact GL | exact Sh ]. intros v Hv. right. exact Hv.
  - intros C. eapply part_told; [ exact S | exact G | exact C | symmetry; exact U ].
  - intros x Hx. destruct (X x Hx) as (A & _ & B). split; [ apply A; discriminate | exact B ].
Qed.

Lemma work_result : forall g u w, is_work g u w -> result_is KWork w (work_node w).
Proof using Hp Ho Hq P Hd Ho' HL LT R.
  intros g u w H. pose proof H as [[v Hg] _]. pose proof (pl_work g u w H) as PL. destruct (placed_item _ _ _ _ _ PL) as (_ & U & _).
  assert (Hw : In (work_node w) (named #"work" (group_node g))) by (apply (in_works v g _ Hg); exists u, w; auto).
  assert (Hin : In (work_node w) (document_order doc)).
  { eapply order_named; [ eapply order_anywhere, group_node_in, Hg | exact Hw ]. }
  pose proof (parse_work_yields order' Ho' leaf nsmap (work_node w) None s0 I (clark_work doc _ doc_is_clark Hin)) as Y.
  assert (W : good_work (work_node w)).
  { destruct (doc_good cpt pairs Hp order qname s Hq i P Hd) as [_ X]. apply (X _ (group_node_in v g Hg)). exact Hw. }
  unfold yields in Y. unfold result_is, parse_part, andthen, ret. destruct (parse_work order' leaf nsmap (work_node w) None s0) as [s' [[j' ts]|e]]; [ | tauto ].
  destruct Y as [_ (_ & u' & _ & [_ X] & Sh & G & L)]. cbn [fst snd] in *. exists s', j'. split; [ reflexivity | ].
  pose proof (work_says g u w H) as S. destruct R as [R1 _].
  assert (WL : work_langs s' (work_node w)).
  { apply (L (doc_calm v g Hg _ Hw) R1); [ discriminate | ].
    pose proof (group_urns_nodup v g Hg) as N. unfold group_urns in N. cbn [app] in N.
    apply NoDup_app_parts in N as (_ & N & _). eapply NoDup_flat_part in N; [ exact N | exact Hw ]. }
  split; [ | split ].
  - cbn [alone]. split; [ | split; [ | split ] ].
    + eapply part_item; [ exact S | exact G | exact PL | unfold part_ids; rewrite U; left; reflexivity | apply Sh ].
    + apply Sh.
    + eapply work_language_back; [ exact H | exact WL | apply Sh ].
    + eapply work_members; [ exact S | exact G | exact H | | exact WL | exact Sh ]. intros x Hx. right. exact Hx.
  - intros C. eapply part_told; [ exact S | exact G | exact C | symmetry; exact U ].
  - intros x Hx. destruct (X x Hx) as (A & _ & B). split; [ apply A; discriminate | exact B ].
Qed.

Lemma text_result : forall w u t, is_text w u t -> result_is (KText (sub_of s t)) t (text_node t).
Proof using Hp Ho Hq P Hd Ho' HL LT R.
  intros w u t H. pose proof H as [(g & v & Hw) _]. pose proof Hw as [[x Hg] _].
  pose proof (pl_text w u t H) as PL. destruct (placed_item _ _ _ _ _ PL) as (Kt & U & _ & _ & Ue & _).
  assert (Hwn : In (work_node w) (named #"work" (group_node g))) by (apply (in_works x g _ Hg); exists v, w; auto).
  assert (Htn : In (sub_of s t, text_node t) (texts_in (work_node w))) by (apply (in_texts g v w _ _ Hw); exists u, t; auto).
  assert (Hin : In (text_node t) (document_order doc)).
  { eapply order_text; [ eapply order_named; [ eapply order_anywhere, group_node_in, Hg | exact Hwn ] | exact Htn ]. }
  pose proof (clark_fine doc _ doc_is_clark Hin) as Fi.
  pose proof (parse_text_yields order' Ho' leaf nsmap (sub_of s t) (text_node t) None s0 I Fi) as Y.
  assert (W : good_text (text_node t)).
  { destruct (doc_good cpt pairs Hp order qname s Hq i P Hd) as [_ X]. destruct (X _ (group_node_in x g Hg)) as [_ X1].
    destruct (X1 _ Hwn) as [_ X2]. apply (X2 _ _ Htn). }
  destruct R as [R1 _].
  assert (LA : forall l, sub_of s t <> Edition -> language_is s t l ->
    yields (parse_text order' leaf nsmap (sub_of s t) (text_node t) None) s0 (good_text (text_node t))
      (fun s' _ => lang_is s' (the_urn (text_node t)) [Literal l None None])).
  { intros l N Hl. apply (parse_text_alone order' Ho' leaf nsmap (sub_of s t) (text_node t) s0 l N Fi); [ | | exact R1 ].
    - rewrite (text_lang cpt pairs order qname s t). destruct (lang_text_is order Ho s t l Hl) as [_ ->]. reflexivity.
    - rewrite <- (text_language_is cpt pairs Hp order Ho qname s Hq i P Hd g v w u t l Hw H Hl).
      apply (doc_calm x g Hg _ Hwn). exact Htn. }
  unfold yields in Y, LA. unfold result_is, parse_part.
  destruct (parse_text order' leaf nsmap (sub_of s t) (text_node t) None s0) as [s' [j'|e]]; [ | tauto ].
  destruct Y as [_ (Ej & u' & tt & Eu & Rt & O & Cs & G & _)]. rewrite Ue in Eu. injection Eu as <-.
  exists s', j'. split; [ reflexivity | ]. pose proof (text_says w u t H) as S. cbn [hook] in O.
  assert (Len : length (objs (s_state s')) = length (objs (s_state s0)) + 1) by (rewrite O, app_length; cbn; lia).
  assert (Oj : obj (s_state s') j' = MkColl (KText (sub_of s t)) u tt None [] 0).
  { unfold obj. rewrite O, Ej. apply nth_app_last. }
  assert (M : made_for s' (KText (sub_of s t)) (text_node t) None j').
  { unfold made_for. rewrite Oj. cbn. split; [ lia | ]. split; [ reflexivity | ]. split; [ exact Ue | ]. auto. }
  split; [ | split ].
  - cbn [alone]. split; [ | split; [ | split; [ | split ] ] ].
    + eapply part_item; [ exact S | exact G | exact PL | unfold part_ids; rewrite U; left; reflexivity | exact M ].
    + apply M.
    + unfold children. rewrite Oj. reflexivity.
    + intros N l Hl. eapply lang_of_object; [ right; eexists; reflexivity | exact M | ].
      apply (LA l); [ intros E; apply N; rewrite Kt, E; reflexivity | exact Hl ].
    + unfold cited at 1, citation_of. rewrite Cs. cbn [find fst snd]. rewrite Nat.eqb_refl. 
      eapply (citation_back cpt pairs Hp order qname s Hq i P Hd); [ exact H | apply ingest_says ].
  - intros C. eapply part_told; [ exact S | exact G | exact C | symmetry; exact U ].
  - intros y Hy. split.
    + unfold obj. rewrite O. apply app_nth1. exact Hy.
    + unfold citation_of. rewrite Cs. cbn [find fst snd]. replace (Nat.eqb j' y) with false; [ reflexivity | ].
      symmetry. apply Nat.eqb_neq. lia.
Qed.
End Read.

(** ** The whole way *)
Lemma part_way : mentions_cts s -> forall fuel k u j q, 4 <= fuel -> placed_in s i k u j q -> exists text d,
  export cpt pairs order qname s fuel true j = Ok text /\ read_document text = Some d /\
  forall order', arranges order' -> forall leaf nsmap read,
    (cpt = true -> forall e, n_kids e = [] -> leaf e = read (n_text e)) -> (cpt = true -> languages_told read s i) ->
    forall s0, receives s i s0 -> result_is order' leaf nsmap read s0 k j d.
Proof using Hp Ho Hq P Hd.
  intros M fuel k u j q F Pl. destruct (places_placed cpt pairs order qname s i k u j q Pl) as [e PL].
  inversion PL as [u0 g Hg|g u0 w Hw|w u0 t Ht]; subst.
  - destruct (group_document u j fuel Hg M F) as (x & E1 & E2). exists x, (retail [] (group_node j)). split; [ exact E1 | ]. split; [ exact E2 | ].
    intros order' Ho' leaf nsmap read HL LT s0 R. unfold result_is. rewrite parse_part_retail by auto.
    apply (group_result order' Ho' leaf nsmap read HL LT s0 R u j Hg).
  - destruct (work_document g u j fuel Hw M F) as (x & E1 & E2). exists x, (retail [] (work_node j)). split; [ exact E1 | ]. split; [ exact E2 | ].
    intros order' Ho' leaf nsmap read HL LT s0 R. unfold result_is. rewrite parse_part_retail by auto.
    apply (work_result order' Ho' leaf nsmap read HL LT s0 R g u j Hw).
  - destruct (text_document w u j fuel Ht M F) as (x & E1 & E2). exists x, (retail [] (text_node j)). split; [ exact E1 | ]. split; [ exact E2 | ].
    intros order' Ho' leaf nsmap read HL LT s0 R. unfold result_is. rewrite parse_part_retail by eauto.
    apply (text_result order' Ho' leaf nsmap read HL LT s0 R w u j Ht).
Qed.
End Part.
