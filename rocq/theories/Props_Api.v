(** Property C62: collections from a CTS endpoint. *)

From Coq Require Import List NArith ZArith Arith Bool Lia.
From Verif Require Import PyStr PyStrFacts XmlModel MetaModel MetaSpec CollModel CollSpec CollProofs InvModel InvSpec Props_Inv ApiModel ApiSpec.
Import ListNotations.

Lemma in_firsts : forall (l : list (str * nat)) u j,
  In (u, j) (first_of_each l) <-> exists pre post, l = pre ++ (u, j) :: post /\ ~ In u (map fst pre).
Proof.
  induction l as [|[k v] l IH]; intros u j; cbn [first_of_each].
  - split; [intros []|intros ([|? ?] & post & E & _); discriminate].
  - cbn [In]. rewrite filter_In, IH, negb_true_iff. cbn [fst]. split.
    + intros [[= -> ->]|[(pre & post & -> & N) D]].
      * exists [], l. split; [reflexivity|intros []].
      * exists ((k, v) :: pre), post. split; [reflexivity|]. cbn [map fst]. intros [->|I]; [rewrite str_eqb_refl in D; discriminate|exact (N I)].
    + intros ([|[k' v'] pre] & post & E & N); cbn [app] in E.
      * injection E as -> -> _. left. reflexivity.
      * injection E as -> -> ->. right. cbn [map fst] in N. split; [exists pre, post; split; [reflexivity|intros I; apply N; right; exact I]|].
        apply str_eqb_neq. intros ->. apply N. left. reflexivity.
Qed.

Definition urn_or_empty (e : XmlModel.node) : str := match urn_of e with Some u => u | None => [] end.

(** Members and the elements they were made for. *)
Lemma members_elements : forall (A : Type) (el : A -> XmlModel.node) (R : A -> nat -> Prop) (es : list A) l u j,
  Forall2 R es l -> (forall a b, In a es -> R a b -> urn_of (el a) <> None) ->
  (In (u, j) (first_of_each (combine (map urn_or_empty (map el es)) l)) <->
   exists pre a post, es = pre ++ a :: post /\ Forall (fun d => urn_of (el d) <> urn_of (el a)) pre /\ urn_of (el a) = Some u /\
     R a j /\ exists pl pj, l = pl ++ j :: pj /\ length pl = length pre).
Proof.
  intros A el R es l u j F D.
  assert (D' : Forall (fun a => exists v, urn_of (el a) = Some v) es).
  { clear -F D. apply Forall_forall. intros a I. induction F as [|a' b es l r F IH]; [destruct I|].
    destruct I as [->|I].
    - destruct (urn_of (el a)) as [v|] eqn:E; [eauto|]. exfalso. exact (D a b (or_introl eq_refl) r E).
    - apply IH; [|exact I]. intros a0 b0 I0. apply D. right. exact I0. }
  rewrite in_firsts. split.
  - intros (pre & post & E & N).
    revert pre E N D'. clear D. induction F as [|a b es l r F IH]; intros pre E N D'; [destruct pre; discriminate|].
    cbn [map combine] in E. inversion D' as [|? ? [v V] D'']; subst. destruct pre as [|p pre]; cbn [app] in E.
    + injection E as E1 -> _. exists [], a, es. split; [reflexivity|]. split; [constructor|]. split; [|split; [exact r|exists [], l; auto]].
      unfold urn_or_empty in E1. rewrite V in E1. congruence.
    + injection E as <- E. cbn [map fst] in N. destruct (IH pre E (fun I => N (or_intror I)) D'') as (pr & a' & po & -> & Fp & U & Ra & pl & pj & -> & Len).
      exists (a :: pr), a', po. split; [reflexivity|]. split; [|split; [exact U|split; [exact Ra|exists (b :: pl), pj; cbn; auto]]].
      constructor; [|exact Fp]. rewrite U, V. intros X. injection X as ->. apply N. left. unfold urn_or_empty. rewrite V. reflexivity.
  - intros (pre & a & post & -> & Fp & U & Ra & pl & pj & -> & Len).
    exists (combine (map urn_or_empty (map el pre)) pl), (combine (map urn_or_empty (map el post)) pj).
    split.
    + rewrite map_app, map_app. cbn [map].
      assert (Q : forall (x1 : list str) (y1 : list nat) x2 y2, length y1 = length x1 -> combine (x1 ++ x2) (y1 ++ y2) = combine x1 y1 ++ combine x2 y2).
      { induction x1 as [|x0 x1 IHx]; intros [|y0 y1] x2 y2 LL; try discriminate; [reflexivity|]. cbn. f_equal. apply IHx. cbn in LL. lia. }
      rewrite Q by (rewrite !map_length; exact Len). cbn [combine]. unfold urn_or_empty at 2. rewrite U. reflexivity.
    + intros I. apply in_map_iff in I. destruct I as ([k v] & E & I). cbn in E. subst k. apply in_combine_l in I.
      rewrite map_map in I. apply in_map_iff in I. destruct I as (d & E & I). rewrite Forall_forall in Fp, D'. apply (Fp d I).
      destruct (D' d) as [w W]; [apply in_or_app; left; exact I|]. unfold urn_or_empty in E. rewrite W in E. rewrite W, U, E. reflexivity.
Qed.
Lemma split_at : forall {A B} (R : A -> B -> Prop) es l pre a post, Forall2 R es l -> es = pre ++ a :: post ->
  exists pl j pj, l = pl ++ j :: pj /\ length pl = length pre /\ R a j.
Proof.
  intros A B R es l pre a post F E. subst es. apply Forall2_app_inv_l in F. destruct F as (pl & l2 & F1 & F2 & ->).
  inversion F2 as [|? j ? pj Ra F3]; subst. exists pl, j, pj. split; [reflexivity|]. split; [|exact Ra]. clear -F1. induction F1; cbn; lia.
Qed.

Section Found.
Variables (s : store) (x : XmlModel.node) (i : nat).
Hypothesis H : shows_inventory s x i.
Let st := s_state s.

Lemma group_members : forall j, member st i j <-> exists g, first_with (anywhere #"textgroup" x) g /\ shows_group s g (Some i) j /\
  urn_of g = Some (c_id (obj st j)) /\ In (c_id (obj st j), j) (c_children (obj st i)).
Proof using H.
  destruct H as (_ & K & _ & _ & _ & groups & [_ C] & F). intros j.
  assert (D : forall a b, In a (anywhere #"textgroup" x) -> shows_group s a (Some i) b -> urn_of a <> None).
  { intros a b _ ((_ & _ & U & _) & _). congruence. }
  pose proof (fun u => members_elements _ (fun e => e) _ _ _ u j F D) as M. rewrite map_id in M.
  split.
  - intros [_ [u I]]. unfold st in I. rewrite C in I. apply M in I. destruct I as (pre & g & post & E & Fp & U & R & X).
    exists g. split; [exists pre, post; auto|]. split; [exact R|]. pose proof R as ((_ & _ & U' & _) & _). split; [exact U'|].
    unfold st. rewrite C. apply M. exists pre, g, post. split; [exact E|]. split; [exact Fp|]. split; [exact U'|]. split; [exact R|exact X].
  - intros (g & _ & _ & _ & I). split; [|eauto]. intros [k X]. unfold st in X. rewrite K in X. discriminate.
Qed.
Lemma group_found : forall g, first_with (anywhere #"textgroup" x) g -> exists j, member st i j /\ shows_group s g (Some i) j.
Proof using H.
  destruct H as (_ & K & _ & _ & _ & groups & [_ C] & F). intros g (pre & post & E & Fp).
  assert (D : forall a b, In a (anywhere #"textgroup" x) -> shows_group s a (Some i) b -> urn_of a <> None).
  { intros a b _ ((_ & _ & U & _) & _). congruence. }
  destruct (split_at _ _ _ _ _ _ F E) as (pl & j & pj & El & Len & R). exists j. split; [|exact R].
  split; [intros [k X]; unfold st in X; rewrite K in X; discriminate|]. pose proof R as ((_ & _ & U & _) & _).
  exists (c_id (obj (s_state s) j)). unfold st. rewrite C. pose proof (proj2 (members_elements _ (fun e => e) _ _ _ (c_id (obj (s_state s) j)) j F D)) as M.
  rewrite map_id in M. apply M. exists pre, g, post. split; [exact E|]. split; [exact Fp|]. split; [exact U|]. split; [exact R|]. exists pl, pj. auto.
Qed.

Lemma work_members : forall g p j c, shows_group s g p j -> member st j c ->
  exists w ts, first_with (named #"work" g) w /\ shows_work s w (Some j) c ts.
Proof using.
  intros g p j c ((_ & K & _) & works & [_ C] & F) [_ [u I]].
  assert (D : forall a b, In a (named #"work" g) -> (exists texts, shows_work s a (Some j) b texts) -> urn_of a <> None).
  { intros a b _ (ts & (_ & _ & U & _) & _). congruence. }
  pose proof (members_elements _ (fun e => e) _ _ _ u c F D) as M. rewrite map_id in M. unfold st in I. rewrite C in I. apply M in I.
  destruct I as (pre & w & post & E & Fp & U & (ts & R) & _). exists w, ts. split; [exists pre, post; auto|exact R].
Qed.
Lemma work_found : forall g p j w, shows_group s g p j -> first_with (named #"work" g) w -> exists c ts, member st j c /\ shows_work s w (Some j) c ts.
Proof using.
  intros g p j w ((_ & K & _) & works & [_ C] & F) (pre & post & E & Fp).
  assert (D : forall a b, In a (named #"work" g) -> (exists texts, shows_work s a (Some j) b texts) -> urn_of a <> None).
  { intros a b _ (ts & (_ & _ & U & _) & _). congruence. }
  destruct (split_at _ _ _ _ _ _ F E) as (pl & c & pj & El & Len & ts & R). exists c, ts. split; [|exact R].
  split; [intros [k X]; unfold st in X; rewrite K in X; discriminate|]. pose proof R as ((_ & _ & U & _) & _).
  exists (c_id (obj (s_state s) c)). unfold st. rewrite C. pose proof (proj2 (members_elements _ (fun e => e) _ _ _ (c_id (obj (s_state s) c)) c F D)) as M.
  rewrite map_id in M. apply M. exists pre, w, post. split; [exact E|]. split; [exact Fp|]. split; [exact U|]. split; [exists ts; exact R|]. exists pl, pj. auto.
Qed.
Lemma text_members : forall w p j ts c, shows_work s w p j ts -> member st j c ->
  exists k e pre post, texts_in w = pre ++ (k, e) :: post /\ Forall (fun d => urn_of (snd d) <> urn_of e) pre /\ shows_text s k e (Some j) c.
Proof using.
  intros w p j ts c ((_ & K & _) & [_ C] & F) [_ [u I]].
  assert (D : forall a b, In a (texts_in w) -> shows_text s (fst a) (snd a) (Some j) b -> urn_of (snd a) <> None).
  { intros a b _ ((_ & _ & U & _) & _). congruence. }
  pose proof (members_elements _ snd _ _ _ u c F D) as M. unfold st in I. rewrite C in I. apply M in I.
  destruct I as (pre & [k e] & post & E & Fp & U & R & _). exists k, e, pre, post. auto.
Qed.
Lemma text_found : forall w p j ts k e pre post, shows_work s w p j ts -> texts_in w = pre ++ (k, e) :: post ->
  Forall (fun d => urn_of (snd d) <> urn_of e) pre -> exists c, member st j c /\ shows_text s k e (Some j) c.
Proof using.
  intros w p j ts k e pre post ((_ & K & _) & [_ C] & F) E Fp.
  assert (D : forall a b, In a (texts_in w) -> shows_text s (fst a) (snd a) (Some j) b -> urn_of (snd a) <> None).
  { intros a b _ ((_ & _ & U & _) & _). congruence. }
  destruct (split_at _ _ _ _ _ _ F E) as (pl & c & pj & El & Len & R). cbn [fst snd] in R. exists c. split; [|exact R].
  split; [intros [k' X]; unfold st in X; rewrite K in X; discriminate|]. pose proof R as ((_ & _ & U & _) & _).
  exists (c_id (obj (s_state s) c)). unfold st. rewrite C. apply (members_elements _ snd _ _ _ (c_id (obj (s_state s) c)) c F D).
  exists pre, (k, e), post. split; [exact E|]. split; [exact Fp|]. split; [exact U|]. split; [exact R|]. exists pl, pj. auto.
Qed.

(** Everything below, and how deep. *)
Lemma below_listed : forall c, below st i c -> exists k e p, lists x k e /\ made_for s k e p c.
Proof using H.
  intros c B. inversion B as [? ? M|? j ? M B1]; subst.
  - apply group_members in M. destruct M as (g & G & (MF & _) & _). exists KTextgroup, g, (Some i). split; [constructor; exact G|exact MF].
  - apply group_members in M. destruct M as (g & G & SG & _). inversion B1 as [? ? M1|? w0 ? M1 B2]; subst.
    + destruct (work_members _ _ _ _ SG M1) as (w & ts & W & (MF & _)). exists KWork, w, (Some j).
      split; [eapply lists_work; [constructor; exact G|exact W]|exact MF].
    + destruct (work_members _ _ _ _ SG M1) as (w & ts & W & SW).
      assert (T : forall d, member st w0 d -> exists k e, lists x (KText k) e /\ shows_text s k e (Some w0) d).
      { intros d M2. destruct (text_members _ _ _ _ _ SW M2) as (k & e & pre & post & E & Fp & R). exists k, e.
        split; [eapply lists_text; [eapply lists_work; [constructor; exact G|exact W]|exact E|exact Fp]|exact R]. }
      inversion B2 as [? ? M2|? d ? M2 B3]; subst.
      * destruct (T _ M2) as (k & e & Lk & (MF & _)). eauto.
      * destruct (T _ M2) as (k & e & _ & ((_ & Kd & _) & _)). exfalso. inversion B3 as [? ? [NT _]|? ? ? [NT _] _]; subst; apply NT; exists k; exact Kd.
Qed.
Lemma listed_below : forall k e, lists x k e -> exists c p, below st i c /\ made_for s k e p c.
Proof using H.
  assert (W : forall w, lists x KWork w -> exists j c ts, below st i c /\ shows_work s w (Some j) c ts).
  { intros w L. inversion L as [|g ? LG FW E1 E2|]; subst. inversion LG as [? FG| |]; subst.
    destruct (group_found g FG) as (j & M & SG). destruct (work_found _ _ _ _ SG FW) as (c & ts & M1 & SW).
    exists j, c, ts. split; [eapply below_more; [exact M|constructor; exact M1]|exact SW]. }
  intros k e L. destruct L as [g FG|g w LG FW|w k e pre post LW E Fp].
  - destruct (group_found g FG) as (j & M & SG). exists j, (Some i). split; [constructor; exact M|apply SG].
  - destruct (W w (lists_work x g w LG FW)) as (j & c & ts & B & SW). exists c, (Some j). split; [exact B|apply SW].
  - destruct (W w LW) as (j & c & ts & B & SW). destruct (text_found _ _ _ _ _ _ _ _ SW E Fp) as (d & M & ST).
    exists d, (Some c). split; [|apply ST]. clear -B M. induction B as [a m Mm|a m d0 Mm B IH].
    + eapply below_more; [exact Mm|constructor; exact M].
    + eapply below_more; [exact Mm|apply IH; exact M].
Qed.
Lemma depth_three : forall p d, at_path st i p d -> length p < 4.
Proof using H.
  assert (T : forall t p d, text st t -> at_path st t p d -> p = []).
  { intros t p d X A. inversion A; subst; [reflexivity|contradiction]. }
  intros p d A. inversion A as [|? n u j p1 ? NT N A1]; subst; [cbn; lia|].
  assert (M : member st i j) by (split; [exact NT|exists u; eapply nth_error_In; exact N]).
  apply group_members in M. destruct M as (g & _ & SG & _). inversion A1 as [|? n1 u1 w p2 ? NT1 N1 A2]; subst; [cbn; lia|].
  assert (M1 : member st j w) by (split; [exact NT1|exists u1; eapply nth_error_In; exact N1]).
  destruct (work_members _ _ _ _ SG M1) as (we & ts & _ & SW). inversion A2 as [|? n2 u2 t p3 ? NT2 N2 A3]; subst; [cbn; lia|].
  assert (M2 : member st w t) by (split; [exact NT2|exists u2; eapply nth_error_In; exact N2]).
  destruct (text_members _ _ _ _ _ SW M2) as (k & e & _ & _ & _ & _ & ((_ & K & _) & _)).
  rewrite (T t p3 d); [cbn; lia|exists k; exact K|exact A3].
Qed.
End Found.

(** With an identifier: the collection of that name, if the reply is an inventory
    that has it; the collection is made for an element with that URN, in the class of
    the element, unless it is the inventory itself.  Otherwise the call fails. *)
Theorem C62_lookup : forall order, arranges order -> forall leaf nsmap limit id reply s s' i, clark_names reply -> id <> [] ->
  parse_inventory order leaf nsmap reply s = (s', Ok i) ->
  (forall c, api_metadata order leaf nsmap (4 + limit) (Some id) reply s = (s', Ok c) ->
     c_id (obj (s_state s') c) = id /\
     (c = i \/ exists k e p, lists reply k e /\ urn_of e = Some id /\ made_for s' k e p c)) /\
  (inventory_name reply id \/ (exists k e, lists reply k e /\ urn_of e = Some id) ->
     exists c, api_metadata order leaf nsmap (4 + limit) (Some id) reply s = (s', Ok c)) /\
  (~ inventory_name reply id -> (forall k e, lists reply k e -> urn_of e <> Some id) ->
     api_metadata order leaf nsmap (4 + limit) (Some id) reply s = (s', Err IndexError)).
Proof.
  intros order Ho leaf nsmap limit id reply s s' i Hc Hid E.
  pose proof (C57_structure order Ho leaf nsmap reply s s' i Hc E) as SI.
  destruct id as [|a id]; [congruence|]. set (u := a :: id) in *.
  destruct (proj2 (descendants_ok (4 + limit) (s_state s') i)) as (l & D).
  { intros p d A. pose proof (depth_three s' reply i SI p d A). lia. }
  assert (R : api_metadata order leaf nsmap (4 + limit) (Some u) reply s =
    (s', match filter (fun x => str_eqb (c_id (obj (s_state s') x)) u) (i :: l) with x :: _ => Ok x | [] => Err IndexError end)).
  { unfold api_metadata, andthen. rewrite E. unfold u at 1. rewrite D. reflexivity. }
  rewrite R. clear R.
  assert (INV : forall n, inventory_name reply n <-> n = c_id (obj (s_state s') i)).
  { destruct SI as (_ & _ & (t & rest & A1 & A2) & _). intros n. split.
    - intros (t' & rest' & B1 & B2). rewrite A1 in B1. injection B1 as <- <-. congruence.
    - intros ->. exists t, rest. auto. }
  assert (IN : forall c, In c (i :: l) <-> c = i \/ below (s_state s') i c).
  { intros c. cbn [In]. rewrite (descendants_below _ _ _ _ D c). split; intros [X|X]; auto. }
  split; [|split].
  - intros c Ec. destruct (filter _ _) as [|y ys] eqn:Ef; [discriminate|]. injection Ec as ->.
    assert (I : In c (filter (fun x => str_eqb (c_id (obj (s_state s') x)) u) (i :: l))) by (rewrite Ef; left; reflexivity).
    apply filter_In in I. destruct I as [I Q]. apply str_eqb_eq in Q. split; [exact Q|]. apply IN in I. destruct I as [->|B]; [left; reflexivity|right].
    destruct (below_listed s' reply i SI c B) as (k & e & p & L & M). exists k, e, p. split; [exact L|]. split; [|exact M].
    destruct M as (_ & _ & U & _). congruence.
  - intros X. destruct (filter _ _) as [|y ys] eqn:Ef; [|eauto]. exfalso.
    assert (N : forall c, In c (i :: l) -> c_id (obj (s_state s') c) <> u).
    { intros c I Q. assert (J : In c (filter (fun x => str_eqb (c_id (obj (s_state s') x)) u) (i :: l))) by (apply filter_In; split; [exact I|apply str_eqb_eq; exact Q]).
      rewrite Ef in J. destruct J. }
    destruct X as [X|(k & e & L & U)].
    + apply INV in X. apply (N i); [left; reflexivity|auto].
    + destruct (listed_below s' reply i SI k e L) as (c & p & B & M). apply (N c); [apply IN; right; exact B|]. destruct M as (_ & _ & U' & _). congruence.
  - intros N1 N2. destruct (filter _ _) as [|y ys] eqn:Ef; [reflexivity|]. exfalso.
    assert (I : In y (filter (fun x => str_eqb (c_id (obj (s_state s') x)) u) (i :: l))) by (rewrite Ef; left; reflexivity).
    apply filter_In in I. destruct I as [I Q]. apply str_eqb_eq in Q. apply IN in I. destruct I as [->|B].
    + apply N1. apply INV. congruence.
    + destruct (below_listed s' reply i SI y B) as (k & e & p & L & (_ & _ & U & _)). apply (N2 k e L). congruence.
Qed.
Print Assumptions C62_lookup.

(** Without identifier, or with an empty one: the inventory. *)
Theorem C62_inventory : forall order leaf nsmap limit reply s,
  api_metadata order leaf nsmap limit None reply s = parse_inventory order leaf nsmap reply s /\
  api_metadata order leaf nsmap limit (Some []) reply s = parse_inventory order leaf nsmap reply s.
Proof.
  intros. unfold api_metadata, andthen. destruct (parse_inventory order leaf nsmap reply s) as [s' [i|e]]; split; reflexivity.
Qed.
Print Assumptions C62_inventory.

(** A reply that is no inventory is refused, whatever is asked for. *)
Theorem C62_refused : forall order, arranges order -> forall leaf nsmap limit id reply s, clark_names reply -> ~ good_inventory reply ->
  exists s' e, api_metadata order leaf nsmap limit id reply s = (s', Err e).
Proof.
  intros order Ho leaf nsmap limit id reply s Hc N. unfold api_metadata, andthen.
  pose proof (C57_accepts order Ho leaf nsmap reply s Hc) as A.
  destruct (parse_inventory order leaf nsmap reply s) as [s' [i|e]]; [|eauto]. exfalso. apply N. apply A. eauto.
Qed.
Print Assumptions C62_refused.

(** The edition of the example, found in a reply. *)
Definition edition_urn : str := #"urn:cts:latinLit:phi1294.phi002.perseus-lat2".
Example C62_meets : clark_names example_doc /\ edition_urn <> [] /\
  (exists s' i, parse_inventory same_order by_text no_ns example_doc blank = (s', Ok i)) /\
  (exists k e, lists example_doc k e /\ urn_of e = Some edition_urn) /\
  exists s' c, api_metadata same_order by_text no_ns 4 (Some edition_urn) example_doc blank = (s', Ok c) /\
    c_id (obj (s_state s') c) = edition_urn /\ c_kind (obj (s_state s') c) = KText Edition.
Proof.
  split; [exact example_clark|]. split; [discriminate|].
  split; [destruct example_read as [s' E]; exists s', 0; exact E|]. split.
  - exists (KText Edition), example_edition. split; [|reflexivity].
    apply lists_text with (w := example_work) (pre := []) (post := tl (texts_in example_work)); [|vm_compute; reflexivity|constructor].
    apply lists_work with (g := example_group).
    + constructor. exists [], (tl (anywhere #"textgroup" example_doc)). split; [vm_compute; reflexivity|constructor].
    + exists [], (tl (named #"work" example_group)). split; [vm_compute; reflexivity|constructor].
  - eexists _, _. split; [vm_compute; reflexivity|]. split; reflexivity.
Qed.

(** Not so: an identifier the endpoint does not know is reported as an unknown
    collection, as the local resolver does.  The reply is then an inventory without it. *)
Definition empty_reply : XmlModel.node := cel #"TextInventory" [(#"tiid", #"phi")] [] [].
Theorem C62_unknown_refuted : exists reply id, good_inventory reply /\ clark_names reply /\
  forall limit, exists s', api_metadata same_order by_text no_ns (4 + limit) (Some id) reply blank = (s', Err IndexError).
Proof.
  assert (C : clark_names empty_reply).
  { intros e [<-|[]]. right. exists #"http://chs.harvard.edu/xmlns/cts", #"TextInventory". split; [reflexivity|].
    split; intros I; cbn in I; repeat (destruct I as [I|I]; [discriminate I|]); destruct I. }
  assert (E : exists s', parse_inventory same_order by_text no_ns empty_reply blank = (s', Ok 0)) by (eexists; vm_compute; reflexivity).
  destruct E as [s' E]. exists empty_reply, #"urn:cts:latinLit:phi9999". split; [|split; [exact C|]].
  - apply (C57_accepts same_order same_arranges by_text no_ns empty_reply blank C). eauto.
  - intros limit. exists s'.
    apply (C62_lookup same_order same_arranges by_text no_ns limit #"urn:cts:latinLit:phi9999" empty_reply blank s' 0 C ltac:(discriminate) E).
    + intros (t & rest & A & B). vm_compute in A. injection A as <- <-. vm_compute in B. discriminate B.
    + assert (G : forall g, ~ lists empty_reply KTextgroup g).
      { intros g L. inversion L as [? (pre & post & X & _)| |]. vm_compute in X. destruct pre; discriminate X. }
      assert (W : forall w, ~ lists empty_reply KWork w).
      { intros w L. inversion L as [|g ? LG|]. exact (G g LG). }
      intros k e L. exfalso. destruct L as [g FG|g w LG _|w k e pre post LW _ _];
        [exact (G g (lists_group _ g FG))|exact (G g LG)|exact (W w LW)].
Qed.
Print Assumptions C62_unknown_refuted.
