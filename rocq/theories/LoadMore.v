(** After loading: finding the texts, the default resolver, unreadable files. *)

From Coq Require Import List NArith ZArith Arith Bool Lia.
From Verif Require Import PyStr PyStrFacts UrnModel UrnSpec UrnProofs XmlModel MetaModel MetaSpec CollModel CollSpec CollProofs CollMerge
  InvModel InvSpec InvProofs InvTrace InvTree InvDone Props_Inv LocalModel LocalSpec LocalProofs LoadModel LoadSpec LoadDict LoadTree LoadEnter
  LoadFold LoadBridge LoadCite LoadRead LoadLeaf LoadAll.
Import ListNotations.

(** ** What a file describes *)
Lemma firsts_id : forall {A} (l : list (str * A)), NoDup (keys l) -> firsts_of l = l.
Proof.
  intros A l. induction l as [|[k v] l IH]; intros N; [reflexivity|].
  change (keys ((k, v) :: l)) with (k :: keys l) in N. apply NoDup_cons_iff in N. destruct N as [NI N]. cbn [firsts_of]. rewrite IH by exact N. f_equal.
  clear IH N. induction l as [|[k' v'] l IH]; [reflexivity|]. cbn [filter fst].
  change (keys ((k', v') :: l)) with (k' :: keys l) in NI.
  rewrite str_eqb_false by (intros ->; apply NI; left; reflexivity). cbn [negb]. rewrite IH; [reflexivity|]. intros H. apply NI. right. exact H.
Qed.

Lemma NoDup_own : forall {A} (f : A -> XmlModel.node) (l : list A), (forall a, In a l -> urn_of (f a) <> None) ->
  NoDup (map (fun a => urn_of (f a)) l) -> NoDup (map (fun a => own_urn (f a)) l).
Proof.
  intros A f l. induction l as [|a l IH]; intros H N; [constructor|]. cbn [map] in *. apply NoDup_cons_iff in N. destruct N as [NI N].
  constructor; [|apply IH; [intros b I; apply H; right; exact I|exact N]].
  intros I. apply in_map_iff in I. destruct I as (b & E & I). apply NI. apply in_map_iff. exists b. split; [|exact I].
  unfold own_urn in E. specialize (H a (or_introl eq_refl)) as Ha. specialize (H b (or_intror I)) as Hb.
  destruct (urn_of (f a)), (urn_of (f b)); congruence.
Qed.

Lemma says_describes : forall f u x, named_file f -> no_repeats f ->
  (in_group (snd (group_says f)) u x <-> describes f u x).
Proof.
  intros f u x (_ & _ & ns & cts & tg & P1 & P2 & P3 & _ & H) [N1 N2].
  assert (UW : forall fw, In fw (works_in f) -> urn_of (snd fw) <> None).
  { intros fw I. destruct (H fw I) as (wk & _ & E & _). rewrite E. discriminate. }
  assert (UT : forall fw ke, In fw (works_in f) -> In ke (texts_in (snd fw)) -> urn_of (snd ke) <> None).
  { intros fw [k e] I J. destruct (H fw I) as (wk & _ & _ & T). destruct (T _ _ J) as ((vs & _ & E) & _). cbn [snd]. rewrite E. discriminate. }
  assert (E1 : snd (group_says f) = map (fun fw => work_says (fst fw) (snd fw)) (works_in f)).
  { unfold group_says. cbn [snd]. apply firsts_id. unfold keys. rewrite map_map. unfold work_says. cbn [fst].
    apply NoDup_own; [exact UW|exact N1]. }
  rewrite E1. split.
  - intros (k2 & ts & I & J). apply in_map_iff in I. destruct I as ([folder w] & E & I). cbn [fst snd] in E. unfold work_says in E.
    injection E as _ E. subst ts. apply In_firsts in J. apply in_map_iff in J. destruct J as ([k e] & E & J). cbn [fst snd] in E. injection E as <- <-.
    exists folder, w, k, e. split; [exact I|]. split; [exact J|]. split; [|reflexivity].
    specialize (UT _ _ I J). cbn [snd] in UT. unfold own_urn. destruct (urn_of e); congruence.
  - intros (folder & w & k & e & I & J & E & ->). exists (own_urn w), (snd (work_says folder w)). split.
    + apply in_map_iff. exists (folder, w). split; [reflexivity|exact I].
    + unfold work_says. cbn [snd]. rewrite firsts_id.
      * apply in_map_iff. exists (k, e). split; [cbn [fst snd]; unfold own_urn; rewrite E; reflexivity|exact J].
      * unfold keys. rewrite map_map. cbn [fst snd]. apply (NoDup_own (fun ke : subtype * XmlModel.node => snd ke)); [intros ke K; exact (UT _ _ I K)|exact (N2 _ I)].
Qed.

Lemma says_fits : forall f, named_file f -> fits (fst (group_says f)) (snd (group_says f)).
Proof.
  intros f (_ & _ & ns & cts & tg & P1 & P2 & P3 & U & H). exists ns, cts, tg. split; [exact P1|]. split; [exact P2|]. split; [exact P3|].
  split; [cbn [group_says fst]; unfold own_urn; rewrite U; reflexivity|]. split; [apply NoDup_firsts|].
  intros k ts I. cbn [group_says snd] in I. apply In_firsts in I. apply in_map_iff in I. destruct I as ([folder w] & E & I).
  destruct (H _ I) as (wk & P & UW & T). cbn [fst snd] in *. unfold work_says in E. injection E as <- <-.
  exists wk. split; [exact P|]. split; [unfold own_urn; rewrite UW; reflexivity|]. split; [apply NoDup_firsts|].
  intros k2 t J. apply In_firsts in J. apply in_map_iff in J. destruct J as ([k e] & E & J). cbn [fst snd] in E. injection E as <- <-.
  destruct (T _ _ J) as ((vs & V & UE) & _). exists vs. split; [exact V|]. unfold own_urn. rewrite UE. reflexivity.
Qed.

(** ** Finding texts *)
Lemma found : forall texts s root L u x limit, resolver_shows texts s root L -> held L u x ->
  exists t, getitem (5 + limit) (s_state s) root u = Ok t /\ below (s_state s) root t /\
    c_id (obj (s_state s) t) = u /\ c_kind (obj (s_state s) t) = KText (src_kind x) /\ shows_source texts s t x.
Proof.
  intros texts s root L u x limit RS (n & l & k & ws & k2 & ts & I1 & I2 & I3 & I4).
  destruct (shows_shelved _ _ _ _ RS) as [SH RV].
  destruct (drel_In_r _ _ _ _ _ RV I1) as (l' & J1 & R1). apply in_view in J1. destruct J1 as (i & J1 & ->).
  destruct (drel_In_r _ _ _ _ _ R1 I2) as (g' & J2 & R2). apply in_view in J2. destruct J2 as (g & J2 & ->).
  destruct (drel_In_r _ _ _ _ _ R2 I3) as (w' & J3 & R3). apply in_view_group' in J3. destruct J3 as (w & J3 & ->).
  destruct (drel_In_r _ _ _ _ _ R3 I4) as (t & J4 & K & S).
  assert (W : somewhere (s_state s) root t u).
  { right. right. right. right. exists n, i, k, g, k2, w. split; [split; [split; [exact J1|exact J2]|exact J3]|exact J4]. }
  exists t. split; [apply getitem_at; assumption|]. destruct (somewhere_below _ _ SH _ _ W) as [B E].
  split; [|split; [exact E|split; [exact K|exact S]]].
  destruct B as [->|B]; [|exact B]. rewrite (rs_kind _ _ _ _ RS) in K. discriminate.
Qed.

Lemma listed : forall texts s root L t, resolver_shows texts s root L -> below (s_state s) root t -> text (s_state s) t ->
  exists x, held L (c_id (obj (s_state s) t)) x.
Proof.
  intros texts s root L t RS B [sub T]. destruct (shows_shelved _ _ _ _ RS) as [SH RV].
  destruct (below_somewhere _ _ SH t (or_intror B)) as (id & W & E). rewrite E.
  destruct W as [[-> _]|[A|[(n & i & A)|[(n & i & k & g & A)|(n & i & k & g & k2 & w & A)]]]].
  - rewrite (rs_kind _ _ _ _ RS) in T. discriminate.
  - exfalso. destruct (at1_facts _ _ SH _ _ A) as (_ & _ & NT). apply NT. exists sub. exact T.
  - exfalso. pose proof (tg_kind _ _ (gd_tree _ _ _ _ (at2_good _ _ SH _ _ _ _ A))) as K. rewrite T in K. discriminate.
  - exfalso. destruct (tg_work _ _ (gd_tree _ _ _ _ (at2_good _ _ SH _ _ _ _ (proj1 A))) id t (proj2 A)) as (_ & K & _). rewrite T in K. discriminate.
  - destruct A as [[[A1 A2] A3] A4].
    destruct (drel_In _ _ _ _ _ RV (in_view_shelf _ _ _ _ A1)) as (l & I1 & R1).
    destruct (drel_In _ _ _ _ _ R1 (in_view_group _ root _ _ _ _ (conj A1 A2))) as (ws & I2 & R2).
    destruct (drel_In _ _ _ _ _ R2 (in_view_work _ root _ _ _ _ _ _ (conj (conj A1 A2) A3))) as (ts & I3 & R3).
    destruct (drel_In _ _ _ _ _ R3 A4) as (x & I4 & _). exists x, n, l, k, ws, k2, ts. auto.
Qed.

(** ** The default resolver *)
Lemma upd_end : forall {A} (l : list A) m f, upd (l ++ m) (length l) f = l ++ upd m 0 f.
Proof. intros A l m f. induction l as [|x l IH]; [destruct m; reflexivity|]. cbn. f_equal. exact IH. Qed.
Lemma upd_end1 : forall {A} (l : list A) a m f, upd (l ++ a :: m) (S (length l)) f = l ++ a :: upd m 0 f.
Proof. intros A l a m f. induction l as [|x l IH]; [destruct m; reflexivity|]. cbn. f_equal. exact IH. Qed.
Lemma nth_end1 : forall {A} (l : list A) a b m d, nth (S (length l)) (l ++ a :: b :: m) d = b.
Proof. intros A l a b m d. induction l as [|x l IH]; [reflexivity|exact IH]. Qed.
Lemma nth_end0 : forall {A} (l : list A) a m d, nth (length l) (l ++ a :: m) d = a.
Proof. intros A l a m d. induction l as [|x l IH]; [reflexivity|exact IH]. Qed.

Lemma default_ok : forall texts s, paths_known s -> exists s' d, default_resolver s = (s', Ok d) /\
  d_root d = length (objs (s_state s)) /\ d_methods d = [(#"default", fun _ _ _ => Ok true)] /\
  resolver_shows texts s' (d_root d) [(#"default", [])].
Proof.
  intros texts s PK. unfold default_resolver, new_object. cbn [objs graphs with_graph].
  rewrite app_length. cbn [length]. rewrite Nat.add_1_r, <- app_assoc. cbn [app].
  set (g2 := upd (upd (graphs (s_state s)) 0 _) 0 _). set (n := length (objs (s_state s))).
  assert (SP : exists g', set_parent (MkState (objs (s_state s) ++ [MkColl KInventoryCollection #"defaultTic" [] None [] 0; MkColl KInventory #"default" [] None [] 0]) g2) (S n) n
    = MkState (objs (s_state s) ++ [MkColl KInventoryCollection #"defaultTic" [] None [(#"default", S n)] 0; MkColl KInventory #"default" [] (Some n) [] 0]) g').
  { unfold set_parent, add_member, with_obj, obj, with_graph. cbn [objs graphs]. unfold n.
    rewrite !upd_end1. cbn [upd]. rewrite !nth_end1, !nth_end0. cbn [put_parent c_children c_id c_kind c_urn c_parent c_graph dget objs].
    eexists. rewrite upd_end. cbn [upd put_children c_kind c_id c_urn c_parent c_children c_graph]. reflexivity. }
  destruct SP as (g' & SP). rewrite SP. clear SP. unfold with_graph. cbn [objs graphs].
  match goal with |- context [MkStore ?x _ _] => set (st := x) end.
  assert (O0 : obj st n = MkColl KInventoryCollection #"defaultTic" [] None [(#"default", S n)] 0) by (unfold st, obj; cbn [objs]; apply nth_end0).
  assert (O1 : obj st (S n) = MkColl KInventory #"default" [] (Some n) [] 0) by (unfold st, obj; cbn [objs]; apply nth_end1).
  assert (LN : length (objs st) = S (S n)) by (unfold st; cbn [objs]; rewrite app_length; cbn [length]; fold n; lia).
  unfold new_dispatcher. rewrite O0. cbn [c_children]. rewrite O1. cbn [c_id bind].
  eexists (MkStore st (s_cites s) (s_paths s)), _. split; [reflexivity|]. cbn [d_root d_methods]. split; [reflexivity|]. split; [reflexivity|].
  constructor; cbn [s_state].
  - lia.
  - rewrite O0. reflexivity.
  - intros t path I. apply PK in I. cbn [s_state]. lia.
  - rewrite O0. cbn [c_id]. constructor.
    + intros r. cbn. discriminate.
    + intros n0 l [E|[]]. injection E as <- <-. split; [intros r; cbn; discriminate|cbn; discriminate].
    + constructor; [intros []|constructor].
    + constructor.
    + intros n0 l k ws [E|[]] I. injection E as <- <-. destruct I.
  - intros n0 l k ws k2 ts k3 t [E|[]] I. injection E as <- <-. destruct I.
  - unfold shown_inventories, entries. cbn [s_state]. rewrite O0. cbn [c_children]. constructor; [|constructor].
    cbn [fst snd]. cbv zeta. rewrite O1, LN. cbn [c_kind c_id c_parent]. split; [reflexivity|]. split; [lia|]. split; [reflexivity|].
    split; [reflexivity|]. split; [reflexivity|]. unfold shown_groups, entries. cbn [s_state]. rewrite O1. constructor.
Qed.

Lemma shelve_one : forall {A} name (es : list (str * (str * group_of A))) l,
  fold_left (shelve_at [(name, fun _ _ => true)]) es [(name, l)] = [(name, fold_left add_group (map snd es) l)].
Proof.
  intros A name es. induction es as [|e es IH]; intros l; [reflexivity|]. cbn [fold_left map]. rewrite <- IH. f_equal.
  unfold shelve_at, shelve. replace (place (choice_of [(name, fun _ _ => true)] (fst e)) [(name, l)] (fst (snd e))) with (Some name).
  - cbn [map fst]. rewrite str_eqb_refl. reflexivity.
  - unfold place. cbn [find snd fst]. destruct (has_key (fst (snd e)) l); reflexivity.
Qed.

Lemma one_placed : forall name files l, placed [(name, fun _ _ => true)] files [(name, l)].
Proof.
  intros name files l pre f post _. unfold has_place, shelved_by. rewrite shelve_one. unfold place. cbn [find snd fst].
  destruct (has_key _ _); discriminate.
Qed.

(** ** Where a textgroup goes *)
Definition has_in {A} (L : inventories A) (n k : str) : Prop := exists l, In (n, l) L /\ has_key k l = true.

Lemma shelve_has_in : forall {A} choice (L : inventories A) e n k, has_in (shelve choice L e) n k ->
  has_in L n k \/ (fst e = k /\ place choice L k = Some n).
Proof.
  intros A choice L [k0 g] n k (l & I & H). cbn [fst]. unfold shelve in I. cbn [fst] in I. destruct (place choice L k0) as [m|] eqn:P; [|left; exists l; auto].
  apply in_map_iff in I. destruct I as ([m' d'] & E & I). cbn [fst snd] in E. destruct (str_eqb m' m) eqn:Q; injection E as <- <-.
  - apply str_eqb_eq in Q. subst m'. apply has_key_true in H. unfold add_group in H. rewrite keys_merge in H.
    destruct (existsb _ _); [left; exists d'; split; [exact I|apply has_key_true; exact H]|].
    apply in_app_or in H. destruct H as [H|[H|[]]]; [left; exists d'; split; [exact I|apply has_key_true; exact H]|].
    right. subst k. split; [reflexivity|exact P].
  - left. exists d'. auto.
Qed.

Lemma shelves_has_in : forall {A} tests (es : list (str * (str * group_of A))) L n k, has_in (fold_left (shelve_at tests) es L) n k ->
  has_in L n k \/ exists pre p g post, es = pre ++ (p, (k, g)) :: post /\ place (choice_of tests p) (fold_left (shelve_at tests) pre L) k = Some n.
Proof.
  intros A tests es. induction es as [|[p [k' g]] es IH]; intros L n k H; [left; exact H|]. cbn [fold_left] in H.
  destruct (IH _ _ _ H) as [X|(pre & p' & g' & post & -> & X)].
  - unfold shelve_at in X. cbn [fst snd] in X. apply shelve_has_in in X. destruct X as [X|[E X]]; [left; exact X|]. cbn [fst] in E. subst k'.
    right. exists [], p, g, es. auto.
  - right. exists ((p, (k', g)) :: pre), p', g', post. auto.
Qed.

Lemma goes_where : forall tests L pre f post n l,
  In (n, l) (shelved_by tests (pre ++ f :: post) L) -> has_key (own_urn (fst (snd f))) l = true ->
  (forall x, In x (pre ++ post) -> own_urn (fst (snd x)) <> own_urn (fst (snd f))) ->
  (forall m l', In (m, l') L -> has_key (own_urn (fst (snd f))) l' = false) ->
  exists before t after, tests = before ++ (n, t) :: after /\ t (fst f) (own_urn (fst (snd f))) = true /\
    forall m t', In (m, t') after -> t' (fst f) (own_urn (fst (snd f))) = false.
Proof.
  intros tests L pre f post n l I H ONE NEW. set (k := own_urn (fst (snd f))) in *.
  destruct (shelves_has_in tests (map file_says (pre ++ f :: post)) L n k) as [(l' & X & Y)|(pre' & p & g & post' & E & X)].
  { exists l. auto. }
  { rewrite (NEW _ _ X) in Y. discriminate. }
  destruct (split_map _ _ _ _ _ E) as (fs1 & f' & fs2 & EF & E1 & E2 & E3).
  assert (K : own_urn (fst (snd f')) = k) by (apply (f_equal (fun x => fst (snd x))) in E2; exact E2).
  assert (P : p = fst f') by (apply (f_equal fst) in E2; exact (eq_sym E2)). subst p.
  assert (FF : f' = f /\ incl fs1 (pre ++ post)).
  { clear -ONE EF K. revert fs1 EF. induction pre as [|y pre IH]; intros [|z fs1] EF; cbn [app] in *; injection EF as A B.
    - subst. split; [reflexivity|]. intros x [].
    - exfalso. apply (ONE f'); [rewrite B; apply in_or_app; right; left; reflexivity|exact K].
    - subst y. exfalso. exact (ONE f' (or_introl eq_refl) K).
    - subst z. destruct (IH (fun x X => ONE x (or_intror X)) fs1 B) as [-> IN]. split; [reflexivity|]. intros x [<-|X]; [left; reflexivity|right; auto]. }
  destruct FF as [-> IN]. unfold place in X.
  destruct (find (fun e => has_key k (snd e)) (fold_left (shelve_at tests) pre' L)) as [[m d]|] eqn:F.
  - exfalso. apply find_some in F. destruct F as [F1 F2]. cbn [snd] in F2.
    destruct (shelves_has_in tests pre' L m k) as [(l' & Y & Z)|(a & p & g' & b & Y & _)]; [exists d; auto|rewrite (NEW _ _ Y) in Z; discriminate|].
    rewrite <- E1 in Y. destruct (split_map _ _ _ _ _ Y) as (a1 & x & a2 & EA & _ & EX & _).
    apply (ONE x); [apply IN; rewrite EA; apply in_or_app; right; left; reflexivity|]. apply (f_equal (fun x => fst (snd x))) in EX. exact EX.
  - unfold choice_of in X. destruct (find _ (rev tests)) as [[m t]|] eqn:Q; [|discriminate]. injection X as ->. clear -Q.
    assert (R : forall ts, find (fun t0 : str * (str -> str -> bool) => snd t0 (fst f) k) ts = Some (n, t) ->
      exists a b, ts = a ++ (n, t) :: b /\ t (fst f) k = true /\ forall m t', In (m, t') a -> t' (fst f) k = false).
    { induction ts as [|[m t'] ts IH]; intros H; [discriminate|]. cbn [find snd] in H. destruct (t' (fst f) k) eqn:T.
      - injection H as -> ->. exists [], ts. split; [reflexivity|]. split; [exact T|]. intros ? ? [].
      - destruct (IH H) as (a & b & -> & A & B). exists ((m, t') :: a), b. split; [reflexivity|]. split; [exact A|].
        intros m' t2 [Z|Z]; [injection Z as <- <-; exact T|eapply B; exact Z]. }
    destruct (R _ Q) as (a & b & Z & A & B). apply (f_equal (@rev _)) in Z. rewrite rev_involutive, rev_app_distr in Z. cbn [rev] in Z.
    exists (rev b), t, (rev a). split; [rewrite Z, <- app_assoc; reflexivity|]. split; [exact A|].
    intros m' t2 Y. apply (B m' t2). apply in_rev. exact Y.
Qed.

(** ** Unreadable documents *)
Section Unreadable.
Variable order : list term -> list term.
Hypothesis Ho : arranges order.
Variable leaf : XmlModel.node -> guess.
Variable nsmap : XmlModel.node -> list (str * str).
Variables raise_parsing raise_undispatched : bool.

Lemma collect_app_err : forall {A B} (f : A -> act B) l a l' s s1 bs s2 e, collect l f s = (s1, Ok bs) -> f a s1 = (s2, Err e) ->
  collect (l ++ a :: l') f s = (s2, Err e).
Proof.
  intros A B f l a l'. induction l as [|x l IH]; intros s s1 bs s2 e C F; cbn [collect app] in *.
  - injection C as <- _. unfold andthen. rewrite F. reflexivity.
  - unfold andthen at 1. unfold andthen at 1 in C. destruct (f x s) as [s' [b|e']] eqn:E; [|discriminate].
    unfold andthen in C. destruct (collect l f s') as [s'' [bs'|e']] eqn:E'; [|discriminate].
    cbn in C. injection C as <- <-. unfold andthen. rewrite (IH _ _ _ _ _ E' F). reflexivity.
Qed.

Lemma shows_grown : forall texts s s' root L, resolver_shows texts s root L -> size s <= size s' ->
  (forall j, j < size s -> obj (s_state s') j = obj (s_state s) j /\ citation_of s' j = citation_of s j) -> s_paths s' = s_paths s ->
  resolver_shows texts s' root L.
Proof.
  intros texts s s' root L RS LL OLD PS. destruct (shows_shelved _ _ _ _ RS) as [SH RV].
  destruct (shelved_grown _ (s_state s') _ SH LL (fun j J => proj1 (OLD j J))) as [SH3 VE].
  apply shelved_shows; [exact SH3| |intros t path I; rewrite PS in I; apply (rs_paths _ _ _ _ RS) in I; lia].
  rewrite VE. eapply rel_all_kept; [exact RV|]. intros n l k g k2 ts k3 t I1 I2 I3 I4.
  apply in_view in I1. destruct I1 as (i & I1 & ->). apply in_view in I2. destruct I2 as (g' & I2 & ->).
  apply in_view_group' in I3. destruct I3 as (w & I3 & ->).
  destruct (tg_text _ _ (gd_tree _ _ _ _ (sv_group _ _ SH _ _ _ _ I1 I2)) _ _ _ _ I3 I4) as (T & _).
  destruct (OLD t T) as [A B]. split; [unfold alike; rewrite A; auto|]. split; [exact B|]. unfold path_of. rewrite PS. reflexivity.
Qed.

Lemma load_unreadable : forall limit d texts s root L pre path e ws post, (forall f, In f pre -> named_file (snd f)) -> resolver_shows texts s root L ->
  exists s', load order leaf nsmap raise_parsing raise_undispatched limit d (map as_file pre ++ MkGroupFile path (Err e) ws :: post) texts s
    = (s', Err (if raise_parsing then e else TypeError)) /\ resolver_shows texts s' root L.
Proof using Ho.
  intros limit d texts s root L pre path e ws post NF RS.
  destruct (read_groups_ok order Ho leaf nsmap raise_parsing pre s) as (s1 & gs & E1 & M1 & N1 & L1 & O1 & W1).
  { intros f I. destruct (NF f I) as (CL & _ & ns & cts & tg & P1 & P2 & P3 & U & H). split.
    - split; [exact (good_written ns cts _ _ P1 P2 P3 U)|]. intros w Hw. eapply named_good; [exact P1|exact P2|].
      apply (H (None, w)). unfold works_in. apply in_or_app. left. apply in_map_iff. exists w. auto.
    - eapply clark_group; [exact CL|apply order_refl]. }
  exists s1. split; [|eapply shows_grown; try eassumption].
  2: { pose proof (keeps_groups order leaf nsmap raise_parsing (map as_file pre) s) as X. rewrite E1 in X. exact X. }
  unfold load. unfold andthen at 1. unfold read_groups in *.
  erewrite collect_app_err; [|exact E1|unfold andthen, wrapped; cbn [gf_doc]; reflexivity]. reflexivity.
Qed.
End Unreadable.
