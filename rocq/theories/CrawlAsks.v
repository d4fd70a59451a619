(** Proofs: what is asked for when collections are searched. *)

From Coq Require Import List NArith ZArith Arith Bool Lia.
From Verif Require Import PyStr PyStrFacts Json HttpModel HttpSpec Props_Http DtsModel DtsSpec DtsProofs DtsLazy UtilProofs CrawlModel CrawlSpec CrawlProofs.
Import ListNotations.

Section Asks.
Variable server : list request -> request -> result (list json).
Variable r : route.
Variables pages limit : nat.
Variable cat : catalogue.
Variable known : str -> Prop.
Hypothesis Hr : NoDup (map fst (rt_query r)).
Hypothesis Hserve : forall i, known i -> (exists ans, steady server r i Children ans /\ cpages ans 1 (cat i)) /\ consistent (cat i) /\
  forall k m, is_member (cat i) k m -> sized cat m.
Hypothesis Hdown : forall i k m, known i -> is_member (cat i) k m -> known k.
Hypothesis Hpages : forall i, known i -> length (cat i) <= pages.

Local Notation good := (good server r cat known).

Definition about (q : request) : Prop :=
  exists i n ans l, known i /\ steady server r i Children ans /\ cpages ans n l /\ (forall cs, In cs l -> In cs (cat i)) /\
    asks q r [(#"id", StrParam i); (#"nav", StrParam #"children"); (#"page", IntParam n)] [(#"nav", StrParam #"children"); (#"page", IntParam 1)].

Definition more (sent sent' : list request) : Prop := exists l, sent' = sent ++ l /\ Forall about l.
Lemma more_refl : forall s, more s s.
Proof using. intros s. exists []. split; [symmetry; apply app_nil_r|constructor]. Qed.
Lemma more_trans : forall a b c, more a b -> more b c -> more a c.
Proof using.
  intros a b c (l & -> & L) (m & -> & M). exists (l ++ m). split; [rewrite app_assoc; reflexivity|]. apply Forall_app. auto.
Qed.

Lemma skipn_In : forall {A} j (l : list A) x, In x (skipn j l) -> In x l.
Proof using. intros A j l x H. rewrite <- (firstn_skipn j l). apply in_or_app. right. exact H. Qed.

Lemma fetch_asks : forall ans q l, cpages ans q l -> forall fuel sent x,
  known (lz_id x) -> steady server r (lz_id x) Children ans -> (forall cs, In cs l -> In cs (cat (lz_id x))) ->
  more sent (fst (fst (fetch_from server r fuel sent x q))).
Proof using Hr.
  intros ans q l H. induction H as [q fs rest cs Hq Ha Hm Hn|q fs rest cs u n0 z l Hq Ha Hm Hn Hu Hd Hl IH];
    intros fuel sent x Hi Hst HI; (destruct fuel as [|fuel]; cbn [fetch_from]; rewrite (proj2 (Z.eqb_neq q 0)) by lia; [apply more_refl|]);
    pose proof (steady_page server r (lz_id x) Children ans sent q Hr Hst Hq) as S0; cbv zeta in S0; cbn [direction_name] in S0;
    match goal with |- context[sent ++ [?q0]] => assert (M : more sent (sent ++ [q0])) end.
  1,3: eexists; split; [reflexivity|]; constructor; [|constructor]; exists (lz_id x), q, ans; eexists; split; [exact Hi|]; split; [exact Hst|];
    split; [first [eapply cpages_last; eassumption | eapply cpages_more; eassumption]|]; split; [exact HI|];
    pose proof (page_request r (lz_id x) Children q Hq) as PR; cbn [direction_name] in PR; rewrite PR;
    exact (proj1 (C40_dts_requests r (StrParam (lz_id x)) _ NoParam NoParam NoParam NoParam (IntParam q) None [] Hr rf_none)).
  - destruct S0 as [E|E]; rewrite E; [|exact M]. rewrite Ha. rewrite (says_members_parse _ _ Hm). cbn [bind]. destruct (view_known fs) as (v & Ev). rewrite Ev. cbn [bind].
    rewrite (next_address_number _ _ Hn). exact M.
  - destruct S0 as [E|E]; rewrite E; [|exact M]. rewrite Ha. rewrite (says_members_parse _ _ Hm). cbn [bind]. rewrite (next_has_view _ _ Hn). cbn [bind].
    rewrite (next_address_number _ _ Hn), (first_page_number_some _ _ Hu). cbn [bind]. rewrite (decimal_number _ _ Hd).
    eapply more_trans; [exact M|]. destruct x as [i m d p la]. cbn [page_received lz_id] in *. apply IH; cbn [lz_id]; auto. intros c X. apply HI. right. exact X.
Qed.

Lemma fetch_more : forall sent x, good x -> more sent (fst (fst (fetch server r pages sent x))).
Proof using Hr Hserve.
  intros sent x G. destruct G as [i m d p l n Hi Hz Hk Hd Hp Hl]. unfold fetch. cbn [lz_last lz_id].
  destruct l as [q|].
  - destruct (Hl q eq_refl) as (Q & ans & j & S1 & S2 & S3). rewrite (proj2 (Z.eqb_neq q 0)) by lia.
    apply (fetch_asks _ _ _ S2); cbn [lz_id]; auto. intros cs. apply skipn_In.
  - destruct (Hserve i Hi) as ((ans & S1 & S2) & _). apply (fetch_asks _ _ _ S2); cbn [lz_id]; auto.
Qed.

Lemma open_more : forall sent x, good x -> more sent (fst (fst (open server r pages sent x))).
Proof using Hr Hserve.
  intros sent x G. unfold open. destruct (lz_parsed x); [apply more_refl|]. destruct (negb _); [apply fetch_more; exact G|apply more_refl].
Qed.

Lemma open_for_more : forall k sent x, good x -> more sent (fst (fst (open_for server r pages k sent x))).
Proof using Hr Hserve.
  intros k sent x G. unfold open_for. destruct (lz_parsed x); [apply more_refl|]. destruct (negb _); [|apply more_refl]. destruct (dget _ _); [apply more_refl|apply fetch_more; exact G].
Qed.

Lemma open_good : forall sent x, good x -> good (snd (fst (open server r pages sent x))).
Proof using Hr Hdown Hserve Hpages.
  intros sent x G. destruct (open_object server r pages cat known Hr Hserve Hdown Hpages sent x G) as (s & x' & res & E & (G' & _) & _). rewrite E. exact G'.
Qed.
Lemma descend_good : forall n sent x, good x -> good (snd (fst (descend server r pages n sent x))).
Proof using Hr Hdown Hserve Hpages.
  intros n sent x G. destruct (descend_right server r pages cat known Hr Hserve Hdown Hpages n sent x G) as (s & x' & res & E & (G' & _) & _). rewrite E. exact G'.
Qed.

Lemma descend_more : forall n sent x, good x -> more sent (fst (fst (descend server r pages n sent x))).
Proof using Hr Hdown Hserve Hpages.
  induction n as [|n IH]; intros sent x G; [apply more_refl|]. rewrite descend_S. pose proof (open_more sent x G) as M. pose proof (open_good sent x G) as G1.
  destruct (open server r pages sent x) as [[s1 x1] res]. cbn [fst snd] in M, G1. destruct res as [[]|e]; [|exact M].
  assert (E : forall l s, (forall k y, In (k, y) l -> good y) -> more s (fst (fst (each (descend server r pages n) s l)))).
  { clear -IH. induction l as [|[k y] l IHl]; intros s H; [apply more_refl|]. rewrite each_cons. pose proof (IH s y (H k y (or_introl eq_refl))) as M.
    destruct (descend server r pages n s y) as [[s1 y1] res]. cbn [fst] in M. destruct res as [ps|e]; [|exact M].
    pose proof (IHl s1 (fun k' y' X => H k' y' (or_intror X))) as M2. destruct (each (descend server r pages n) s1 l) as [[s2 l2] res2]. cbn [fst] in *. eapply more_trans; eassumption. }
  specialize (E (lz_kids x1) s1 (fun k y X => proj2 (kids_good server r cat known x1 k y G1 X))).
  destruct (each (descend server r pages n) s1 (lz_kids x1)) as [[s2 d] res2]. destruct x1 as [i m own p l]. cbn [fst] in *. eapply more_trans; eassumption.
Qed.

Lemma ask_more : forall q sent x, good x -> more sent (fst (fst (ask server r pages limit q sent x))).
Proof using Hr Hdown Hserve Hpages.
  intros q sent x G. pose proof (descend_more limit sent x G) as D. pose proof (open_more sent x G) as O. pose proof (open_good sent x G) as G1.
  destruct q as [| | |k|k|k| |]; cbn [ask]; unfold map_act, members_of, readable_descendants, contains, getitem, has_key, count_children, children_empty, members_of; cbv zeta.
  - destruct (open server r pages sent x) as [[s1 x1] res]. exact O.
  - destruct (descend server r pages limit sent x) as [[s1 x1] res]. exact D.
  - destruct (descend server r pages limit sent x) as [[s1 x1] res]. exact D.
  - destruct (descend server r pages limit sent x) as [[s1 x1] res]. exact D.
  - destruct (str_eqb k (lz_id x)); [apply more_refl|]. destruct (open server r pages sent x) as [[s1 x1] res]. cbn [fst snd] in *.
    destruct res as [[]|e]; cbn [bind]; [|exact O]. destruct (find _ _); [exact O|]. pose proof (descend_more limit s1 x1 G1) as D1.
    destruct (descend server r pages limit s1 x1) as [[s2 x2] res2]. cbn [fst] in *. eapply more_trans; eassumption.
  - destruct (open server r pages sent x) as [[s1 x1] res]. exact O.
  - destruct (lz_parsed x); [apply more_refl|]. destruct (negb _); apply more_refl.
  - destruct (lz_parsed x); [apply more_refl|]. destruct (negb _); apply more_refl.
Qed.

Lemma at_path_more : forall q p sent x, good x -> more sent (fst (fst (at_path server r pages p (ask server r pages limit q) sent x))).
Proof using Hr Hdown Hserve Hpages.
  intros q. induction p as [|k p IH]; intros sent x G; cbn [at_path]; [apply ask_more; exact G|].
  pose proof (open_for_more k sent x G) as M. destruct (open_for_object server r pages cat known Hr Hserve Hdown Hpages k sent x G) as (s1 & x1 & res & E & (G1 & _) & _).
  rewrite E in *. cbn [fst] in M. destruct res as [[]|e]; [|exact M]. destruct (dget k (lz_kids x1)) as [y|] eqn:Y; [|exact M].
  pose proof (IH s1 y (proj2 (kids_good server r cat known x1 k y G1 (dget_In _ _ _ _ Y)))) as M2.
  destruct (at_path server r pages p (ask server r pages limit q) s1 y) as [[s2 y2] res2]. cbn [fst] in *. eapply more_trans; eassumption.
Qed.

Lemma deeds_more : forall h sent x, good x -> more sent (fst (fst (do_deeds server r pages limit sent x h))).
Proof using Hr Hdown Hserve Hpages.
  induction h as [|[p q] h IH]; intros sent x G; cbn [do_deeds]; [apply more_refl|].
  pose proof (at_path_more q p sent x G) as M. destruct (at_path_right server r pages limit cat known Hr Hserve Hdown Hpages q p sent x G) as (s1 & x1 & res & E & (G1 & _) & _).
  rewrite E in *. cbn [fst] in M. pose proof (IH s1 x1 G1) as M2. destruct (do_deeds server r pages limit s1 x1 h) as [[s2 x2] outs]. cbn [fst] in *. eapply more_trans; eassumption.
Qed.

(** Of what is loaded, [len] and [==] tell the truth. *)
Lemma settled : forall p sent x, loaded x -> good x -> way cat (lz_id x) p ->
  at_path server r pages p (ask server r pages limit Count) sent x = (sent, x, Ok (Number (length (listed_in cat (target (lz_id x) p))))) /\
  exists b, at_path server r pages p (ask server r pages limit Empty) sent x = (sent, x, Ok (Truth b)) /\
    (b = true <-> forall k m, ~ is_member (cat (target (lz_id x) p)) k m).
Proof using.
  induction p as [|k p IH]; intros sent x L G W.
  - assert (K : keys (lz_kids x) = listed_in cat (lz_id x)) by (destruct L as [i m d l Ld]; inversion G; subst; cbn; auto).
    destruct L as [i m d l Ld]. cbn [lz_kids lz_id target last] in *. split; [cbn; rewrite <- K; unfold keys; rewrite map_length; reflexivity|].
    eexists. split; [reflexivity|]. destruct d as [|[k y] d].
    + split; [|reflexivity]. intros _ k m0 M. assert (X : In k (listed_in cat i)) by (apply (ids_of_In (cat i)); exists m0; exact M). rewrite <- K in X. destruct X.
    + split; [discriminate|]. intros H. assert (X : In k (listed_in cat i)) by (rewrite <- K; left; reflexivity). apply (ids_of_In (cat i)) in X. destruct X as (m0 & X). elim (H k m0 X).
  - apply way_inv in W. destruct W as ((m0 & M) & W). rewrite target_cons. cbn [at_path].
    assert (O : open_for server r pages k sent x = (sent, x, Ok tt)) by (destruct L; reflexivity). rewrite O.
    assert (K : keys (lz_kids x) = listed_in cat (lz_id x)) by (destruct L as [i m d l Ld]; inversion G; subst; cbn; auto).
    destruct (dget k (lz_kids x)) as [y|] eqn:Y.
    2:{ apply dget_None in Y. elim Y. rewrite K. apply (ids_of_In (cat (lz_id x))). exists m0. exact M. }
    pose proof (dget_In _ _ _ _ Y) as Yi. destruct (kids_good server r cat known x k y G Yi) as ((c & _ & C2 & _) & Gy).
    assert (Ly : loaded y) by (destruct L as [i m d l Ld]; apply (Ld k y Yi)). rewrite <- C2 in W. rewrite <- C2.
    destruct (IH sent y Ly Gy W) as (-> & b & -> & B). 
    assert (P : put k y x = x) by (destruct x; cbn [put lz_kids] in *; rewrite (dset_same _ _ _ _ Y); reflexivity). rewrite C2, P. split; [rewrite <- C2; reflexivity|].
    exists b. split; [reflexivity|rewrite <- C2; exact B].
Qed.
End Asks.
