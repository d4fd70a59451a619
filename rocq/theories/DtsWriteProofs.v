(** Proofs about what a caller writes into the members of a DTS collection. *)

From Coq Require Import List NArith ZArith Arith Bool Lia.
From Verif Require Import PyStr PyStrFacts Json HttpModel HttpSpec HttpProofs MetaProofs DtsModel DtsSpec DtsProofs DtsLazy DtsWriteModel DtsWriteSpec.
Import ListNotations.

(** ** Loading writes the same members into every dictionary *)

Section Load.
Variable server : list request -> request -> result (list json).
Variable r : route.

Lemma kupdate_app : forall a b d, kupdate (a ++ b) d = kupdate b (kupdate a d).
Proof using. intros a b d. unfold kupdate. apply fold_left_app. Qed.

Lemma load_from_same : forall fuel st p, exists st' cs res, forall d,
  load_from server r fuel (with_kids st d) Children p = (with_kids st' (kupdate cs d), res).
Proof using.
  induction fuel as [|fuel IH]; intros st p; cbn [load_from].
  - destruct (p =? 0)%Z; [exists (finished st Children), [], (Ok tt)|exists st, [], (Err OutOfFuel)]; reflexivity.
  - destruct (p =? 0)%Z; [exists (finished st Children), [], (Ok tt); reflexivity|].
    cbn [with_kids z_id z_sent].
    set (q := get_collection r (StrParam (z_id st)) (StrParam (direction_name Children)) (if (1 <? p)%Z then IntParam p else NoParam)).
    destruct (server (z_sent st) q) as [[|data rest]|e];
      [exists (sending st q), [], (Err IndexError); reflexivity| |exists (sending st q), [], (Err e); reflexivity].
    destruct (cs <- parse_member data ;; v <- jhas data (hydra_term #"view") ;; Ok (cs, v)) as [[cs v]|e];
      [|exists (sending st q), [], (Err e); reflexivity].
    destruct (next_page_number data) as [[n|]|e].
    + destruct (IH (received (sending st q) Children p v cs) (number_of n)) as (st' & cs' & res & E).
      exists st', (cs ++ cs'), res. intros d. specialize (E (kupdate cs d)). rewrite kupdate_app. rewrite <- E. reflexivity.
    + exists (finished (received (sending st q) Children p v cs) Children), cs, (Ok tt). reflexivity.
    + exists (received (sending st q) Children p v cs), cs, (Err e). reflexivity.
Qed.

Lemma load_same : forall fuel st, exists st' cs res, forall d,
  load server r fuel (with_kids st d) Children = (with_kids st' (kupdate cs d), res).
Proof using. intros fuel st. unfold load. cbn [with_kids z_last_kids]. apply load_from_same. Qed.
End Load.

(** ** Dictionaries that were written into *)

(** [d] is [g] with [w] written into it, now and then. *)
Definition over (g w d : dict) : Prop :=
  NoDup (keys d) /\ forall k,
    (dget k (rev w) = None -> dget k d = dget k g) /\
    (forall c, dget k (rev w) = Some c -> exists c', dget k d = Some c' /\ (dget k g = Some c' \/ In (k, c') w) /\ (dget k g = None -> c' = c)).

Lemma over_refl : forall g, NoDup (keys g) -> over g [] g.
Proof. intros g H. split; [exact H|]. intros k. split; [reflexivity|discriminate]. Qed.

Lemma over_dset : forall g w d k c, over g w d -> over (dset k c g) w (dset k c d).
Proof.
  intros g w d k c [H1 H2]. split; [apply NoDup_keys_dset; exact H1|]. intros x. rewrite !dget_dset.
  destruct (str_eqb k x); [|apply H2]. split; [reflexivity|]. intros y _. exists c. split; [reflexivity|]. split; [left; reflexivity|discriminate].
Qed.

Lemma over_kupdate : forall cs g w d, over g w d -> over (kupdate cs g) w (kupdate cs d).
Proof.
  induction cs as [|c cs IH]; intros g w d H; [exact H|]. apply (IH (dset (co_id c) c g) w (dset (co_id c) c d)). apply over_dset. exact H.
Qed.

Lemma over_write : forall e g w d, over g w d -> over g (w ++ e) (dict_update d e).
Proof.
  induction e as [|[k c] e IH]; intros g w d H; [rewrite app_nil_r; exact H|].
  replace (w ++ (k, c) :: e) with ((w ++ [(k, c)]) ++ e) by (rewrite <- app_assoc; reflexivity).
  apply (IH g (w ++ [(k, c)]) (dset k c d)). destruct H as [H1 H2]. split; [apply NoDup_keys_dset; exact H1|].
  intros x. rewrite rev_app_distr. cbn [rev app dget]. rewrite dget_dset. destruct (str_eqb k x) eqn:E.
  - apply str_eqb_eq in E. subst x. split; [discriminate|]. intros y Y. injection Y as <-. exists c. split; [reflexivity|]. split; [right; apply in_or_app; right; left; reflexivity|reflexivity].
  - destruct (H2 x) as [A B]. split; [exact A|]. intros y Y. destruct (B y Y) as (c' & B1 & B2 & B3). exists c'. split; [exact B1|]. split; [|exact B3].
    destruct B2 as [B2|B2]; [left; exact B2|right; apply in_or_app; left; exact B2].
Qed.

Lemma dget_last : forall k (c : coll) before after, (forall c', ~ In (k, c') after) -> dget k (rev (before ++ (k, c) :: after)) = Some c.
Proof.
  intros k c before after H. rewrite rev_app_distr. cbn [rev]. rewrite <- app_assoc.
  assert (G : forall l rest, (forall c', ~ In (k, c') l) -> dget k (l ++ (k, c) :: rest) = Some c).
  { induction l as [|[x y] l IH]; intros rest Hl; cbn [app dget]; [rewrite str_eqb_refl; reflexivity|].
    destruct (str_eqb x k) eqn:E; [apply str_eqb_eq in E; subst x; destruct (Hl y); left; reflexivity|].
    apply IH. intros c' Hc. apply (Hl c'). right. exact Hc. }
  apply G. intros c' Hc. apply (H c'). apply in_rev. exact Hc.
Qed.

Lemma dget_some : forall k (c : coll) w, In (k, c) w -> exists c', dget k w = Some c'.
Proof.
  intros k c w. induction w as [|[x y] w IH]; intros H; [destruct H|]. cbn [dget]. destruct (str_eqb x k) eqn:E; [eauto|].
  destruct H as [H|H]; [injection H as -> ->; rewrite str_eqb_refl in E; discriminate|apply IH; exact H].
Qed.

Lemma over_members : forall L g w d, sound L g -> full L g -> over g w d -> members_and L w d.
Proof.
  intros L g w d [S1 S2] F [H1 H2]. split; [exact H1|]. split; [|split].
  - intros k c H. apply In_dget_NoDup in H; [|exact H1]. destruct (H2 k) as [A B]. destruct (dget k (rev w)) as [y|].
    + destruct (B y eq_refl) as (c' & B1 & B2 & _). rewrite B1 in H. injection H as <-. destruct B2 as [B2|B2]; [left; apply S2, dget_In, B2|right; exact B2].
    + left. apply S2, dget_In. rewrite <- A by reflexivity. exact H.
  - intros k c H. destruct (H2 k) as [A B]. destruct (dget k (rev w)) as [y|] eqn:E.
    + destruct (B y eq_refl) as (c' & B1 & _). exists c'. apply dget_In. exact B1.
    + destruct H as [H|H]; [|apply in_rev in H; destruct (dget_some _ _ _ H); congruence].
      exists c. apply dget_In. rewrite A by reflexivity. apply In_dget_NoDup; [exact S1|]. apply F. exact H.
  - intros k c before after -> Ha Hm. destruct (H2 k) as [_ B]. destruct (B c (dget_last k c before after Ha)) as (c' & B1 & _ & B3).
    apply dget_In. rewrite B1. f_equal. apply B3. destruct (dget k g) as [m|] eqn:E; [|reflexivity]. destruct (Hm m). apply S2, dget_In, E.
Qed.

(** ** Histories *)

Section Histories.
Variable server : list request -> request -> result (list json).
Variable r : route.
Variable id : str.
Variable ans : Z -> result (list json).
Variable L : list (list coll).
Variable size : Z.
Hypothesis Hr : NoDup (map fst (rt_query r)).
Hypothesis Hsteady : steady server r id Children ans.
Hypothesis Hpages : cpages ans 1 L.
Hypothesis HL : consistent L.
Hypothesis Hsize : size = 0%Z -> length L <= 1.
Variable fuel : nat.
Hypothesis Hf : length L <= fuel.

Notation linv := (inv id ans L size).

(** Everything is in the dictionary 0, and [g] is what it would be without the
    caller. *)
Definition good (o : owned) (w g : dict) : Prop :=
  linv (with_kids (o_lazy o) g) /\ o_held o = 0 /\ target o = 0 /\ o_dicts o <> [] /\ over g w (dict_at o 0).

Lemma at_store : forall o d, o_dicts o <> [] -> dict_at (store o 0 d) 0 = d.
Proof using. intros [st [|x l] h a] d H; [destruct H; reflexivity|reflexivity]. Qed.
Lemma store_some : forall o d, o_dicts o <> [] -> o_dicts (store o 0 d) <> [].
Proof using. intros [st [|x l] h a] d H; [exact H|discriminate]. Qed.

Lemma run_good : forall o w g, good o w g -> exists o' res g', run_owned server r fuel o = (o', res) /\ good o' w g' /\
  (res = Err HTTPError \/ res = Ok tt /\ full L g').
Proof using Hr Hsteady Hpages HL Hsize Hf.
  intros o w g (G1 & G2 & G3 & G4 & G5). unfold run_owned.
  destruct (proxy_children server r id ans L size Hr Hsteady Hpages HL Hsize fuel _ Hf G1) as (st1 & res & E & I1 & R).
  unfold run_proxy in E. cbn [with_kids z_parsed_ups] in E. destruct (z_parsed_ups (o_lazy o)).
  - injection E as <- <-. exists o, (Ok tt), g. split; [reflexivity|]. split; [exact (conj G1 (conj G2 (conj G3 (conj G4 G5))))|].
    destruct R as [R|R]; [discriminate|]. right. exact R.
  - destruct (load_same server r fuel (o_lazy o)) as (st' & cs & res' & H). pose proof (H g) as Hg. fold (with_kids (o_lazy o) g) in E. rewrite Hg in E. injection E as <- <-.
    rewrite G3, (H (dict_at o 0)). eexists. eexists. exists (kupdate cs g). split; [reflexivity|]. cbn [with_kids z_kids].
    split; [|exact R]. split; [exact I1|]. cbn [o_held]. split; [exact G2|]. split.
    { unfold target in *. cbn [o_attr o_held]. match goal with |- match (if ?b then _ else _) with _ => _ end = _ => destruct b; [reflexivity|exact G3] end. }
    split; [exact (store_some o _ G4)|]. change (over (kupdate cs g) w (dict_at (store o 0 (kupdate cs (dict_at o 0))) 0)). rewrite at_store by exact G4. apply over_kupdate. exact G5.
Qed.

Lemma reach_good : forall v o w g, good o w g ->
  good (fst (reach v o)) w g /\ match snd (reach v o) with Some n => n = 0 /\ full L g | None => True end.
Proof using Hpages HL Hsize.
  intros [] o w g H; [|split; [exact H|exact I]]. cbn [reach]. unfold children_of.
  destruct H as (G1 & G2 & G3 & G4 & G5). pose proof (property_inv id ans L size Hpages HL Hsize _ G1) as (P1 & P2 & P3).
  assert (K : kids_property (with_kids (o_lazy o) g) = (with_kids (fst (kids_property (o_lazy o))) g, snd (kids_property (o_lazy o)))).
  { unfold kids_property. cbn [with_kids z_parsed_kids z_size]. destruct (z_parsed_kids (o_lazy o)); [reflexivity|]. destruct (z_size (o_lazy o) =? 0)%Z; reflexivity. }
  rewrite K in P1, P2, P3. cbn [fst snd with_kids z_kids] in P1, P2, P3. destruct (kids_property (o_lazy o)) as [st proxy]. cbn [fst snd] in *.
  destruct proxy; cbn [fst snd].
  - split; [|exact I]. split; [exact P1|]. split; [exact G2|]. split; [exact G3|]. split; [exact G4|exact G5].
  - split; [|split; [exact G3|apply P3; reflexivity]]. split; [exact P1|]. split; [exact G2|]. split; [exact G3|]. split; [exact G4|exact G5].
Qed.

Lemma look_right : forall w g d k, sound L g -> full L g -> over g w d ->
  (exists c, look_up d k = Ok (One c) /\ (is_member L k c \/ In (k, c) w)) \/
  (look_up d k = Err KeyError /\ forall c, ~ is_member L k c /\ ~ In (k, c) w).
Proof using.
  intros w g d k S F O. destruct (over_members L g w d S F O) as (M1 & M2 & M3 & _). unfold look_up.
  destruct (dget k d) as [c|] eqn:E.
  - left. exists c. split; [reflexivity|]. apply M2, dget_In, E.
  - right. split; [reflexivity|]. intros c. split; intros H; [destruct (M3 k c (or_introl H)) as (c' & X)|destruct (M3 k c (or_intror H)) as (c' & X)];
      apply In_dget_NoDup in X; try exact M1; congruence.
Qed.

Lemma good_sound : forall o w g, good o w g -> sound L g.
Proof using. intros o w g (G1 & _). apply G1. Qed.

Lemma deed_good : forall o w g a, good o w g -> ~ sets a -> ~ removes a ->
  right_deed L w a (snd (do_deed server r fuel o a)) /\
  exists g', good (fst (do_deed server r fuel o a)) (w ++ wrote a (snd (do_deed server r fuel o a))) g'.
Proof using Hr Hsteady Hpages HL Hsize Hf.
  intros o w g a H Ha Hb. destruct a as [v|v k|v e|d|v n|n|v k m|v k]; cbn [do_deed wrote]; try rewrite app_nil_r.
  - destruct (reach_good v o w g H) as (R1 & R2). destruct (reach v o) as [o1 [n|]]; cbn [fst snd] in *.
    + destruct R2 as [-> F]. split; [|exists g; exact R1]. right. eexists. split; [reflexivity|].
      exact (over_members L g w _ (good_sound _ _ _ R1) F (proj2 (proj2 (proj2 (proj2 R1))))).
    + destruct (run_good o1 w g R1) as (o2 & res & g' & E & G & R). rewrite E. cbn [fst snd]. split; [|exists g'; exact G].
      destruct R as [->|(-> & F)]; [left; reflexivity|]. right. cbn [bind]. eexists. split; [reflexivity|].
      rewrite (proj1 (proj2 G)). exact (over_members L g' w _ (good_sound _ _ _ G) F (proj2 (proj2 (proj2 (proj2 G))))).
  - destruct (reach_good v o w g H) as (R1 & R2). destruct (reach v o) as [o1 [n|]]; cbn [fst snd] in *.
    + destruct R2 as [-> F]. split; [|exists g; exact R1]. right.
      exact (look_right w g _ k (good_sound _ _ _ R1) F (proj2 (proj2 (proj2 (proj2 R1))))).
    + rewrite (proj1 (proj2 R1)). destruct (dget k (dict_at o1 0)) as [c|] eqn:Ek; cbn [fst snd].
      * split; [|exists g; exact R1]. right. left. exists c. split; [reflexivity|].
        pose proof (proj2 (proj2 (proj2 (proj2 R1)))) as [_ O]. destruct (O k) as [A B]. destruct (dget k (rev w)) as [y|].
        -- destruct (B y eq_refl) as (c' & B1 & B2 & _). rewrite B1 in Ek. injection Ek as <-.
           destruct B2 as [B2|B2]; [left; apply (good_sound _ _ _ R1), dget_In, B2|right; exact B2].
        -- left. apply (good_sound _ _ _ R1), dget_In. rewrite <- A by reflexivity. exact Ek.
      * destruct (run_good o1 w g R1) as (o2 & res & g' & E & G & R). rewrite E. cbn [fst snd]. split; [|exists g'; exact G].
        destruct R as [->|(-> & F)]; [left; reflexivity|]. right. cbn [bind]. rewrite (proj1 (proj2 G)).
        exact (look_right w g' _ k (good_sound _ _ _ G) F (proj2 (proj2 (proj2 (proj2 G))))).
  - destruct (reach_good v o w g H) as (R1 & R2). destruct (reach v o) as [o1 d]; cbn [fst snd] in *. split; [right; reflexivity|].
    exists g. pose proof R1 as (G1 & G2 & G3 & G4 & G5).
    assert (E : (match d with Some n => n | None => o_held o1 end) = 0) by (destruct d as [n|]; [exact (proj1 R2)|exact G2]). rewrite E.
    split; [exact G1|]. split; [exact G2|]. split; [exact G3|]. split; [exact (store_some o1 _ G4)|]. rewrite at_store by exact G4. apply over_write. exact G5.
  - cbn [fst snd]. split; [right; reflexivity|]. exists g. destruct H as (G1 & G2 & G3 & G4 & G5). split; [exact G1|]. split; [exact G2|]. split; [exact G3|].
    cbn [o_dicts]. split; [destruct (o_dicts o); discriminate|]. unfold dict_at in *. cbn [o_dicts]. destruct (o_dicts o); [destruct G4; reflexivity|exact G5].
  - destruct Ha. exact I.
  - cbn [fst snd]. split; [right; exact I|]. exists g. exact H.
  - destruct (reach_good v o w g H) as (R1 & R2). destruct (reach v o) as [o1 [n|]]; cbn [fst snd wrote] in *.
    + destruct R2 as [-> _]. split; [right; left; reflexivity|]. exists g. pose proof R1 as (G1 & G2 & G3 & G4 & G5).
      split; [exact G1|]. split; [exact G2|]. split; [exact G3|]. split; [exact (store_some o1 _ G4)|]. rewrite at_store by exact G4.
      exact (over_write [(k, m)] g w _ G5).
    + split; [right; right; reflexivity|]. exists g. rewrite app_nil_r. exact R1.
  - destruct Hb. exact I.
Qed.

Lemma deeds_good : forall h o w g, good o w g -> (forall a, In a h -> ~ sets a /\ ~ removes a) ->
  right_history L w h (snd (do_deeds server r fuel o h)).
Proof using Hr Hsteady Hpages HL Hsize Hf.
  induction h as [|a h IH]; intros o w g H Hh; cbn [do_deeds]; [constructor|].
  destruct (deed_good o w g a H (proj1 (Hh a (or_introl eq_refl))) (proj2 (Hh a (or_introl eq_refl)))) as (A & g' & B). destruct (do_deed server r fuel o a) as [o1 x]. cbn [fst snd] in *.
  pose proof (IH o1 _ g' B (fun y Hy => Hh y (or_intror Hy))) as X. destruct (do_deeds server r fuel o1 h) as [o2 xs]. constructor; [exact A|exact X].
Qed.

Lemma open_good : forall c sent, co_id c = id -> size_of (co_meta c) = size -> first_reply c L ->
  good (open_owned c sent) [] (z_kids (open_lazy c sent)).
Proof using Hpages HL.
  intros c sent H1 H2 H3. pose proof (open_inv id ans L size Hpages HL c sent H1 H2 H3) as G. split; [exact G|].
  split; [reflexivity|]. split; [reflexivity|]. split; [discriminate|]. apply over_refl. apply G.
Qed.
End Histories.

(** ** A load from the first page on *)

Section Whole.
Variable server : list request -> request -> result (list json).
Variable r : route.
Variable id : str.
Variable ans : Z -> result (list json).
Hypothesis Hr : NoDup (map fst (rt_query r)).
Hypothesis Hsteady : steady server r id Children ans.

Lemma load_pages : forall p l, cpages ans p l -> forall fuel st, length l <= fuel -> z_id st = id ->
  let out := load_from server r fuel st Children p in
  snd out = Err HTTPError \/ snd out = Ok tt /\ z_kids (fst out) = kupdate (concat l) (z_kids st).
Proof using Hr Hsteady.
  intros p l H. induction H as [p fs rest cs Hp Ha Hm Hn|p fs rest cs u n m l Hp Ha Hm Hn Hu Hd Hl IH];
    intros fuel st Hf Hi; (destruct fuel as [|fuel]; [cbn in Hf; lia|]); cbv zeta; cbn [load_from]; rewrite (proj2 (Z.eqb_neq p 0)) by lia; rewrite Hi.
  - destruct (steady_page server r id Children ans (z_sent st) p Hr Hsteady Hp) as [E|E]; rewrite E; [|left; reflexivity].
    rewrite Ha. cbn [bind]. rewrite (says_members_parse _ _ Hm). cbn [bind]. destruct (view_known fs) as (v & Ev). rewrite Ev. cbn [bind].
    rewrite (next_address_number _ _ Hn). right. split; [reflexivity|]. cbn [concat]. rewrite app_nil_r. reflexivity.
  - destruct (steady_page server r id Children ans (z_sent st) p Hr Hsteady Hp) as [E|E]; rewrite E; [|left; reflexivity].
    rewrite Ha. cbn [bind]. rewrite (says_members_parse _ _ Hm). cbn [bind]. rewrite (next_has_view _ _ Hn). cbn [bind].
    rewrite (next_address_number _ _ Hn), (first_page_number_some _ _ Hu). cbn [bind]. rewrite (decimal_number _ _ Hd).
    cbn [concat]. rewrite kupdate_app. cbn in Hf. apply (IH fuel); [lia|exact Hi].
Qed.
End Whole.

Lemma kupdate_get : forall cs k d,
  (exists c, In c cs /\ co_id c = k /\ dget k (kupdate cs d) = Some c) \/
  ((forall c, In c cs -> co_id c <> k) /\ dget k (kupdate cs d) = dget k d).
Proof.
  induction cs as [|c cs IH]; intros k d; [right; split; [intros c []|reflexivity]|].
  destruct (IH k (dset (co_id c) c d)) as [(x & H1 & H2 & H3)|(H1 & H2)].
  - left. exists x. split; [right; exact H1|]. split; [exact H2|exact H3].
  - change (kupdate (c :: cs) d) with (kupdate cs (dset (co_id c) c d)). rewrite H2, dget_dset. destruct (str_eqb (co_id c) k) eqn:E.
    + apply str_eqb_eq in E. left. exists c. split; [left; reflexivity|]. split; [exact E|reflexivity].
    + right. split; [|reflexivity]. intros x [<-|Hx]; [intros X; rewrite X, str_eqb_refl in E; discriminate|apply H1; exact Hx].
Qed.

Lemma kupdate_NoDup : forall cs d, NoDup (keys d) -> NoDup (keys (kupdate cs d)).
Proof. induction cs as [|c cs IH]; intros d H; [exact H|]. apply (IH (dset (co_id c) c d)). apply NoDup_keys_dset. exact H. Qed.

Lemma member_concat : forall (l : list (list coll)) k c, is_member l k c <-> In c (concat l) /\ co_id c = k.
Proof.
  intros l k c. unfold is_member. rewrite in_concat. split.
  - intros (H1 & cs & H2 & H3). split; [exists cs; auto|exact H1].
  - intros ((cs & H2 & H3) & H1). split; [exact H1|exists cs; auto].
Qed.

Lemma kupdate_members : forall l d, consistent l -> NoDup (keys d) ->
  NoDup (keys (kupdate (concat l) d)) /\
  forall k c, In (k, c) (kupdate (concat l) d) <-> is_member l k c \/ (In (k, c) d /\ forall m, ~ is_member l k m).
Proof.
  intros l d HL Hd. pose proof (kupdate_NoDup (concat l) d Hd) as N. split; [exact N|]. intros k c.
  destruct (kupdate_get (concat l) k d) as [(x & H1 & H2 & H3)|(H1 & H2)].
  - assert (M : is_member l k x) by (apply member_concat; auto). split.
    + intros H. apply In_dget_NoDup in H; [|exact N]. rewrite H3 in H. injection H as <-. left. exact M.
    + intros [H|(_ & H)]; [|destruct (H x M)]. rewrite (HL k c x H M). apply dget_In. exact H3.
  - assert (M : forall m, ~ is_member l k m) by (intros m Hm; apply member_concat in Hm; exact (H1 m (proj1 Hm) (proj2 Hm))). split.
    + intros H. apply In_dget_NoDup in H; [|exact N]. rewrite H2 in H. right. split; [apply dget_In; exact H|exact M].
    + intros [H|(H & _)]; [destruct (M c H)|]. apply dget_In. rewrite H2. apply In_dget_NoDup; assumption.
Qed.

Lemma update_overwritten : forall e d, NoDup (keys d) -> overwritten d e (dict_update d e).
Proof.
  intros e d Hd.
  assert (O : over d e (dict_update d e)) by (apply (over_write e d [] d); apply over_refl; exact Hd).
  assert (X : forall e d k, dget k (dict_update d e) = match dget k (rev e) with Some c => Some c | None => dget k d end).
  { clear. induction e as [|[x c] e IH] using rev_ind; intros d k; [reflexivity|].
    unfold dict_update. rewrite fold_left_app. cbn [fold_left fst snd]. fold (dict_update d e).
    rewrite rev_app_distr. cbn [rev app dget]. rewrite dget_dset. destruct (str_eqb x k); [reflexivity|apply IH]. }
  destruct O as [N _]. split; [exact N|]. intros k c. split.
  - intros H. apply In_dget_NoDup in H; [|exact N]. rewrite X in H. destruct (dget k (rev e)) as [y|] eqn:E.
    + injection H as <-. left. clear -E.
      revert E. induction e as [|[x z] e IH] using rev_ind; [discriminate|]. rewrite rev_app_distr. cbn [rev app dget].
      destruct (str_eqb x k) eqn:Ek.
      * intros Y. injection Y as ->. apply str_eqb_eq in Ek. subst x. exists e, []. split; [reflexivity|intros c' []].
      * intros Y. destruct (IH Y) as (b & a & -> & Ha). exists b, (a ++ [(x, z)]). split; [rewrite <- app_assoc; reflexivity|].
        intros c' Hc. apply in_app_or in Hc. destruct Hc as [Hc|[Hc|[]]]; [exact (Ha c' Hc)|]. injection Hc as -> _. rewrite str_eqb_refl in Ek. discriminate.
    + right. split; [apply dget_In; exact H|]. intros c' Hc. apply in_rev in Hc. destruct (dget_some _ _ _ Hc). congruence.
  - intros H. apply dget_In. rewrite X. destruct H as [(b & a & -> & Ha)|(H & Hn)].
    + rewrite (dget_last k c b a Ha). reflexivity.
    + destruct (dget k (rev e)) as [y|] eqn:E; [|apply In_dget_NoDup; assumption].
      destruct (Hn y). apply in_rev. apply dget_In. exact E.
Qed.

Lemma remove_key_right : forall k (d : dict), NoDup (keys d) ->
  NoDup (keys (remove_key k d)) /\ forall k' c, In (k', c) (remove_key k d) <-> In (k', c) d /\ k' <> k.
Proof.
  intros k d H. split.
  - unfold remove_key. induction d as [|[x y] d IH]; [constructor|]. inversion H as [|? ? H1 H2]; subst. cbn [filter fst].
    destruct (negb (str_eqb x k)); [|apply IH; exact H2]. constructor; [|apply IH; exact H2].
    intros X. apply H1. apply in_map_iff in X. destruct X as (z & E & Z). apply filter_In in Z. apply in_map_iff. exists z. split; [exact E|apply Z].
  - intros k' c. unfold remove_key. rewrite filter_In. cbn [fst]. rewrite negb_true_iff. split; intros [A B]; (split; [exact A|]).
    + intros ->. rewrite str_eqb_refl in B. discriminate.
    + destruct (str_eqb k' k) eqn:E; [apply str_eqb_eq in E; contradiction|reflexivity].
Qed.

(** ** Once everything was read *)

Section After.
Variable server : list request -> request -> result (list json).
Variable r : route.
Variable fuel : nat.

Lemma run_flags : forall o, z_parsed_ups (o_lazy o) = false ->
  z_parsed_ups (o_lazy (fst (run_owned server r fuel o))) = false /\
  (snd (run_owned server r fuel o) = Ok tt -> z_parsed_kids (o_lazy (fst (run_owned server r fuel o))) = true).
Proof using.
  intros o H. unfold run_owned. rewrite H. unfold load.
  match goal with |- context [load_from server r fuel ?s Children ?q] =>
    destruct (load_flags server r fuel s Children q) as (A & B & C); destruct (load_from server r fuel s Children q) as [st res] end.
  cbn [fst snd o_lazy] in *. split; [rewrite (proj1 (B eq_refl)); exact H|apply C; reflexivity].
Qed.

Lemma reach_flags : forall v o, z_parsed_ups (o_lazy (fst (reach v o))) = z_parsed_ups (o_lazy o) /\
  (forall n, snd (reach v o) = Some n -> z_parsed_kids (o_lazy (fst (reach v o))) = true).
Proof using.
  intros [] o; [|split; [reflexivity|discriminate]]. cbn [reach]. unfold children_of, kids_property.
  destruct (z_parsed_kids (o_lazy o)) eqn:E; [split; [reflexivity|intros n _; exact E]|].
  destruct (z_size (o_lazy o) =? 0)%Z; cbn; (split; [reflexivity|]); [reflexivity|discriminate].
Qed.

Lemma deed_flags : forall o a, z_parsed_ups (o_lazy o) = false ->
  z_parsed_ups (o_lazy (fst (do_deed server r fuel o a))) = false /\
  (forall v d, a = ReadAll v -> snd (do_deed server r fuel o a) = Ok (All d) -> z_parsed_kids (o_lazy (fst (do_deed server r fuel o a))) = true).
Proof using.
  intros o a H. destruct a as [v|v k|v e|d|v n|n|v k m|v k]; cbn [do_deed]; try (split; [exact H|discriminate]).
  - destruct (reach_flags v o) as (A & B). destruct (reach v o) as [o1 [n|]]; cbn [fst snd] in *.
    + split; [congruence|]. intros _ _ _ _. apply (B n). reflexivity.
    + destruct (run_flags o1) as (C & D); [congruence|]. destruct (run_owned server r fuel o1) as [o2 [[]|e]]; cbn [fst snd] in *.
      * split; [exact C|]. intros _ _ _ _. apply D. reflexivity.
      * split; [exact C|]. discriminate.
  - destruct (reach_flags v o) as (A & B). destruct (reach v o) as [o1 [n|]]; cbn [fst snd] in *; [split; [congruence|discriminate]|].
    destruct (dget k (dict_at o1 (o_held o1))); [split; [cbn; congruence|discriminate]|].
    destruct (run_flags o1) as (C & D); [congruence|]. destruct (run_owned server r fuel o1) as [o2 res]; cbn [fst snd] in *. split; [exact C|discriminate].
  - destruct (reach_flags v o) as (A & B). destruct (reach v o) as [o1 d]. cbn [fst snd store o_lazy] in *. split; [congruence|discriminate].
  - destruct (reach_flags v o) as (A & B). destruct (reach v o) as [o1 [m|]]; cbn [fst snd o_lazy] in *; (split; [congruence|discriminate]).
  - destruct (reach_flags v o) as (A & B). destruct (reach v o) as [o1 [m'|]]; cbn [fst snd o_lazy store] in *; (split; [congruence|discriminate]).
  - assert (P : forall o n, o_lazy (fst (pop_from o n k)) = o_lazy o) by (intros o' n; unfold pop_from; destruct (dget k (dict_at o' n)); reflexivity).
    destruct (reach_flags v o) as (A & B). destruct (reach v o) as [o1 [m'|]]; cbn [fst snd] in *; [split; [rewrite P; congruence|discriminate]|].
    destruct (run_flags o1) as (C & D); [congruence|]. destruct (run_owned server r fuel o1) as [o2 [u|e]]; cbn [fst snd] in *; (split; [|discriminate]); [rewrite P; exact C|exact C].
Qed.

Lemma deeds_flags : forall h o, z_parsed_ups (o_lazy o) = false -> z_parsed_ups (o_lazy (fst (do_deeds server r fuel o h))) = false.
Proof using.
  induction h as [|a h IH]; intros o H; [exact H|]. cbn [do_deeds]. pose proof (proj1 (deed_flags o a H)) as X.
  destruct (do_deed server r fuel o a) as [o1 x]. cbn [fst] in X. specialize (IH o1 X). destruct (do_deeds server r fuel o1 h). exact IH.
Qed.
End After.

(** ** The first reading, whatever the dictionary *)

Lemma still_proxy : forall o, z_parsed_kids (o_lazy o) = false -> z_size (o_lazy o) <> 0%Z -> children_of o = (o, None).
Proof.
  intros [st ds h a] H1 H2. unfold children_of, kids_property. cbn [o_lazy o_dicts o_held o_attr] in *. rewrite H1, (proj2 (Z.eqb_neq _ _) H2). reflexivity.
Qed.

Lemma replace_same : forall n d l, n < length l -> nth n (replace n d l) [] = d.
Proof. induction n as [|n IH]; intros d [|x l] H; cbn in *; try lia; [reflexivity|]. apply IH. lia. Qed.

Section First.
Variable server : list request -> request -> result (list json).
Variable r : route.
Variable id : str.
Variable ans : Z -> result (list json).
Hypothesis Hr : NoDup (map fst (rt_query r)).
Hypothesis Hsteady : steady server r id Children ans.
Variable l : list (list coll).
Hypothesis Hpages : cpages ans 1 l.

Lemma read_first : forall fuel o v, length l <= fuel -> z_id (o_lazy o) = id -> z_parsed_kids (o_lazy o) = false ->
  z_size (o_lazy o) <> 0%Z -> z_parsed_ups (o_lazy o) = false -> z_last_kids (o_lazy o) = None -> o_attr o = None ->
  o_held o < length (o_dicts o) ->
  exists o' x, do_deed server r fuel o (ReadAll v) = (o', x) /\ (x = Err HTTPError \/ x = Ok (All (kupdate (concat l) (dict_at o (o_held o)))) /\
                           dict_at o' (o_held o) = kupdate (concat l) (dict_at o (o_held o))).
Proof using Hr Hsteady Hpages.
  intros fuel o v Hf H1 H2 H3 H4 H5 H6 H7. cbn [do_deed].
  assert (R : reach v o = (o, None)) by (destruct v; [apply still_proxy; assumption|reflexivity]). rewrite R.
  unfold run_owned. rewrite H4. unfold target. rewrite H6. unfold load. cbn [with_kids z_last_kids]. rewrite H5.
  pose proof (load_pages server r id ans Hr Hsteady 1 l Hpages fuel (with_kids (o_lazy o) (dict_at o (o_held o))) Hf H1) as X.
  unfold with_kids in *. rewrite H5 in *.
  match goal with |- context [load_from server r fuel ?s Children 1] => destruct (load_from server r fuel s Children 1) as [st res] end.
  cbn [fst snd z_kids] in X. eexists. eexists. split; [reflexivity|].
  destruct X as [->|(-> & X)]; [left; reflexivity|]. right. cbn [bind]. rewrite X.
  match goal with |- context [dict_at ?oo (o_held o)] => match oo with o => fail 1 | _ => assert (Y : dict_at oo (o_held o) = kupdate (concat l) (dict_at o (o_held o))) end end.
  { unfold dict_at at 1. cbn [o_dicts store]. apply replace_same. exact H7. }
  cbn [o_held]. rewrite Y. split; reflexivity.
Qed.
End First.

(** ** The parents *)

Section Parents.
Variable server : list request -> request -> result (list json).
Variable r : route.
Variable id : str.
Variable ans : Z -> result (list json).
Variable U : list (list coll).
Hypothesis Hr : NoDup (map fst (rt_query r)).
Hypothesis Hsteady : steady server r id Parents ans.
Hypothesis Hpages : cpages ans 1 U.

Lemma ups_add : forall base st e, uinv id ans U base st -> uinv id ans U (base ++ e) (with_ups st (z_ups st ++ e)).
Proof.
  intros base st e (A & B & C & D & E). unfold uinv, with_ups. cbn [z_id z_ups z_parsed_ups z_last_ups].
  split; [exact A|]. split; [apply incl_app; [apply incl_appl; exact B|apply incl_appr, incl_refl]|].
  split; [|split; [intros X; apply incl_appl, D, X|]].
  - apply incl_app; [|apply incl_appl, incl_appr, incl_refl]. intros x Hx. apply C in Hx. apply in_app_or in Hx. rewrite !in_app_iff. tauto.
  - destruct (z_last_ups st); [|exact I]. destruct E as (E1 & pre & l & E2 & E3 & E4). split; [exact E1|]. exists pre, l. split; [exact E2|]. split; [exact E3|apply incl_appl; exact E4].
Qed.

Lemma ups_access : forall base fuel st a, length U <= fuel -> uinv id ans U base st ->
  uinv id ans U base (fst (do_access server r fuel st a)) /\ right_parents base U a (snd (do_access server r fuel st a)).
Proof using Hr Hsteady Hpages.
  intros base fuel st a Hf Hi.
  assert (T : forall out, incl (base ++ concat U) out -> incl out (base ++ concat U) ->
    forall c, In c out <-> In c base \/ exists cs, In cs U /\ In c cs).
  { intros out A B y. split.
    - intros Hy. apply B in Hy. apply in_app_or in Hy. destruct Hy as [Hy|Hy]; [left; exact Hy|right]. apply in_concat in Hy. destruct Hy as (cs & H1 & H2). eauto.
    - intros Hy. apply A. apply in_or_app. destruct Hy as [Hy|(cs & H1 & H2)]; [left; exact Hy|right]. apply in_concat. eauto. }
  assert (P : forall x, (x = Err HTTPError \/ exists l, x = Ok (Ups l) /\ incl (base ++ concat U) l /\ incl l (base ++ concat U)) -> right_parents base U a x).
  { intros x [X|(l & X & A & B)] _; [left; exact X|right]. exists l. split; [exact X|apply T; assumption]. }
  assert (K : ~ reads_parents a \/ a = ReadUps \/ a = HeldUps) by (destruct a; cbn; tauto). destruct K as [K|[-> | ->]].
  - destruct (kids_access_ups server r fuel st a K) as (A & B & C & D). split; [|intros X; destruct (K X)].
    unfold uinv. rewrite A, B, C, D. exact Hi.
  - cbn [do_access]. destruct (z_parsed_ups st) eqn:E.
    + split; [exact Hi|]. apply P. right. eexists. split; [reflexivity|]. pose proof Hi as (_ & A2 & A3 & A4 & _). split; [apply incl_app; [exact A2|apply A4; exact E]|exact A3].
    + destruct (parents_proxy server r id ans U base Hr Hsteady Hpages fuel st Hf Hi) as (A & B). split; [exact A|apply P; exact B].
  - cbn [do_access]. destruct (parents_proxy server r id ans U base Hr Hsteady Hpages fuel st Hf Hi) as (A & B). split; [exact A|apply P; exact B].
Qed.

Lemma ups_history : forall fuel h base st, length U <= fuel -> uinv id ans U base st ->
  right_parents_history U base h (snd (do_updeeds server r fuel st h)).
Proof using Hr Hsteady Hpages.
  intros fuel. induction h as [|[a|e] h IH]; intros base st Hf Hi; cbn [do_updeeds do_updeed]; [constructor| |].
  - destruct (ups_access base fuel st a Hf Hi) as (A & B). destruct (do_access server r fuel st a) as [st1 x]. cbn [fst snd] in *.
    specialize (IH base st1 Hf A). destruct (do_updeeds server r fuel st1 h) as [st2 xs]. constructor; assumption.
  - specialize (IH (base ++ e) _ Hf (ups_add base st e Hi)). destruct (do_updeeds server r fuel (with_ups st (z_ups st ++ e)) h) as [st2 xs].
    constructor. exact IH.
Qed.

End Parents.

Lemma load_from_ups : forall server r fuel st p, snd (load_from server r fuel st Parents p) = Ok tt ->
  z_parsed_ups (fst (load_from server r fuel st Parents p)) = true.
Proof.
  intros server r. induction fuel as [|f IH]; intros st p; cbn [load_from]; (destruct (p =? 0)%Z; [reflexivity|]); [discriminate|].
  destruct (server _ _) as [[|data rest]|e]; [discriminate| |discriminate].
  destruct (cs <- parse_member data ;; _) as [[cs v]|e]; [|discriminate].
  destruct (next_page_number data) as [[n|]|e]; [apply IH|reflexivity|discriminate].
Qed.

Lemma silent_access : forall server r fuel st a, z_parsed_ups st = true ->
  z_sent (fst (do_access server r fuel st a)) = z_sent st /\ z_parsed_ups (fst (do_access server r fuel st a)) = true.
Proof.
  intros server r fuel st a H.
  assert (K : z_sent (fst (kids_property st)) = z_sent st /\ z_parsed_ups (fst (kids_property st)) = true).
  { unfold kids_property. destruct (z_parsed_kids st); [split; [reflexivity|exact H]|]. destruct (negb _); split; solve [reflexivity|exact H]. }
  assert (R : forall s d, z_parsed_ups s = true -> run_proxy server r fuel s d = (s, Ok tt)) by (intros s d E; unfold run_proxy; rewrite E; reflexivity).
  assert (J : forall s k, z_parsed_ups s = true -> fst (item_proxy server r fuel s k) = s).
  { intros s k E. unfold item_proxy. destruct (dget k (z_kids s)); [reflexivity|]. rewrite R by exact E. reflexivity. }
  destruct a; cbn [do_access].
  - destruct (kids_property st) as [s []]; cbn [fst] in K; [|exact K]. unfold iter_proxy. rewrite R by apply K. exact K.
  - unfold iter_proxy. rewrite R by exact H. split; [reflexivity|exact H].
  - destruct (kids_property st) as [s []]; cbn [fst] in K; [|exact K]. rewrite J by apply K. exact K.
  - rewrite J by exact H. split; [reflexivity|exact H].
  - rewrite H. split; [reflexivity|exact H].
  - unfold iter_proxy. rewrite R by exact H. split; [reflexivity|exact H].
Qed.
