(** Proofs about lazily loaded collections: the children read, and the parents. *)

From Coq Require Import List NArith ZArith Arith Bool Lia.
From Verif Require Import PyStr PyStrFacts Json HttpModel HttpSpec HttpProofs MetaProofs DtsModel DtsSpec DtsProofs Props_Http.
Import ListNotations.

(** ** Dictionaries of members *)

Section Members.
Variable L : list (list coll).
Hypothesis HL : consistent L.

Definition sound (d : list (str * coll)) : Prop :=
  NoDup (keys d) /\ forall k c, In (k, c) d -> is_member L k c.
Definition holds (d : list (str * coll)) (cs : list coll) : Prop := forall c, In c cs -> In (co_id c, c) d.
Definition full (d : list (str * coll)) : Prop := forall k c, is_member L k c -> In (k, c) d.

Lemma sound_dset : forall d c cs, sound d -> In cs L -> In c cs -> sound (dset (co_id c) c d).
Proof using.
  intros d c cs [H1 H2] Hc1 Hc2. split; [apply NoDup_keys_dset; exact H1|].
  intros k x H. apply In_dget_NoDup in H; [|apply NoDup_keys_dset; exact H1]. rewrite dget_dset in H.
  destruct (str_eqb (co_id c) k) eqn:E.
  - apply str_eqb_eq in E. injection H as <-. split; [exact E|]. exists cs. auto.
  - apply H2. apply dget_In. exact H.
Qed.

Lemma dset_keeps : forall d c cs k x, sound d -> In cs L -> In c cs -> In (k, x) d -> In (k, x) (dset (co_id c) c d).
Proof using HL.
  intros d c cs k x [H1 H2] Hc1 Hc2 H. apply dget_In. rewrite dget_dset. destruct (str_eqb (co_id c) k) eqn:E.
  - apply str_eqb_eq in E. f_equal. apply (HL k); [|apply H2; exact H]. split; [exact E|]. exists cs. auto.
  - apply In_dget_NoDup; assumption.
Qed.

Lemma kupdate_sound : forall all cs d, In all L -> (forall c, In c cs -> In c all) -> sound d ->
  sound (kupdate cs d) /\ (forall k x, In (k, x) d -> In (k, x) (kupdate cs d)) /\ holds (kupdate cs d) cs.
Proof using HL.
  intros all. induction cs as [|c cs IH]; intros d Hl Hs Hd.
  - split; [exact Hd|]. split; [auto|]. intros c [].
  - unfold kupdate. cbn [fold_left]. fold (kupdate cs (dset (co_id c) c d)).
    assert (Hd' : sound (dset (co_id c) c d)) by (apply (sound_dset d c all); [exact Hd|exact Hl|apply Hs; left; reflexivity]).
    destruct (IH (dset (co_id c) c d) Hl (fun x Hx => Hs x (or_intror Hx)) Hd') as (A & B & C).
    split; [exact A|]. split.
    + intros k x H. apply B. apply (dset_keeps d c all); auto. apply Hs. left; reflexivity.
    + intros x [<-|Hx]; [|apply C; exact Hx]. apply B. apply dget_In. rewrite dget_dset, str_eqb_refl. reflexivity.
Qed.

Lemma full_dictionary : forall d, sound d -> full d -> is_dictionary_of d L.
Proof using. intros d [H1 H2] H3. split; [exact H1|]. intros k c. split; auto. Qed.
End Members.

(** ** Requests *)

Lemma page_request : forall r id d p, (0 < p)%Z ->
  get_collection r (StrParam id) (StrParam (direction_name d)) (if (1 <? p)%Z then IntParam p else NoParam) =
  get_collection r (StrParam id) (StrParam (match d with Children => #"children" | Parents => #"parents" end)) (IntParam p).
Proof.
  intros r id d p Hp. replace (direction_name d) with (match d with Children => #"children" | Parents => #"parents" end) by (destruct d; reflexivity).
  destruct (Z.ltb_spec 1 p); [reflexivity|]. assert (p = 1%Z) as -> by lia. destruct d; reflexivity.
Qed.

Lemma steady_page : forall server r id d ans sent p, NoDup (map fst (rt_query r)) -> steady server r id d ans -> (0 < p)%Z ->
  let q := get_collection r (StrParam id) (StrParam (direction_name d)) (if (1 <? p)%Z then IntParam p else NoParam) in
  server sent q = ans p \/ server sent q = Err HTTPError.
Proof.
  intros server r id d ans sent p Hr Hs Hp. cbv zeta. rewrite page_request by exact Hp. apply Hs; [exact Hp|].
  exact (proj1 (C40_dts_requests r (StrParam id) _ NoParam NoParam NoParam NoParam (IntParam p) None [] Hr rf_none)).
Qed.

Lemma view_known : forall fs, exists b, jhas (JObj fs) (hydra_term #"view") = Ok b.
Proof. intros fs. unfold jhas. eauto. Qed.

Lemma next_has_view : forall fs u, next_address fs (Some u) -> jhas (JObj fs) (hydra_term #"view") = Ok true.
Proof. intros fs u (v & rest & E & _). apply (has_view_jhas fs true). exists (JList (JObj v :: rest)). exact E. Qed.

(** ** The children *)

Section Kids.
Variable server : list request -> request -> result (list json).
Variable r : route.
Variable id : str.
Variable ans : Z -> result (list json).
Variable L : list (list coll).
Variable size : Z.
Hypothesis Hr : NoDup (map fst (rt_query r)).
Hypothesis Hsteady : steady server r id Children ans.
Hypothesis Hpages : cpages ans 1 L.
Hypothesis HL : consistent L.
Hypothesis Hsize : size = 0%Z -> length L <= 1.

(** The pages up to [cs] were received. *)
Definition upto (d : list (str * coll)) (p : Z) : Prop :=
  (0 < p)%Z /\ exists pre l, L = pre ++ l /\ cpages ans p l /\ forall cs, In cs pre -> holds d cs.

Definition inv (st : lazy) : Prop :=
  z_id st = id /\ z_size st = size /\ sound L (z_kids st) /\ holds (z_kids st) (hd [] L) /\
  (z_parsed_kids st = true -> full L (z_kids st)) /\
  (z_parsed_ups st = true -> full L (z_kids st)) /\
  match z_last_kids st with None => True | Some p => upto (z_kids st) p end.

Lemma holds_grow : forall d d' cs, (forall k x, In (k, x) d -> In (k, x) d') -> holds d cs -> holds d' cs.
Proof using. intros d d' cs H H0 c Hc. apply H, H0, Hc. Qed.

Lemma full_pages : forall d, (forall cs, In cs L -> holds d cs) -> full L d.
Proof using. intros d H k c [<- (cs & H1 & H2)]. apply (H cs H1 c H2). Qed.

Lemma sending_inv : forall st q, inv st -> inv (sending st q).
Proof using. intros st q H. exact H. Qed.

Lemma load_kids : forall p l, cpages ans p l -> forall fuel st pre, L = pre ++ l -> length l <= fuel ->
  inv st -> (forall cs, In cs pre -> holds (z_kids st) cs) ->
  exists st' res, load_from server r fuel st Children p = (st', res) /\ inv st' /\
    (res = Err HTTPError \/ res = Ok tt /\ full L (z_kids st') /\ z_parsed_kids st' = true).
Proof using Hr Hsteady HL Hsize.
  intros p l H. induction H as [p fs rest cs Hp Ha Hm Hn|p fs rest cs u n m l Hp Ha Hm Hn Hu Hd Hl IH];
    intros fuel st pre EL Hf Hi Hpre; (destruct fuel as [|fuel]; [cbn in Hf; lia|]).
  - cbn [load_from]. rewrite (proj2 (Z.eqb_neq p 0)) by lia.
    destruct Hi as (I1 & I2 & I3 & I4 & I5 & I6 & I7). rewrite I1.
    destruct (steady_page server r id Children ans (z_sent st) p Hr Hsteady Hp) as [E|E]; rewrite E.
    2:{ eexists; eexists; split; [reflexivity|]. split; [|left; reflexivity]. apply sending_inv. exact (conj I1 (conj I2 (conj I3 (conj I4 (conj I5 (conj I6 I7)))))). }
    rewrite Ha. cbn [bind]. rewrite (says_members_parse _ _ Hm). cbn [bind]. destruct (view_known fs) as (v & Ev). rewrite Ev. cbn [bind].
    rewrite (next_address_number _ _ Hn).
    assert (Hin : In cs L) by (rewrite EL; apply in_or_app; right; left; reflexivity).
    destruct (kupdate_sound L HL cs cs (z_kids st) Hin (fun c Hc => Hc) I3) as (A & B & C).
    assert (F : full L (kupdate cs (z_kids st))).
    { apply full_pages. intros cs' Hc. rewrite EL in Hc. apply in_app_or in Hc. destruct Hc as [Hc|[<-|[]]]; [|exact C].
      eapply holds_grow; [exact B|apply Hpre; exact Hc]. }
    eexists; eexists; split; [reflexivity|]. split.
    + unfold inv, finished, received, sending. cbn [z_id z_size z_kids z_parsed_kids z_parsed_ups z_last_kids].
      split; [exact I1|]. split; [exact I2|]. split; [exact A|]. split; [eapply holds_grow; [exact B|exact I4]|].
      split; [auto|]. split; [auto|]. split; [exact Hp|]. exists pre, [cs]. split; [exact EL|]. split; [|intros cs' Hc; eapply holds_grow; [exact B|apply Hpre; exact Hc]].
      eapply cpages_last; eassumption.
    + right. split; [reflexivity|]. split; [exact F|reflexivity].
  - cbn [load_from]. rewrite (proj2 (Z.eqb_neq p 0)) by lia.
    destruct Hi as (I1 & I2 & I3 & I4 & I5 & I6 & I7). rewrite I1.
    destruct (steady_page server r id Children ans (z_sent st) p Hr Hsteady Hp) as [E|E]; rewrite E.
    2:{ eexists; eexists; split; [reflexivity|]. split; [|left; reflexivity]. apply sending_inv. exact (conj I1 (conj I2 (conj I3 (conj I4 (conj I5 (conj I6 I7)))))). }
    rewrite Ha. cbn [bind]. rewrite (says_members_parse _ _ Hm). cbn [bind]. rewrite (next_has_view _ _ Hn). cbn [bind].
    rewrite (next_address_number _ _ Hn), (first_page_number_some _ _ Hu). cbn [bind]. rewrite (decimal_number _ _ Hd).
    assert (Hin : In cs L) by (rewrite EL; apply in_or_app; right; left; reflexivity).
    destruct (kupdate_sound L HL cs cs (z_kids st) Hin (fun c Hc => Hc) I3) as (A & B & C).
    apply (IH fuel _ (pre ++ [cs])).
    + rewrite <- app_assoc. exact EL.
    + cbn in Hf. lia.
    + unfold inv, received, sending. cbn [z_id z_size z_kids z_parsed_kids z_parsed_ups z_last_kids].
      split; [exact I1|]. split; [exact I2|]. split; [exact A|]. split; [eapply holds_grow; [exact B|exact I4]|].
      assert (Fg : full L (z_kids st) -> full L (kupdate cs (z_kids st))) by (intros F k c Hk; apply B, F, Hk).
      split; [|split].
      * intros X. apply orb_true_iff in X. destruct X as [X|X]; [apply Fg, I5, X|]. exfalso.
        unfold closes in X. rewrite I2 in X. destruct cs; [discriminate|]. cbn in X. apply Z.eqb_eq in X. specialize (Hsize X).
        rewrite EL, app_length in Hsize. cbn in Hsize. destruct l; [inversion Hl|cbn in Hsize; lia].
      * intros X. apply Fg, I6, X.
      * split; [exact Hp|]. exists pre, (cs :: l). split; [exact EL|]. split; [eapply cpages_more; eassumption|].
        intros cs' Hc. eapply holds_grow; [exact B|apply Hpre; exact Hc].
    + intros cs' Hc. unfold received, sending. cbn [z_kids]. apply in_app_or in Hc. destruct Hc as [Hc|[<-|[]]]; [|exact C].
      eapply holds_grow; [exact B|apply Hpre; exact Hc].
Qed.

Lemma load_children : forall fuel st, length L <= fuel -> inv st ->
  exists st' res, load server r fuel st Children = (st', res) /\ inv st' /\
    (res = Err HTTPError \/ res = Ok tt /\ full L (z_kids st') /\ z_parsed_kids st' = true).
Proof using Hr Hsteady HL Hsize Hpages.
  intros fuel st Hf Hi. unfold load. pose proof Hi as (_ & _ & _ & _ & _ & _ & I7).
  destruct (z_last_kids st) as [p|].
  - destruct I7 as (Hp & pre & l & EL & Hl & Hpre). rewrite (proj2 (Z.eqb_neq p 0)) by lia.
    apply (load_kids p l Hl fuel st pre EL); auto. rewrite EL, app_length in Hf. lia.
  - apply (load_kids 1 L Hpages fuel st []); auto. intros cs [].
Qed.

Lemma proxy_children : forall fuel st, length L <= fuel -> inv st ->
  exists st' res, run_proxy server r fuel st Children = (st', res) /\ inv st' /\
    (res = Err HTTPError \/ res = Ok tt /\ full L (z_kids st')).
Proof using Hr Hsteady HL Hsize Hpages.
  intros fuel st Hf Hi. unfold run_proxy. destruct (z_parsed_ups st) eqn:E.
  - exists st, (Ok tt). split; [reflexivity|]. split; [exact Hi|]. right. split; [reflexivity|]. apply Hi. exact E.
  - destruct (load_children fuel st Hf Hi) as (st' & res & -> & H1 & H2). exists st', res. split; [reflexivity|]. split; [exact H1|].
    destruct H2 as [H2|(H2 & H3 & _)]; auto.
Qed.

Lemma property_inv : forall st, inv st ->
  inv (fst (kids_property st)) /\ z_kids (fst (kids_property st)) = z_kids st /\
  (snd (kids_property st) = false -> full L (z_kids st)).
Proof using Hsize Hpages HL.
  intros st Hi. unfold kids_property. destruct (z_parsed_kids st) eqn:E1; cbn [fst snd].
  - split; [exact Hi|]. split; [reflexivity|]. intros _. exact (proj1 (proj2 (proj2 (proj2 (proj2 Hi)))) E1).
  - pose proof Hi as (I1 & I2 & I3 & I4 & I5 & I6 & I7). destruct (Z.eqb_spec (z_size st) 0) as [E|E]; cbn [negb fst snd].
    + assert (F : full L (z_kids st)).
      { apply full_pages. rewrite I2 in E. specialize (Hsize E). intros cs Hc. destruct L as [|c0 L0] eqn:EL0; [destruct Hc|].
        destruct L0; [|cbn in Hsize; lia]. destruct Hc as [<-|[]]. exact I4. }
      split; [|auto]. unfold inv, finished. cbn [z_id z_size z_kids z_parsed_kids z_parsed_ups z_last_kids]. exact (conj I1 (conj I2 (conj I3 (conj I4 (conj (fun _ => F) (conj I6 I7)))))).
    + split; [exact Hi|]. split; [reflexivity|]. discriminate.
Qed.

Lemma read_kid_right : forall st k, inv st -> full L (z_kids st) ->
  (exists c, read_kid st k = Ok (Kid c) /\ is_member L k c) \/ (read_kid st k = Err KeyError /\ forall c, ~ is_member L k c).
Proof using.
  intros st k Hi Hf. unfold read_kid. destruct (dget k (z_kids st)) as [c|] eqn:E.
  - left. exists c. split; [reflexivity|]. apply Hi. apply dget_In. exact E.
  - right. split; [reflexivity|]. intros c Hc. apply Hf in Hc. apply In_dget_NoDup in Hc; [congruence|apply Hi].
Qed.

Lemma item_right : forall fuel st k, length L <= fuel -> inv st ->
  inv (fst (item_proxy server r fuel st k)) /\ right_answer L (GetKid k) (snd (item_proxy server r fuel st k)).
Proof using Hr Hsteady HL Hsize Hpages.
  intros fuel st k Hf Hi. unfold item_proxy. destruct (dget k (z_kids st)) as [c|] eqn:E.
  - split; [exact Hi|]. right. left. exists c. split; [reflexivity|]. apply Hi. apply dget_In. exact E.
  - destruct (proxy_children fuel st Hf Hi) as (st' & res & -> & H1 & H2). cbn [fst snd]. split; [exact H1|].
    destruct H2 as [->|(-> & H2)]; [left; reflexivity|]. right. cbn [bind]. apply read_kid_right; assumption.
Qed.

Lemma iter_right : forall fuel st, length L <= fuel -> inv st ->
  inv (fst (iter_proxy server r fuel st Children (fun st => Kids (z_kids st)))) /\
  right_answer L ReadKids (snd (iter_proxy server r fuel st Children (fun st => Kids (z_kids st)))) /\
  forall d, snd (iter_proxy server r fuel st Children (fun st => Kids (z_kids st))) = Ok (Kids d) ->
    full L (z_kids (fst (iter_proxy server r fuel st Children (fun st => Kids (z_kids st))))).
Proof using Hr Hsteady HL Hsize Hpages.
  intros fuel st Hf Hi. unfold iter_proxy. destruct (proxy_children fuel st Hf Hi) as (st' & res & -> & H1 & H2). cbn [fst snd].
  split; [exact H1|]. destruct H2 as [->|(-> & H2)].
  - split; [left; reflexivity|discriminate].
  - cbn [bind]. split; [|intros; exact H2]. right. eexists. split; [reflexivity|]. apply full_dictionary; [apply H1|exact H2].
Qed.

(** Loading the parents does not touch the children. *)
Lemma load_parents_kids : forall fuel st p, let st' := fst (load_from server r fuel st Parents p) in
  z_id st' = z_id st /\ z_size st' = z_size st /\ z_kids st' = z_kids st /\ z_parsed_kids st' = z_parsed_kids st /\
  z_last_kids st' = z_last_kids st.
Proof using.
  induction fuel as [|fuel IH]; intros st p; cbn [load_from]; destruct (p =? 0)%Z; cbv zeta; try (repeat split; reflexivity).
  destruct (server (z_sent st) _) as [[|data rest]|e]; try (repeat split; reflexivity).
  destruct (cs <- parse_member data ;; v <- jhas data (hydra_term #"view") ;; Ok (cs, v)) as [[cs v]|e]; [|repeat split; reflexivity].
  destruct (next_page_number data) as [[n|]|e]; try (repeat split; reflexivity).
  match goal with |- context [load_from server r fuel ?s Parents ?q] => destruct (IH s q) as (A & B & C & D & E) end.
  rewrite A, B, C, D, E. repeat split; reflexivity.
Qed.

Lemma parents_access_kids : forall fuel st a, reads_parents a -> let st' := fst (do_access server r fuel st a) in
  z_id st' = z_id st /\ z_size st' = z_size st /\ z_kids st' = z_kids st /\ z_parsed_kids st' = z_parsed_kids st /\
  z_last_kids st' = z_last_kids st.
Proof using.
  intros fuel st a Ha.
  assert (P : let st' := fst (iter_proxy server r fuel st Parents (fun st => Ups (z_ups st))) in
    z_id st' = z_id st /\ z_size st' = z_size st /\ z_kids st' = z_kids st /\ z_parsed_kids st' = z_parsed_kids st /\
    z_last_kids st' = z_last_kids st).
  { cbv zeta. unfold iter_proxy, run_proxy. destruct (z_parsed_ups st); [repeat split; reflexivity|]. unfold load.
    match goal with |- context [load_from server r fuel ?s Parents ?q] => destruct (load_from server r fuel s Parents q) as [st' res] eqn:E;
      pose proof (load_parents_kids fuel s q) as X end. rewrite E in X. exact X. }
  destruct a; try destruct Ha; cbn [do_access]; [|exact P].
  destruct (z_parsed_ups st); [repeat split; reflexivity|exact P].
Qed.

Lemma access_right : forall fuel st a, length L <= fuel -> inv st -> (~ reads_parents a \/ full L (z_kids st)) ->
  inv (fst (do_access server r fuel st a)) /\ right_answer L a (snd (do_access server r fuel st a)) /\
  (full L (z_kids st) -> full L (z_kids (fst (do_access server r fuel st a)))) /\
  (forall d, snd (do_access server r fuel st a) = Ok (Kids d) -> full L (z_kids (fst (do_access server r fuel st a)))).
Proof using Hr Hsteady HL Hsize Hpages.
  intros fuel st a Hf Hi Ha.
  assert (Grow : forall fuel st, length L <= fuel -> inv st -> full L (z_kids st) ->
    full L (z_kids (fst (run_proxy server r fuel st Children)))).
  { clear -Hr Hsteady HL Hsize Hpages. intros fuel st Hf Hi F. unfold run_proxy. destruct (z_parsed_ups st) eqn:E; [exact F|].
    (* use the parents' flag to carry fullness through the load *)
    assert (X : forall fuel p s l pre, cpages ans p l -> L = pre ++ l -> length l <= fuel -> inv s -> (forall cs, In cs pre -> holds (z_kids s) cs) ->
      full L (z_kids s) -> full L (z_kids (fst (load_from server r fuel s Children p)))).
    { clear fuel st Hf Hi F E. induction fuel as [|fuel IH]; intros p s l pre Hl EL Hf Hi Hpre F; [inversion Hl; subst; cbn in Hf; lia|].
      cbn [load_from]. destruct (p =? 0)%Z; [exact F|].
      destruct (server (z_sent s) _) as [[|data rest0]|e] eqn:Es; try exact F.
      destruct (cs <- parse_member data ;; v <- jhas data (hydra_term #"view") ;; Ok (cs, v)) as [[cs v]|e] eqn:Ep; [|exact F].
      assert (Hin : exists pg l', l = pg :: l' /\ cs = pg /\ forall n, next_page_number data = Ok (Some n) -> cpages ans (number_of n) l').
      { pose proof Hi as (I1 & _). assert (Hp : (0 < p)%Z) by (inversion Hl; assumption).
        pose proof (steady_page server r id Children ans (z_sent s) p Hr Hsteady Hp) as S0. cbv zeta in S0. rewrite <- I1, Es in S0.
        inversion Hl as [? fs rest cs0 _ Ha Hm Hn|? fs rest cs0 u n m l0 _ Ha Hm Hn Hu Hd Hl0]; subst.
        - destruct S0 as [S0|S0]; [|discriminate]. rewrite Ha in S0. injection S0 as -> ->.
          rewrite (says_members_parse _ _ Hm) in Ep. cbn [bind] in Ep. destruct (view_known fs) as (b & Eb). rewrite Eb in Ep. cbn in Ep. injection Ep as <- _.
          exists cs0, []. split; [reflexivity|]. split; [reflexivity|]. intros n X. rewrite (next_address_number _ _ Hn) in X. discriminate.
        - destruct S0 as [S0|S0]; [|discriminate]. rewrite Ha in S0. injection S0 as -> ->.
          rewrite (says_members_parse _ _ Hm) in Ep. cbn [bind] in Ep. destruct (view_known fs) as (b & Eb). rewrite Eb in Ep. cbn in Ep. injection Ep as <- _.
          exists cs0, l0. split; [reflexivity|]. split; [reflexivity|]. intros n' X. rewrite (next_address_number _ _ Hn), (first_page_number_some _ _ Hu) in X.
          cbn in X. injection X as <-. rewrite (decimal_number _ _ Hd). exact Hl0. }
      destruct Hin as (pg & l' & -> & -> & Hnext).
      pose proof Hi as (I1 & I2 & I3 & I4 & I5 & I6 & I7).
      assert (Hin : In pg L) by (rewrite EL; apply in_or_app; right; left; reflexivity).
      destruct (kupdate_sound L HL pg pg (z_kids s) Hin (fun c Hc => Hc) I3) as (A & B & C).
      assert (F' : full L (kupdate pg (z_kids s))) by (intros k c Hk; apply B, F, Hk).
      destruct (next_page_number data) as [[n|]|e] eqn:En; try exact F'.
      apply (IH (number_of n) _ l' (pre ++ [pg])).
      - apply Hnext. reflexivity.
      - rewrite <- app_assoc. exact EL.
      - cbn in Hf. lia.
      - unfold inv, received, sending. cbn [z_id z_size z_kids z_parsed_kids z_parsed_ups z_last_kids].
        split; [exact I1|]. split; [exact I2|]. split; [exact A|]. split; [eapply holds_grow; [exact B|exact I4]|].
        split; [auto|]. split; [auto|]. assert (Hp : (0 < p)%Z) by (inversion Hl; assumption). split; [exact Hp|].
        exists pre, (pg :: l'). split; [exact EL|]. split; [exact Hl|]. intros cs' Hc. eapply holds_grow; [exact B|apply Hpre; exact Hc].
      - intros cs' Hc. unfold received, sending. cbn [z_kids]. apply in_app_or in Hc. destruct Hc as [Hc|[<-|[]]]; [|exact C].
        eapply holds_grow; [exact B|apply Hpre; exact Hc].
      - exact F'. }
    unfold load. pose proof Hi as (_ & _ & _ & _ & _ & _ & I7). destruct (z_last_kids st) as [p|].
    - destruct I7 as (Hp & pre & l & EL & Hl & Hpre). rewrite (proj2 (Z.eqb_neq p 0)) by lia.
      apply (X fuel p st l pre); auto. rewrite EL, app_length in Hf. lia.
    - apply (X fuel 1%Z st L []); auto. intros cs []. }
  assert (GI : forall st k, inv st -> full L (z_kids st) -> full L (z_kids (fst (item_proxy server r fuel st k)))).
  { intros s k Hs F. unfold item_proxy. destruct (dget k (z_kids s)); [exact F|]. pose proof (Grow fuel s Hf Hs F) as X.
    destruct (run_proxy server r fuel s Children). exact X. }
  assert (GK : forall st, inv st -> full L (z_kids st) -> full L (z_kids (fst (iter_proxy server r fuel st Children (fun st => Kids (z_kids st)))))).
  { intros s Hs F. unfold iter_proxy. pose proof (Grow fuel s Hf Hs F) as X. destruct (run_proxy server r fuel s Children). exact X. }
  destruct (property_inv st Hi) as (P1 & P2 & P3).
  destruct a; cbn [do_access].
  - destruct (kids_property st) as [st1 proxy]. cbn [fst snd] in P1, P2, P3. destruct proxy.
    + destruct (iter_right fuel st1 Hf P1) as (A & B & C). split; [exact A|]. split; [exact B|]. split; [|exact C].
      intros F. apply GK; [exact P1|]. rewrite P2. exact F.
    + cbn [fst snd]. split; [exact P1|]. specialize (P3 eq_refl). split.
      * right. eexists. split; [reflexivity|]. rewrite P2. apply full_dictionary; [apply Hi|exact P3].
      * rewrite P2. auto.
  - destruct (iter_right fuel st Hf Hi) as (A & B & C). split; [exact A|]. split; [exact B|]. split; [|exact C]. apply GK. exact Hi.
  - destruct (kids_property st) as [st1 proxy]. cbn [fst snd] in P1, P2, P3. destruct proxy.
    + destruct (item_right fuel st1 k Hf P1) as (A & B). split; [exact A|]. split; [exact B|]. split.
      * intros F. apply GI; [exact P1|]. rewrite P2. exact F.
      * intros d X. exfalso. destruct B as [B|B]; [congruence|]. destruct B as [(c & B & _)|(B & _)]; congruence.
    + cbn [fst snd]. split; [exact P1|]. specialize (P3 eq_refl). split.
      * right. apply read_kid_right; [exact P1|]. rewrite P2. exact P3.
      * rewrite P2. auto.
  - destruct (item_right fuel st k Hf Hi) as (A & B). split; [exact A|]. split; [exact B|]. split; [apply GI; exact Hi|].
    intros d X. exfalso. destruct B as [B|B]; [congruence|]. destruct B as [(c & B & _)|(B & _)]; congruence.
  - destruct Ha as [Ha|F]; [destruct Ha; exact I|].
    destruct (parents_access_kids fuel st ReadUps I) as (A & B & C & D & E). cbn [do_access] in A, B, C, D, E.
    pose proof Hi as (I1 & I2 & I3 & I4 & I5 & I6 & I7).
    split; [|split; [right; exact I|split; [intros _; rewrite C; exact F|intros d _; rewrite C; exact F]]].
    unfold inv. rewrite A, B, C, D, E. exact (conj I1 (conj I2 (conj I3 (conj I4 (conj I5 (conj (fun _ => F) I7)))))).
  - destruct Ha as [Ha|F]; [destruct Ha; exact I|].
    destruct (parents_access_kids fuel st HeldUps I) as (A & B & C & D & E). cbn [do_access] in A, B, C, D, E.
    pose proof Hi as (I1 & I2 & I3 & I4 & I5 & I6 & I7).
    split; [|split; [right; exact I|split; [intros _; rewrite C; exact F|intros d _; rewrite C; exact F]]].
    unfold inv. rewrite A, B, C, D, E. exact (conj I1 (conj I2 (conj I3 (conj I4 (conj I5 (conj (fun _ => F) I7)))))).
Qed.

(** A history of accesses. *)
Lemma history_right : forall fuel h st, length L <= fuel -> inv st ->
  ((forall a, In a h -> ~ reads_parents a) \/ full L (z_kids st)) ->
  inv (fst (do_all server r fuel st h)) /\ Forall2 (right_answer L) h (snd (do_all server r fuel st h)) /\
  (full L (z_kids st) \/ (exists d, In (Ok (Kids d)) (snd (do_all server r fuel st h))) ->
   full L (z_kids (fst (do_all server r fuel st h)))).
Proof using Hr Hsteady HL Hsize Hpages.
  intros fuel. induction h as [|a h IH]; intros st Hf Hi Hh; cbn [do_all].
  - split; [exact Hi|]. split; [constructor|]. intros [H|(d & [])]; exact H.
  - assert (Ha : ~ reads_parents a \/ full L (z_kids st)).
    { destruct Hh as [Hh|Hh]; [left; apply Hh; left; reflexivity|right; exact Hh]. }
    destruct (access_right fuel st a Hf Hi Ha) as (A & B & C & D). destruct (do_access server r fuel st a) as [st1 res]. cbn [fst snd] in *.
    assert (Hh1 : (forall a, In a h -> ~ reads_parents a) \/ full L (z_kids st1)).
    { destruct Hh as [Hh|Hh]; [left; intros x Hx; apply Hh; right; exact Hx|right; apply C; exact Hh]. }
    destruct (IH st1 Hf A Hh1) as (E & F & G). destruct (do_all server r fuel st1 h) as [st2 rs]. cbn [fst snd] in *.
    split; [exact E|]. split; [constructor; assumption|].
    intros [X|(d & [X|X])]; apply G; [left; apply C; exact X|left; apply (D d); exact X|right; exists d; exact X].
Qed.

Lemma open_inv : forall c sent, co_id c = id -> size_of (co_meta c) = size -> first_reply c L -> inv (open_lazy c sent).
Proof using Hpages HL.
  intros c sent Hid Hz (more & z & EL & Ez & Hm). unfold inv, open_lazy. cbn [z_id z_size z_kids z_parsed_kids z_parsed_ups z_last_kids].
  split; [exact Hid|]. split; [exact Hz|].
  assert (Hin : In (co_members c) L) by (rewrite EL; left; reflexivity).
  destruct (kupdate_sound L HL (co_members c) (co_members c) [] Hin (fun c Hc => Hc)) as (A & _ & C).
  { split; [constructor|intros k x []]. }
  split; [exact A|]. split; [rewrite EL; exact C|]. split; [|split; [discriminate|exact I]].
  unfold co_closed, closes. intros X. assert (more = []) as ->.
  { apply Hm. destruct (co_members c); [discriminate|]. apply orb_true_iff in X. destruct X as [X|X].
    - left. destruct (co_view c); [discriminate|reflexivity].
    - right. unfold size_of in X. rewrite Ez in X. cbn in X. apply Z.eqb_eq. exact X. }
  apply full_pages. intros cs Hc. rewrite EL in Hc. destruct Hc as [<-|[]]. exact C.
Qed.

End Kids.

(** ** Requests are not repeated *)

Section Once.
Variable server : list request -> request -> result (list json).
Variable r : route.

Lemma load_flags : forall fuel st d p, let st' := fst (load_from server r fuel st d p) in
  (z_parsed_kids st = true -> z_parsed_kids st' = true) /\
  (d = Children -> z_parsed_ups st' = z_parsed_ups st /\ z_ups st' = z_ups st /\ z_last_ups st' = z_last_ups st /\ z_id st' = z_id st) /\
  (d = Children -> snd (load_from server r fuel st d p) = Ok tt -> z_parsed_kids st' = true).
Proof.
  induction fuel as [|fuel IH]; intros st d p; cbn [load_from]; destruct (p =? 0)%Z; cbv zeta.
  - cbn [fst snd]. split; [destruct d; cbn; auto|]. split; [intros ->; repeat split; reflexivity|intros -> _; reflexivity].
  - cbn [fst snd]. split; [auto|]. split; [intros ->; repeat split; reflexivity|discriminate].
  - cbn [fst snd]. split; [destruct d; cbn; auto|]. split; [intros ->; repeat split; reflexivity|intros -> _; reflexivity].
  - destruct (server (z_sent st) _) as [[|data rest]|e]; try (cbn [fst snd]; split; [auto|]; split; [intros ->; repeat split; reflexivity|discriminate]).
    destruct (cs <- parse_member data ;; v <- jhas data (hydra_term #"view") ;; Ok (cs, v)) as [[cs v]|e];
      [|cbn [fst snd]; split; [auto|]; split; [intros ->; repeat split; reflexivity|discriminate]].
    assert (M : z_parsed_kids st = true -> z_parsed_kids (received (sending st (get_collection r (StrParam (z_id st)) (StrParam (direction_name d))
                 (if (1 <? p)%Z then IntParam p else NoParam))) d p v cs) = true).
    { intros X. destruct d; cbn; rewrite X; reflexivity. }
    destruct (next_page_number data) as [[n|]|e].
    + match goal with |- context [load_from server r fuel ?s d ?q] => destruct (IH s d q) as (A & B & C) end.
      split; [intros X; apply A, M, X|]. split; [|exact C]. intros ->. destruct (B eq_refl) as (B1 & B2 & B3 & B4). rewrite B1, B2, B3, B4. repeat split; reflexivity.
    + cbn [fst snd]. split; [intros X; destruct d; cbn; [reflexivity|exact X]|]. split; [intros ->; repeat split; reflexivity|intros -> _; reflexivity].
    + cbn [fst snd]. split; [exact M|]. split; [intros ->; repeat split; reflexivity|discriminate].
Qed.

(** Accesses to the children leave the parents alone. *)
Lemma kids_access_ups : forall fuel st a, ~ reads_parents a -> let st' := fst (do_access server r fuel st a) in
  z_parsed_ups st' = z_parsed_ups st /\ z_ups st' = z_ups st /\ z_last_ups st' = z_last_ups st /\ z_id st' = z_id st.
Proof.
  intros fuel st a Ha. cbv zeta.
  assert (R : forall s, let s' := fst (run_proxy server r fuel s Children) in
    z_parsed_ups s' = z_parsed_ups s /\ z_ups s' = z_ups s /\ z_last_ups s' = z_last_ups s /\ z_id s' = z_id s).
  { intros s. cbv zeta. unfold run_proxy. destruct (z_parsed_ups s) eqn:E; [repeat split; auto|]. unfold load. rewrite <- E. apply load_flags. reflexivity. }
  assert (P : let s' := fst (kids_property st) in z_parsed_ups s' = z_parsed_ups st /\ z_ups s' = z_ups st /\ z_last_ups s' = z_last_ups st /\ z_id s' = z_id st).
  { cbv zeta. unfold kids_property. destruct (z_parsed_kids st); [repeat split; auto|]. destruct (negb _); repeat split; auto. }
  assert (IT : forall s k, let s' := fst (item_proxy server r fuel s k) in
    z_parsed_ups s' = z_parsed_ups s /\ z_ups s' = z_ups s /\ z_last_ups s' = z_last_ups s /\ z_id s' = z_id s).
  { intros s k. cbv zeta. unfold item_proxy. destruct (dget k (z_kids s)); [repeat split; auto|]. pose proof (R s) as X.
    destruct (run_proxy server r fuel s Children). exact X. }
  assert (IK : forall s, let s' := fst (iter_proxy server r fuel s Children (fun st => Kids (z_kids st))) in
    z_parsed_ups s' = z_parsed_ups s /\ z_ups s' = z_ups s /\ z_last_ups s' = z_last_ups s /\ z_id s' = z_id s).
  { intros s. cbv zeta. unfold iter_proxy. pose proof (R s) as X. destruct (run_proxy server r fuel s Children). exact X. }
  destruct a; cbn [do_access]; try (destruct Ha; exact I).
  - destruct (kids_property st) as [s proxy]. cbn [fst] in P. destruct P as (P1 & P2 & P3 & P4). rewrite <- P1, <- P2, <- P3, <- P4.
    destruct proxy; [apply IK|repeat split; reflexivity].
  - apply IK.
  - destruct (kids_property st) as [s proxy]. cbn [fst] in P. destruct P as (P1 & P2 & P3 & P4). rewrite <- P1, <- P2, <- P3, <- P4.
    destruct proxy; [apply IT|repeat split; reflexivity].
  - apply IT.
Qed.

Lemma access_parsed : forall fuel st a, let out := do_access server r fuel st a in
  (z_parsed_kids st = true -> z_parsed_kids (fst out) = true) /\
  (z_parsed_ups st = false -> (exists d, snd out = Ok (Kids d)) -> z_parsed_kids (fst out) = true).
Proof.
  intros fuel st a. cbv zeta.
  assert (R : forall s d, let out := run_proxy server r fuel s d in
    (z_parsed_kids s = true -> z_parsed_kids (fst out) = true) /\
    (z_parsed_ups s = false -> d = Children -> snd out = Ok tt -> z_parsed_kids (fst out) = true)).
  { intros s d. cbv zeta. unfold run_proxy. destruct (z_parsed_ups s); [split; [auto|discriminate]|]. unfold load.
    match goal with |- context [load_from server r fuel s d ?q] => destruct (load_flags fuel s d q) as (A & B & C) end.
    split; [exact A|]. intros _. exact C. }
  assert (P : let s' := fst (kids_property st) in (z_parsed_kids st = true -> z_parsed_kids s' = true) /\
     z_parsed_ups s' = z_parsed_ups st /\ (snd (kids_property st) = false -> z_parsed_kids s' = true)).
  { cbv zeta. unfold kids_property. destruct (z_parsed_kids st) eqn:E; [repeat split; auto|]. destruct (negb _); repeat split; auto; discriminate. }
  assert (IT : forall s k, let out := item_proxy server r fuel s k in (z_parsed_kids s = true -> z_parsed_kids (fst out) = true) /\ forall d, snd out <> Ok (Kids d)).
  { intros s k. cbv zeta. unfold item_proxy. destruct (dget k (z_kids s)); [split; [auto|discriminate]|]. pose proof (R s Children) as X.
    destruct (run_proxy server r fuel s Children) as [s' res]. cbn [fst snd] in *. split; [apply X|]. intros d Y.
    destruct res; [|discriminate]. cbn in Y. unfold read_kid in Y. destruct (dget k (z_kids s')); discriminate. }
  assert (IK : forall s d f, let out := iter_proxy server r fuel s d f in (z_parsed_kids s = true -> z_parsed_kids (fst out) = true) /\
    (z_parsed_ups s = false -> d = Children -> (exists x, snd out = Ok x) -> z_parsed_kids (fst out) = true)).
  { intros s d f. cbv zeta. unfold iter_proxy. pose proof (R s d) as X. destruct (run_proxy server r fuel s d) as [s' res]. cbn [fst snd] in *.
    split; [apply X|]. intros Hu Hd (x & Y). apply X; auto. destruct res as [[]|]; [reflexivity|discriminate]. }
  destruct a; cbn [do_access].
  - destruct (kids_property st) as [s proxy]. cbn [fst snd] in P. destruct P as (P1 & P2 & P3). destruct proxy.
    + destruct (IK s Children (fun st => Kids (z_kids st))) as (A & B). split; [auto|]. intros Hu (d & Y). apply B; [congruence|reflexivity|eauto].
    + cbn [fst snd]. split; auto.
  - destruct (IK st Children (fun st => Kids (z_kids st))) as (A & B). split; [auto|]. intros Hu (d & Y). apply B; eauto.
  - destruct (kids_property st) as [s proxy]. cbn [fst snd] in P. destruct P as (P1 & P2 & P3). destruct proxy.
    + destruct (IT s k) as (A & B). split; [auto|]. intros _ (d & Y). destruct (B d Y).
    + cbn [fst snd]. split; auto.
  - destruct (IT st k) as (A & B). split; [auto|]. intros _ (d & Y). destruct (B d Y).
  - destruct (z_parsed_ups st); [split; [auto|discriminate]|]. destruct (IK st Parents (fun st => Ups (z_ups st))) as (A & B). split; [exact A|].
    intros _ (d & Y). unfold iter_proxy in Y. destruct (run_proxy server r fuel st Parents) as [s' [[]|]]; discriminate.
  - destruct (IK st Parents (fun st => Ups (z_ups st))) as (A & B). split; [exact A|].
    intros _ (d & Y). unfold iter_proxy in Y. destruct (run_proxy server r fuel st Parents) as [s' [[]|]]; discriminate.
Qed.

Lemma history_parsed : forall fuel h st, (forall a, In a h -> ~ reads_parents a) -> z_parsed_ups st = false ->
  let out := do_all server r fuel st h in
  (z_parsed_kids st = true \/ exists d, In (Ok (Kids d)) (snd out)) -> z_parsed_kids (fst out) = true.
Proof.
  intros fuel. induction h as [|a h IH]; intros st Hh Hu; cbv zeta; cbn [do_all].
  - intros [X|(d & [])]; exact X.
  - destruct (access_parsed fuel st a) as (A & B). destruct (kids_access_ups fuel st a (Hh a (or_introl eq_refl))) as (U & _).
    destruct (do_access server r fuel st a) as [st1 res]. cbn [fst snd] in *.
    specialize (IH st1 (fun x Hx => Hh x (or_intror Hx)) ltac:(congruence)). cbv zeta in IH.
    destruct (do_all server r fuel st1 h) as [st2 rs]. cbn [fst snd] in *.
    intros [X|(d & [X|X])]; apply IH; [left; auto|left; apply B; eauto|right; eauto].
Qed.

Lemma parsed_silent : forall fuel st a, z_parsed_kids st = true -> (a = ReadKids \/ exists k, a = GetKid k) ->
  z_sent (fst (do_access server r fuel st a)) = z_sent st.
Proof.
  intros fuel st a H [->|(k & ->)]; cbn [do_access]; unfold kids_property; rewrite H; reflexivity.
Qed.

End Once.

(** ** The parents *)

Section Ups.
Variable server : list request -> request -> result (list json).
Variable r : route.
Variable id : str.
Variable ans : Z -> result (list json).
Variable U : list (list coll).
Variable base : list coll.
Hypothesis Hr : NoDup (map fst (rt_query r)).
Hypothesis Hsteady : steady server r id Parents ans.
Hypothesis Hpages : cpages ans 1 U.

Definition uinv (st : lazy) : Prop :=
  z_id st = id /\ incl base (z_ups st) /\ incl (z_ups st) (base ++ concat U) /\
  (z_parsed_ups st = true -> incl (concat U) (z_ups st)) /\
  match z_last_ups st with
  | None => True
  | Some p => (0 < p)%Z /\ exists pre l, U = pre ++ l /\ cpages ans p l /\ incl (concat pre) (z_ups st)
  end.

Lemma load_ups : forall p l, cpages ans p l -> forall fuel st pre, U = pre ++ l -> length l <= fuel ->
  uinv st -> incl (concat pre) (z_ups st) ->
  exists st' res, load_from server r fuel st Parents p = (st', res) /\ uinv st' /\
    (res = Err HTTPError \/ res = Ok tt /\ incl (concat U) (z_ups st')).
Proof using Hr Hsteady.
  intros p l H. induction H as [p fs rest cs Hp Ha Hm Hn|p fs rest cs u n m l Hp Ha Hm Hn Hu Hd Hl IH];
    intros fuel st pre EL Hf Hi Hpre; (destruct fuel as [|fuel]; [cbn in Hf; lia|]);
    cbn [load_from]; rewrite (proj2 (Z.eqb_neq p 0)) by lia; pose proof Hi as (I1 & I2 & I3 & I4 & I5); rewrite I1;
    (destruct (steady_page server r id Parents ans (z_sent st) p Hr Hsteady Hp) as [E|E]; rewrite E;
      [|eexists; eexists; split; [reflexivity|]; split; [exact Hi|left; reflexivity]]);
    rewrite Ha; cbn [bind]; rewrite (says_members_parse _ _ Hm); cbn [bind].
  - destruct (view_known fs) as (v & Ev). rewrite Ev. cbn [bind]. rewrite (next_address_number _ _ Hn).
    assert (F : incl (concat U) (z_ups st ++ cs)).
    { rewrite EL, concat_app. cbn. rewrite app_nil_r. apply incl_app; [apply incl_appl; exact Hpre|apply incl_appr; apply incl_refl]. }
    eexists; eexists; split; [reflexivity|]. split; [|right; split; [reflexivity|exact F]].
    unfold uinv, finished, received, sending. cbn [z_id z_ups z_parsed_ups z_last_ups].
    split; [exact I1|]. split; [apply incl_appl; exact I2|]. split; [|split; [auto|]].
    + apply incl_app; [exact I3|]. rewrite EL, concat_app. cbn. rewrite app_nil_r. apply incl_appr, incl_appr, incl_refl.
    + split; [exact Hp|]. exists pre, [cs]. split; [exact EL|]. split; [eapply cpages_last; eassumption|apply incl_appl; exact Hpre].
  - rewrite (next_has_view _ _ Hn). cbn [bind]. rewrite (next_address_number _ _ Hn), (first_page_number_some _ _ Hu). cbn [bind].
    rewrite (decimal_number _ _ Hd). apply (IH fuel _ (pre ++ [cs])).
    + rewrite <- app_assoc. exact EL.
    + cbn in Hf. lia.
    + unfold uinv, received, sending. cbn [z_id z_ups z_parsed_ups z_last_ups].
      split; [exact I1|]. split; [apply incl_appl; exact I2|]. split; [|split].
      * apply incl_app; [exact I3|]. rewrite EL, concat_app. cbn. apply incl_appr, incl_appr, incl_appl, incl_refl.
      * intros X. apply orb_true_iff in X. destruct X as [X|X]; [apply incl_appl, I4, X|]. unfold closes in X. destruct cs; discriminate.
      * split; [exact Hp|]. exists pre, (cs :: l). split; [exact EL|]. split; [eapply cpages_more; eassumption|apply incl_appl; exact Hpre].
    + unfold received, sending. cbn [z_ups]. rewrite concat_app. cbn. rewrite app_nil_r. apply incl_app; [apply incl_appl; exact Hpre|apply incl_appr, incl_refl].
Qed.

Lemma parents_proxy : forall fuel st, length U <= fuel -> uinv st ->
  let out := iter_proxy server r fuel st Parents (fun st => Ups (z_ups st)) in
  uinv (fst out) /\ (snd out = Err HTTPError \/ exists l, snd out = Ok (Ups l) /\ incl (base ++ concat U) l /\ incl l (base ++ concat U)).
Proof using Hr Hsteady Hpages.
  intros fuel st Hf Hi. cbv zeta. unfold iter_proxy.
  assert (R : exists st' res, run_proxy server r fuel st Parents = (st', res) /\ uinv st' /\ (res = Err HTTPError \/ res = Ok tt /\ incl (concat U) (z_ups st'))).
  { unfold run_proxy. destruct (z_parsed_ups st) eqn:E.
    - exists st, (Ok tt). split; [reflexivity|]. split; [exact Hi|]. right. split; [reflexivity|]. apply Hi. exact E.
    - unfold load. pose proof Hi as (_ & _ & _ & _ & I5). destruct (z_last_ups st) as [p|].
      + destruct I5 as (Hp & pre & l & EL & Hl & Hpre). rewrite (proj2 (Z.eqb_neq p 0)) by lia.
        apply (load_ups p l Hl fuel st pre EL); auto. rewrite EL, app_length in Hf. lia.
      + apply (load_ups 1 U Hpages fuel st []); auto. intros x []. }
  destruct R as (st' & res & -> & A & B). cbn [fst snd]. split; [exact A|]. destruct B as [->|(-> & B)]; [left; reflexivity|].
  right. cbn [bind]. eexists. split; [reflexivity|]. pose proof A as (_ & A2 & A3 & _). split; [apply incl_app; assumption|exact A3].
Qed.

Definition right_ups (a : access) (x : result got) : Prop :=
  reads_parents a -> x = Err HTTPError \/ exists l, x = Ok (Ups l) /\ incl (base ++ concat U) l /\ incl l (base ++ concat U).

Lemma parents_history : forall fuel h st, length U <= fuel -> uinv st ->
  Forall2 right_ups h (snd (do_all server r fuel st h)).
Proof using Hr Hsteady Hpages.
  intros fuel. induction h as [|a h IH]; intros st Hf Hi; cbn [do_all]; [constructor|].
  assert (A : uinv (fst (do_access server r fuel st a)) /\ right_ups a (snd (do_access server r fuel st a))).
  { assert (K : ~ reads_parents a \/ a = ReadUps \/ a = HeldUps) by (destruct a; cbn; tauto). destruct K as [K|[-> | ->]].
    - destruct (kids_access_ups server r fuel st a K) as (A & B & C & D). split; [|intros X; destruct (K X)].
      unfold uinv. rewrite A, B, C, D. exact Hi.
    - cbn [do_access]. destruct (z_parsed_ups st) eqn:E.
      + split; [exact Hi|]. intros _. right. eexists. split; [reflexivity|]. pose proof Hi as (_ & A2 & A3 & A4 & _). split; [apply incl_app; [exact A2|apply A4; exact E]|exact A3].
      + destruct (parents_proxy fuel st Hf Hi) as (A & B). split; [exact A|]. intros _. exact B.
    - cbn [do_access]. destruct (parents_proxy fuel st Hf Hi) as (A & B). split; [exact A|]. intros _. exact B. }
  destruct (do_access server r fuel st a) as [st1 res]. cbn [fst snd] in A. destruct A as [A B].
  specialize (IH st1 Hf A). destruct (do_all server r fuel st1 h) as [st2 rs]. cbn [snd] in *. constructor; assumption.
Qed.

End Ups.
