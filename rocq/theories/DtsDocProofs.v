(** Proofs about documents of a DTS resolver. *)

From Coq Require Import List NArith ZArith Arith Bool Lia.
From Verif Require Import PyStr PyStrFacts Json TreeModel HttpModel HttpSpec HttpProofs DtsModel DtsDocModel DtsDocSpec.
Import ListNotations.

(** ** Links *)

Lemma points_to_unique : forall ps a b, points_to ps a -> points_to ps b -> a = b.
Proof.
  intros ps a b Ha Hb. destruct Ha as [v vs E|s ss e es E1 E2 E3|E1 E2]; destruct Hb as [v' vs' F|s' ss' e' es' F1 F2 F3|F1 F2]; try reflexivity; try congruence.
  - destruct F2 as [F2|F2]; congruence.
  - destruct E2 as [E2|E2]; congruence.
Qed.

Lemma leads_unique : forall links rel a b, leads links rel a -> leads links rel b -> a = b.
Proof.
  intros links rel a b [(ps & (b1 & f1 & G) & P)|(N & ->)] [(ps' & (b2 & f2 & G') & P')|(N' & ->)].
  - pose proof (announces_unique _ _ _ _ _ G G') as E. injection E as -> -> ->. eapply points_to_unique; eassumption.
  - exfalso. apply (N' ps). exists b1, f1. exact G.
  - exfalso. apply (N ps'). exists b2, f2. exact G'.
  - reflexivity.
Qed.

(** ** Positions *)

Section Change.
Context {X : Type}.

Lemma change_calls : forall i f (w : session X), ss_calls (change i f w) = ss_calls w.
Proof. reflexivity. Qed.

Lemma change_length : forall i f (w : session X), length (ss_docs (change i f w)) = length (ss_docs w).
Proof. intros. cbn. rewrite map_length, combine_length, seq_length. lia. Qed.

Lemma nth_combine_seq : forall (l : list (document X)) s j,
  nth_error (combine (seq s (length l)) l) j = option_map (fun d => (s + j, d)) (nth_error l j).
Proof.
  induction l as [|x l IH]; intros s j; cbn [length seq combine]; [destruct j; reflexivity|].
  destruct j as [|j]; cbn [nth_error option_map]; [rewrite Nat.add_0_r; reflexivity|]. rewrite IH. destruct (nth_error l j); cbn; [|reflexivity].
  do 2 f_equal. lia.
Qed.

Lemma change_nth : forall i f (w : session X) j,
  nth_error (ss_docs (change i f w)) j = if Nat.eqb j i then option_map f (nth_error (ss_docs w) j) else nth_error (ss_docs w) j.
Proof.
  intros i f w j. cbn. rewrite nth_error_map, nth_combine_seq. destruct (nth_error (ss_docs w) j) as [d|]; cbn; destruct (Nat.eqb j i); reflexivity.
Qed.

Lemma change_last : forall f calls (l : list (document X)) d,
  change (length l) f (MkSession calls (l ++ [d])) = MkSession calls (l ++ [f d]).
Proof.
  intros f calls l d. unfold change. cbn [ss_calls ss_docs]. f_equal. apply nth_ext with (d := d) (d' := d).
  - rewrite map_length, combine_length, seq_length, !app_length. cbn. lia.
  - intros n Hn. rewrite map_length, combine_length, seq_length, Nat.min_id in Hn.
    assert (E : nth_error (ss_docs (change (length l) f (MkSession calls (l ++ [d])))) n = nth_error (l ++ [f d]) n).
    { rewrite change_nth. cbn [ss_docs]. destruct (Nat.eqb_spec n (length l)) as [->|N].
      - rewrite !nth_error_app2, Nat.sub_diag by lia. reflexivity.
      - rewrite app_length in Hn. cbn in Hn. rewrite !nth_error_app1 by lia. reflexivity. }
    assert (L : n < length (l ++ [f d])) by (rewrite app_length in *; cbn in *; lia).
    pose proof (nth_error_nth' (l ++ [f d]) d L) as F. rewrite F in E. cbn [ss_docs change] in E.
    unfold change in E. cbn [ss_docs] in E. apply nth_error_nth with (d := d) in E. exact E.
Qed.
End Change.

(** ** One question *)

Section Steps.
Context {X : Type}.
Variable dec : str -> str.
Variable rs : resolver X.

Lemma open_cases : forall id r (w : session X),
  (exists e, open_document dec rs id r w = (called (CallDocument id r) w, Err e) /\
     (reply <- ask_document rs (ss_calls w) id r ;; make_document dec id r reply) = Err e) \/
  (exists reply d, ask_document rs (ss_calls w) id r = Ok reply /\ make_document dec id r reply = Ok d /\
     open_document dec rs id r w = (MkSession (ss_calls w ++ [CallDocument id r]) (ss_docs w ++ [d]), Ok (length (ss_docs w)))).
Proof.
  intros id r w. unfold open_document. destruct (ask_document rs (ss_calls w) id r) as [reply|e]; cbn [bind]; [|left; exists e; split; reflexivity].
  destruct (make_document dec id r reply) as [d|e] eqn:E; [right|left; exists e; split; reflexivity]. exists reply, d. auto.
Qed.

Lemma made : forall id r reply (d : document X), make_document dec id r reply = Ok d ->
  dd_id d = id /\ dd_ref d = r /\ dd_body d = snd reply /\ dd_depth d = None /\ dd_kids d = None.
Proof.
  intros id r reply d. unfold make_document. destruct (parse_document dec (fst reply)); cbn [bind]; [|discriminate].
  intros E. injection E as <-. cbn. auto.
Qed.

Lemma node_cases : forall i d r (w : session X),
  (exists e, get_node dec rs i d r w = (called (CallDocument (dd_id d) r) w, Err e)) \/
  (exists reply d', ask_document rs (ss_calls w) (dd_id d) r = Ok reply /\ make_document dec (dd_id d) r reply = Ok d' /\
     get_node dec rs i d r w = (MkSession (ss_calls w ++ [CallDocument (dd_id d) r]) (ss_docs w ++ [put_coll (dd_coll d) d']),
                                Ok (ADocument (length (ss_docs w))))).
Proof.
  intros i d r w. unfold get_node. destruct (open_cases (dd_id d) r w) as [(e & E & _)|(reply & d' & A & B & E)]; rewrite E.
  - left. exists e. reflexivity.
  - right. exists reply, d'. split; [exact A|]. split; [exact B|]. rewrite change_last. reflexivity.
Qed.

(** *** What one question may do *)

Definition grows (t : str) (w w' : session X) : Prop :=
  (exists new, ss_calls w' = ss_calls w ++ new /\ Forall (fun c => about c = t) new) /\
  (forall i d, nth_error (ss_docs w) i = Some d -> exists d', nth_error (ss_docs w') i = Some d' /\ same_document d d') /\
  (forall i d', nth_error (ss_docs w') i = Some d' -> length (ss_docs w) <= i -> dd_id d' = t).

Lemma same_refl : forall (d : document X), same_document d d.
Proof. intros d. repeat split; auto. Qed.
Lemma same_trans : forall (a b c : document X), same_document a b -> same_document b c -> same_document a c.
Proof.
  intros a b c (A1 & A2 & A3 & A4 & A5 & A6 & A7 & A8) (B1 & B2 & B3 & B4 & B5 & B6 & B7 & B8).
  unfold same_document. repeat split; try congruence; auto.
Qed.

Lemma grows_refl : forall t w, grows t w w.
Proof.
  intros t w. split; [exists []; rewrite app_nil_r; auto|]. split.
  - intros i d H. exists d. split; [exact H|apply same_refl].
  - intros i d' H L. assert (i < length (ss_docs w)) by (apply nth_error_Some; congruence). lia.
Qed.

Lemma grows_length : forall t w w', grows t w w' -> length (ss_docs w) <= length (ss_docs w').
Proof.
  intros t w w' (_ & H & _). destruct (Nat.le_gt_cases (length (ss_docs w)) (length (ss_docs w'))) as [L|L]; [exact L|exfalso].
  destruct (nth_error (ss_docs w) (length (ss_docs w'))) as [d|] eqn:E; [|apply nth_error_None in E; lia].
  destruct (H _ _ E) as (d' & E' & _). assert (length (ss_docs w') < length (ss_docs w')) by (apply nth_error_Some; congruence). lia.
Qed.

Lemma grows_trans : forall t a b c, grows t a b -> grows t b c -> grows t a c.
Proof.
  intros t a b c Gab Gbc. pose proof (grows_length _ _ _ Gab) as L. destruct Gab as ((n1 & A1 & A2) & A3 & A4). destruct Gbc as ((n2 & B1 & B2) & B3 & B4).
  split; [exists (n1 ++ n2); rewrite B1, A1, app_assoc; split; [reflexivity|]; apply Forall_app; auto|]. split.
  - intros i d H. destruct (A3 _ _ H) as (d' & H' & S). destruct (B3 _ _ H') as (d'' & H'' & S'). exists d''. split; [exact H''|]. eapply same_trans; eassumption.
  - intros i d' H Li. destruct (Nat.le_gt_cases (length (ss_docs b)) i) as [Lb|Lb]; [exact (B4 _ _ H Lb)|].
    destruct (nth_error (ss_docs b) i) as [d0|] eqn:E; [|apply nth_error_None in E; lia].
    destruct (B3 _ _ E) as (d'' & H'' & (S & _)). rewrite H in H''. injection H'' as <-. rewrite S. exact (A4 _ _ E Li).
Qed.

Lemma grows_called : forall c w, grows (about c) w (called c w).
Proof.
  intros c w. split; [exists [c]; split; [reflexivity|repeat constructor]|]. split.
  - intros i d H. exists d. split; [exact H|apply same_refl].
  - intros i d' H L. cbn in H. assert (i < length (ss_docs w)) by (apply nth_error_Some; congruence). lia.
Qed.

Lemma grows_change : forall t i f w, (forall d, nth_error (ss_docs w) i = Some d -> same_document d (f d)) -> grows t w (change i f w).
Proof.
  intros t i f w H. split; [exists []; rewrite app_nil_r; auto|]. split.
  - intros j d E. rewrite change_nth, E. destruct (Nat.eqb_spec j i) as [->|N]; cbn; eexists; split; try reflexivity; [apply H; exact E|apply same_refl].
  - intros j d' E L. assert (j < length (ss_docs (change i f w))) by (apply nth_error_Some; congruence). rewrite change_length in H0. lia.
Qed.

Lemma grows_node : forall i d r w, grows (dd_id d) w (fst (get_node dec rs i d r w)).
Proof.
  intros i d r w. destruct (node_cases i d r w) as [(e & E)|(reply & d' & A & B & E)]; rewrite E; cbn [fst].
  - exact (grows_called (CallDocument (dd_id d) r) w).
  - split; [exists [CallDocument (dd_id d) r]; split; [reflexivity|repeat constructor]|]. cbn [ss_docs ss_calls]. split.
    + intros j x H. exists x. split; [|apply same_refl]. rewrite nth_error_app1; [exact H|]. apply nth_error_Some. congruence.
    + intros j x H L. rewrite nth_error_app2 in H by lia. destruct (j - length (ss_docs w)) as [|k]; cbn in H; [|destruct k; discriminate].
      injection H as <-. cbn. apply made in B. tauto.
Qed.

Lemma grows_kids : forall i d w, nth_error (ss_docs w) i = Some d -> grows (dd_id d) w (fst (child_ids rs i d w)).
Proof.
  intros i d w H. unfold child_ids, get_reffs_of. destruct (dd_kids d) as [l|] eqn:K; [apply grows_refl|]. cbn [ref_truthy].
  destruct (ask_reffs rs (ss_calls w) (dd_id d) 1 (dd_ref d)) as [l|e]; cbn [fst]; [|exact (grows_called (CallReffs (dd_id d) 1 (dd_ref d)) w)].
  eapply grows_trans; [exact (grows_called (CallReffs (dd_id d) 1 (dd_ref d)) w)|]. apply grows_change.
  intros x E. cbn in E. rewrite H in E. injection E as <-. repeat split; cbn; auto. intros l' E'. congruence.
Qed.

Lemma grows_holder : forall i d w, nth_error (ss_docs w) i = Some d -> grows (dd_id d) w (fst (get_holder rs i d w)).
Proof.
  intros i d w H. unfold get_holder. destruct (dd_coll d) as [h|] eqn:K; [apply grows_refl|].
  destruct (ask_collection rs (ss_calls w) (dd_id d)) as [c|e]; cbn [fst]; [|exact (grows_called (CallCollection (dd_id d)) w)].
  eapply grows_trans; [exact (grows_called (CallCollection (dd_id d)) w)|]. apply grows_change.
  intros x E. cbn in E. rewrite H in E. injection E as <-. repeat split; cbn; auto. intros l' E'. congruence.
Qed.

Lemma grows_all : forall i d l w, grows (dd_id d) w (fst (open_all dec rs i d l w)).
Proof.
  intros i d l. induction l as [|x l IH]; intros w; cbn [open_all]; [apply grows_refl|].
  destruct (item_ref x) as [r|e]; [|apply grows_refl]. pose proof (grows_node i d r w) as G.
  destruct (get_node dec rs i d r w) as [w1 [a|e]]; cbn [fst] in *; [|exact G].
  destruct a; cbn [fst]; try exact G. specialize (IH w1). destruct (open_all dec rs i d l w1) as [w2 js]. cbn [fst] in *. eapply grows_trans; eassumption.
Qed.

Lemma grows_ask : forall w i a d, nth_error (ss_docs w) i = Some d -> grows (dd_id d) w (fst (do_ask dec rs w i a)).
Proof.
  intros w i a d H. unfold do_ask. rewrite H.
  pose proof (grows_kids i d w H) as GK. pose proof (grows_holder i d w H) as GH.
  assert (END : forall pick, grows (dd_id d) w (fst (at_end dec rs pick i d w))).
  { intros pick. unfold at_end. destruct (child_ids rs i d w) as [w1 [l|e]]; cbn [fst] in *; [|exact GK].
    destruct (pick (rs_items l)) as [x|]; [|exact GK]. destruct (item_ref x) as [[r|]|e]; try exact GK.
    eapply grows_trans; [exact GK|apply grows_node]. }
  destruct a as [r| | | | | | | |level r| | |].
  - apply grows_node.
  - destruct (dd_prev d); [apply grows_node|apply grows_refl].
  - destruct (dd_next d); [apply grows_node|apply grows_refl].
  - apply grows_node.
  - apply END.
  - apply END.
  - unfold get_children. destruct (child_ids rs i d w) as [w1 [l|e]]; cbn [fst] in *; [|exact GK].
    pose proof (grows_all i d (rs_items l) w1) as G. destruct (open_all dec rs i d (rs_items l) w1) as [w2 js]. cbn [fst] in *. exact (grows_trans _ _ _ _ GK G).
  - destruct (child_ids rs i d w) as [w1 l]. exact GK.
  - unfold get_reffs_of. exact (grows_called (CallReffs (dd_id d) 1 _) w).
  - destruct (get_holder rs i d w) as [w1 h]. exact GH.
  - unfold get_depth. destruct (dd_depth d); [apply grows_refl|].
    destruct (get_holder rs i d w) as [w1 [[c|r]|e]]; cbn [fst] in *; try exact GH.
    eapply grows_trans; [exact GH|]. apply grows_change. intros x E. repeat split; cbn; auto.
  - destruct (get_holder rs i d w) as [w1 [[c|r]|e]]; cbn [fst] in *; exact GH.
Qed.

Lemma history_grows : forall h w w' xs t, Forall (fun d => dd_id d = t) (ss_docs w) -> do_asks dec rs w h = (w', xs) -> grows t w w'.
Proof.
  induction h as [|[i a] h IH]; intros w w' xs t H E; cbn [do_asks] in E.
  - injection E as <- <-. apply grows_refl.
  - destruct (do_ask dec rs w i a) as [w1 x] eqn:A. destruct (do_asks dec rs w1 h) as [w2 xs2] eqn:B. injection E as <- <-.
    assert (G : grows t w w1).
    { destruct (nth_error (ss_docs w) i) as [d|] eqn:N.
      - pose proof (grows_ask w i a d N) as G. rewrite A in G. cbn in G. apply nth_error_In in N. rewrite Forall_forall in H. rewrite (H _ N) in G. exact G.
      - unfold do_ask in A. rewrite N in A. injection A as <- <-. apply grows_refl. }
    eapply grows_trans; [exact G|]. eapply IH; [|exact B]. apply Forall_forall. intros d D. apply In_nth_error in D. destruct D as (n & D).
    destruct G as (_ & G1 & G2). destruct (Nat.le_gt_cases (length (ss_docs w)) n) as [L|L]; [exact (G2 _ _ D L)|].
    destruct (nth_error (ss_docs w) n) as [d0|] eqn:E0; [|apply nth_error_None in E0; lia].
    destruct (G1 _ _ E0) as (d1 & E1 & (S & _)). rewrite D in E1. injection E1 as <-. rewrite S. rewrite Forall_forall in H. apply H. eapply nth_error_In, E0.
Qed.

(** Without the hypothesis that all are about one text: documents are kept. *)
Lemma keeps : forall h w w' xs, do_asks dec rs w h = (w', xs) ->
  forall i d, nth_error (ss_docs w) i = Some d -> exists d', nth_error (ss_docs w') i = Some d' /\ same_document d d'.
Proof.
  induction h as [|[i a] h IH]; intros w w' xs E j d H; cbn [do_asks] in E.
  - injection E as <- <-. exists d. split; [exact H|apply same_refl].
  - destruct (do_ask dec rs w i a) as [w1 x] eqn:A. destruct (do_asks dec rs w1 h) as [w2 xs2] eqn:B. injection E as <- <-.
    assert (G : exists d1, nth_error (ss_docs w1) j = Some d1 /\ same_document d d1).
    { destruct (nth_error (ss_docs w) i) as [d0|] eqn:N.
      - pose proof (grows_ask w i a d0 N) as G. rewrite A in G. cbn in G. destruct G as (_ & G & _). exact (G _ _ H).
      - unfold do_ask in A. rewrite N in A. injection A as <- <-. exists d. split; [exact H|apply same_refl]. }
    destruct G as (d1 & G & S). destruct (IH _ _ _ B _ _ G) as (d2 & G2 & S2). exists d2. split; [exact G2|]. eapply same_trans; eassumption.
Qed.

(** *** A new document *)

Hypothesis Hd : decodes dec.

Lemma make_spec : forall id r links (body : X) reply, replies reply links body ->
  exists d, make_document dec id r reply = Ok d /\ dd_id d = id /\ dd_ref d = r /\ dd_body d = body /\
    leads links #"next" (dd_next d) /\ leads links #"prev" (dd_prev d) /\ dd_parent d = None /\ dd_depth d = None /\ dd_kids d = None.
Proof using Hd.
  intros id r links body reply (-> & Hl & Hp). unfold make_document. cbn [fst snd].
  pose proof (document_spec dec links Hd Hl) as (S & _). destruct (parse_document dec _) as [doc|e]; cbn [bind].
  - eexists. split; [reflexivity|]. cbn. destruct S as (S1 & S2 & S3 & S4 & S5 & S6). destruct (S6 Hp) as [U _]. auto 10.
  - exfalso. destruct S as (_ & (ps & G & F) & _). exact (Hp ps G F).
Qed.

Lemma node_spec : forall w i d r reply links body, nth_error (ss_docs w) i = Some d ->
  ask_document rs (ss_calls w) (dd_id d) r = Ok reply -> replies reply links body ->
  exists d', do_ask dec rs w i (AskNode r) =
      (MkSession (ss_calls w ++ [CallDocument (dd_id d) r]) (ss_docs w ++ [d']), Ok (ADocument (length (ss_docs w)))) /\
    dd_id d' = dd_id d /\ dd_ref d' = r /\ dd_body d' = body /\ leads links #"next" (dd_next d') /\ leads links #"prev" (dd_prev d') /\
    dd_coll d' = dd_coll d.
Proof using Hd.
  intros w i d r reply links body H A R. unfold do_ask. rewrite H. destruct (make_spec (dd_id d) r links body reply R) as (d1 & M & S).
  destruct (node_cases i d r w) as [(e & E)|(reply' & d' & A' & M' & E)].
  - exfalso. unfold get_node, open_document in E. rewrite A in E. cbn [bind] in E. rewrite M in E. discriminate.
  - rewrite A in A'. injection A' as <-. rewrite M in M'. injection M' as <-. rewrite E. exists (put_coll (dd_coll d) d1). cbn. split; [reflexivity|]. tauto.
Qed.

(** *** Travelling *)

Section Travel.
Variables (id : str) (ps : list (dref * X)).
Hypothesis Hps : publishes rs id ps.

Definition stands (k : nat) (d : document X) : Prop :=
  dd_id d = id /\ exists r body, nth_error ps k = Some (r, body) /\ dd_ref d = Some (DRef r) /\ dd_body d = body /\
    dd_next d = option_map fst (nth_error ps (S k)) /\
    dd_prev d = match k with 0 => None | S j => option_map fst (nth_error ps j) end.

Lemma stands_same : forall k d d', same_document d d' -> stands k d -> stands k d'.
Proof.
  intros k d d' (S1 & S2 & S3 & S4 & S5 & S6 & _) (I & r & body & N & R & B & F & P).
  split; [congruence|]. exists r, body. repeat split; congruence.
Qed.

Lemma goes : forall w i d k r body, nth_error (ss_docs w) i = Some d -> dd_id d = id -> nth_error ps k = Some (r, body) ->
  exists d', get_node dec rs i d (Some (DRef r)) w =
      (MkSession (ss_calls w ++ [CallDocument (dd_id d) (Some (DRef r))]) (ss_docs w ++ [d']), Ok (ADocument (length (ss_docs w)))) /\ stands k d'.
Proof using Hd Hps.
  intros w i d k r body H I N. destruct (Hps (ss_calls w) k r body N) as (reply & links & A & R & LN & LP).
  rewrite <- I in A. destruct (node_spec w i d (Some (DRef r)) reply links body H A R) as (d' & E & S1 & S2 & S3 & S4 & S5 & _).
  unfold do_ask in E. rewrite H in E. exists d'. split; [exact E|]. split; [congruence|]. exists r, body.
  split; [exact N|]. split; [exact S2|]. split; [exact S3|]. split; [exact (leads_unique _ _ _ _ S4 LN)|exact (leads_unique _ _ _ _ S5 LP)].
Qed.

Lemma travels : forall l w i k d, nth_error (ss_docs w) i = Some d -> stands k d ->
  exists d', nth_error (ss_docs (fst (travel dec rs w i l))) (snd (travel dec rs w i l)) = Some d' /\ stands (journey (length ps) k l) d'.
Proof using Hd Hps.
  induction l as [|a l IH]; intros w i k d H S; [exists d; split; assumption|].
  assert (STAY : forall w' x, do_ask dec rs w i a = (w', x) ->
            exists d', nth_error (ss_docs (fst (travel dec rs w' i l))) (snd (travel dec rs w' i l)) = Some d' /\ stands (journey (length ps) k l) d').
  { intros w' x E. pose proof (grows_ask w i a d H) as (_ & G & _). rewrite E in G. cbn [fst] in G. destruct (G _ _ H) as (d1 & H1 & S1).
    eapply IH; [exact H1|eapply stands_same; eassumption]. }
  assert (L : forall j, nth_error (ss_docs w ++ [j]) (length (ss_docs w)) = Some j) by (intros j; rewrite nth_error_app2, Nat.sub_diag by lia; reflexivity).
  destruct a; cbn [travel journey]; try (destruct (do_ask dec rs w i _) as [w' x] eqn:E; exact (STAY _ _ eq_refl)).
  - (* prev *) unfold do_ask in *. rewrite H in *. destruct S as (I & r & body & N & R & B & F & P). rewrite P in *.
    destruct k as [|k]; [exact (STAY _ _ eq_refl)|].
    destruct (nth_error ps k) as [[r' body']|] eqn:K.
    + cbn [option_map fst] in *. destruct (goes w i d k r' body' H I K) as (d' & E & S'). rewrite E. cbn [Nat.pred]. eapply IH; [apply L|exact S'].
    + exfalso. apply nth_error_None in K. assert (S k < length ps) by (apply nth_error_Some; congruence). lia.
  - (* next *) unfold do_ask in *. rewrite H in *. pose proof S as S0. destruct S as (I & r & body & N & R & B & F & P). rewrite F in *.
    destruct (nth_error ps (Datatypes.S k)) as [[r' body']|] eqn:K.
    + cbn [option_map fst] in *. destruct (goes w i d (Datatypes.S k) r' body' H I K) as (d' & E & S'). rewrite E.
      assert (Datatypes.S k < length ps) by (apply nth_error_Some; congruence). replace (Datatypes.S k <? length ps) with true by (symmetry; apply Nat.ltb_lt; lia).
      eapply IH; [apply L|exact S'].
    + apply nth_error_None in K. replace (Datatypes.S k <? length ps) with false by (symmetry; apply Nat.ltb_ge; lia). exact (STAY _ _ eq_refl).
Qed.
End Travel.

(** ** The collection *)

Definition coherent (w : session X) : Prop :=
  forall i d v, nth_error (ss_docs w) i = Some d -> dd_depth d = Some v -> exists c, dd_coll d = Some (HColl c) /\ v = depth_of (co_meta c).

Lemma coherent_called : forall c w, coherent w -> coherent (called c w).
Proof. intros c w H. exact H. Qed.

Lemma coherent_change : forall i f w, coherent w ->
  (forall d v, nth_error (ss_docs w) i = Some d -> dd_depth (f d) = Some v -> exists c, dd_coll (f d) = Some (HColl c) /\ v = depth_of (co_meta c)) ->
  coherent (change i f w).
Proof.
  intros i f w C H j d v E D. rewrite change_nth in E. destruct (Nat.eqb_spec j i) as [->|N]; [|exact (C _ _ _ E D)].
  destruct (nth_error (ss_docs w) i) as [d0|] eqn:E0; [|discriminate]. cbn in E. injection E as <-. apply (H d0); [reflexivity|exact D].
Qed.

Lemma coherent_app : forall calls w d, coherent w -> dd_depth d = None -> coherent (MkSession calls (ss_docs w ++ [d])).
Proof.
  intros calls w d C N j x v E D. cbn in E. destruct (Nat.lt_ge_cases j (length (ss_docs w))) as [L|L].
  - rewrite nth_error_app1 in E by exact L. exact (C _ _ _ E D).
  - rewrite nth_error_app2 in E by exact L. destruct (j - length (ss_docs w)) as [|k]; cbn in E; [|destruct k; discriminate]. injection E as <-. congruence.
Qed.

Lemma coherent_open : forall id r w, coherent w -> coherent (fst (open_document dec rs id r w)).
Proof.
  intros id r w C. destruct (open_cases id r w) as [(e & E & _)|(reply & d' & A & M & E)]; rewrite E; cbn [fst]; [exact C|].
  apply coherent_app; [exact C|]. apply made in M. tauto.
Qed.

Lemma coherent_node : forall i d r w, coherent w -> coherent (fst (get_node dec rs i d r w)).
Proof.
  intros i d r w C. destruct (node_cases i d r w) as [(e & E)|(reply & d' & A & M & E)]; rewrite E; cbn [fst]; [exact C|].
  apply coherent_app; [exact C|]. apply made in M. cbn. tauto.
Qed.

Lemma coherent_kids : forall i d w, coherent w -> coherent (fst (child_ids rs i d w)).
Proof.
  intros i d w C. unfold child_ids, get_reffs_of. destruct (dd_kids d); [exact C|]. cbn [ref_truthy].
  destruct (ask_reffs rs (ss_calls w) (dd_id d) 1 (dd_ref d)); cbn [fst]; [|exact C]. apply coherent_change; [exact C|].
  intros x v E D. cbn in *. exact (C _ _ _ E D).
Qed.

Lemma coherent_holder : forall i d w, nth_error (ss_docs w) i = Some d -> coherent w -> coherent (fst (get_holder rs i d w)).
Proof.
  intros i d w H C. unfold get_holder. destruct (dd_coll d) as [h|] eqn:K; [exact C|].
  destruct (ask_collection rs (ss_calls w) (dd_id d)) as [c|e]; cbn [fst]; [|exact C]. apply coherent_change; [exact C|].
  intros x v E D. cbn in *. rewrite H in E. injection E as <-. destruct (C _ _ _ H D) as (c' & Q & _). congruence.
Qed.

Lemma coherent_all : forall i d l w, coherent w -> coherent (fst (open_all dec rs i d l w)).
Proof.
  intros i d l. induction l as [|x l IH]; intros w C; cbn [open_all]; [exact C|]. destruct (item_ref x) as [r|e]; [|exact C].
  pose proof (coherent_node i d r w C) as C1. destruct (get_node dec rs i d r w) as [w1 [a|e]]; cbn [fst] in *; [|exact C1].
  destruct a; cbn [fst]; try exact C1. specialize (IH w1 C1). destruct (open_all dec rs i d l w1). exact IH.
Qed.

Lemma holder_gives : forall i d w w' h, nth_error (ss_docs w) i = Some d -> get_holder rs i d w = (w', Ok h) ->
  exists d', nth_error (ss_docs w') i = Some d' /\ dd_coll d' = Some h.
Proof.
  intros i d w w' h H. unfold get_holder. destruct (dd_coll d) as [k|] eqn:K.
  - intros E. injection E as <- <-. exists d. auto.
  - destruct (ask_collection rs (ss_calls w) (dd_id d)) as [c|e]; [|discriminate]. intros E. injection E as <- <-.
    rewrite change_nth, Nat.eqb_refl. cbn [called ss_docs]. rewrite H. cbn. eexists. split; reflexivity.
Qed.

Lemma coherent_ask : forall w i a, coherent w -> coherent (fst (do_ask dec rs w i a)).
Proof.
  intros w i a C. unfold do_ask. destruct (nth_error (ss_docs w) i) as [d|] eqn:H; [|exact C].
  pose proof (coherent_kids i d w C) as CK. pose proof (coherent_holder i d w H C) as CH.
  assert (END : forall pick, coherent (fst (at_end dec rs pick i d w))).
  { intros pick. unfold at_end. destruct (child_ids rs i d w) as [w1 [l|e]]; cbn [fst] in *; [|exact CK].
    destruct (pick (rs_items l)) as [x|]; [|exact CK]. destruct (item_ref x) as [[r|]|e]; try exact CK. apply coherent_node. exact CK. }
  destruct a as [r| | | | | | | |level r| | |].
  - apply coherent_node, C.
  - destruct (dd_prev d); [apply coherent_node, C|exact C].
  - destruct (dd_next d); [apply coherent_node, C|exact C].
  - apply coherent_node, C.
  - apply END.
  - apply END.
  - unfold get_children. destruct (child_ids rs i d w) as [w1 [l|e]]; cbn [fst] in *; [|exact CK].
    pose proof (coherent_all i d (rs_items l) w1 CK) as G. destruct (open_all dec rs i d (rs_items l) w1). exact G.
  - destruct (child_ids rs i d w). exact CK.
  - exact C.
  - destruct (get_holder rs i d w). exact CH.
  - unfold get_depth. destruct (dd_depth d); [exact C|].
    pose proof (holder_gives i d w) as HG. destruct (get_holder rs i d w) as [w1 [[c|r]|e]]; cbn [fst] in *; try exact CH.
    destruct (HG w1 (HColl c) H eq_refl) as (d1 & E1 & K1). apply coherent_change; [exact CH|]. intros x v E D. cbn in *. injection D as <-.
    rewrite E1 in E. injection E as <-. exists c. auto.
  - destruct (get_holder rs i d w) as [w1 [[c|r]|e]]; exact CH.
Qed.

Lemma session_coherent : forall w, session_of dec rs w -> coherent w.
Proof.
  induction 1 as [|w id r w' x S IH E|w i a w' x S IH E].
  - intros i d v E. destruct i; discriminate.
  - pose proof (coherent_open id r w IH) as C. rewrite E in C. exact C.
  - pose proof (coherent_ask w i a IH) as C. rewrite E in C. exact C.
Qed.

Lemma says_depth_of : forall m v, says_depth m v -> depth_of m = v.
Proof.
  intros m v H. unfold depth_of. destruct H as [z D N|s D C|D C].
  - rewrite D. cbn [jtruthy]. destruct (Z.eqb_spec z 0); [contradiction|reflexivity].
  - destruct D as [-> | ->]; cbn; rewrite C; reflexivity.
  - destruct D as [-> | ->]; cbn; rewrite C; reflexivity.
Qed.

(** *** Which calls are made *)

Definition quiet (w w' : session X) : Prop :=
  exists new, ss_calls w' = ss_calls w ++ new /\ forall id, ~ In (CallCollection id) new.

Lemma quiet_refl : forall w, quiet w w.
Proof. intros w. exists []. rewrite app_nil_r. auto. Qed.
Lemma quiet_trans : forall a b c, quiet a b -> quiet b c -> quiet a c.
Proof.
  intros a b c (n & E & H) (n' & E' & H'). exists (n ++ n'). rewrite E', E, app_assoc. split; [reflexivity|].
  intros id I. apply in_app_or in I. destruct I as [I|I]; [exact (H _ I)|exact (H' _ I)].
Qed.
Lemma quiet_one : forall w c docs, (forall id, c <> CallCollection id) -> quiet w (MkSession (ss_calls w ++ [c]) docs).
Proof. intros w c docs H. exists [c]. split; [reflexivity|]. intros id [E|[]]. exact (H _ E). Qed.
Lemma quiet_node : forall i d r w, quiet w (fst (get_node dec rs i d r w)).
Proof.
  intros i d r w. destruct (node_cases i d r w) as [(e & E)|(reply & d' & A & M & E)]; rewrite E; apply quiet_one; discriminate.
Qed.
Lemma quiet_kids : forall i d w, quiet w (fst (child_ids rs i d w)).
Proof.
  intros i d w. unfold child_ids, get_reffs_of. destruct (dd_kids d); [apply quiet_refl|]. cbn [ref_truthy].
  destruct (ask_reffs rs (ss_calls w) (dd_id d) 1 (dd_ref d)); cbn [fst]; apply quiet_one; discriminate.
Qed.
Lemma quiet_all : forall i d l w, quiet w (fst (open_all dec rs i d l w)).
Proof.
  intros i d l. induction l as [|x l IH]; intros w; cbn [open_all]; [apply quiet_refl|]. destruct (item_ref x) as [r|e]; [|apply quiet_refl].
  pose proof (quiet_node i d r w) as C1. destruct (get_node dec rs i d r w) as [w1 [a|e]]; cbn [fst] in *; [|exact C1].
  destruct a; cbn [fst]; try exact C1. specialize (IH w1). destruct (open_all dec rs i d l w1). exact (quiet_trans _ _ _ C1 IH).
Qed.

Lemma quiet_ask : forall w i a c, knows w i c -> quiet w (fst (do_ask dec rs w i a)).
Proof.
  intros w i a c (d & H & K). unfold do_ask. rewrite H.
  pose proof (quiet_kids i d w) as CK.
  assert (CH : get_holder rs i d w = (w, Ok (HColl c))) by (unfold get_holder; rewrite K; reflexivity).
  assert (END : forall pick, quiet w (fst (at_end dec rs pick i d w))).
  { intros pick. unfold at_end. destruct (child_ids rs i d w) as [w1 [l|e]]; cbn [fst] in *; [|exact CK].
    destruct (pick (rs_items l)) as [x|]; [|exact CK]. destruct (item_ref x) as [[r|]|e]; try exact CK. exact (quiet_trans _ _ _ CK (quiet_node _ _ _ _)). }
  destruct a as [r| | | | | | | |level r| | |].
  - apply quiet_node.
  - destruct (dd_prev d); [apply quiet_node|apply quiet_refl].
  - destruct (dd_next d); [apply quiet_node|apply quiet_refl].
  - apply quiet_node.
  - apply END.
  - apply END.
  - unfold get_children. destruct (child_ids rs i d w) as [w1 [l|e]]; cbn [fst] in *; [|exact CK].
    pose proof (quiet_all i d (rs_items l) w1) as G. destruct (open_all dec rs i d (rs_items l) w1). exact (quiet_trans _ _ _ CK G).
  - destruct (child_ids rs i d w). exact CK.
  - unfold get_reffs_of, called. cbn [fst]. apply quiet_one. discriminate.
  - rewrite CH. apply quiet_refl.
  - unfold get_depth. destruct (dd_depth d); [apply quiet_refl|]. rewrite CH. exact (quiet_refl w).
  - rewrite CH. apply quiet_refl.
Qed.

(** *** New documents know what their origin knows *)

Lemma node_new : forall i d r w w' x j, get_node dec rs i d r w = (w', Ok x) -> given_documents x j ->
  exists d', nth_error (ss_docs w') j = Some d' /\ dd_coll d' = dd_coll d.
Proof.
  intros i d r w w' x j E G. destruct (node_cases i d r w) as [(e & E')|(reply & d' & A & M & E')]; rewrite E' in E; [discriminate|].
  injection E as <- <-. cbn in G. subst j. cbn [ss_docs]. rewrite nth_error_app2, Nat.sub_diag by lia. cbn. eexists. split; reflexivity.
Qed.

Lemma all_new : forall i d h l w w' js, dd_coll d = Some h -> open_all dec rs i d l w = (w', Ok js) ->
  forall j, In j js -> exists d', nth_error (ss_docs w') j = Some d' /\ dd_coll d' = Some h.
Proof.
  intros i d h l. induction l as [|x l IH]; intros w w' js K E j I; cbn [open_all] in E; [injection E as <- <-; destruct I|].
  destruct (item_ref x) as [r|e]; [|discriminate]. pose proof (node_new i d r w) as NN. destruct (get_node dec rs i d r w) as [w1 [a|e]]; [|discriminate].
  destruct a; try discriminate. pose proof (grows_all i d l w1) as (_ & GA & _). specialize (IH w1).
  destruct (open_all dec rs i d l w1) as [w2 [js2|e]]; cbn [bind] in E; [|discriminate]. injection E as <- <-. destruct I as [<-|I].
  - destruct (NN w1 _ i0 eq_refl eq_refl) as (d1 & N1 & C1). cbn [fst] in GA. destruct (GA _ _ N1) as (d2 & N2 & (_ & _ & _ & _ & _ & _ & C2 & _)).
    exists d2. split; [exact N2|]. apply C2. congruence.
  - exact (IH w2 js2 K eq_refl j I).
Qed.

Lemma new_knows : forall w i a c w' x j, knows w i c -> do_ask dec rs w i a = (w', Ok x) -> given_documents x j -> knows w' j c.
Proof.
  intros w i a c w' x j (d & H & K) E G. unfold do_ask in E. rewrite H in E. unfold knows. rewrite <- K.
  assert (END : forall pick, at_end dec rs pick i d w = (w', Ok x) -> exists d', nth_error (ss_docs w') j = Some d' /\ dd_coll d' = dd_coll d).
  { intros pick F. unfold at_end in F. destruct (child_ids rs i d w) as [w1 [l|e]]; [|discriminate].
    destruct (pick (rs_items l)) as [y|]; [|injection F as <- <-; destruct G]. destruct (item_ref y) as [[r|]|e]; try discriminate.
    - exact (node_new _ _ _ _ _ _ _ F G).
    - injection F as <- <-. destruct G. }
  destruct a as [r| | | | | | | |level r| | |].
  - exact (node_new _ _ _ _ _ _ _ E G).
  - destruct (dd_prev d); [exact (node_new _ _ _ _ _ _ _ E G)|injection E as <- <-; destruct G].
  - destruct (dd_next d); [exact (node_new _ _ _ _ _ _ _ E G)|injection E as <- <-; destruct G].
  - exact (node_new _ _ _ _ _ _ _ E G).
  - exact (END _ E).
  - exact (END _ E).
  - unfold get_children in E. destruct (child_ids rs i d w) as [w1 [l|e]]; [|discriminate].
    destruct (open_all dec rs i d (rs_items l) w1) as [w2 [js|e]] eqn:A; cbn [bind] in E; [|discriminate]. injection E as <- <-. cbn in G.
    rewrite K. exact (all_new _ _ _ _ _ _ _ K A j G).
  - destruct (child_ids rs i d w) as [w1 [l|e]]; [|discriminate]. injection E as <- <-. destruct G.
  - unfold get_reffs_of in E. destruct (ask_reffs _ _ _ _ _); [|discriminate]. injection E as <- <-. destruct G.
  - destruct (get_holder rs i d w) as [w1 [h|e]]; [|discriminate]. injection E as <- <-. destruct G.
  - unfold get_depth in E. destruct (dd_depth d); [injection E as <- <-; destruct G|].
    destruct (get_holder rs i d w) as [w1 [[h|h]|e]]; try discriminate. injection E as <- <-. destruct G.
  - destruct (get_holder rs i d w) as [w1 [[h|h]|e]]; try discriminate; injection E as <- <-; destruct G.
Qed.

(** ** Children *)

Lemma item_member : forall r x, member r x -> item_ref x = Ok (Some (DRef r)).
Proof. intros [s e] x (ty & ab & ->). cbn. destruct e; reflexivity. Qed.

Section Kids.
Variables (i : nat) (d : document X) (l : reffs) (refs : list dref) (body : dref -> X).
Hypothesis Hl : listing l refs.
Hypothesis Hb : forall calls r, In r refs ->
  exists reply links, ask_document rs calls (dd_id d) (Some (DRef r)) = Ok reply /\ replies reply links (body r).

Definition is_passage (r : dref) (d' : document X) : Prop :=
  dd_id d' = dd_id d /\ dd_ref d' = Some (DRef r) /\ dd_body d' = body r.

Lemma passage_same : forall r a b, same_document a b -> is_passage r a -> is_passage r b.
Proof. intros r a b (S1 & S2 & S3 & _) (P1 & P2 & P3). repeat split; congruence. Qed.

Lemma opens : forall w r, In r refs -> exists d', get_node dec rs i d (Some (DRef r)) w =
    (MkSession (ss_calls w ++ [CallDocument (dd_id d) (Some (DRef r))]) (ss_docs w ++ [d']), Ok (ADocument (length (ss_docs w)))) /\ is_passage r d'.
Proof using Hd Hb.
  intros w r I. destruct (Hb (ss_calls w) r I) as (reply & links & A & R). destruct (make_spec (dd_id d) (Some (DRef r)) links (body r) reply R) as (d1 & M & S).
  destruct (node_cases i d (Some (DRef r)) w) as [(e & E)|(reply' & d' & A' & M' & E)].
  - exfalso. unfold get_node, open_document in E. rewrite A in E. cbn [bind] in E. rewrite M in E. discriminate.
  - rewrite A in A'. injection A' as <-. rewrite M in M'. injection M' as <-. rewrite E. eexists. split; [reflexivity|]. unfold is_passage. cbn. tauto.
Qed.

Lemma opens_all : forall items rl w, (forall r, In r rl -> In r refs) -> Forall2 member rl items ->
  exists w' js, open_all dec rs i d items w = (w', Ok js) /\
    ss_calls w' = ss_calls w ++ map (fun r => CallDocument (dd_id d) (Some (DRef r))) rl /\
    js = seq (length (ss_docs w)) (length rl) /\
    exists ds, ss_docs w' = ss_docs w ++ ds /\ Forall2 is_passage rl ds.
Proof using Hd Hb.
  intros items rl w Hi H. revert w. induction H as [|r x rl items M H IH]; intros w.
  - exists w, []. cbn. rewrite app_nil_r. repeat split; auto. exists []. rewrite app_nil_r. auto.
  - cbn [open_all]. rewrite (item_member _ _ M). destruct (opens w r (Hi r (or_introl eq_refl))) as (d' & E & P). rewrite E.
    destruct (IH (fun r Hr => Hi r (or_intror Hr)) (MkSession (ss_calls w ++ [CallDocument (dd_id d) (Some (DRef r))]) (ss_docs w ++ [d']))) as (w' & js & E' & C & J & ds & D & F).
    rewrite E'. cbn [bind]. exists w', (length (ss_docs w) :: js). split; [reflexivity|]. cbn [ss_calls ss_docs] in *. split.
    + rewrite C, <- app_assoc. reflexivity.
    + split.
      * rewrite J, app_length. cbn [length seq]. f_equal. f_equal. lia.
      * exists (d' :: ds). split; [rewrite D, <- app_assoc; reflexivity|constructor; assumption].
Qed.
End Kids.
End Steps.
