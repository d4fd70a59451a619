(** Entering several textgroups, one after the other. *)

From Coq Require Import List NArith ZArith Arith Bool Lia.
From Verif Require Import PyStr PyStrFacts UrnModel UrnSpec UrnProofs MetaModel CollModel CollSpec CollProofs CollHist CollMerge
  InvModel InvSpec LocalModel LocalSpec LocalProofs LoadModel LoadSpec LoadDict LoadTree LoadEnter.
Import ListNotations.

Lemma keys_shelve : forall {A} choice (L : inventories A) e, keys (shelve choice L e) = keys L.
Proof.
  intros A choice L e. unfold shelve. destruct (place choice L (fst e)) as [n|]; [|reflexivity].
  unfold keys. rewrite map_map. apply map_ext. intros x. destruct (str_eqb (fst x) n); reflexivity.
Qed.

Lemma keys_shelves : forall {A} tests (l : list (str * (str * group_of A))) L, keys (fold_left (shelve_at tests) l L) = keys L.
Proof. intros A tests l. induction l as [|e l IH]; intros L; [reflexivity|]. cbn [fold_left]. rewrite IH. apply keys_shelve. Qed.

Lemma place_none : forall {A} choice (L : inventories A) k,
  place choice L k = None <-> choice k = None /\ ~ In k (flat_map (fun il => keys (snd il)) L).
Proof.
  intros A choice L k. destruct (find_place choice L k) as [(n & d & I & K & E)|[NK E]]; rewrite E.
  - split; [discriminate|]. intros [_ X]. exfalso. apply X. apply in_flat_map. exists (n, d). auto.
  - split; [|intros [X _]; exact X]. intros X. auto.
Qed.

Section Fold.
Variables (raise_undispatched : bool) (limit : nat) (d : dispatcher) (root : nat) (tests : tests_of).
Hypothesis (Hd : d_root d = root) (Hf : filters_by_name d tests).

(** Textgroups waiting to be entered, with the files they were read from. *)
Definition at_of (g : nat * group_file) : str := gf_path (snd g).
Definition pending (st : state) (gs : list (nat * group_file)) : Prop :=
  NoDup (map fst gs) /\ forall g, In g gs -> let o := fst g in good st None (c_id (obj st o)) o /\ fits (c_id (obj st o)) (view_group st o) /\
    forall n, choice_of tests (at_of g) (c_id (obj st o)) = Some n -> In n (keys (kids st root)).
Definition waiting (st : state) (gs : list (nat * group_file)) : list (str * (str * group_of nat)) :=
  map (fun g => (at_of g, (c_id (obj st (fst g)), view_group st (fst g)))) gs.
(** There is a place for a textgroup once others are there. *)
Definition room (st : state) (pre : list (nat * group_file)) (g : nat * group_file) : option str :=
  place (choice_of tests (at_of g)) (fold_left (shelve_at tests) (waiting st pre) (view st root)) (c_id (obj st (fst g))).

Lemma good_in : forall st p k o, good st p k o -> o < length (objs st).
Proof. intros st p k o G. eapply inside_in; [exact G|]. left. reflexivity. Qed.

Lemma dispatch_one : forall s g, shelved (s_state s) root -> pending (s_state s) [g] ->
  exists st', 
    dispatch_container raise_undispatched (5 + limit) d (fst g) (gf_path (snd g)) s
    = (MkStore st' (s_cites s) (s_paths s), 
       match room (s_state s) [] g with
       | None => if raise_undispatched then Err UndispatchedTextError else Ok tt
       | Some _ => Ok tt
       end) /\
    shelved st' root /\ view st' root = fold_left (shelve_at tests) (waiting (s_state s) [g]) (view (s_state s) root) /\
    length (objs (s_state s)) <= length (objs st') /\ (forall x, x < length (objs (s_state s)) -> alike (s_state s) x st' x) /\
    (forall k o', good (s_state s) None k o' -> o' <> fst g -> good st' None k o' /\ view_group st' o' = view_group (s_state s) o').
Proof using Hd Hf.
  intros s g S [_ P]. destruct (P g (or_introl eq_refl)) as (G & F & D).
  destruct (enter_ok limit (s_state s) d root tests (fst g) (gf_path (snd g)) _ S Hd Hf G F D) as (st' & r & E & R & S' & V & L & A & O).
  exists st'. split; [|auto]. unfold dispatch_container, on_state. rewrite E, R. unfold room, at_of. cbn [waiting map fold_left].
  destruct (place _ _ _); [reflexivity|]. destruct raise_undispatched; reflexivity.
Qed.

Lemma dispatch_all : forall (gs : list (nat * group_file)) s, shelved (s_state s) root -> pending (s_state s) gs ->
  (raise_undispatched = true -> forall pre g post, gs = pre ++ g :: post -> room (s_state s) pre g <> None) ->
  exists st', for_each gs (fun g => dispatch_container raise_undispatched (5 + limit) d (fst g) (gf_path (snd g))) s = (MkStore st' (s_cites s) (s_paths s), Ok tt) /\
    shelved st' root /\ view st' root = fold_left (shelve_at tests) (waiting (s_state s) gs) (view (s_state s) root) /\
    length (objs (s_state s)) <= length (objs st') /\ (forall x, x < length (objs (s_state s)) -> alike (s_state s) x st' x) /\
    (forall k o', good (s_state s) None k o' -> ~ In o' (map fst gs) -> good st' None k o' /\ view_group st' o' = view_group (s_state s) o').
Proof using Hd Hf.
  intros gs. induction gs as [|g gs IH]; intros s S P HR.
  - exists (s_state s). cbn [for_each waiting map fold_left]. split; [destruct s; reflexivity|]. 
    repeat (split; [first [assumption|reflexivity|lia]|]). split; [|auto]. intros x _. repeat split.
  - destruct P as [N P]. cbn [map] in N.
    destruct (dispatch_one s g S) as (st1 & E & S1 & V1 & L1 & A1 & O1).
    { split; [repeat constructor; intros []|]. intros x [<-|[]]. apply P. left. reflexivity. }
    set (s1 := MkStore st1 (s_cites s) (s_paths s)) in *. apply NoDup_cons_iff in N. destruct N as [NI N'].
    assert (ID : forall x, In x gs -> c_id (obj st1 (fst x)) = c_id (obj (s_state s) (fst x))).
    { intros x X. destruct (P x (or_intror X)) as (G & _). symmetry. apply A1. eapply good_in. exact G. }
    assert (VG : forall x, In x gs -> good st1 None (c_id (obj st1 (fst x))) (fst x) /\ view_group st1 (fst x) = view_group (s_state s) (fst x)).
    { intros x X. destruct (P x (or_intror X)) as (G & _). rewrite (ID x X). apply O1; [exact G|]. intros Y. apply NI. rewrite <- Y. apply in_map. exact X. }
    assert (KE : keys (kids st1 root) = keys (kids (s_state s) root)).
    { rewrite <- (keys_view (view_shelf st1)), <- (keys_view (view_shelf (s_state s))).
      change (keys (view st1 root) = keys (view (s_state s) root)). rewrite V1. apply keys_shelves. }
    assert (W : forall l, incl l gs -> waiting st1 l = waiting (s_state s) l).
    { intros l X. unfold waiting. apply map_ext_in. intros x Y. rewrite (ID x (X x Y)), (proj2 (VG x (X x Y))). reflexivity. }
    destruct (IH s1) as (st' & E' & S' & V' & L' & A' & O').
    + exact S1.
    + split; [exact N'|]. intros x X. destruct (P x (or_intror X)) as (G & F & D). destruct (VG x X) as (G1 & F1).
      cbn [s_state s1]. split; [exact G1|]. rewrite F1, (ID x X), KE. auto.
    + intros R pre x post X. cbn [s_state s1]. unfold room.
      rewrite V1, (ID x), W; [|intros y Y|]; [|rewrite X; apply in_or_app; auto|rewrite X; apply in_or_app; right; left; reflexivity].
      apply (HR R (g :: pre) x post). rewrite X. reflexivity.
    + exists st'. cbn [for_each fst]. unfold andthen. rewrite E.
      replace (match room (s_state s) [] g with Some _ => Ok tt | None => if raise_undispatched then Err UndispatchedTextError else Ok tt end) with (@Ok unit tt).
      2:{ destruct (room _ _ _) eqn:X; [reflexivity|]. destruct raise_undispatched; [|reflexivity]. exfalso. eapply (HR eq_refl []); [reflexivity|exact X]. }
      split; [exact E'|]. split; [exact S'|]. split; [|split; [cbn [s_state s1] in L'; lia|split]].
      * rewrite V'. cbn [s_state s1]. rewrite V1, (W gs (incl_refl gs)). reflexivity.
      * intros x X. eapply alike_trans; [apply A1; exact X|]. apply A'. cbn [s_state s1]. lia.
      * intros k o' G X. destruct (O1 k o' G) as (G1 & F1); [intros ->; apply X; left; reflexivity|].
        destruct (O' k o' G1) as (G2 & F2); [intros Y; apply X; right; exact Y|]. split; [exact G2|]. rewrite F2; exact F1.
Qed.

Lemma for_each_app : forall {B} (l1 l2 : list B) f s, for_each (l1 ++ l2) f s = andthen (for_each l1 f) (fun _ => for_each l2 f) s.
Proof.
  intros B l1. induction l1 as [|b l1 IH]; intros l2 f s; [reflexivity|]. cbn [app for_each]. unfold andthen in *.
  destruct (f b s) as [s1 [u|e]]; [|reflexivity]. rewrite IH. reflexivity.
Qed.

Lemma pending_app : forall st a b, pending st (a ++ b) -> pending st a.
Proof.
  intros st a b [N P]. rewrite map_app in N. split; [eapply NoDup_app_l; exact N|]. intros o X. apply P. apply in_or_app. auto.
Qed.

(** The first one without a place stops the others. *)
Lemma dispatch_stops : forall (pre : list (nat * group_file)) o post s, raise_undispatched = true ->
  shelved (s_state s) root -> pending (s_state s) (pre ++ o :: post) ->
  (forall a x b, pre = a ++ x :: b -> room (s_state s) a x <> None) ->
  room (s_state s) pre o = None ->
  exists st', for_each (pre ++ o :: post) (fun g => dispatch_container raise_undispatched (5 + limit) d (fst g) (gf_path (snd g))) s
      = (MkStore st' (s_cites s) (s_paths s), Err UndispatchedTextError) /\
    shelved st' root /\ view st' root = fold_left (shelve_at tests) (waiting (s_state s) pre) (view (s_state s) root) /\
    length (objs (s_state s)) <= length (objs st') /\ (forall x, x < length (objs (s_state s)) -> alike (s_state s) x st' x).
Proof using Hd Hf.
  intros pre o post s HR S P Hp Ho.
  destruct (dispatch_all pre s S (pending_app _ _ _ P) (fun _ => Hp)) as (st1 & E & S1 & V1 & L1 & A1 & O1).
  destruct P as [N P]. rewrite map_app in N. cbn [map] in N.
  assert (I : In o (pre ++ o :: post)) by (apply in_or_app; right; left; reflexivity).
  assert (NI : ~ In (fst o) (map fst pre)).
  { intros X. apply NoDup_remove_2 in N. apply N. apply in_or_app. auto. }
  destruct (P _ I) as (G & F & D). destruct (O1 _ _ G NI) as (G1 & F1).
  assert (ID : c_id (obj st1 (fst o)) = c_id (obj (s_state s) (fst o))) by (symmetry; apply A1; eapply good_in; exact G).
  assert (KE : keys (kids st1 root) = keys (kids (s_state s) root)).
  { rewrite <- (keys_view (view_shelf st1)), <- (keys_view (view_shelf (s_state s))).
    change (keys (view st1 root) = keys (view (s_state s) root)). rewrite V1. apply keys_shelves. }
  destruct (dispatch_one (MkStore st1 (s_cites s) (s_paths s)) o S1) as (st2 & E2 & S2 & V2 & L2 & A2 & _).
  { split; [repeat constructor; intros []|]. cbn [s_state]. intros x [<-|[]]. rewrite ID. split; [exact G1|].
    rewrite F1, KE. auto. }
  cbn [s_state s_cites s_paths] in *.
  assert (PN : room st1 [] o = None) by (unfold room in *; cbn [waiting map fold_left]; rewrite V1, ID; exact Ho).
  rewrite PN, HR in E2. exists st2. split.
  - rewrite for_each_app. unfold andthen at 1. rewrite E. cbn [for_each]. unfold andthen. rewrite HR, E2. reflexivity.
  - split; [exact S2|]. split; [|split; [lia|]].
    + rewrite V2. unfold room in PN. cbn [waiting map fold_left] in PN |- *. unfold shelve_at at 1, shelve. cbn [fst snd]. rewrite PN. exact V1.
    + intros x X. eapply alike_trans; [apply A1; exact X|]. apply A2. lia.
Qed.
End Fold.
