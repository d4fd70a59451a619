(** Copies are equal to what they were copied from and stay so. *)

From Coq Require Import List NArith ZArith Arith Bool Lia.
From Verif Require Import PyStr UrnModel MetaModel CollModel UtilModel InvModel InvExport DtsOutModel CopyModel CopySpec CopyProofs.
From Verif Require Import CollProofs CollHist CollMerge CopyFence.
Import ListNotations.

Definition marks (s : store) : Prop :=
  (forall i l, In (i, l) (s_cites s) -> i < length (objs (s_state s))) /\
  (forall i p, In (i, p) (s_paths s) -> i < length (objs (s_state s))).

Definition skept (s : store) (os gs : nat -> bool) (s' : store) (os' gs' : nat -> bool) : Prop :=
  kept (s_state s) os gs (s_state s') os' gs' /\
  (forall x, x < length (objs (s_state s)) -> os x = true ->
     text_citation s' x = text_citation s x /\ text_path_of s' x = text_path_of s x) /\
  marks s'.

Lemma skept_trans : forall s os gs s1 os1 gs1 s2 os2 gs2,
  skept s os gs s1 os1 gs1 -> skept s1 os1 gs1 s2 os2 gs2 -> skept s os gs s2 os2 gs2.
Proof.
  intros s os gs s1 os1 gs1 s2 os2 gs2 (K & A & _) (L & B & M). split; [|split].
  - exact (kept_trans _ _ _ _ _ _ _ _ _ K L).
  - intros x Lx O. destruct (A x Lx O) as (A1 & A2). destruct (B x) as (B1 & B2).
    + pose proof (k_len _ _ _ _ _ _ K). lia.
    + rewrite (k_os _ _ _ _ _ _ K) by exact Lx. exact O.
    + split; congruence.
  - exact M.
Qed.

Lemma skept_state : forall s os gs st' os' gs', marks s -> kept (s_state s) os gs st' os' gs' ->
  skept s os gs (in_state s st') os' gs'.
Proof.
  intros s os gs st' os' gs' (M1 & M2) K. split; [exact K|]. split; [intros; split; reflexivity|].
  pose proof (k_len _ _ _ _ _ _ K). split; cbn [in_state s_cites s_paths s_state]; intros i l I.
  - apply M1 in I. lia.
  - apply M2 in I. lia.
Qed.

Lemma find_app : forall {A} (f : A -> bool) l l',
  find f (l ++ l') = match find f l with Some x => Some x | None => find f l' end.
Proof. induction l as [|x l IH]; intros l'; cbn [app find]; [reflexivity|]. destruct (f x); [reflexivity|apply IH]. Qed.

Lemma find_none_below : forall {A} (l : list (nat * A)) n x, (forall i a, In (i, a) l -> i < n) -> n <= x ->
  find (fun e => Nat.eqb (fst e) x) l = None.
Proof.
  induction l as [|[i a] l IH]; intros n x B L; cbn [find fst]; [reflexivity|].
  destruct (Nat.eqb_spec i x) as [->|_]. { specialize (B x a (or_introl eq_refl)). lia. }
  apply (IH n); [|exact L]. intros j b I. exact (B j b (or_intror I)).
Qed.

Lemma find_shifted : forall {A} (l : list (nat * A)) n x,
  find (fun e => Nat.eqb (fst e) (n + x)) (map (fun e => (n + fst e, snd e)) l)
  = option_map (fun e => (n + fst e, snd e)) (find (fun e => Nat.eqb (fst e) x) l).
Proof.
  induction l as [|[i a] l IH]; intros n x; cbn [map find fst snd]; [reflexivity|].
  replace (n + i =? n + x) with (i =? x) by (destruct (Nat.eqb_spec i x), (Nat.eqb_spec (n + i) (n + x)); lia || reflexivity).
  destruct (i =? x); [reflexivity|apply IH].
Qed.

Lemma find_shifted_below : forall {A} (l : list (nat * A)) n x, x < n ->
  find (fun e => Nat.eqb (fst e) x) (map (fun e => (n + fst e, snd e)) l) = None.
Proof.
  induction l as [|[i a] l IH]; intros n x L; cbn [map find fst snd]; [reflexivity|].
  destruct (Nat.eqb_spec (n + i) x); [lia|]. apply IH. exact L.
Qed.

Lemma cite_copy : forall saved later x, marks later ->
  text_citation (loads saved later) (loaded later x) = text_citation saved x.
Proof.
  intros saved later x (M & _). unfold text_citation, loads, loaded. cbn [s_cites].
  rewrite find_app, (find_none_below (s_cites later) (length (objs (s_state later)))) by (try exact M; lia).
  rewrite find_shifted. destruct (find _ (s_cites saved)) as [[i l]|]; reflexivity.
Qed.

Lemma path_copy : forall saved later x, marks later ->
  text_path_of (loads saved later) (loaded later x) = text_path_of saved x.
Proof.
  intros saved later x (_ & M). unfold text_path_of, loads, loaded. cbn [s_paths].
  rewrite find_app, (find_none_below (s_paths later) (length (objs (s_state later)))) by (try exact M; lia).
  rewrite find_shifted. destruct (find _ (s_paths saved)) as [[i l]|]; reflexivity.
Qed.

Lemma cite_old : forall saved later x, x < length (objs (s_state later)) ->
  text_citation (loads saved later) x = text_citation later x /\
  text_path_of (loads saved later) x = text_path_of later x.
Proof.
  intros saved later x L. unfold text_citation, text_path_of, loads. cbn [s_cites s_paths].
  rewrite !find_app, !find_shifted_below by exact L. split.
  - destruct (find _ (s_cites later)) as [[i l]|]; reflexivity.
  - destruct (find _ (s_paths later)) as [[i l]|]; reflexivity.
Qed.

Lemma marks_loads : forall saved later, marks saved -> marks later -> marks (loads saved later).
Proof.
  intros saved later (A & B) (C & D). unfold loads.
  split; cbn [s_cites s_paths s_state objs]; intros i l I; rewrite app_length, map_length;
    apply in_app_or in I; destruct I as [I|I].
  - apply C in I. lia.
  - apply in_map_iff in I. destruct I as ((j & m) & [= <- <-] & I). apply A in I. cbn [fst]. lia.
  - apply D in I. lia.
  - apply in_map_iff in I. destruct I as ((j & m) & [= <- <-] & I). apply B in I. cbn [fst]. lia.
Qed.

Lemma obj_loads_new : forall saved later x, x < length (objs (s_state saved)) ->
  obj (s_state (loads saved later)) (loaded later x)
  = shift (length (objs (s_state later))) (length (graphs (s_state later))) (obj (s_state saved) x).
Proof.
  intros saved later x L. unfold loads, loaded, obj. cbn [s_state objs].
  rewrite app_nth2 by lia. rewrite (Nat.add_comm _ x), Nat.add_sub.
  rewrite (nth_indep _ _ (shift (length (objs (s_state later))) (length (graphs (s_state later))) nowhere))
    by (rewrite map_length; exact L).
  apply map_nth.
Qed.

Lemma obj_loads_old : forall saved later x, x < length (objs (s_state later)) ->
  obj (s_state (loads saved later)) x = obj (s_state later) x.
Proof. intros saved later x L. unfold loads, obj. cbn [s_state objs]. apply app_nth1. exact L. Qed.

Lemma sound_fenced : forall s, sound s -> fenced (s_state s) (fun _ => false) (fun _ => false) /\ marks s.
Proof.
  intros s (_ & A & B & C). split; [|split; assumption]. intros x L. destruct (A x L) as (P & Q & R).
  repeat split; [exact (P p H)|exact (Q k y H)|exact R].
Qed.

Lemma fenced_sound : forall s os gs, 0 < length (graphs (s_state s)) ->
  fenced (s_state s) os gs -> marks s -> sound s.
Proof.
  intros s os gs L0 F M. split; [exact L0|]. split; [|exact M]. intros x L. destruct (F x L) as (A & B & C & D).
  repeat split; [intros p E; exact (proj1 (A p E))|intros k y I; exact (proj1 (B k y I))|exact C].
Qed.

(** The loaded objects and those that were there do not meet. *)
Lemma fenced_loads : forall saved later (os gs : nat -> bool) b, sound saved -> sound later ->
  (forall x, os x = if x <? length (objs (s_state later)) then negb b else b) ->
  (forall x, gs x = if x <? length (graphs (s_state later)) then negb b else b) ->
  fenced (s_state (loads saved later)) os gs.
Proof.
  intros saved later os gs b (_ & S & _) (_ & T & _) Eo Eg x L.
  assert (LO : length (objs (s_state (loads saved later)))
    = length (objs (s_state later)) + length (objs (s_state saved)))
    by (unfold loads; cbn [s_state objs]; rewrite app_length, map_length; reflexivity).
  assert (LG : length (graphs (s_state (loads saved later)))
    = length (graphs (s_state later)) + length (graphs (s_state saved)))
    by (unfold loads; cbn [s_state graphs]; rewrite app_length; reflexivity).
  rewrite LO, LG in *. set (n := length (objs (s_state later))) in *. set (m := length (graphs (s_state later))) in *.
  assert (lo : forall y, y < n -> (y <? n) = true) by (intros; apply Nat.ltb_lt; assumption).
  assert (hi : forall y, n <= y -> (y <? n) = false) by (intros; apply Nat.ltb_ge; assumption).
  destruct (lt_dec x n) as [Lx|Lx].
  - rewrite obj_loads_old by exact Lx. destruct (T x Lx) as (P & Q & R). fold n m in P, Q, R.
    rewrite !Eo, (lo x Lx). repeat split.
    + apply P in H. lia.
    + apply P in H. rewrite Eo, (lo p H). reflexivity.
    + apply Q in H. lia.
    + apply Q in H. rewrite Eo, (lo y H). reflexivity.
    + lia.
    + rewrite Eg. replace (c_graph (obj (s_state later) x) <? m) with true by (symmetry; apply Nat.ltb_lt; exact R).
      reflexivity.
  - replace x with (loaded later (x - n)) by (unfold loaded; fold n; lia). set (y := x - n) in *.
    assert (Ly : y < length (objs (s_state saved))) by lia.
    rewrite obj_loads_new by exact Ly. fold n m. cbn [shift c_parent c_children c_graph].
    destruct (S y Ly) as (P & Q & R). unfold loaded. fold n.
    rewrite !Eo, (hi (n + y)) by lia. repeat split.
    + destruct (c_parent (obj (s_state saved) y)) as [q|]; [|discriminate]. injection H as <-.
      specialize (P q eq_refl). lia.
    + destruct (c_parent (obj (s_state saved) y)) as [q|]; [|discriminate]. injection H as <-.
      rewrite Eo, (hi (n + q)) by lia. reflexivity.
    + apply in_map_iff in H. destruct H as ((k' & z) & [= _ <-] & I). apply Q in I. cbn [snd]. lia.
    + apply in_map_iff in H. destruct H as ((k' & z) & [= _ <-] & I). cbn [snd].
      rewrite Eo, (hi (n + z)) by lia. reflexivity.
    + lia.
    + rewrite Eg. replace (m + c_graph (obj (s_state saved) y) <? m) with false by (symmetry; apply Nat.ltb_ge; lia).
      reflexivity.
Qed.

Lemma sound_loads : forall saved later, sound saved -> sound later -> sound (loads saved later).
Proof.
  intros saved later S T.
  apply (fenced_sound _ (fun x => if x <? length (objs (s_state later)) then negb false else false)
          (fun x => if x <? length (graphs (s_state later)) then negb false else false)).
  - unfold loads. cbn [s_state graphs]. rewrite app_length. destruct T as (T & _). lia.
  - apply (fenced_loads saved later _ _ false S T); reflexivity.
  - apply marks_loads; [exact (proj2 (sound_fenced _ S))|exact (proj2 (sound_fenced _ T))].
Qed.

(** One deed. *)
Lemma skept_deep : forall s os gs c, fenced (s_state s) os gs -> marks s -> outside (s_state s) os c ->
  exists os' gs', skept s os gs (loads s s) os' gs' /\ outside (s_state (loads s s)) os' (loaded s c).
Proof.
  intros s os gs c F M C.
  exists (copied os (length (objs (s_state s)))), (copied gs (length (graphs (s_state s)))).
  split; [split; [|split]|].
  - exact (kept_copy (s_state s) os gs F c).
  - intros x L _. apply cite_old. exact L.
  - apply marks_loads; exact M.
  - exact (out_copy (s_state s) os c c C).
Qed.

Lemma deed_keeps : forall s d os gs, fenced (s_state s) os gs -> marks s ->
  (forall x, In x (needs d) -> outside (s_state s) os x) ->
  (global d -> 0 < length (graphs (s_state s)) /\ gs 0 = false) ->
  exists os' gs', skept s os gs (perform s d) os' gs' /\
    forall x, In x (receives s d) -> outside (s_state (perform s d)) os' x.
Proof.
  intros s d os gs F M N G.
  assert (same : forall st', receives s d = [] -> perform s d = in_state s st' -> kept (s_state s) os gs st' os gs ->
    exists os' gs', skept s os gs (perform s d) os' gs' /\
      forall x, In x (receives s d) -> outside (s_state (perform s d)) os' x).
  { intros st' E P K. exists os, gs. rewrite E, P. split; [apply skept_state; assumption|]. intros x []. }
  destruct d; cbn [needs global] in N, G.
  - destruct (G I) as (L0 & G0).
    exists (fun x => if Nat.eqb x (length (objs (s_state s))) then false else os x), gs.
    pose proof (kept_new (s_state s) os gs k id urn F L0 G0) as K. cbn [perform receives].
    split; [apply skept_state; assumption|]. intros x [<-|[]]. split.
    + cbn [in_state s_state]. unfold new_object. cbn [fst with_graph objs graphs]. rewrite app_length. cbn. lia.
    + rewrite Nat.eqb_refl. reflexivity.
  - destruct (G I) as (L0 & G0).
    destruct (keeps_cts order (s_state s) k urn parent lang os gs F L0 G0) as (os' & gs' & K & O).
    { intros p ->. apply N. left. reflexivity. }
    exists os', gs'. cbn [perform receives]. split; [apply skept_state; assumption|]. intros x [<-|[]]. exact O.
  - apply (same (set_parent (s_state s) c p) eq_refl eq_refl). apply kept_set_parent; [exact F| |]; apply N; cbn; auto.
  - apply (same (fst (set_parent_none (s_state s) c)) eq_refl eq_refl). apply kept_clear; [exact F|]. apply N; cbn; auto.
  - apply (same (fst (delitem limit fuel (s_state s) c key)) eq_refl eq_refl).
    apply kept_delete; [exact F|]. apply N; cbn; auto.
  - apply (same (set_lang (s_state s) c l) eq_refl eq_refl). apply kept_set_lang; [exact F|]. apply N; cbn; auto.
  - apply (same (fst (work_update (s_state s) a b)) eq_refl eq_refl).
    apply kept_work; [exact F| |]; apply N; cbn; auto.
  - destruct (keeps_textgroup (s_state s) a b os gs F) as (os' & gs' & K); [apply N; cbn; auto|apply N; cbn; auto|].
    exists os', gs'. cbn [perform receives]. split; [apply skept_state; assumption|]. intros x [].
  - assert (C : outside (s_state s) os c) by (apply N; cbn; auto).
    exists os, gs. cbn [perform receives set_citation fst]. split; [|intros x []]. split; [|split].
    + cbn [s_state]. apply kept_refl. exact F.
    + intros x L O. split; [|reflexivity]. unfold text_citation. cbn [s_cites find fst].
      destruct (Nat.eqb_spec c x) as [->|]; [destruct C; congruence|reflexivity].
    + destruct M as (M1 & M2). split; cbn [s_cites s_paths s_state]; [|exact M2].
      intros i l0 [[= <- <-]|J]; [exact (proj1 C)|exact (M1 i l0 J)].
  - assert (C : outside (s_state s) os c) by (apply N; cbn; auto).
    exists os, gs. cbn [perform receives]. split; [|intros x []]. split; [|split].
    + cbn [s_state]. apply kept_refl. exact F.
    + intros x L O. split; [reflexivity|]. unfold text_path_of. cbn [s_paths find fst].
      destruct (Nat.eqb_spec c x) as [->|]; [destruct C; congruence|reflexivity].
    + destruct M as (M1 & M2). split; cbn [s_cites s_paths s_state]; [exact M1|].
      intros i l0 [[= <- <-]|J]; [exact (proj1 C)|exact (M2 i l0 J)].
  - refine (same _ eq_refl eq_refl _). apply kept_graph; [exact F|].
    apply (out_graph (s_state s) os gs F). apply N; cbn; auto.
  - destruct (G I) as (L0 & G0). refine (same _ eq_refl eq_refl _). apply kept_graph; [exact F|exact G0].
  - destruct (skept_deep s os gs c F M) as (os' & gs' & K & O); [apply N; cbn; auto|].
    exists os', gs'. cbn [perform receives deep_copy fst snd]. split; [exact K|]. intros x [<-|[]]. exact O.
Qed.

Lemma runs_keep : forall allowed s held s' held', runs allowed s held s' held' ->
  forall os gs, fenced (s_state s) os gs -> marks s ->
  (forall x, In x held -> outside (s_state s) os x) ->
  (forall d, allowed d -> global d -> 0 < length (graphs (s_state s)) /\ gs 0 = false) ->
  exists os' gs', skept s os gs s' os' gs' /\ forall x, In x held' -> outside (s_state s') os' x.
Proof.
  intros allowed s held s' held' Rn os gs F M H G. induction Rn as [|s1 held1 x y Rn IH I L|s1 held1 d Rn IH A N].
  - exists os, gs. split; [|exact H]. split; [apply kept_refl; exact F|]. split; [split; reflexivity|exact M].
  - destruct IH as (os' & gs' & K & O). exists os', gs'. split; [exact K|].
    destruct K as (K & _). pose proof (k_fenced _ _ _ _ _ _ K) as F1.
    intros z [<-|J]; [|exact (O z J)]. destruct L as [L|(k & L)].
    + exact (out_parent _ _ _ F1 x y (O x I) L).
    + exact (out_child _ _ _ F1 x k y (O x I) L).
  - destruct IH as (os1 & gs1 & K & O). destruct K as (K & KC & KM).
    destruct (deed_keeps s1 d os1 gs1) as (os2 & gs2 & K2 & O2).
    + exact (k_fenced _ _ _ _ _ _ K).
    + exact KM.
    + intros x J. apply O. apply N. exact J.
    + intros Gd. destruct (G d A Gd) as (L0 & G0). split.
      * pose proof (k_glen _ _ _ _ _ _ K). lia.
      * rewrite (k_gs _ _ _ _ _ _ K) by exact L0. exact G0.
    + exists os2, gs2. split; [exact (skept_trans _ _ _ _ _ _ _ _ _ (conj K (conj KC KM)) K2)|].
      intros x J. apply in_app_or in J. destruct J as [J|J]; [exact (O2 x J)|].
      exact (outside_kept _ _ _ _ _ _ x (proj1 K2) (O x J)).
Qed.

(** Reading does not depend on the other side. *)
Lemma renamed_id : forall x, renamed (fun i => i) (fun i => i) x = x.
Proof.
  intros [k i u p ch g]. unfold renamed. cbn [c_kind c_id c_urn c_parent c_children c_graph].
  assert (E : map (fun e : str * nat => (fst e, snd e)) ch = ch).
  { induction ch as [|[a b] ch IH]; cbn [map fst snd]; [reflexivity|]. rewrite IH. reflexivity. }
  rewrite E. destruct p; reflexivity.
Qed.

Lemma kept_alike : forall s os gs s' os' gs' x, fenced (s_state s) os gs -> skept s os gs s' os' gs' ->
  x < length (objs (s_state s)) -> os x = true -> answers_alike (fun i => i) s x s' x.
Proof.
  intros s os gs s' os' gs' x F (K & C & _) L O.
  apply (all_alike s s' (fun i => i) (fun i => i) (fun y => y < length (objs (s_state s)) /\ os y = true));
    [| | | | | |split; assumption].
  - intros y (Ly & Oy). rewrite renamed_id. exact (k_obj _ _ _ _ _ _ K y Ly Oy).
  - intros y p (Ly & Oy) E. destruct (F y Ly) as (A & _). destruct (A p E). split; congruence.
  - intros y k z (Ly & Oy) J. destruct (F y Ly) as (_ & A & _). destruct (A k z J). split; congruence.
  - intros y (Ly & Oy). destruct (F y Ly) as (_ & _ & A & B). apply (k_graph _ _ _ _ _ _ K); congruence.
  - intros y (Ly & Oy). exact (proj1 (C y Ly Oy)).
  - intros y (Ly & Oy). exact (proj2 (C y Ly Oy)).
Qed.

Lemma loaded_alike : forall saved later s' x, sound saved -> sound later ->
  (forall y, y < length (objs (s_state saved)) ->
     obj (s_state s') (loaded later y) = obj (s_state (loads saved later)) (loaded later y) /\
     text_citation s' (loaded later y) = text_citation (loads saved later) (loaded later y) /\
     text_path_of s' (loaded later y) = text_path_of (loads saved later) (loaded later y)) ->
  (forall g, g < length (graphs (s_state saved)) ->
     nth (length (graphs (s_state later)) + g) (graphs (s_state s')) []
     = nth (length (graphs (s_state later)) + g) (graphs (s_state (loads saved later))) []) ->
  x < length (objs (s_state saved)) -> answers_alike (loaded later) saved x s' (loaded later x).
Proof.
  intros saved later s' x (_ & S & _) T E G L.
  apply (all_alike saved s' (loaded later) (Nat.add (length (graphs (s_state later))))
           (fun y => y < length (objs (s_state saved)))); [| | | | | |exact L].
  - intros y Ly. rewrite (proj1 (E y Ly)), obj_loads_new by exact Ly. reflexivity.
  - intros y p Ly P. exact (proj1 (S y Ly) p P).
  - intros y k z Ly P. exact (proj1 (proj2 (S y Ly)) k z P).
  - intros y Ly. rewrite G by exact (proj2 (proj2 (S y Ly))). unfold loads. cbn [s_state graphs].
    rewrite app_nth2 by lia. rewrite Nat.add_comm, Nat.add_sub. reflexivity.
  - intros y Ly. rewrite (proj1 (proj2 (E y Ly))). apply cite_copy. exact (proj2 (sound_fenced _ T)).
  - intros y Ly. rewrite (proj2 (proj2 (E y Ly))). apply path_copy. exact (proj2 (sound_fenced _ T)).
Qed.

Lemma copy_alike : forall saved later x, sound saved -> sound later -> x < length (objs (s_state saved)) ->
  answers_alike (loaded later) saved x (loads saved later) (loaded later x).
Proof.
  intros saved later x S T L. apply loaded_alike; try assumption; intros; repeat split; reflexivity.
Qed.

Lemma old_alike : forall saved later x, sound saved -> sound later -> x < length (objs (s_state later)) ->
  answers_alike (fun i => i) later x (loads saved later) x.
Proof.
  intros saved later x S T L. destruct T as (_ & T & _).
  apply (all_alike later (loads saved later) (fun i => i) (fun i => i) (fun y => y < length (objs (s_state later))));
    [| | | | | |exact L].
  - intros y Ly. rewrite renamed_id. apply obj_loads_old. exact Ly.
  - intros y p Ly P. exact (proj1 (T y Ly) p P).
  - intros y k z Ly P. exact (proj1 (proj2 (T y Ly)) k z P).
  - intros y Ly. unfold loads. cbn [s_state graphs]. apply app_nth1. exact (proj2 (proj2 (T y Ly))).
  - intros y Ly. exact (proj1 (cite_old saved later y Ly)).
  - intros y Ly. exact (proj2 (cite_old saved later y Ly)).
Qed.

Lemma length_loads : forall saved later,
  length (objs (s_state (loads saved later))) = length (objs (s_state later)) + length (objs (s_state saved)).
Proof. intros. unfold loads. cbn [s_state objs]. rewrite app_length, map_length. reflexivity. Qed.
Lemma glength_loads : forall saved later,
  length (graphs (s_state (loads saved later))) = length (graphs (s_state later)) + length (graphs (s_state saved)).
Proof. intros. unfold loads. cbn [s_state graphs]. rewrite app_length. reflexivity. Qed.

(** Programs that hold what was there before. *)
Lemma copy_stays : forall saved later held s' held' x, sound saved -> sound later ->
  (forall y, In y held -> y < length (objs (s_state later))) ->
  runs (fun _ => True) (loads saved later) held s' held' ->
  x < length (objs (s_state saved)) -> answers_alike (loaded later) saved x s' (loaded later x).
Proof.
  intros saved later held s' held' x S T H Rn L.
  set (os := fun y => if y <? length (objs (s_state later)) then negb true else true).
  set (gs := fun y => if y <? length (graphs (s_state later)) then negb true else true).
  assert (F : fenced (s_state (loads saved later)) os gs)
    by (apply (fenced_loads saved later os gs true S T); reflexivity).
  destruct (runs_keep _ _ _ _ _ Rn os gs F) as (os' & gs' & (K & C & _) & _).
  - exact (proj2 (sound_fenced _ (sound_loads _ _ S T))).
  - intros y J. specialize (H y J). split; [rewrite length_loads; lia|].
    unfold os. replace (y <? length (objs (s_state later))) with true by (symmetry; apply Nat.ltb_lt; exact H). reflexivity.
  - intros d _ _. destruct T as (T0 & _). split; [rewrite glength_loads; lia|].
    unfold gs. replace (0 <? length (graphs (s_state later))) with true by (symmetry; apply Nat.ltb_lt; exact T0).
    reflexivity.
  - apply loaded_alike; try assumption.
    + intros y Ly. assert (Ln : loaded later y < length (objs (s_state (loads saved later))))
        by (rewrite length_loads; unfold loaded; lia).
      assert (Oy : os (loaded later y) = true).
      { unfold os, loaded. replace (_ <? _) with false by (symmetry; apply Nat.ltb_ge; lia). reflexivity. }
      split; [exact (k_obj _ _ _ _ _ _ K _ Ln Oy)|exact (C _ Ln Oy)].
    + intros g Lg. apply (k_graph _ _ _ _ _ _ K); [rewrite glength_loads; lia|].
      unfold gs. replace (_ <? _) with false by (symmetry; apply Nat.ltb_ge; lia). reflexivity.
Qed.

(** Programs that hold the copy. *)
Lemma original_stays : forall saved later held s' held' x, sound saved -> sound later ->
  (forall y, In y held -> exists c, c < length (objs (s_state saved)) /\ y = loaded later c) ->
  runs (fun d => ~ global d) (loads saved later) held s' held' ->
  x < length (objs (s_state later)) -> answers_alike (fun i => i) later x s' x.
Proof.
  intros saved later held s' held' x S T H Rn L.
  set (os := fun y => if y <? length (objs (s_state later)) then negb false else false).
  set (gs := fun y => if y <? length (graphs (s_state later)) then negb false else false).
  assert (F : fenced (s_state (loads saved later)) os gs)
    by (apply (fenced_loads saved later os gs false S T); reflexivity).
  destruct (runs_keep _ _ _ _ _ Rn os gs F) as (os' & gs' & (K & C & _) & _).
  - exact (proj2 (sound_fenced _ (sound_loads _ _ S T))).
  - intros y J. destruct (H y J) as (c & Lc & ->). split; [rewrite length_loads; unfold loaded; lia|].
    unfold os, loaded. replace (_ <? _) with false by (symmetry; apply Nat.ltb_ge; lia). reflexivity.
  - intros d A B. contradiction.
  - destruct T as (T0 & T & T1 & T2).
    assert (O : forall y, y < length (objs (s_state later)) -> os y = true)
      by (intros y Ly; unfold os; replace (_ <? _) with true by (symmetry; apply Nat.ltb_lt; exact Ly); reflexivity).
    apply (all_alike later s' (fun i => i) (fun i => i) (fun y => y < length (objs (s_state later))));
      [| | | | | |exact L].
    + intros y Ly. rewrite renamed_id, (k_obj _ _ _ _ _ _ K); [|rewrite length_loads; lia|exact (O y Ly)].
      apply obj_loads_old. exact Ly.
    + intros y p Ly P. exact (proj1 (T y Ly) p P).
    + intros y k z Ly P. exact (proj1 (proj2 (T y Ly)) k z P).
    + intros y Ly. pose proof (proj2 (proj2 (T y Ly))) as Lg.
      rewrite (k_graph _ _ _ _ _ _ K).
      * unfold loads. cbn [s_state graphs]. apply app_nth1. exact Lg.
      * rewrite glength_loads. lia.
      * unfold gs. replace (_ <? _) with true by (symmetry; apply Nat.ltb_lt; exact Lg). reflexivity.
    + intros y Ly. rewrite (proj1 (C y ltac:(rewrite length_loads; lia) (O y Ly))). exact (proj1 (cite_old saved later y Ly)).
    + intros y Ly. rewrite (proj2 (C y ltac:(rewrite length_loads; lia) (O y Ly))). exact (proj2 (cite_old saved later y Ly)).
Qed.

Lemma reached_sound : forall s held, runs (fun _ => True) nothing [] s held ->
  sound s /\ forall x, In x held -> x < length (objs (s_state s)).
Proof.
  intros s held Rn.
  destruct (runs_keep _ _ _ _ _ Rn (fun _ => false) (fun _ => false)) as (os' & gs' & (K & _ & M) & O).
  - intros x L. cbn in L. lia.
  - split; intros i l [].
  - intros x [].
  - intros d _ _. cbn. split; [lia|reflexivity].
  - split.
    + apply (fenced_sound s os' gs'); [|exact (k_fenced _ _ _ _ _ _ K)|exact M].
      pose proof (k_glen _ _ _ _ _ _ K) as Lg. cbn in Lg. lia.
    + intros x I. exact (proj1 (O x I)).
Qed.
