(** Proofs about citations as objects. *)

From Coq Require Import List NArith ZArith Arith Bool Lia.
From Verif Require Import PyStr TreeModel CiteLifeModel CiteLifeSpec.
Import ListNotations.

(** ** Lists *)
Lemma length_change : forall {A} (l : list A) i f, length (change l i f) = length l.
Proof. induction l as [|x l IH]; intros [|i] f; cbn [change length]; try reflexivity. rewrite IH. reflexivity. Qed.

Lemma nth_change : forall {A} (l : list A) i j f d,
  nth j (change l i f) d = if (i =? j) && (j <? length l) then f (nth j l d) else nth j l d.
Proof.
  induction l as [|x l IH]; intros i j f d.
  - cbn [length]. replace (j <? 0) with false by (symmetry; apply Nat.ltb_ge; lia). rewrite andb_false_r. destruct i; reflexivity.
  - destruct i as [|i], j as [|j]; cbn [change nth length]; try reflexivity. rewrite IH. reflexivity.
Qed.

Lemma mapM_alike : forall {A B C D} (f : A -> result B) (f' : C -> result D) (n : A -> C) (g : B -> D) l,
  (forall x, In x l -> f' (n x) = outcome g (f x)) ->
  mapM f' (map n l) = outcome (map g) (mapM f l).
Proof.
  induction l as [|x l IH]; intros H; [reflexivity|].
  cbn [map mapM]. rewrite (H x (or_introl eq_refl)), IH by (intros y I; apply H; right; exact I).
  destruct (f x); cbn [outcome bind]; [|reflexivity]. destruct (mapM f l); reflexivity.
Qed.

(** ** Two worlds that look alike *)
Section Alike.
Variables (name : nat -> nat) (w w' : world) (P : nat -> Prop).
Hypothesis Hclosed : forall i j, P i -> In j (children w i) -> P j.
Hypothesis Hkind : forall i, P i -> o_kind (cob w' (name i)) = o_kind (cob w i).
Hypothesis Hname : forall i, P i -> o_name (cob w' (name i)) = o_name (cob w i).
Hypothesis Hrefs : forall i, P i -> o_refs (cob w' (name i)) = o_refs (cob w i).
Hypothesis Hroot : forall i, P i -> o_root (cob w' (name i)) = option_map name (o_root (cob w i)).
Hypothesis Hchildren : forall i, P i -> children w' (name i) = map name (children w i).

Lemma concat_map_name : forall ls : list (list nat), concat (map (map name) ls) = map name (concat ls).
Proof. induction ls as [|l ls IH]; [reflexivity|]. cbn [map concat]. rewrite IH, map_app. reflexivity. Qed.

Lemma iterate_alike : forall fuel i, P i -> iterate fuel w' (name i) = outcome (map name) (iterate fuel w i).
Proof using Hclosed Hkind Hchildren.
  induction fuel as [|fuel IH]; intros i p; [reflexivity|]. cbn [iterate].
  rewrite Hchildren, Hkind by exact p.
  rewrite (mapM_alike (iterate fuel w) (iterate fuel w') name (map name)) by (intros x I; apply IH; apply (Hclosed i); assumption).
  destruct (mapM (iterate fuel w) (children w i)); cbn [outcome bind]; [|reflexivity].
  rewrite concat_map_name. destruct (o_kind (cob w i)); reflexivity.
Qed.

Lemma depth_alike : forall fuel i, P i -> depth fuel w' (name i) = depth fuel w i.
Proof using Hclosed Hkind Hchildren.
  induction fuel as [|fuel IH]; intros i p; [reflexivity|]. cbn [depth].
  rewrite Hchildren, Hkind by exact p.
  assert (E : mapM (depth fuel w') (map name (children w i)) = mapM (depth fuel w) (children w i)).
  { rewrite (mapM_alike (depth fuel w) (depth fuel w') name (fun x => x)).
    - destruct (mapM (depth fuel w) (children w i)) as [l|]; cbn [outcome]; [rewrite map_id|]; reflexivity.
    - intros x I. rewrite IH by (apply (Hclosed i); assumption). destruct (depth fuel w x); reflexivity. }
  destruct (children w i) as [|a l]; [reflexivity|]. cbn [map] in *. rewrite E. reflexivity.
Qed.

Lemma size_alike : forall fuel i, P i -> size fuel w' (name i) = size fuel w i.
Proof using Hclosed Hchildren.
  induction fuel as [|fuel IH]; intros i p; [reflexivity|]. cbn [size].
  rewrite Hchildren, map_length by exact p.
  rewrite (mapM_alike (size fuel w) (size fuel w') name (fun x => x)).
  - destruct (mapM (size fuel w) (children w i)) as [l|]; cbn [outcome]; [rewrite map_id|]; reflexivity.
  - intros x I. rewrite IH by (apply (Hclosed i); assumption). destruct (size fuel w x); reflexivity.
Qed.

Lemma level_alike : forall k i, P i -> at_level k w' (name i) = map name (at_level k w i).
Proof using Hclosed Hchildren.
  induction k as [|k IH]; intros i p; cbn [at_level]; rewrite Hchildren by exact p; [reflexivity|].
  assert (H : forall l, (forall x, In x l -> P x) ->
            flat_map (at_level k w') (map name l) = map name (flat_map (at_level k w) l)).
  { induction l as [|x l IHl]; intros H; [reflexivity|]. cbn [map flat_map].
    rewrite IH, IHl, map_app by (intuition). reflexivity. }
  apply H. intros x I. apply (Hclosed i); assumption.
Qed.

Lemma tree_alike : forall fuel i, P i -> tree fuel w' (name i) = outcome (renamed name) (tree fuel w i).
Proof using Hclosed Hname Hroot Hchildren.
  induction fuel as [|fuel IH]; intros i p; [reflexivity|]. cbn [tree].
  rewrite Hchildren, Hname, Hroot by exact p.
  rewrite (mapM_alike (tree fuel w) (tree fuel w') name (renamed name)) by (intros x I; apply IH; apply (Hclosed i); assumption).
  destruct (mapM (tree fuel w) (children w i)); reflexivity.
Qed.

Lemma alike : forall i, P i -> answers_alike name w i w' (name i).
Proof using Hclosed Hkind Hname Hrefs Hroot Hchildren.
  intros i p. constructor; intros.
  - apply Hkind, p.
  - apply Hname, p.
  - apply Hrefs, p.
  - apply Hchildren, p.
  - unfold child. rewrite Hchildren by exact p. destruct (children w i); reflexivity.
  - unfold is_root. rewrite Hkind, Hroot by exact p. destruct (o_kind (cob w i)), (o_root (cob w i)); reflexivity.
  - unfold root. rewrite Hroot by exact p. destruct (o_root (cob w i)); reflexivity.
  - apply iterate_alike, p.
  - apply depth_alike, p.
  - apply size_alike, p.
  - unfold getitem. rewrite depth_alike by exact p.
    destruct (k <? 0)%Z; [|rewrite level_alike by exact p; reflexivity].
    destruct (depth fuel w i) as [d|]; cbn [bind outcome]; [|reflexivity].
    destruct (Z.of_nat d + k <? 0)%Z; [reflexivity|]. rewrite level_alike by exact p. reflexivity.
  - apply tree_alike, p.
Qed.
End Alike.

(** ** Loading *)
Lemma cob_loads_old : forall saved later i, i < length (objects later) -> cob (loads saved later) i = cob later i.
Proof. intros. unfold cob, loads. cbn [objects]. apply app_nth1. assumption. Qed.

Lemma cob_loads_new : forall saved later i, i < length (objects saved) ->
  cob (loads saved later) (loaded later i)
  = move (length (objects later)) (length (lists later)) (cob saved i).
Proof.
  intros. unfold cob, loads, loaded. cbn [objects]. rewrite app_nth2 by lia.
  replace (length (objects later) + i - length (objects later)) with i by lia.
  rewrite nth_indep with (d' := move (length (objects later)) (length (lists later)) nobody)
    by (rewrite map_length; assumption).
  apply map_nth.
Qed.

Lemma children_loads_old : forall saved later i, sound later -> i < length (objects later) ->
  children (loads saved later) i = children later i.
Proof.
  intros saved later i S L. unfold children. rewrite cob_loads_old by exact L. cbn [loads lists].
  apply app_nth1. apply (S i L).
Qed.

Lemma children_loads_new : forall saved later i, i < length (objects saved) ->
  children (loads saved later) (loaded later i) = map (loaded later) (children saved i).
Proof.
  intros saved later i L. unfold children. rewrite cob_loads_new by exact L. cbn [loads lists move o_list].
  rewrite app_nth2 by lia.
  replace (length (lists later) + o_list (cob saved i) - length (lists later)) with (o_list (cob saved i)) by lia.
  change ([] : list nat) with (map (Nat.add (length (objects later))) []) at 1.
  rewrite map_nth. reflexivity.
Qed.

Lemma copy_alike : forall saved later i, sound saved -> i < length (objects saved) ->
  answers_alike (loaded later) saved i (loads saved later) (loaded later i).
Proof.
  intros saved later i So L. apply alike with (P := fun i => i < length (objects saved)); intros;
    try (rewrite cob_loads_new by assumption; reflexivity); [|apply children_loads_new; assumption|exact L].
  destruct (So i0 H) as (_ & B & _). apply B. assumption.
Qed.

Lemma old_alike : forall saved later i, sound later -> i < length (objects later) ->
  answers_alike (fun i => i) later i (loads saved later) i.
Proof.
  intros saved later i So L.
  apply (alike (fun i => i)) with (P := fun i => i < length (objects later)); intros;
    try (rewrite cob_loads_old by assumption; try reflexivity); [| | |exact L].
  - destruct (So i0 H) as (_ & B & _). apply B. assumption.
  - destruct (o_root (cob later i0)); reflexivity.
  - rewrite children_loads_old by assumption. symmetry. apply map_id.
Qed.

(** ** Fences: [os] and [ls] tell on which side the objects and the lists are *)
Definition fenced (w : world) (os ls : nat -> bool) : Prop :=
  forall x, x < length (objects w) ->
    o_list (cob w x) < length (lists w) /\ ls (o_list (cob w x)) = os x /\
    (forall y, In y (children w x) -> y < length (objects w) /\ os y = os x) /\
    (forall r, o_root (cob w x) = Some r -> r < length (objects w) /\ os r = os x).

Record kept (w : world) (os ls : nat -> bool) (w' : world) (os' ls' : nat -> bool) : Prop := {
  k_len : length (objects w) <= length (objects w');
  k_llen : length (lists w) <= length (lists w');
  k_os : forall x, x < length (objects w) -> os' x = os x;
  k_ls : forall x, x < length (lists w) -> ls' x = ls x;
  k_obj : forall x, x < length (objects w) -> os x = true -> cob w' x = cob w x;
  k_list : forall l, l < length (lists w) -> ls l = true -> nth l (lists w') [] = nth l (lists w) [];
  k_fenced : fenced w' os' ls' }.

Definition outside (w : world) (os : nat -> bool) (x : nat) : Prop := x < length (objects w) /\ os x = false.

Lemma kept_refl : forall w os ls, fenced w os ls -> kept w os ls w os ls.
Proof. intros. constructor; intros; auto. Qed.

Lemma kept_trans : forall w os ls w1 os1 ls1 w2 os2 ls2,
  kept w os ls w1 os1 ls1 -> kept w1 os1 ls1 w2 os2 ls2 -> kept w os ls w2 os2 ls2.
Proof.
  intros w os ls w1 os1 ls1 w2 os2 ls2 [K1 K2 K3 K4 K5 K6 K7] [L1 L2 L3 L4 L5 L6 L7].
  constructor; intros.
  - lia.
  - lia.
  - rewrite L3 by lia. apply K3. assumption.
  - rewrite L4 by lia. apply K4. assumption.
  - rewrite L5 by (try lia; rewrite K3 by assumption; assumption). apply K5; assumption.
  - rewrite L6 by (try lia; rewrite K4 by assumption; assumption). apply K6; assumption.
  - exact L7.
Qed.

Lemma outside_kept : forall w os ls w' os' ls' x,
  kept w os ls w' os' ls' -> outside w os x -> outside w' os' x.
Proof.
  intros w os ls w' os' ls' x K (L & O). split; [pose proof (k_len _ _ _ _ _ _ K); lia|].
  rewrite (k_os _ _ _ _ _ _ K) by exact L. exact O.
Qed.

Lemma cob_change : forall w i j f, cob (change_object w i f) j
  = if (i =? j) && (j <? length (objects w)) then f (cob w j) else cob w j.
Proof. intros. unfold cob, change_object. cbn [objects]. apply nth_change. Qed.

Lemma kept_object : forall w os ls c f, fenced w os ls -> outside w os c ->
  o_list (f (cob w c)) = o_list (cob w c) ->
  (forall r, o_root (f (cob w c)) = Some r -> outside w os r) ->
  kept w os ls (change_object w c f) os ls.
Proof.
  intros w os ls c f F (L & O) El Er. constructor; intros; try reflexivity; cbn [change_object objects lists] in *.
  - rewrite length_change. lia.
  - rewrite cob_change. destruct (Nat.eqb_spec c x) as [->|N]; [congruence|reflexivity].
  - intros x Lx. cbn [change_object objects lists] in *. rewrite length_change in *.
    unfold children. rewrite cob_change. cbn [change_object lists].
    destruct (Nat.eqb_spec c x) as [<-|N]; cbn [andb]; [|exact (F x Lx)].
    replace (c <? length (objects w)) with true by (symmetry; apply Nat.ltb_lt; exact L).
    destruct (F c L) as (A & B & C & D). rewrite El. repeat split; try assumption.
    + apply (C y H).
    + apply (C y H).
    + apply (Er r H).
    + rewrite (proj2 (Er r H)). congruence.
Qed.

Lemma kept_lists : forall w os ls l f, fenced w os ls -> ls l = false ->
  (forall y, In y (f (nth l (lists w) [])) -> outside w os y) ->
  kept w os ls (MkWorld (objects w) (change (lists w) l f)) os ls.
Proof.
  intros w os ls l f F O C. constructor; intros; try reflexivity; cbn [objects lists] in *.
  - rewrite length_change. lia.
  - rewrite nth_change. destruct (Nat.eqb_spec l l0) as [->|N]; [congruence|reflexivity].
  - intros x Lx. cbn [objects lists] in *. rewrite length_change. unfold children, cob in *. cbn [objects lists].
    destruct (F x Lx) as (A & B & D & E). unfold children, cob in *. split; [exact A|]. split; [exact B|]. split; [|exact E].
    intros y I. rewrite nth_change in I.
    destruct (Nat.eqb_spec l (o_list (nth x (objects w) nobody))) as [El|N]; cbn [andb] in I; [|exact (D y I)].
    destruct (o_list (nth x (objects w) nobody) <? length (lists w)); [|exact (D y I)].
    rewrite <- El in I. destruct (C y I) as (Y & Z). split; [exact Y|]. rewrite <- El in B. congruence.
Qed.

Lemma kept_fresh : forall w os ls c l, fenced w os ls -> outside w os c ->
  (forall y, In y l -> outside w os y) ->
  exists ls', kept w os ls (fresh_list w c l) os ls'.
Proof.
  intros w os ls c l F (L & O) C.
  exists (fun x => (x <? length (lists w)) && ls x).
  constructor; intros; try reflexivity; unfold fresh_list; cbn [objects lists].
  - rewrite length_change. lia.
  - rewrite app_length. lia.
  - apply Nat.ltb_lt in H. rewrite H. reflexivity.
  - unfold cob. cbn [objects]. rewrite nth_change. destruct (Nat.eqb_spec c x) as [->|N]; [congruence|reflexivity].
  - apply app_nth1. assumption.
  - intros x Lx. cbn [objects lists] in *. rewrite length_change in *. rewrite app_length. cbn [length].
    unfold children, cob in *. cbn [objects lists] in *. rewrite nth_change.
    apply Nat.ltb_lt in Lx as Bx. rewrite Bx, andb_true_r.
    destruct (F x Lx) as (A1 & A2 & A3 & A4). unfold children, cob in *.
    destruct (Nat.eqb_spec c x) as [<-|N]; cbn [put_list o_list o_root].
    + rewrite app_nth2, Nat.sub_diag, Nat.ltb_irrefl by lia. cbn [nth andb].
      split; [lia|]. split; [symmetry; exact O|]. split; [|exact A4].
      intros y I. destruct (C y I) as (Y & Z). split; [exact Y|congruence].
    + rewrite app_nth1 by exact A1. split; [lia|]. split; [|split; [exact A3|exact A4]].
      apply Nat.ltb_lt in A1. rewrite A1. exact A2.
Qed.

(** A new object, outside, with a list that is there or a new one. *)
Lemma kept_new : forall w os ls x more, fenced w os ls ->
  (forall r, o_root x = Some r -> outside w os r) ->
  (more = [[]] /\ o_list x = length (lists w) \/
   more = [] /\ o_list x < length (lists w) /\ ls (o_list x) = false /\
     forall y, In y (nth (o_list x) (lists w) []) -> outside w os y) ->
  exists os' ls', kept w os ls (MkWorld (objects w ++ [x]) (lists w ++ more)) os' ls' /\
    outside (MkWorld (objects w ++ [x]) (lists w ++ more)) os' (length (objects w)).
Proof.
  intros w os ls x more F Er El.
  exists (fun y => (y <? length (objects w)) && os y), (fun y => (y <? length (lists w)) && ls y).
  split.
  - constructor; intros; cbn [objects lists].
    + rewrite app_length. lia.
    + rewrite app_length. lia.
    + apply Nat.ltb_lt in H. rewrite H. reflexivity.
    + apply Nat.ltb_lt in H. rewrite H. reflexivity.
    + unfold cob. cbn [objects]. apply app_nth1. assumption.
    + apply app_nth1. assumption.
    + intros y Ly. cbn [objects lists] in *. unfold children, cob. cbn [objects lists].
      rewrite !app_length in *. cbn [length] in *.
      destruct (Nat.ltb_spec y (length (objects w))) as [Lo|Lo].
      * rewrite (app_nth1 (objects w)) by exact Lo. destruct (F y Lo) as (A1 & A2 & A3 & A4).
        unfold children, cob in *. rewrite app_nth1 by exact A1.
        split; [lia|]. apply Nat.ltb_lt in A1 as B1. rewrite B1. split; [exact A2|]. split.
        -- intros z I. destruct (A3 z I) as (Z & E). apply Nat.ltb_lt in Z as B. rewrite B. split; [lia|exact E].
        -- intros z I. destruct (A4 z I) as (Z & E). apply Nat.ltb_lt in Z as B. rewrite B. split; [lia|exact E].
      * replace y with (length (objects w)) by lia. rewrite (app_nth2 (objects w)), Nat.sub_diag by lia. cbn [nth andb].
        destruct El as [(-> & El)|(-> & Ll & Lf & Lc)].
        -- rewrite El. cbn [length]. rewrite Nat.ltb_irrefl, app_nth2, Nat.sub_diag by lia. cbn [nth andb].
           split; [lia|]. split; [reflexivity|]. split; [intros z []|].
           intros r E. destruct (Er r E) as (R1 & R2). apply Nat.ltb_lt in R1 as B. rewrite B. split; [lia|exact R2].
        -- rewrite app_nil_r. cbn [length]. apply Nat.ltb_lt in Ll as B1. rewrite B1. split; [lia|]. split; [exact Lf|].
           split.
           ++ intros r E. destruct (Lc r E) as (R1 & R2). apply Nat.ltb_lt in R1 as B. rewrite B. split; [lia|exact R2].
           ++ intros r E. destruct (Er r E) as (R1 & R2). apply Nat.ltb_lt in R1 as B. rewrite B. split; [lia|exact R2].
  - split; cbn [objects]; [rewrite app_length; cbn [length]; lia|rewrite Nat.ltb_irrefl; reflexivity].
Qed.

Lemma outside_root : forall w os ls c, fenced w os ls -> outside w os c -> outside w os (root w c).
Proof.
  intros w os ls c F (L & O). unfold root. destruct (F c L) as (_ & _ & _ & D).
  destruct (o_root (cob w c)) as [r|]; [|split; assumption].
  destruct (D r eq_refl) as (R & E). split; [exact R|congruence].
Qed.

Lemma kept_take : forall vals w os ls c final, fenced w os ls -> outside w os c ->
  (forall i, In i (given vals) -> outside w os i) ->
  (forall i, In i final -> outside w os i) ->
  kept w os ls (fst (take_children w c vals final)) os ls /\
  forall l, snd (take_children w c vals final) = Ok l -> forall i, In i l -> outside w os i.
Proof.
  induction vals as [|v vals IH]; intros w os ls c final F Oc Ov Of; cbn [take_children].
  - split; [apply kept_refl, F|]. intros l [= <-]. exact Of.
  - destruct v as [|i|]; [apply IH; assumption| |split; [apply kept_refl, F|discriminate]].
    cbn [given] in Ov. destruct (accepted w c i); [|split; [apply kept_refl, F|discriminate]].
    set (r := match o_kind (cob w c) with KCit => root w c | KSet => c end).
    assert (Or : outside w os r) by (unfold r; destruct (o_kind (cob w c)); [assumption|apply (outside_root w os ls); assumption]).
    assert (K : kept w os ls (change_object w i (put_root (Some r))) os ls).
    { apply kept_object; [exact F|apply Ov; left; reflexivity|reflexivity|].
      cbn [put_root o_root]. intros x [= <-]. exact Or. }
    destruct (IH (change_object w i (put_root (Some r))) os ls c (final ++ [i])) as (K' & R).
    + exact (k_fenced _ _ _ _ _ _ K).
    + exact (outside_kept _ _ _ _ _ _ _ K Oc).
    + intros j J. apply (outside_kept _ _ _ _ _ _ _ K). apply Ov. right. exact J.
    + intros j J. apply (outside_kept _ _ _ _ _ _ _ K). apply in_app_or in J.
      destruct J as [J|[<-|[]]]; [apply Of; exact J|apply Ov; left; reflexivity].
    + split; [exact (kept_trans _ _ _ _ _ _ _ _ _ K K')|].
      intros l E j J. destruct (R l E j J) as (A & B). split; [|exact B].
      cbn [change_object objects] in A. rewrite length_change in A. exact A.
Qed.

Lemma kept_set_children : forall vals w os ls c, fenced w os ls -> outside w os c ->
  (forall i, In i (given vals) -> outside w os i) ->
  exists ls', kept w os ls (fst (set_children w c vals)) os ls'.
Proof.
  intros vals w os ls c F Oc Ov. unfold set_children.
  destruct (kept_take vals w os ls c [] F Oc Ov) as (K & R); [intros i []|].
  destruct (take_children w c vals []) as (w' & [l|e]); cbn [fst snd] in *.
  - destruct (kept_fresh w' os ls c l) as (ls' & K').
    + exact (k_fenced _ _ _ _ _ _ K).
    + exact (outside_kept _ _ _ _ _ _ _ K Oc).
    + intros y I. apply (outside_kept _ _ _ _ _ _ _ K). exact (R l eq_refl y I).
    + exists ls'. exact (kept_trans _ _ _ _ _ _ _ _ _ K K').
  - exists ls. exact K.
Qed.

Lemma kept_loads : forall w os ls, fenced w os ls ->
  exists os' ls', kept w os ls (deep_copy w) os' ls' /\
    forall c, outside w os c -> outside (deep_copy w) os' (loaded w c).
Proof.
  intros w os ls F.
  exists (fun x => if x <? length (objects w) then os x else os (x - length (objects w))),
         (fun x => if x <? length (lists w) then ls x else ls (x - length (lists w))).
  assert (So : sound w).
  { intros i L. destruct (F i L) as (A & _ & C & D). split; [exact A|]. split; [intros j I; apply (C j I)|intros r I; apply (D r I)]. }
  split.
  - constructor; intros.
    + unfold deep_copy, loads. cbn [objects]. rewrite app_length. lia.
    + unfold deep_copy, loads. cbn [lists]. rewrite app_length. lia.
    + apply Nat.ltb_lt in H. rewrite H. reflexivity.
    + apply Nat.ltb_lt in H. rewrite H. reflexivity.
    + apply cob_loads_old. assumption.
    + unfold deep_copy, loads. cbn [lists]. apply app_nth1. assumption.
    + intros x Lx.
      assert (E1 : length (objects (deep_copy w)) = length (objects w) + length (objects w))
        by (unfold deep_copy, loads; cbn [objects]; rewrite app_length, map_length; reflexivity).
      assert (E2 : length (lists (deep_copy w)) = length (lists w) + length (lists w))
        by (unfold deep_copy, loads; cbn [lists]; rewrite app_length, map_length; reflexivity).
      rewrite E1 in *. rewrite E2.
      destruct (Nat.ltb_spec x (length (objects w))) as [Lo|Lo].
      * unfold deep_copy. rewrite cob_loads_old, children_loads_old by assumption. destruct (F x Lo) as (A1 & A2 & A3 & A4).
        split; [lia|]. apply Nat.ltb_lt in A1 as B1. rewrite B1. split; [exact A2|]. split.
        -- intros z I. destruct (A3 z I) as (Z & E). apply Nat.ltb_lt in Z as B. rewrite B. split; [lia|exact E].
        -- intros z I. destruct (A4 z I) as (Z & E). apply Nat.ltb_lt in Z as B. rewrite B. split; [lia|exact E].
      * assert (Ex : exists y, y < length (objects w) /\ x = loaded w y)
          by (exists (x - length (objects w)); unfold loaded; lia).
        destruct Ex as (y & Ly & ->).
        replace (loaded w y - length (objects w)) with y by (unfold loaded; lia).
        unfold deep_copy. rewrite cob_loads_new, children_loads_new by assumption. destruct (F y Ly) as (A1 & A2 & A3 & A4).
        cbn [move o_list o_root]. split; [lia|].
        replace (length (lists w) + o_list (cob w y) <? length (lists w)) with false by (symmetry; apply Nat.ltb_ge; lia).
        replace (length (lists w) + o_list (cob w y) - length (lists w)) with (o_list (cob w y)) by lia.
        split; [exact A2|].
        assert (G : forall z, z < length (objects w) -> os z = os y ->
           length (objects w) + z < length (objects w) + length (objects w) /\
           (if length (objects w) + z <? length (objects w) then os (length (objects w) + z)
            else os (length (objects w) + z - length (objects w))) = os y).
        { intros z Z E. split; [lia|].
          replace (length (objects w) + z <? length (objects w)) with false by (symmetry; apply Nat.ltb_ge; lia).
          replace (length (objects w) + z - length (objects w)) with z by lia. exact E. }
        split.
        -- intros z I. apply in_map_iff in I. destruct I as (t & <- & I). apply (G t); apply (A3 t I).
        -- intros z I. destruct (o_root (cob w y)) as [t|] eqn:Et; [|discriminate]. cbn [option_map] in I.
           injection I as <-. apply (G t); apply (A4 t eq_refl).
  - intros c (L & O). split.
    + unfold deep_copy, loads, loaded. cbn [objects]. rewrite app_length, map_length. lia.
    + unfold loaded. replace (length (objects w) + c <? length (objects w)) with false by (symmetry; apply Nat.ltb_ge; lia).
      replace (length (objects w) + c - length (objects w)) with c by lia. exact O.
Qed.

Ltac chain K := eexists; eexists; split; [exact K|].

Lemma kept_perform : forall d w os ls, fenced w os ls ->
  (forall i, In i (needs d) -> outside w os i) ->
  exists os' ls', kept w os ls (perform w d) os' ls' /\
    forall i, In i (receives w d) -> outside (perform w d) os' i.
Proof.
  intros d w os ls F N. destruct d as [vals|name refs vals r|c vals|c v|c v|c l|c n|c r|c r|c|c]; cbn [needs perform receives] in *.
  - destruct (kept_new w os ls (MkObj KSet None None (length (lists w)) None) [[]] F) as (os1 & ls1 & K1 & O1);
      [discriminate|left; split; reflexivity|].
    unfold new_set. set (w1 := MkWorld _ _) in *. destruct vals as [|v vals].
    + exists os1, ls1. split; [exact K1|]. cbn [snd if_made]. intros i [<-|[]]. exact O1.
    + destruct (kept_set_children (v :: vals) w1 os1 ls1 (length (objects w))) as (ls2 & K2).
      * exact (k_fenced _ _ _ _ _ _ K1).
      * exact O1.
      * intros i I. apply (outside_kept _ _ _ _ _ _ _ K1). apply N, I.
      * exists os1, ls2. split; [exact (kept_trans _ _ _ _ _ _ _ _ _ K1 K2)|].
        destruct (snd _); cbn [if_made]; [|intros i []]. intros i [<-|[]]. exact (outside_kept _ _ _ _ _ _ _ K2 O1).
  - destruct (kept_new w os ls (MkObj KCit name None (length (lists w)) None) [[]] F) as (os1 & ls1 & K1 & O1);
      [discriminate|left; split; reflexivity|].
    unfold new_citation. set (w1 := MkWorld _ _) in *.
    destruct (kept_set_children vals w1 os1 ls1 (length (objects w))) as (ls2 & K2).
    + exact (k_fenced _ _ _ _ _ _ K1).
    + exact O1.
    + intros i I. apply (outside_kept _ _ _ _ _ _ _ K1). apply N. apply in_or_app. left. exact I.
    + destruct (set_children w1 (length (objects w)) vals) as (w2 & [u|e]); cbn [fst snd if_made] in *.
      * pose proof (kept_trans _ _ _ _ _ _ _ _ _ K1 K2) as K.
        assert (O2 : outside w2 os1 (length (objects w))) by exact (outside_kept _ _ _ _ _ _ _ K2 O1).
        assert (K3 : kept w2 os1 ls2 (change_object w2 (length (objects w)) (put_root r)) os1 ls2).
        { apply kept_object; [exact (k_fenced _ _ _ _ _ _ K2)|exact O2|reflexivity|].
          cbn [put_root o_root]. intros x ->. apply (outside_kept _ _ _ _ _ _ _ K). apply N, in_or_app. right. left. reflexivity. }
        assert (O3 := outside_kept _ _ _ _ _ _ _ K3 O2).
        assert (K4 : kept (change_object w2 (length (objects w)) (put_root r)) os1 ls2
                       (set_refs (change_object w2 (length (objects w)) (put_root r)) (length (objects w)) refs) os1 ls2).
        { destruct refs as [t|]; [|apply kept_refl; exact (k_fenced _ _ _ _ _ _ K3)].
          apply kept_object; [exact (k_fenced _ _ _ _ _ _ K3)|exact O3|reflexivity|].
          cbn [put_refs o_root]. intros x Ex. pose proof (k_fenced _ _ _ _ _ _ K3 _ (proj1 O3)) as (_ & _ & _ & D).
          destruct (D x Ex) as (D1 & D2). split; [exact D1|]. rewrite D2. exact (proj2 O3). }
        exists os1, ls2. split; [exact (kept_trans _ _ _ _ _ _ _ _ _ K (kept_trans _ _ _ _ _ _ _ _ _ K3 K4))|].
        intros i [<-|[]]. exact (outside_kept _ _ _ _ _ _ _ K4 O3).
      * exists os1, ls2. split; [exact (kept_trans _ _ _ _ _ _ _ _ _ K1 K2)|]. intros i [].
  - destruct (kept_set_children vals w os ls c F) as (ls' & K);
      [apply N; left; reflexivity|intros i I; apply N; right; exact I|].
    exists os, ls'. split; [exact K|]. intros i [].
  - unfold set_child. destruct v as [i|].
    + destruct (kept_set_children [VCit i] w os ls c F) as (ls' & K);
        [apply N; left; reflexivity|intros j J; apply N; right; exact J|].
      destruct (set_children w c [VCit i]) as (w1 & [u|e]); cbn [fst] in *.
      * exists os, ls'. split; [|intros j []]. apply (kept_trans _ _ _ _ _ _ _ _ _ K).
        assert (Oc := outside_kept _ _ _ _ _ _ _ K (N c (or_introl eq_refl))).
        apply kept_object; [exact (k_fenced _ _ _ _ _ _ K)| |reflexivity|].
        -- apply (outside_kept _ _ _ _ _ _ _ K). apply N. right. left. reflexivity.
        -- cbn [put_root o_root]. intros x [= <-]. destruct (is_root w1 c); [exact Oc|].
           apply (outside_root w1 os ls'); [exact (k_fenced _ _ _ _ _ _ K)|exact Oc].
      * exists os, ls'. split; [exact K|]. intros j [].
    + destruct (kept_set_children [] w os ls c F) as (ls' & K);
        [apply N; left; reflexivity|intros i []|].
      exists os, ls'. split; [exact K|]. intros i [].
  - exists os, ls. split; [|intros i []]. unfold add_child.
    destruct v as [|i|]; try (apply kept_refl, F). destruct (o_kind (cob w i)); [apply kept_refl, F|].
    destruct (N c (or_introl eq_refl)) as (Lc & Oc). destruct (F c Lc) as (A1 & A2 & A3 & A4).
    apply kept_lists; [exact F|congruence|].
    intros y I. apply in_app_or in I. destruct I as [I|[<-|[]]].
    + destruct (A3 y I). split; [assumption|congruence].
    + apply N. right. left. reflexivity.
  - exists os, ls. split; [|intros i []]. unfold splice.
    destruct (N c (or_introl eq_refl)) as (Lc & Oc). destruct (F c Lc) as (A1 & A2 & A3 & A4).
    apply kept_lists; [exact F|congruence|].
    intros y I. destruct (nth (o_list (cob w c)) (lists w) []); [destruct I|]. apply N. right. exact I.
  - exists os, ls. split; [|intros i []]. destruct (N c (or_introl eq_refl)) as (Lc & Oc).
    destruct (F c Lc) as (A1 & A2 & A3 & A4).
    apply kept_object; [exact F|split; assumption|reflexivity|].
    cbn [put_name o_root]. intros x Ex. destruct (A4 x Ex). split; [assumption|congruence].
  - exists os, ls. split; [|intros i []]. destruct (N c (or_introl eq_refl)) as (Lc & Oc).
    destruct (F c Lc) as (A1 & A2 & A3 & A4). destruct r as [t|]; [|apply kept_refl, F].
    apply kept_object; [exact F|split; assumption|reflexivity|].
    cbn [put_refs o_root]. intros x Ex. destruct (A4 x Ex). split; [assumption|congruence].
  - exists os, ls. split; [|intros i []].
    apply kept_object; [exact F|apply N; left; reflexivity|reflexivity|].
    cbn [put_root o_root]. intros x ->. apply N. right. left. reflexivity.
  - destruct (N c (or_introl eq_refl)) as (Lc & Oc). destruct (F c Lc) as (A1 & A2 & A3 & A4).
    destruct (kept_new w os ls (cob w c) [] F) as (os' & ls' & K & O).
    + intros x Ex. destruct (A4 x Ex). split; [assumption|congruence].
    + right. split; [reflexivity|]. split; [exact A1|]. split; [congruence|].
      intros y I. destruct (A3 y I). split; [assumption|congruence].
    + rewrite app_nil_r in K, O. exists os', ls'. split; [exact K|]. intros i [<-|[]]. exact O.
  - destruct (kept_loads w os ls F) as (os' & ls' & K & O). exists os', ls'. split; [exact K|].
    intros i [<-|[]]. apply O, N. left. reflexivity.
Qed.

Lemma kept_runs : forall allowed w held w' held' os ls, runs allowed w held w' held' -> fenced w os ls ->
  (forall i, In i held -> outside w os i) ->
  exists os' ls', kept w os ls w' os' ls' /\ forall i, In i held' -> outside w' os' i.
Proof.
  intros allowed w held w' held' os ls Rn F O.
  induction Rn as [|w' held' x y Rn IH I L|w' held' d Rn IH A N].
  - exists os, ls. split; [apply kept_refl, F|exact O].
  - destruct IH as (os' & ls' & K & O'). exists os', ls'. split; [exact K|].
    intros i [<-|J]; [|apply O', J]. destruct (O' x I) as (Lx & Ox).
    destruct (k_fenced _ _ _ _ _ _ K x Lx) as (_ & _ & C & D).
    destruct L as [L|L]; [destruct (C y L)|destruct (D y L)]; split; try assumption; congruence.
  - destruct IH as (os' & ls' & K & O').
    destruct (kept_perform d w' os' ls' (k_fenced _ _ _ _ _ _ K)) as (os2 & ls2 & K2 & O2);
      [intros i I; apply O', N, I|].
    exists os2, ls2. split; [exact (kept_trans _ _ _ _ _ _ _ _ _ K K2)|].
    intros i I. apply in_app_or in I. destruct I as [I|I]; [exact (O2 i I)|].
    exact (outside_kept _ _ _ _ _ _ _ K2 (O' i I)).
Qed.

Lemma sound_fenced : forall w, sound w <-> fenced w (fun _ => false) (fun _ => false).
Proof.
  intros w. split; intros S i L; destruct (S i L) as (A & B).
  - destruct B as (B & C). repeat split; auto.
  - destruct B as (_ & B & C). split; [exact A|]. split; [intros j J; apply (B j J)|intros j J; apply (C j J)].
Qed.

Lemma fenced_sound : forall w os ls, fenced w os ls -> sound w.
Proof.
  intros w os ls F i L. destruct (F i L) as (A & _ & B & C). split; [exact A|].
  split; [intros j J; apply (B j J)|intros j J; apply (C j J)].
Qed.

Lemma runs_sound : forall allowed w held w' held', runs allowed w held w' held' -> sound w ->
  (forall i, In i held -> i < length (objects w)) ->
  sound w' /\ forall i, In i held' -> i < length (objects w').
Proof.
  intros allowed w held w' held' Rn So H.
  destruct (kept_runs allowed w held w' held' _ _ Rn (proj1 (sound_fenced w) So)) as (os & ls & K & O).
  - intros i I. split; [apply H, I|reflexivity].
  - split; [exact (fenced_sound _ _ _ (k_fenced _ _ _ _ _ _ K))|]. intros i I. apply (O i I).
Qed.

(** ** What was kept answers as before *)
Lemma kept_alike : forall w os ls w' os' ls' x, kept w os ls w' os' ls' -> fenced w os ls ->
  x < length (objects w) -> os x = true ->
  answers_alike (fun i => i) w x w' x.
Proof.
  intros w os ls w' os' ls' x K F L O.
  assert (C : forall i, i < length (objects w) /\ os i = true -> children w' i = children w i).
  { intros i (Li & Oi). unfold children. rewrite (k_obj _ _ _ _ _ _ K) by assumption.
    destruct (F i Li) as (A & B & _). apply (k_list _ _ _ _ _ _ K); [exact A|congruence]. }
  apply (alike (fun i => i)) with (P := fun i => i < length (objects w) /\ os i = true); intros;
    try (rewrite (k_obj _ _ _ _ _ _ K) by tauto; try reflexivity).
  - destruct H as (Li & Oi). destruct (F i Li) as (_ & _ & B & _). destruct (B j H0). split; [assumption|congruence].
  - destruct (o_root (cob w i)); reflexivity.
  - rewrite C by assumption. symmetry. apply map_id.
  - split; assumption.
Qed.

Lemma answers_trans : forall f w i w1 i1 w2,
  answers_alike f w i w1 i1 -> answers_alike (fun x => x) w1 i1 w2 i1 -> answers_alike f w i w2 i1.
Proof.
  intros f w i w1 i1 w2 H0 H1. 
  assert (R : forall t, renamed (fun x => x) t = t).
  { fix IH 1. intros [n r l]. cbn [renamed]. f_equal; [destruct r; reflexivity|].
    induction l as [|x l IHl]; [reflexivity|]. cbn [map]. rewrite IH, IHl. reflexivity. }
  assert (I : forall r : result (list nat), outcome (map (fun x => x)) r = r)
    by (intros [l|]; cbn [outcome]; [rewrite map_id|]; reflexivity).
  assert (I' : forall r : result citation, outcome (renamed (fun x => x)) r = r)
    by (intros [l|]; cbn [outcome]; [rewrite R|]; reflexivity).
  constructor; intros.
  - rewrite (al_kind _ _ _ _ _ H1). apply H0.
  - rewrite (al_name _ _ _ _ _ H1). apply H0.
  - rewrite (al_refs _ _ _ _ _ H1). apply H0.
  - rewrite (al_children _ _ _ _ _ H1), map_id. apply H0.
  - rewrite (al_child _ _ _ _ _ H1). rewrite <- (al_child _ _ _ _ _ H0). destruct (child w1 i1); reflexivity.
  - rewrite (al_is_root _ _ _ _ _ H1). apply H0.
  - rewrite (al_root _ _ _ _ _ H1). apply H0.
  - rewrite (al_iter _ _ _ _ _ H1), I. apply (al_iter _ _ _ _ _ H0).
  - rewrite (al_depth _ _ _ _ _ H1). apply (al_depth _ _ _ _ _ H0).
  - rewrite (al_len _ _ _ _ _ H1). apply (al_len _ _ _ _ _ H0).
  - rewrite (al_getitem _ _ _ _ _ H1), I. apply (al_getitem _ _ _ _ _ H0).
  - rewrite (al_tree _ _ _ _ _ H1), I'. apply (al_tree _ _ _ _ _ H0).
Qed.

(** Sides after loading: what was there, and what was loaded. *)
Definition side (n : nat) (new : bool) (x : nat) : bool := if n <=? x then new else negb new.

Lemma fenced_loads : forall saved later new, sound saved -> sound later ->
  fenced (loads saved later) (side (length (objects later)) new) (side (length (lists later)) new).
Proof.
  intros saved later new So Sl x Lx.
  assert (E1 : length (objects (loads saved later)) = length (objects later) + length (objects saved))
    by (unfold loads; cbn [objects]; rewrite app_length, map_length; reflexivity).
  assert (E2 : length (lists (loads saved later)) = length (lists later) + length (lists saved))
    by (unfold loads; cbn [lists]; rewrite app_length, map_length; reflexivity).
  assert (Old : forall n y, y < n -> side n new y = negb new)
    by (intros n y Ly; unfold side; destruct (Nat.leb_spec n y); [lia|reflexivity]).
  assert (New : forall n y, side n new (n + y) = new)
    by (intros n y; unfold side; destruct (Nat.leb_spec n (n + y)); [reflexivity|lia]).
  rewrite E1 in *. rewrite E2.
  destruct (Nat.ltb_spec x (length (objects later))) as [Lo|Lo].
  - rewrite cob_loads_old, children_loads_old by assumption. destruct (Sl x Lo) as (A & B & C).
    rewrite (Old _ x Lo). split; [lia|]. split; [apply Old, A|]. split.
    + intros y I. pose proof (B y I). rewrite Old by assumption. split; [lia|reflexivity].
    + intros y I. pose proof (C y I). rewrite Old by assumption. split; [lia|reflexivity].
  - replace x with (loaded later (x - length (objects later))) by (unfold loaded; lia).
    assert (Ly : x - length (objects later) < length (objects saved)) by lia.
    set (y := x - length (objects later)) in *. rewrite cob_loads_new, children_loads_new by assumption.
    destruct (So y Ly) as (A & B & C). unfold loaded. rewrite (New _ y). cbn [move o_list o_root].
    split; [lia|]. split; [apply New|]. split.
    + intros z I. apply in_map_iff in I. destruct I as (t & <- & I). pose proof (B t I). rewrite New. split; [lia|reflexivity].
    + intros z I. destruct (o_root (cob saved y)) as [t|] eqn:Et; [|discriminate]. injection I as <-.
      pose proof (C t eq_refl). rewrite New. split; [lia|reflexivity].
Qed.

Lemma copy_stays : forall saved later held w' held' c, sound saved -> sound later ->
  (forall y, In y held -> y < length (objects later)) ->
  runs (fun _ => True) (loads saved later) held w' held' ->
  c < length (objects saved) ->
  answers_alike (loaded later) saved c w' (loaded later c).
Proof.
  intros saved later held w' held' c So Sl H Rn L.
  apply answers_trans with (w1 := loads saved later); [apply copy_alike; assumption|].
  pose proof (fenced_loads saved later true So Sl) as F.
  destruct (kept_runs _ _ _ _ _ _ _ Rn F) as (os & ls & K & _).
  - intros i I. specialize (H i I). split.
    + unfold loads. cbn [objects]. rewrite app_length. lia.
    + unfold side. destruct (Nat.leb_spec (length (objects later)) i); [lia|reflexivity].
  - apply (kept_alike _ _ _ _ _ _ _ K F).
    + unfold loads, loaded. cbn [objects]. rewrite app_length, map_length. lia.
    + unfold side, loaded. destruct (Nat.leb_spec (length (objects later)) (length (objects later) + c)); [reflexivity|lia].
Qed.

Lemma original_stays : forall saved later held w' held' x, sound saved -> sound later ->
  (forall y, In y held -> exists c, c < length (objects saved) /\ y = loaded later c) ->
  runs (fun _ => True) (loads saved later) held w' held' ->
  x < length (objects later) ->
  answers_alike (fun i => i) later x w' x.
Proof.
  intros saved later held w' held' x So Sl H Rn L.
  apply answers_trans with (w1 := loads saved later); [apply old_alike; assumption|].
  pose proof (fenced_loads saved later false So Sl) as F.
  destruct (kept_runs _ _ _ _ _ _ _ Rn F) as (os & ls & K & _).
  - intros i I. destruct (H i I) as (c & Lc & ->). unfold loaded. split.
    + unfold loads. cbn [objects]. rewrite app_length, map_length. lia.
    + unfold side. destruct (Nat.leb_spec (length (objects later)) (length (objects later) + c)); [reflexivity|lia].
  - apply (kept_alike _ _ _ _ _ _ _ K F).
    + unfold loads. cbn [objects]. rewrite app_length. lia.
    + unfold side. destruct (Nat.leb_spec (length (objects later)) x); [lia|reflexivity].
Qed.
