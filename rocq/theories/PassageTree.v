(** The tree of a passage and the document it comes from: what is cited in the one
    is cited in the other. *)

From Coq Require Import List NArith ZArith Arith Bool Lia Sorted.
From Verif Require Import PyStr PyStrFacts XmlModel XmlSpec XmlProofs.
From Verif Require Import RefModel XPathModel TemplateSpec PassageSpec PassageProofs.
Import ListNotations.

Definition kept (parts : path -> part) (p : path) : bool := match parts p with Absent => false | _ => true end.
Definition whole (parts : path -> part) (p : path) : bool := match parts p with Whole => true | _ => false end.
Definition under (parts : path -> part) (i : nat) : path -> part := fun p => parts (i :: p).
Definition closed (parts : path -> part) : Prop := forall p q, kept parts (p ++ q) = true -> kept parts p = true.

Fixpoint prune (parts : path -> part) (y : str) (n : node) : node :=
  match n with
  | Elem t a x _ kids =>
      Elem t a (if whole parts [] then x else []) y
        ((fix go (i : nat) (l : list node) : list node :=
            match l with
            | [] => []
            | k :: l' =>
                (if kept parts [i]
                 then [prune (under parts i) (if whole parts [i] && whole parts [] then n_tail k else []) k]
                 else []) ++ go (S i) l'
            end) 0 kids)
  end.
Definition prune_from (parts : path -> part) := fix go (i : nat) (l : list node) : list node :=
  match l with
  | [] => []
  | k :: l' =>
      (if kept parts [i]
       then [prune (under parts i) (if whole parts [i] && whole parts [] then n_tail k else []) k]
       else []) ++ go (S i) l'
  end.

Lemma prune_unfold : forall parts y n, prune parts y n =
  Elem (n_tag n) (n_attrs n) (if whole parts [] then n_text n else []) y (prune_from parts 0 (n_kids n)).
Proof. intros parts y [t a x z kids]. reflexivity. Qed.

Lemma closed_under : forall parts i, closed parts -> closed (under parts i).
Proof. intros parts i H p q. exact (H (i :: p) q). Qed.

(** ** Its lines *)

Definition tline (d : nat) (parts : path -> part) (y : str) (pn : path * node) : list line :=
  let '(p, n) := pn in
  if kept parts p
  then [(d + length p, n_tag n, n_attrs n, if whole parts p then n_text n else [],
         match p with [] => y | _ => if whole parts p && whole parts (removelast p) then n_tail n else [] end)]
  else [].

Lemma pline_tline : forall d parts pn, pline d parts pn = tline d parts [] pn.
Proof.
  intros d parts [p n]. unfold pline, tline, kept, whole. destruct (parts p); [|destruct p; reflexivity|reflexivity].
  destruct p; [reflexivity|]. destruct (parts (removelast (n0 :: p))); reflexivity.
Qed.

Lemma absent_lines : forall d parts y n, closed parts -> kept parts [] = false -> flat_map (tline d parts y) (positions n) = [].
Proof.
  intros d parts y n Hc H. assert (Ha : forall p, kept parts p = false).
  { intros p. destruct (kept parts p) eqn:E; [|reflexivity]. apply (Hc []) in E. congruence. }
  induction (positions n) as [|[p m] l IH]; [reflexivity|]. cbn [flat_map]. unfold tline at 1. rewrite Ha. exact IH.
Qed.

Lemma lines_prune : forall n d parts y, closed parts -> kept parts [] = true ->
  lines d (prune parts y n) = flat_map (tline d parts y) (positions n).
Proof.
  induction n as [t a x z kids IH] using node_ind'. intros d parts y Hc H.
  rewrite prune_unfold, positions_unfold. cbn [lines flat_map n_tag n_attrs n_text n_kids]. unfold tline at 1. rewrite H.
  cbn [length app]. rewrite Nat.add_0_r. f_equal. rewrite flat_map_positions_from.
  assert (E : forall l i, Forall (fun k => forall d parts y, closed parts -> kept parts [] = true ->
      lines d (prune parts y k) = flat_map (tline d parts y) (positions k)) l ->
    flat_map (lines (S d)) (prune_from parts i l) =
    from i l (fun j k => flat_map (fun pn => tline d parts y (j :: fst pn, snd pn)) (positions k))).
  2:{ apply E. exact IH. }
  induction l as [|k l IHl]; intros i Hl; [reflexivity|]. rewrite Forall_cons_iff in Hl. destruct Hl as [Hk Hl].
  change (prune_from parts i (k :: l)) with
    ((if kept parts [i] then [prune (under parts i) (if whole parts [i] && whole parts [] then n_tail k else []) k] else []) ++ prune_from parts (S i) l).
  cbn [from]. rewrite flat_map_app, (IHl _ Hl). f_equal.
  assert (Ex : flat_map (fun pn => tline d parts y (i :: fst pn, snd pn)) (positions k) =
    flat_map (tline (S d) (under parts i) (if whole parts [i] && whole parts [] then n_tail k else [])) (positions k)).
  { rewrite positions_unfold. cbn [flat_map fst snd]. f_equal.
    - unfold tline, under, kept, whole. cbn [length removelast]. rewrite Nat.add_0_r, Nat.add_1_r. reflexivity.
    - rewrite !flat_map_positions_from. apply from_ext. intros m k' _. apply flat_map_ext. intros [p q]. unfold tline, under, kept, whole.
      cbn [fst snd length removelast]. rewrite !Nat.add_succ_r. reflexivity. }
  rewrite Ex. destruct (kept parts [i]) eqn:Ei.
  - cbn [flat_map]. rewrite app_nil_r. apply Hk; [apply closed_under; exact Hc|exact Ei].
  - symmetry. apply absent_lines; [apply closed_under; exact Hc|exact Ei].
Qed.

Lemma prune_of_lines : forall parts n R, closed parts -> kept parts [] = true ->
  lines 0 R = passage_lines parts n -> R = prune parts [] n.
Proof.
  intros parts n R Hc H HR. apply (lines_inj 0). rewrite lines_prune by assumption. rewrite HR, render_0. unfold render.
  apply flat_map_ext. intros pn. apply pline_tline.
Qed.

(** ** Positions *)

Definition rank (parts : path -> part) (i0 i : nat) : nat := length (filter (fun j => kept parts [j]) (seq i0 i)).
Fixpoint renumber (parts : path -> part) (p : path) : path :=
  match p with [] => [] | i :: p' => rank parts 0 i :: renumber (under parts i) p' end.

Lemma prune_from_nth : forall parts l i0 i' k',
  nth_error (prune_from parts i0 l) i' = Some k' <->
  exists i k, nth_error l i = Some k /\ kept parts [i0 + i] = true /\ i' = rank parts i0 i /\
    k' = prune (under parts (i0 + i)) (if whole parts [i0 + i] && whole parts [] then n_tail k else []) k.
Proof.
  intros parts. induction l as [|k l IH]; intros i0 i' k'.
  - cbn. split; [destruct i'; discriminate|]. intros (i & k & H & _). destruct i; discriminate.
  - change (prune_from parts i0 (k :: l)) with
      ((if kept parts [i0] then [prune (under parts i0) (if whole parts [i0] && whole parts [] then n_tail k else []) k] else []) ++ prune_from parts (S i0) l).
    split.
    + intros H. destruct (kept parts [i0]) eqn:E.
      * destruct i' as [|i']; cbn in H.
        -- injection H as <-. exists 0, k. rewrite Nat.add_0_r. split; [reflexivity|]. split; [exact E|]. split; reflexivity.
        -- apply IH in H. destruct H as (i & k0 & Hk & Hi & -> & ->). exists (S i), k0. rewrite Nat.add_succ_r. split; [exact Hk|]. split; [exact Hi|].
           split; [|reflexivity]. unfold rank. cbn [seq filter]. rewrite E. reflexivity.
      * cbn in H. apply IH in H. destruct H as (i & k0 & Hk & Hi & -> & ->). exists (S i), k0. rewrite Nat.add_succ_r. split; [exact Hk|]. split; [exact Hi|].
        split; [|reflexivity]. unfold rank. cbn [seq filter]. rewrite E. reflexivity.
    + intros (i & k0 & Hk & Hi & -> & ->). destruct i as [|i].
      * cbn in Hk. injection Hk as <-. rewrite Nat.add_0_r in *. rewrite Hi. reflexivity.
      * cbn in Hk. rewrite Nat.add_succ_r in *. unfold rank. cbn [seq filter].
        destruct (kept parts [i0]); cbn [app length nth_error]; apply IH; exists i, k0; auto.
Qed.

Lemma at_position_prune : forall q' parts y n m', closed parts ->
  (at_position (prune parts y n) q' m' -> exists q m y', at_position n q m /\ (q <> [] -> kept parts q = true) /\ q' = renumber parts q /\
     m' = prune (fun r => parts (q ++ r)) y' m).
Proof.
  induction q' as [|i' q' IH]; intros parts y n m' Hc H.
  - apply at_position_nil in H. subst m'. exists [], n, y. split; [constructor|]. split; [congruence|]. split; reflexivity.
  - apply at_position_cons in H. destruct H as (k' & Hk' & H). rewrite prune_unfold in Hk'. cbn [n_kids] in Hk'.
    apply prune_from_nth in Hk'. destruct Hk' as (i & k & Hk & Hi & -> & ->). cbn [Nat.add] in *.
    apply IH in H; [|apply closed_under; exact Hc]. destruct H as (q & m & y' & Hq & Hkq & -> & ->).
    exists (i :: q), m, y'. split; [apply at_position_cons; eauto|]. split.
    { intros _. destruct q as [|j q]; [exact Hi|]. apply Hkq. discriminate. }
    split; reflexivity.
Qed.

Lemma kept_prefix : forall parts p q, closed parts -> kept parts (p ++ q) = true -> kept parts p = true.
Proof. intros parts p q H. apply H. Qed.

Lemma prune_at_position : forall q parts y n m, closed parts -> kept parts q = true -> at_position n q m ->
  exists y', at_position (prune parts y n) (renumber parts q) (prune (fun r => parts (q ++ r)) y' m).
Proof.
  induction q as [|i q IH]; intros parts y n m Hc Hk H.
  - apply at_position_nil in H. subst m. exists y. constructor.
  - apply at_position_cons in H. destruct H as (k & Hi & H).
    destruct (IH (under parts i) (if whole parts [i] && whole parts [] then n_tail k else []) k m (closed_under _ _ Hc) Hk H) as [y' Hy'].
    exists y'. cbn [renumber]. apply at_position_cons. eexists. split; [|exact Hy'].
    rewrite prune_unfold. cbn [n_kids]. apply prune_from_nth. exists i, k. split; [exact Hi|]. split; [|split; reflexivity].
    apply (Hc [i] q). exact Hk.
Qed.

Lemma prune_step : forall s parts y n, step_holds s (prune parts y n) <-> step_holds s n.
Proof. intros s parts y n. rewrite prune_unfold. reflexivity. Qed.

Lemma renumber_app : forall a parts b, renumber parts (a ++ b) = renumber parts a ++ renumber (fun r => parts (a ++ r)) b.
Proof. induction a as [|i a IH]; intros parts b; [reflexivity|]. cbn. rewrite IH. reflexivity. Qed.

Lemma renumber_nil : forall parts q, renumber parts q = [] -> q = [].
Proof. intros parts [|i q] H; [reflexivity|discriminate]. Qed.

Lemma renumber_length : forall q parts, length (renumber parts q) = length q.
Proof. induction q as [|i q IH]; intros parts; cbn; [reflexivity|rewrite IH; reflexivity]. Qed.

Lemma renumber_ext : forall q parts parts', (forall p, parts p = parts' p) -> renumber parts q = renumber parts' q.
Proof.
  induction q as [|i q IH]; intros parts parts' H; [reflexivity|]. cbn. f_equal.
  - unfold rank. f_equal. apply filter_ext. intros j. unfold kept. rewrite H. reflexivity.
  - apply IH. intros p. apply H.
Qed.

(** Selection in the pruned tree is selection of what is kept. *)
Lemma selects_prune : forall xs parts y n q', closed parts -> kept parts [] = true ->
  (selects xs (prune parts y n) q' <->
   exists q, selects xs n q /\ kept parts q = true /\ q' = renumber parts q).
Proof.
  induction xs as [|s xs IH]; intros parts y n q' Hc H0.
  - rewrite selects_nil. split.
    + intros ->. exists []. split; [constructor|]. split; [exact H0|reflexivity].
    + intros (q & Hq & _ & ->). apply selects_nil in Hq. subst q. reflexivity.
  - split.
    + intros H. apply selects_inv in H. destruct H as (a' & i' & p' & m' & -> & Hm & Hs & Hd & H).
      apply at_position_prune in Hm; [|exact Hc]. destruct Hm as (q & m & y' & Hq & Hk & E & ->).
      assert (Hne : q <> []) by (intros ->; destruct a'; discriminate). specialize (Hk Hne).
      destruct (exists_last Hne) as (a & i & ->). rewrite renumber_app in E. cbn [renumber] in E.
      apply app_inj_tail in E. destruct E as [-> ->]. apply prune_step in Hs.
      apply IH in H.
      * destruct H as (p & Hp & Hkp & ->). exists (a ++ i :: p). split.
        -- econstructor; [exact Hq|exact Hs| |exact Hp]. intros Hd'. apply (renumber_nil parts). apply Hd. exact Hd'.
        -- change (kept parts ((a ++ [i]) ++ p) = true) in Hkp. rewrite <- app_assoc in Hkp. split; [exact Hkp|]. rewrite renumber_app. cbn [renumber]. f_equal. f_equal.
           apply renumber_ext. intros r. unfold under. rewrite <- app_assoc. reflexivity.
      * intros p q. unfold kept. rewrite app_assoc. apply (Hc ((a ++ [i]) ++ p) q).
      * unfold kept. rewrite app_nil_r. exact Hk.
    + intros (q & H & Hk & ->). apply selects_inv in H. destruct H as (a & i & p & m & -> & Hm & Hs & Hd & H).
      replace (a ++ i :: p) with ((a ++ [i]) ++ p) in Hk by (rewrite <- app_assoc; reflexivity).
      pose proof (Hc _ _ Hk) as Hk1. destruct (prune_at_position _ parts y n m Hc Hk1 Hm) as [y' Hy'].
      rewrite renumber_app in Hy'. cbn [renumber] in Hy'. rewrite renumber_app. cbn [renumber].
      econstructor; [exact Hy'|apply prune_step; exact Hs|intros Hd'; rewrite (Hd Hd'); reflexivity|].
      apply IH.
      * intros p1 q1. unfold kept. rewrite app_assoc. apply (Hc ((a ++ [i]) ++ p1) q1).
      * unfold kept. rewrite app_nil_r. exact Hk1.
      * exists p. split; [exact H|]. split; [exact Hk|]. apply renumber_ext. intros r. unfold under. rewrite <- app_assoc. reflexivity.
Qed.

(** Renumbering keeps the order. *)
Lemma rank_lt : forall parts i0 i j, i < j -> kept parts [i0 + i] = true -> rank parts i0 i < rank parts i0 j.
Proof.
  intros parts i0 i j Hij Hk. unfold rank. replace j with (i + (1 + (j - i - 1))) by lia. rewrite seq_app, filter_app, app_length.
  rewrite seq_app, filter_app, app_length. cbn [seq filter]. rewrite Hk. cbn [length]. lia.
Qed.

Lemma renumber_precedes : forall p q parts, closed parts -> kept parts p = true -> kept parts q = true ->
  precedes (renumber parts p) (renumber parts q) = precedes p q.
Proof.
  induction p as [|i p IH]; intros q parts Hc Hp Hq; [destruct q; reflexivity|]. destruct q as [|j q]; [reflexivity|].
  cbn [renumber]. rewrite !precedes_cons. pose proof (Hc [i] p Hp) as Hi. pose proof (Hc [j] q Hq) as Hj.
  destruct (Nat.lt_trichotomy i j) as [H|[H|H]].
  - rewrite (proj2 (Nat.ltb_lt i j) H). rewrite (proj2 (Nat.ltb_lt _ _) (rank_lt parts 0 i j H Hi)). reflexivity.
  - subst j. rewrite !Nat.ltb_irrefl, !Nat.eqb_refl. cbn. apply IH; [apply closed_under; exact Hc|exact Hp|exact Hq].
  - pose proof (rank_lt parts 0 j i H Hj) as Hr.
    destruct (Nat.ltb_spec i j); [lia|]. destruct (Nat.eqb_spec i j); [lia|].
    destruct (Nat.ltb_spec (rank parts 0 i) (rank parts 0 j)); [lia|]. destruct (Nat.eqb_spec (rank parts 0 i) (rank parts 0 j)); [lia|]. reflexivity.
Qed.

Lemma precedes_total : forall p q, precedes p q = true \/ p = q \/ precedes q p = true.
Proof.
  induction p as [|i p IH]; intros [|j q]; [auto|auto|auto|]. rewrite !precedes_cons.
  destruct (Nat.lt_trichotomy i j) as [H|[H|H]].
  - left. rewrite (proj2 (Nat.ltb_lt i j) H). reflexivity.
  - subst j. rewrite Nat.ltb_irrefl, Nat.eqb_refl. cbn [orb andb]. destruct (IH q) as [H|[->|H]]; auto.
  - right; right. rewrite (proj2 (Nat.ltb_lt j i) H). reflexivity.
Qed.

Lemma precedes_trans : forall p q r, precedes p q = true -> precedes q r = true -> precedes p r = true.
Proof.
  induction p as [|i p IH]; intros [|j q] [|k r] H1 H2; try discriminate; try reflexivity. rewrite precedes_cons in *.
  apply orb_true_iff in H1. apply orb_true_iff in H2. apply orb_true_iff. rewrite !andb_true_iff, !Nat.ltb_lt, !Nat.eqb_eq in *.
  destruct H1 as [H1|[-> H1]], H2 as [H2|[-> H2]]; try (left; lia). right. split; [reflexivity|]. eapply IH; eassumption.
Qed.

Lemma renumber_inj : forall p q parts, closed parts -> kept parts p = true -> kept parts q = true ->
  renumber parts p = renumber parts q -> p = q.
Proof.
  intros p q parts Hc Hp Hq E. destruct (precedes_total p q) as [H|[H|H]]; [|exact H|].
  - rewrite <- (renumber_precedes p q parts Hc Hp Hq), E, precedes_irrefl in H. discriminate.
  - rewrite <- (renumber_precedes q p parts Hc Hq Hp), E, precedes_irrefl in H. discriminate.
Qed.

Lemma kept_of_renumber_prefix : forall p q parts, closed parts -> kept parts p = true -> kept parts q = true ->
  is_prefix (renumber parts p) (renumber parts q) = is_prefix p q.
Proof.
  induction p as [|i p IH]; intros q parts Hc Hp Hq; [reflexivity|]. destruct q as [|j q]; [reflexivity|].
  cbn [renumber is_prefix]. pose proof (Hc [i] p Hp) as Hi. pose proof (Hc [j] q Hq) as Hj.
  destruct (Nat.lt_trichotomy i j) as [H|[H|H]].
  - pose proof (rank_lt parts 0 i j H Hi). destruct (Nat.eqb_spec i j); [lia|]. destruct (Nat.eqb_spec (rank parts 0 i) (rank parts 0 j)); [lia|]. reflexivity.
  - subst j. rewrite !Nat.eqb_refl. cbn. apply IH; [apply closed_under; exact Hc|exact Hp|exact Hq].
  - pose proof (rank_lt parts 0 j i H Hj). destruct (Nat.eqb_spec i j); [lia|]. destruct (Nat.eqb_spec (rank parts 0 i) (rank parts 0 j)); [lia|]. reflexivity.
Qed.

(** ** The parts of a passage are closed upwards. *)

Lemma part_from_closed : forall P p q, kept (part_from P) (p ++ q) = true -> kept (part_from P) p = true.
Proof.
  induction P as [|i P IH]; intros p q H; [reflexivity|]. destruct p as [|j p]; [unfold kept, part_from; cbn; reflexivity|].
  cbn [app] in H. unfold kept in *. rewrite part_from_cons in *. destruct (Nat.ltb j i); [exact H|].
  destruct (Nat.eqb j i); [|reflexivity]. exact (IH p q H).
Qed.
Lemma part_upto_closed : forall P p q, kept (part_upto P) (p ++ q) = true -> kept (part_upto P) p = true.
Proof.
  induction P as [|i P IH]; intros p q H; [unfold kept; rewrite part_upto_here; reflexivity|]. destruct p as [|j p]; [unfold kept, part_upto; cbn; reflexivity|].
  cbn [app] in H. unfold kept in *. rewrite part_upto_cons in *. destruct (Nat.ltb j i); [reflexivity|].
  destruct (Nat.eqb j i); [|exact H]. exact (IH p q H).
Qed.

Lemma part_of_closed : forall P1 P2, P1 = P2 \/ precedes P1 P2 = true /\ is_prefix P1 P2 = false -> closed (part_of P1 P2).
Proof.
  induction P1 as [|i P1 IH]; intros P2 Ho p q H.
  - destruct Ho as [<-|[_ Ho]]; [|discriminate]. unfold kept. rewrite part_of_here. reflexivity.
  - destruct P2 as [|i2 P2]; [destruct Ho as [Ho|[Ho _]]; discriminate|].
    destruct p as [|j p]; [unfold kept, part_of; cbn; reflexivity|]. cbn [app] in H.
    destruct (Nat.eq_dec i i2) as [<-|Hne].
    + unfold kept in *. rewrite part_of_cons_eq in *. destruct (Nat.eqb j i); [|exact H]. apply (IH P2) with (q := q); [|exact H].
      destruct Ho as [[= ->]|[Ho1 Ho2]]; [left; reflexivity|right]. rewrite precedes_cons, Nat.ltb_irrefl, Nat.eqb_refl in Ho1.
      cbn [is_prefix] in Ho2. rewrite Nat.eqb_refl in Ho2. auto.
    + assert (Hlt : i < i2).
      { destruct Ho as [[= -> _]|[Ho1 _]]; [congruence|]. rewrite precedes_cons in Ho1. apply orb_true_iff in Ho1. destruct Ho1 as [Ho1|Ho1].
        - apply Nat.ltb_lt. exact Ho1.
        - apply andb_true_iff in Ho1. destruct Ho1 as [Ho1 _]. apply Nat.eqb_eq in Ho1. congruence. }
      unfold kept in *. rewrite part_of_cons_lt in * by exact Hlt. destruct (Nat.ltb j i); [exact H|].
      destruct (Nat.eqb j i); [exact (part_from_closed P1 p q H)|]. destruct (Nat.ltb j i2); [reflexivity|].
      destruct (Nat.eqb j i2); [exact (part_upto_closed P2 p q H)|exact H].
Qed.

Lemma part_of_root : forall P1 P2, kept (part_of P1 P2) [] = true.
Proof. intros [|i P1] [|j P2]; reflexivity. Qed.

(** The document of the passage is the pruned document. *)
Lemma prune_ext : forall n parts parts' y, (forall p, parts p = parts' p) -> prune parts y n = prune parts' y n.
Proof.
  induction n as [t a x z kids IH] using node_ind'. intros parts parts' y H. rewrite !prune_unfold. cbn [n_tag n_attrs n_text n_kids].
  assert (E : forall l i, Forall (fun k => forall parts parts' y, (forall p, parts p = parts' p) -> prune parts y k = prune parts' y k) l ->
    prune_from parts i l = prune_from parts' i l).
  { induction l as [|k l IHl]; intros i Hl; [reflexivity|]. rewrite Forall_cons_iff in Hl. destruct Hl as [Hk Hl].
    change (prune_from parts i (k :: l)) with
      ((if kept parts [i] then [prune (under parts i) (if whole parts [i] && whole parts [] then n_tail k else []) k] else []) ++ prune_from parts (S i) l).
    change (prune_from parts' i (k :: l)) with
      ((if kept parts' [i] then [prune (under parts' i) (if whole parts' [i] && whole parts' [] then n_tail k else []) k] else []) ++ prune_from parts' (S i) l).
    rewrite (IHl _ Hl). unfold kept, whole. rewrite !H. rewrite (Hk (under parts i) (under parts' i)) by (intros p; apply H). reflexivity. }
  rewrite (E kids 0 IH). unfold whole. rewrite !H. reflexivity.
Qed.

Lemma document_prune : forall P1 P2 x, document (prune (part_of P1 P2) [] x) = prune (part_of (0 :: P1) (0 :: P2)) [] (document x).
Proof.
  intros P1 P2 x.
  assert (E0 : whole (part_of (0 :: P1) (0 :: P2)) [] = false) by reflexivity.
  assert (E1 : kept (part_of (0 :: P1) (0 :: P2)) [0] = true).
  { unfold kept. rewrite part_of_cons_eq. exact (part_of_root P1 P2). }
  rewrite (prune_unfold _ _ (document x)).
  change (prune_from (part_of (0 :: P1) (0 :: P2)) 0 (n_kids (document x))) with
    ((if kept (part_of (0 :: P1) (0 :: P2)) [0]
      then [prune (under (part_of (0 :: P1) (0 :: P2)) 0)
              (if whole (part_of (0 :: P1) (0 :: P2)) [0] && whole (part_of (0 :: P1) (0 :: P2)) [] then n_tail x else []) x] else []) ++ []).
  rewrite E0, E1, andb_false_r.
  rewrite (prune_ext x (part_of P1 P2) (under (part_of (0 :: P1) (0 :: P2)) 0)); [reflexivity|].
  intros p. unfold under. rewrite part_of_cons_eq. reflexivity.
Qed.
