(** What a program that holds some objects can reach: nothing that was kept apart
    from them. *)

From Coq Require Import List NArith ZArith Arith Bool Lia.
From Verif Require Import PyStr UrnModel MetaModel CollModel UtilModel InvModel InvExport DtsOutModel CopyModel CopySpec CopyProofs.
From Verif Require Import CollProofs CollHist CollMerge.
Import ListNotations.

Lemma in_dset : forall {A} k v (d : list (str * A)) k' y, In (k', y) (dset k v d) -> y = v \/ In (k', y) d.
Proof.
  induction d as [|[a b] d IH]; intros k' y I; cbn [dset] in I.
  - destruct I as [[= _ <-]|[]]. left; reflexivity.
  - destruct (str_eqb a k).
    + destruct I as [[= _ <-]|I]; [left; reflexivity|right; right; exact I].
    + destruct I as [[= <- <-]|I]; [right; left; reflexivity|].
      destruct (IH k' y I) as [E|J]; [left; exact E|right; right; exact J].
Qed.

Lemma in_ddel : forall {A} k (d : list (str * A)) e, In e (ddel k d) -> In e d.
Proof.
  induction d as [|[a b] d IH]; intros e I; cbn [ddel] in I; [destruct I|].
  destruct (str_eqb a k); [right; exact I|]. destruct I as [<-|I]; [left; reflexivity|right; exact (IH e I)].
Qed.

Lemma dget_in : forall {A} k (d : list (str * A)) y, dget k d = Some y -> exists k', In (k', y) d.
Proof.
  induction d as [|[a b] d IH]; intros y E; cbn [dget] in E; [discriminate|].
  destruct (str_eqb a k). { injection E as <-. exists a. left. reflexivity. }
  destruct (IH y E) as (k' & I). exists k'. right. exact I.
Qed.

(** [os] and [gs] tell on which side the objects and the graphs are. *)
Definition fenced (st : state) (os gs : nat -> bool) : Prop :=
  forall x, x < length (objs st) ->
    (forall p, c_parent (obj st x) = Some p -> p < length (objs st) /\ os p = os x) /\
    (forall k y, In (k, y) (c_children (obj st x)) -> y < length (objs st) /\ os y = os x) /\
    c_graph (obj st x) < length (graphs st) /\ gs (c_graph (obj st x)) = os x.

Record kept (st : state) (os gs : nat -> bool) (st' : state) (os' gs' : nat -> bool) : Prop := {
  k_len : length (objs st) <= length (objs st');
  k_glen : length (graphs st) <= length (graphs st');
  k_os : forall x, x < length (objs st) -> os' x = os x;
  k_gs : forall x, x < length (graphs st) -> gs' x = gs x;
  k_obj : forall x, x < length (objs st) -> os x = true -> obj st' x = obj st x;
  k_graph : forall g, g < length (graphs st) -> gs g = true -> nth g (graphs st') [] = nth g (graphs st) [];
  k_fenced : fenced st' os' gs' }.

Definition outside (st : state) (os : nat -> bool) (x : nat) : Prop := x < length (objs st) /\ os x = false.

Lemma kept_refl : forall st os gs, fenced st os gs -> kept st os gs st os gs.
Proof. intros. constructor; intros; auto. Qed.

Lemma kept_trans : forall st os gs st1 os1 gs1 st2 os2 gs2,
  kept st os gs st1 os1 gs1 -> kept st1 os1 gs1 st2 os2 gs2 -> kept st os gs st2 os2 gs2.
Proof.
  intros st os gs st1 os1 gs1 st2 os2 gs2 K L. destruct K as [K1 K2 K3 K4 K5 K6 K7], L as [L1 L2 L3 L4 L5 L6 L7].
  constructor; intros.
  - lia.
  - lia.
  - rewrite L3 by lia. apply K3. assumption.
  - rewrite L4 by lia. apply K4. assumption.
  - rewrite L5 by (try lia; rewrite K3 by assumption; assumption). apply K5; assumption.
  - rewrite L6 by (try lia; rewrite K4 by assumption; assumption). apply K6; assumption.
  - exact L7.
Qed.

Lemma outside_kept : forall st os gs st' os' gs' x,
  kept st os gs st' os' gs' -> outside st os x -> outside st' os' x.
Proof.
  intros st os gs st' os' gs' x K (L & O). split; [pose proof (k_len _ _ _ _ _ _ K); lia|].
  rewrite (k_os _ _ _ _ _ _ K) by exact L. exact O.
Qed.

Section Steps.
Variables (st : state) (os gs : nat -> bool).
Hypothesis F : fenced st os gs.
Let out := outside st os.

Lemma out_parent : forall c p, out c -> c_parent (obj st c) = Some p -> out p.
Proof using F.
  intros c p (L & O) E. destruct (F c L) as (A & _). destruct (A p E) as (B & C). split; [exact B|congruence].
Qed.
Lemma out_child : forall c k y, out c -> In (k, y) (c_children (obj st c)) -> out y.
Proof using F.
  intros c k p (L & O) E. destruct (F c L) as (_ & A & _). destruct (A k p E) as (B & C). split; [exact B|congruence].
Qed.
Lemma out_graph : forall c, out c -> gs (c_graph (obj st c)) = false.
Proof using F. intros c (L & O). destruct (F c L) as (_ & _ & _ & A). congruence. Qed.

(** A change of an object. *)
Lemma kept_obj : forall c f, out c ->
  (forall p, c_parent (f (obj st c)) = Some p -> out p) ->
  (forall k y, In (k, y) (c_children (f (obj st c))) -> out y) ->
  c_graph (f (obj st c)) = c_graph (obj st c) ->
  kept st os gs (with_obj st c f) os gs.
Proof using F.
  intros c f (L & O) P C G. constructor; cbn [objs graphs with_obj]; intros; try reflexivity.
  - rewrite length_upd. lia.
  - rewrite obj_with. destruct (Nat.eqb_spec c x) as [->|N]; [congruence|reflexivity].
  - intros x Lx. cbn [objs graphs with_obj] in *. rewrite length_upd in *. rewrite obj_with.
    destruct (Nat.eqb_spec c x) as [<-|N]; cbn [andb].
    + replace (c <? length (objs st)) with true by (symmetry; apply Nat.ltb_lt; exact L).
      destruct (F c L) as (_ & _ & A & B). repeat split.
      * apply P. assumption.
      * rewrite (proj2 (P p H)). congruence.
      * apply (C k y). assumption.
      * rewrite (proj2 (C k y H)). congruence.
      * rewrite G. exact A.
      * rewrite G. exact B.
    + exact (F x Lx).
Qed.

(** A change of a graph. *)
Lemma kept_graph : forall g f, gs g = false -> kept st os gs (with_graph st g f) os gs.
Proof using F.
  intros g f O. constructor; cbn [objs graphs with_graph]; intros; try reflexivity.
  - rewrite length_upd. lia.
  - rewrite nth_upd. destruct (Nat.eqb_spec g g0) as [->|N]; [congruence|reflexivity].
  - intros x Lx. cbn [objs graphs with_graph] in *. rewrite length_upd, obj_with_graph. exact (F x Lx).
Qed.

(** A new object, in the graph of the process. *)
Lemma kept_add : forall k id urn (gr : list graph), 0 < length (graphs st) -> gs 0 = false ->
  length gr = length (graphs st) ->
  (forall g, g < length (graphs st) -> gs g = true -> nth g gr [] = nth g (graphs st) []) ->
  kept st os gs (MkState (objs st ++ [MkColl k id urn None [] 0]) gr)
    (fun x => if Nat.eqb x (length (objs st)) then false else os x) gs.
Proof using F.
  intros k id urn gr L0 G0 Lg Eg.
  assert (OO : forall x, x < length (objs st) ->
    nth x (objs st ++ [MkColl k id urn None [] 0]) nowhere = obj st x)
    by (intros x Lx; apply app_nth1; exact Lx).
  constructor; cbn [objs graphs]; intros.
  - rewrite app_length. lia.
  - lia.
  - destruct (Nat.eqb_spec x (length (objs st))); [lia|reflexivity].
  - reflexivity.
  - exact (OO x H).
  - apply Eg; assumption.
  - intros x Lx. cbn [objs graphs] in *. rewrite app_length in *. cbn [length] in *. unfold obj. cbn [objs].
    destruct (Nat.eqb_spec x (length (objs st))) as [->|N].
    + rewrite app_nth2, Nat.sub_diag by lia. cbn [nth c_parent c_children c_graph].
      repeat split; try discriminate; try contradiction; [lia|exact G0].
    + rewrite OO by lia. destruct (F x ltac:(lia)) as (A & B & C & D). repeat split.
      * destruct (A p H). lia.
      * destruct (A p H). destruct (Nat.eqb_spec p (length (objs st))); [lia|assumption].
      * destruct (B k0 y H). lia.
      * destruct (B k0 y H). destruct (Nat.eqb_spec y (length (objs st))); [lia|assumption].
      * lia.
      * exact D.
Qed.

(** Copies made of everything. *)
Definition copied (f : nat -> bool) (n x : nat) : bool := if x <? n then f x else f (x - n).

Lemma kept_copy : forall c, kept st os gs (fst (deepcopy st c))
  (copied os (length (objs st))) (copied gs (length (graphs st))).
Proof using F.
  intros c. unfold copied. constructor.
  - rewrite length_copy. lia.
  - cbn [fst deepcopy graphs]. rewrite app_length. lia.
  - intros x L. replace (x <? length (objs st)) with true by (symmetry; apply Nat.ltb_lt; exact L). reflexivity.
  - intros x L. replace (x <? length (graphs st)) with true by (symmetry; apply Nat.ltb_lt; exact L). reflexivity.
  - intros x L _. apply obj_copy_old. exact L.
  - intros g L _. cbn [fst deepcopy graphs]. apply app_nth1. exact L.
  - intros x L. rewrite length_copy in *.
    replace (length (graphs (fst (deepcopy st c)))) with (length (graphs st) + length (graphs st))
      by (cbn [fst deepcopy graphs]; rewrite app_length; reflexivity).
    set (n := length (objs st)) in *. set (m := length (graphs st)) in *.
    destruct (lt_dec x n) as [Lx|Lx].
    + rewrite obj_copy_old by exact Lx. destruct (F x Lx) as (A & B & C & D).
      replace (x <? n) with true by (symmetry; apply Nat.ltb_lt; exact Lx).
      replace (c_graph (obj st x) <? m) with true by (symmetry; apply Nat.ltb_lt; exact C).
      repeat split.
      * destruct (A p H). fold n in H0. lia.
      * destruct (A p H) as (Lp & Q). fold n in Lp. replace (p <? n) with true by (symmetry; apply Nat.ltb_lt; exact Lp).
        exact Q.
      * destruct (B k y H). fold n in H0. lia.
      * destruct (B k y H) as (Lp & Q). fold n in Lp. replace (y <? n) with true by (symmetry; apply Nat.ltb_lt; exact Lp).
        exact Q.
      * fold m in C. lia.
      * exact D.
    + replace x with (n + (x - n)) by lia. set (y := x - n) in *.
      assert (Ly : y < n) by lia. rewrite obj_copy_new by exact Ly.
      fold n m. cbn [shift c_parent c_children c_graph]. destruct (F y Ly) as (A & B & C & D).
      replace (n + y <? n) with false by (symmetry; apply Nat.ltb_ge; lia).
      replace (m + c_graph (obj st y) <? m) with false by (symmetry; apply Nat.ltb_ge; lia).
      replace (n + y - n) with y by lia.
      replace (m + c_graph (obj st y) - m) with (c_graph (obj st y)) by lia.
      repeat split.
      * destruct (c_parent (obj st y)) as [q|] eqn:P; [|discriminate]. injection H as <-.
        destruct (A q eq_refl). fold n in H. lia.
      * destruct (c_parent (obj st y)) as [q|] eqn:P; [|discriminate]. injection H as <-.
        destruct (A q eq_refl) as (_ & Q).
        replace (n + q <? n) with false by (symmetry; apply Nat.ltb_ge; lia).
        replace (n + q - n) with q by lia. exact Q.
      * apply in_map_iff in H. destruct H as ((k' & z) & [= _ <-] & I). destruct (B k' z I). fold n in H. lia.
      * apply in_map_iff in H. destruct H as ((k' & z) & [= _ <-] & I). destruct (B k' z I) as (_ & Q).
        replace (n + z <? n) with false by (symmetry; apply Nat.ltb_ge; lia).
        replace (n + z - n) with z by lia. exact Q.
      * fold m in C. lia.
      * exact D.
Qed.

Lemma out_copy : forall c x, out x ->
  outside (fst (deepcopy st c)) (copied os (length (objs st))) (length (objs st) + x).
Proof using.
  intros c x (L & O). split. { rewrite length_copy. lia. }
  unfold copied. replace (length (objs st) + x <? length (objs st)) with false by (symmetry; apply Nat.ltb_ge; lia).
  replace (length (objs st) + x - length (objs st)) with x by lia. exact O.
Qed.
End Steps.

Section Ops.
Variables (os gs : nat -> bool).

Lemma kept_add_member : forall st p c, fenced st os gs -> outside st os p -> outside st os c ->
  kept st os gs (add_member st p c) os gs.
Proof.
  intros st p c F P C. unfold add_member. destruct (dget _ _); [apply kept_refl; exact F|].
  apply kept_obj; [exact F|exact P| | |reflexivity]; cbn [put_children c_parent c_children].
  - intros q E. exact (out_parent st os gs F p q P E).
  - intros k y I. apply in_dset in I. destruct I as [->|I]; [exact C|]. exact (out_child st os gs F p k y P I).
Qed.

Lemma kept_set_parent : forall st c p, fenced st os gs -> outside st os c -> outside st os p ->
  kept st os gs (set_parent st c p) os gs.
Proof.
  intros st c p F C P. unfold set_parent.
  set (st1 := with_obj st c (put_parent (Some p))).
  assert (K1 : kept st os gs st1 os gs).
  { apply kept_obj; [exact F|exact C| | |reflexivity]; cbn [put_parent c_parent c_children].
    - intros q [= <-]. exact P.
    - intros k y I. exact (out_child st os gs F c k y C I). }
  pose proof (k_fenced _ _ _ _ _ _ K1) as F1.
  pose proof (outside_kept _ _ _ _ _ _ c K1 C) as C1. pose proof (outside_kept _ _ _ _ _ _ p K1 P) as P1.
  set (st2 := with_graph st1 _ _).
  assert (K2 : kept st1 os gs st2 os gs) by (apply kept_graph; [exact F1|exact (out_graph st1 os gs F1 c C1)]).
  pose proof (k_fenced _ _ _ _ _ _ K2) as F2.
  apply (kept_trans _ _ _ st1 os gs); [exact K1|]. apply (kept_trans _ _ _ st2 os gs); [exact K2|].
  apply kept_add_member; [exact F2| |].
  - exact (outside_kept _ _ _ _ _ _ p K2 P1).
  - exact (outside_kept _ _ _ _ _ _ c K2 C1).
Qed.

Lemma kept_clear : forall st c, fenced st os gs -> outside st os c ->
  kept st os gs (fst (set_parent_none st c)) os gs.
Proof.
  intros st c F C. apply kept_obj; [exact F|exact C| | |reflexivity]; cbn [put_parent c_parent c_children].
  - intros q E. discriminate.
  - intros k y I. exact (out_child st os gs F c k y C I).
Qed.

Lemma kept_set_lang : forall st c l, fenced st os gs -> outside st os c ->
  kept st os gs (set_lang st c l) os gs.
Proof. intros st c l F C. apply kept_graph; [exact F|exact (out_graph st os gs F c C)]. Qed.

Lemma parents_out : forall st fuel c l, fenced st os gs -> outside st os c -> parents fuel st c = Ok l ->
  forall x, In x l -> outside st os x.
Proof.
  intros st fuel c l F C E. unfold parents in E.
  assert (G : forall fuel o l, (forall q, o = Some q -> outside st os q) -> parents_from fuel st o = Ok l ->
    forall x, In x l -> outside st os x).
  { clear fuel c l C E. induction fuel as [|fuel IH]; intros [q|] l O E x I; cbn [parents_from] in E; try discriminate.
    - injection E as <-. destruct I.
    - destruct (parents_from fuel st (c_parent (obj st q))) as [l'|] eqn:Q; [|discriminate].
      cbn [bind] in E. injection E as <-. destruct I as [<-|I]; [apply O; reflexivity|].
      refine (IH (c_parent (obj st q)) l' _ Q x I). intros r Er.
      exact (out_parent st os gs F q r (O q eq_refl) Er).
    - injection E as <-. destruct I. }
  apply (G fuel (c_parent (obj st c)) l); [|exact E]. intros q Eq. exact (out_parent st os gs F c q C Eq).
Qed.

Lemma kept_delete : forall st limit fuel c key, fenced st os gs -> outside st os c ->
  kept st os gs (fst (delitem limit fuel st c key)) os gs.
Proof.
  intros st limit fuel c key F C. unfold delitem.
  destruct (getitem limit st c key) as [i|] eqn:G; [|apply kept_refl; exact F].
  assert (I : outside st os i).
  { apply (getitem_in (in_state nothing st) (outside st os)) with (limit := limit) (x := c) (key := key);
      [|exact C|exact G].
    intros x k y X J. exact (out_child st os gs F x k y X J). }
  set (st1 := with_graph st _ _).
  assert (K1 : kept st os gs st1 os gs) by (apply kept_graph; [exact F|exact (out_graph st os gs F c C)]).
  pose proof (k_fenced _ _ _ _ _ _ K1) as F1. pose proof (outside_kept _ _ _ _ _ _ i K1 I) as I1.
  destruct (parents fuel st1 i) as [[|p l]|] eqn:P; [exact K1| |exact K1].
  destruct (dget _ _); [|exact K1]. cbn [fst].
  apply (kept_trans _ _ _ st1 os gs); [exact K1|].
  assert (P1 : outside st1 os p) by exact (parents_out st1 fuel i (p :: l) F1 I1 P p (or_introl eq_refl)).
  apply kept_obj; [exact F1|exact P1| | |reflexivity]; cbn [put_children c_parent c_children].
  - intros q E. exact (out_parent st1 os gs F1 p q P1 E).
  - intros k y J. apply in_ddel in J. exact (out_child st1 os gs F1 p k y P1 J).
Qed.

Lemma kept_set_child : forall st p k c, fenced st os gs -> outside st os p -> outside st os c ->
  kept st os gs (set_child st p k c) os gs.
Proof.
  intros st p k c F P C.
  apply kept_obj; [exact F|exact P| | |reflexivity]; cbn [put_children c_parent c_children].
  - intros q E. exact (out_parent st os gs F p q P E).
  - intros k' y I. apply in_dset in I. destruct I as [->|I]; [exact C|]. exact (out_child st os gs F p k' y P I).
Qed.

Lemma kept_takes : forall self l st, fenced st os gs -> outside st os self ->
  (forall k y, In (k, y) l -> outside st os y) ->
  kept st os gs (fold_left (take_text self) l st) os gs.
Proof.
  intros self l. induction l as [|[k t] l IH]; intros st F S L; cbn [fold_left]; [apply kept_refl; exact F|].
  assert (T : outside st os t) by exact (L k t (or_introl eq_refl)).
  set (st1 := set_child st self k t).
  assert (K1 : kept st os gs st1 os gs) by (apply kept_set_child; assumption).
  pose proof (k_fenced _ _ _ _ _ _ K1) as F1.
  assert (K2 : kept st1 os gs (take_text self st (k, t)) os gs).
  { unfold take_text. cbn [fst snd]. fold st1. apply kept_set_parent; [exact F1| |].
    - exact (outside_kept _ _ _ _ _ _ t K1 T).
    - exact (outside_kept _ _ _ _ _ _ self K1 S). }
  pose proof (kept_trans _ _ _ _ _ _ _ _ _ K1 K2) as K.
  apply (kept_trans _ _ _ _ _ _ _ _ _ K). apply IH.
  - exact (k_fenced _ _ _ _ _ _ K).
  - exact (outside_kept _ _ _ _ _ _ self K S).
  - intros k' y I. exact (outside_kept _ _ _ _ _ _ y K (L k' y (or_intror I))).
Qed.

Lemma kept_work : forall st a b, fenced st os gs -> outside st os a -> outside st os b ->
  kept st os gs (fst (work_update st a b)) os gs.
Proof.
  intros st a b F A B. unfold work_update.
  destruct (c_kind (obj st b)); try (apply kept_refl; exact F).
  destruct (str_eqb _ _); [|apply kept_refl; exact F]. cbn [fst].
  apply kept_takes; [exact F|exact A|]. intros k y I. exact (out_child st os gs F b k y B I).
Qed.
End Ops.

(** Some sides for what is new. *)
Definition keeps (st : state) (os gs : nat -> bool) (st' : state) : Prop :=
  exists os' gs', kept st os gs st' os' gs'.

Lemma keeps_works : forall self l sr os gs,
  fenced (fst sr) os gs -> outside (fst sr) os self ->
  (forall k y, In (k, y) l -> outside (fst sr) os y) ->
  keeps (fst sr) os gs (fst (fold_left (take_work self) l sr)).
Proof.
  intros self l. induction l as [|[k w] l IH]; intros [st r] os gs F S L; cbn [fold_left fst] in *.
  { exists os, gs. apply kept_refl. exact F. }
  assert (W : outside st os w) by exact (L k w (or_introl eq_refl)).
  assert (ST : keeps st os gs (fst (take_work self (st, r) (k, w)))).
  { unfold take_work. destruct r as [u|e]; [|exists os, gs; apply kept_refl; exact F].
    destruct (deepcopy st w) as [st1 copy] eqn:D.
    assert (E1 : st1 = fst (deepcopy st w)) by (rewrite D; reflexivity).
    assert (E2 : copy = length (objs st) + w) by (unfold deepcopy in D; injection D as _ <-; reflexivity).
    set (os1 := copied os (length (objs st))). set (gs1 := copied gs (length (graphs st))).
    assert (K1 : kept st os gs st1 os1 gs1) by (rewrite E1; apply kept_copy; exact F).
    pose proof (k_fenced _ _ _ _ _ _ K1) as F1.
    assert (C1 : outside st1 os1 copy) by (rewrite E1, E2; apply out_copy; exact W).
    pose proof (outside_kept _ _ _ _ _ _ self K1 S) as S1.
    destruct (dget k (c_children (obj st self))) as [mine|] eqn:G.
    - apply dget_in in G. destruct G as (k' & G). pose proof (out_child st os gs F self k' mine S G) as M.
      pose proof (outside_kept _ _ _ _ _ _ mine K1 M) as M1.
      destruct (c_kind (obj st mine)); try (exists os1, gs1; exact K1).
      destruct (work_update st1 mine copy) as [st2 r2] eqn:U.
      assert (K2 : kept st1 os1 gs1 st2 os1 gs1).
      { replace st2 with (fst (work_update st1 mine copy)) by (rewrite U; reflexivity).
        apply kept_work; assumption. }
      pose proof (kept_trans _ _ _ _ _ _ _ _ _ K1 K2) as K.
      destruct r2 as [u2|e2]; exists os1, gs1; cbn [fst]; [|exact K].
      apply (kept_trans _ _ _ _ _ _ _ _ _ K). apply kept_set_parent.
      + exact (k_fenced _ _ _ _ _ _ K2).
      + exact (outside_kept _ _ _ _ _ _ mine K2 M1).
      + exact (outside_kept _ _ _ _ _ _ self K2 S1).
    - exists os1, gs1. cbn [fst]. apply (kept_trans _ _ _ _ _ _ _ _ _ K1).
      assert (K2 : kept st1 os1 gs1 (set_child st1 self k copy) os1 gs1) by (apply kept_set_child; assumption).
      apply (kept_trans _ _ _ _ _ _ _ _ _ K2). apply kept_set_parent.
      + exact (k_fenced _ _ _ _ _ _ K2).
      + exact (outside_kept _ _ _ _ _ _ copy K2 C1).
      + exact (outside_kept _ _ _ _ _ _ self K2 S1). }
  destruct ST as (os1 & gs1 & K1).
  destruct (IH (take_work self (st, r) (k, w)) os1 gs1) as (os2 & gs2 & K2).
  - exact (k_fenced _ _ _ _ _ _ K1).
  - exact (outside_kept _ _ _ _ _ _ self K1 S).
  - intros k' y I. exact (outside_kept _ _ _ _ _ _ y K1 (L k' y (or_intror I))).
  - exists os2, gs2. exact (kept_trans _ _ _ _ _ _ _ _ _ K1 K2).
Qed.

Lemma keeps_textgroup : forall st a b os gs, fenced st os gs -> outside st os a -> outside st os b ->
  keeps st os gs (fst (textgroup_update st a b)).
Proof.
  intros st a b os gs F A B. unfold textgroup_update.
  assert (R : keeps st os gs st) by (exists os, gs; apply kept_refl; exact F).
  destruct (c_kind (obj st b)); try exact R. destruct (str_eqb _ _); [|exact R].
  apply (keeps_works a (c_children (obj st b)) (st, Ok tt) os gs F A).
  intros k y I. exact (out_child st os gs F b k y B I).
Qed.

Lemma kept_new : forall st os gs k id urn, fenced st os gs -> 0 < length (graphs st) -> gs 0 = false ->
  kept st os gs (fst (new_object st k id urn)) (fun x => if Nat.eqb x (length (objs st)) then false else os x) gs.
Proof.
  intros st os gs k id urn F L0 G0. unfold new_object. cbn [fst with_graph objs graphs].
  apply kept_add; [exact F|exact L0|exact G0|apply length_upd|].
  intros g L G. rewrite nth_upd. destruct (Nat.eqb_spec 0 g) as [<-|]; [congruence|reflexivity].
Qed.

Lemma keeps_cts : forall order st k urn parent lang os gs, fenced st os gs -> 0 < length (graphs st) -> gs 0 = false ->
  (forall p, parent = Some p -> outside st os p) ->
  exists os' gs', kept st os gs (fst (new_cts order st k urn parent lang)) os' gs' /\
    outside (fst (new_cts order st k urn parent lang)) os' (length (objs st)).
Proof.
  intros order st k urn parent lang os gs F L0 G0 P. unfold new_cts.
  set (text := u <- urn_parse urn ;; to_str u). clearbody text.
  set (t := match text with Ok t => t | Err _ => [] end). clearbody t.
  destruct (new_object st k urn t) as [st1 c] eqn:E.
  assert (E1 : st1 = fst (new_object st k urn t)) by (rewrite E; reflexivity).
  assert (E2 : c = length (objs st)) by (unfold new_object in E; injection E as _ <-; reflexivity).
  set (os1 := fun x => if Nat.eqb x (length (objs st)) then false else os x).
  assert (K1 : kept st os gs st1 os1 gs) by (rewrite E1; apply kept_new; assumption).
  assert (C1 : outside st1 os1 c).
  { split.
    - rewrite E1, E2. unfold new_object. cbn [fst with_graph objs graphs]. rewrite app_length. cbn. lia.
    - rewrite E2. unfold os1. rewrite Nat.eqb_refl. reflexivity. }
  rewrite <- E2.
  exists os1, gs. destruct text as [x|e]; [|split; [exact K1|exact C1]].
  set (st2 := match k with KText _ => _ | _ => _ end).
  assert (K2 : kept st1 os1 gs st2 os1 gs).
  { pose proof (k_fenced _ _ _ _ _ _ K1) as F1. subst st2.
    destruct k; try (apply kept_refl; exact F1). destruct lang; [|apply kept_refl; exact F1].
    apply kept_set_lang; assumption. }
  clearbody st2. pose proof (kept_trans _ _ _ _ _ _ _ _ _ K1 K2) as K12.
  pose proof (outside_kept _ _ _ _ _ _ c K2 C1) as C2.
  destruct parent as [p|]; [|split; [exact K12|exact C2]].
  pose proof (outside_kept _ _ _ _ _ _ p K12 (P p eq_refl)) as P2.
  set (st3 := set_parent st2 c p).
  assert (K3 : kept st2 os1 gs st3 os1 gs) by (apply kept_set_parent; [exact (k_fenced _ _ _ _ _ _ K2)|exact C2|exact P2]).
  pose proof (kept_trans _ _ _ _ _ _ _ _ _ K12 K3) as K13.
  pose proof (outside_kept _ _ _ _ _ _ c K3 C2) as C3.
  assert (K4 : forall l, kept st os gs (set_lang st3 c l) os1 gs /\ outside (set_lang st3 c l) os1 c).
  { intros l. assert (K : kept st3 os1 gs (set_lang st3 c l) os1 gs)
      by (apply kept_set_lang; [exact (k_fenced _ _ _ _ _ _ K3)|exact C3]).
    split; [exact (kept_trans _ _ _ _ _ _ _ _ _ K13 K)|exact (outside_kept _ _ _ _ _ _ c K C3)]. }
  destruct k; try (split; [exact K13|exact C3]).
  destruct lang; [split; [exact K13|exact C3]|].
  destruct (get_lang order st3 p); [apply K4|split; [exact K13|exact C3]].
Qed.
