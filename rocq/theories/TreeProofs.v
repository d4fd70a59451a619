(** Lemmas about citation trees. *)

From Coq Require Import List NArith ZArith Arith Bool Lia Sorted Permutation.
From Verif Require Import PyStr PyStrFacts Json TreeModel TreeSpec.
Import ListNotations.

Section Induction.
Variable P : citation -> Prop.
Hypothesis H : forall n r l, Forall P l -> P (Cite n r l).
Fixpoint citation_ind' (c : citation) : P c :=
  match c with
  | Cite n r l => H n r l ((fix go l : Forall P l :=
                              match l with [] => Forall_nil _ | x :: l' => Forall_cons _ (citation_ind' x) (go l') end) l)
  end.
End Induction.

Fixpoint tpaths (c : citation) : list (list nat) :=
  match c with
  | Cite _ _ l => [] :: (fix go (i : nat) (l : list citation) :=
                           match l with [] => [] | x :: l' => map (cons i) (tpaths x) ++ go (S i) l' end) 0 l
  end.
Fixpoint fpaths (i : nat) (l : list citation) : list (list nat) :=
  match l with [] => [] | x :: l' => map (cons i) (tpaths x) ++ fpaths (S i) l' end.
Lemma tpaths_eq : forall n r l, tpaths (Cite n r l) = [] :: fpaths 0 l.
Proof.
  reflexivity.
Qed.

(** Positions below a tree, the tree itself being []. *)
Definition at_sub (c : citation) (p : list nat) : option citation :=
  match p with [] => Some c | _ => at_path (c_children c) p end.

Lemma at_path_cons : forall f i p, at_path f (i :: p) = match nth_error f i with Some c => at_sub c p | None => None end.
Proof. intros f i p. cbn. destruct (nth_error f i); [|reflexivity]. destruct p; reflexivity. Qed.

Lemma fpaths_In : forall l i p, In p (fpaths i l) <->
  exists j c q, nth_error l j = Some c /\ p = (i + j) :: q /\ In q (tpaths c).
Proof.
  induction l as [|x l IH]; intros i p; cbn [fpaths].
  - split; [intros []|]. intros [j [c [q [H _]]]]. destruct j; discriminate.
  - rewrite in_app_iff, in_map_iff, IH. split.
    + intros [[q [<- Hq]]|[j [c [q [Hj [-> Hq]]]]]].
      * exists 0, x, q. rewrite Nat.add_0_r. auto.
      * exists (S j), c, q. rewrite Nat.add_succ_r. auto.
    + intros [[|j] [c [q [Hj [-> Hq]]]]].
      * cbn in Hj. injection Hj as <-. left. exists q. rewrite Nat.add_0_r. auto.
      * right. exists j, c, q. rewrite Nat.add_succ_r. auto.
Qed.

Lemma tpaths_In : forall c p, In p (tpaths c) <-> at_sub c p <> None.
Proof.
  induction c as [n r l IH] using citation_ind'. intros p. rewrite tpaths_eq. cbn [In].
  destruct p as [|i p].
  - cbn. split; [discriminate|auto].
  - unfold at_sub. cbn [c_children]. rewrite at_path_cons, fpaths_In. rewrite Forall_forall in IH. split.
    + intros [H|[j [c [q [Hj [E Hq]]]]]]; [discriminate|]. cbn in E. injection E as -> ->. rewrite Hj.
      apply (IH c (nth_error_In _ _ Hj)); exact Hq.
    + intros H. right. destruct (nth_error l i) as [c|] eqn:E; [|congruence].
      exists i, c, p. split; [exact E|]. split; [reflexivity|]. apply (IH c (nth_error_In _ _ E)); exact H.
Qed.

Lemma forest_In : forall f p, In p (fpaths 0 f) <-> at_path f p <> None.
Proof.
  intros f p. rewrite fpaths_In. destruct p as [|i p].
  - split; [intros [j [c [q [_ [E _]]]]]; discriminate|cbn; congruence].
  - rewrite at_path_cons. split.
    + intros [j [c [q [Hj [E Hq]]]]]. cbn in E. injection E as -> ->. rewrite Hj. apply tpaths_In; exact Hq.
    + intros H. destruct (nth_error f i) as [c|] eqn:E; [|congruence]. exists i, c, p.
      split; [exact E|]. split; [reflexivity|]. apply tpaths_In; exact H.
Qed.

Lemma sorted_app : forall (l m : list (list nat)), StronglySorted before l -> StronglySorted before m ->
  (forall x y, In x l -> In y m -> before x y) -> StronglySorted before (l ++ m).
Proof.
  induction l as [|x l IH]; intros m Hl Hm Hc; cbn; [exact Hm|].
  inversion Hl as [|? ? Hl' HF]; subst. constructor.
  - apply IH; [exact Hl'|exact Hm|]. intros a b Ha Hb. apply Hc; [right; exact Ha|exact Hb].
  - apply Forall_app. split; [exact HF|]. apply Forall_forall. intros y Hy. apply Hc; [left; reflexivity|exact Hy].
Qed.

Lemma sorted_cons_map : forall i l, StronglySorted before l -> StronglySorted before (map (cons i) l).
Proof.
  induction l as [|x l IH]; intros H; cbn; [constructor|]. inversion H as [|? ? Hl HF]; subst. constructor; [apply IH; exact Hl|].
  apply Forall_forall. intros y Hy. apply in_map_iff in Hy. destruct Hy as [z [<- Hz]]. right. split; [reflexivity|].
  rewrite Forall_forall in HF. apply HF; exact Hz.
Qed.

Lemma fpaths_sorted : forall l i, Forall (fun c => StronglySorted before (tpaths c)) l -> StronglySorted before (fpaths i l).
Proof.
  induction l as [|x l IH]; intros i H; cbn; [constructor|]. inversion H as [|? ? Hx Hl]; subst.
  apply sorted_app; [apply sorted_cons_map; exact Hx|apply IH; exact Hl|].
  intros a b Ha Hb. apply in_map_iff in Ha. destruct Ha as [q [<- _]]. apply fpaths_In in Hb.
  destruct Hb as [j [c [q' [_ [-> _]]]]]. left. lia.
Qed.

Lemma tpaths_sorted : forall c, StronglySorted before (tpaths c).
Proof.
  induction c as [n r l IH] using citation_ind'. rewrite tpaths_eq. constructor; [apply fpaths_sorted; exact IH|].
  apply Forall_forall. intros p Hp. apply fpaths_In in Hp. destruct Hp as [j [c [q [_ [-> _]]]]]. exact I.
Qed.

Lemma forest_positions : forall f, all_positions f (fpaths 0 f).
Proof.
  intros f. split; [|apply forest_In]. apply fpaths_sorted. apply Forall_forall. intros; apply tpaths_sorted.
Qed.

(** A list of positions is determined by the forest. *)
Lemma before_irrefl : forall p, ~ before p p.
Proof. induction p as [|i p IH]; cbn; [auto|]. intros [H|[_ H]]; [lia|auto]. Qed.
Lemma before_trans : forall p q r, before p q -> before q r -> before p r.
Proof.
  induction p as [|i p IH]; intros [|j q] [|k r] H1 H2; cbn in *; try tauto.
  destruct H1 as [H1|[-> H1]], H2 as [H2|[-> H2]]; try (left; lia). right. split; [reflexivity|]. eapply IH; eassumption.
Qed.

Lemma positions_unique : forall f ps, all_positions f ps -> ps = fpaths 0 f.
Proof.
  intros f ps [S1 I1]. destruct (forest_positions f) as [S2 I2].
  assert (I : forall p, In p ps <-> In p (fpaths 0 f)) by (intros p; rewrite I1, I2; reflexivity).
  clear I1 I2. revert I. generalize dependent (fpaths 0 f). induction ps as [|x ps IH]; intros qs S2 I.
  - destruct qs as [|y qs]; [reflexivity|]. exfalso. apply (I y). left; reflexivity.
  - destruct qs as [|y qs]; [exfalso; apply (I x); left; reflexivity|].
    inversion S1 as [|? ? S1' F1]; inversion S2 as [|? ? S2' F2]; subst.
    rewrite Forall_forall in F1, F2.
    assert (x = y).
    { destruct (proj1 (I x) (or_introl eq_refl)) as [->|Hx]; [reflexivity|].
      destruct (proj2 (I y) (or_introl eq_refl)) as [->|Hy]; [reflexivity|].
      exfalso. apply (before_irrefl x). eapply before_trans; [apply F1; exact Hy|apply F2; exact Hx]. }
    subst y. f_equal. apply IH; [exact S1'|exact S2'|]. intros p. split; intros Hp.
    + destruct (proj1 (I p) (or_intror Hp)) as [<-|Hq]; [|exact Hq]. exfalso. exact (before_irrefl _ (F1 _ Hp)).
    + destruct (proj2 (I p) (or_intror Hp)) as [<-|Hq]; [|exact Hq]. exfalso. exact (before_irrefl _ (F2 _ Hp)).
Qed.

(** ** Iteration *)

Lemma map_at_cons : forall pre x l ps i, i = length pre ->
  map (at_path (pre ++ x :: l)) (map (cons i) ps) = map (at_sub x) ps.
Proof.
  intros pre x l ps i ->. rewrite map_map. apply map_ext. intros p. rewrite at_path_cons.
  rewrite nth_error_app2, Nat.sub_diag by lia. reflexivity.
Qed.

Lemma iter_forest : forall l pre, Forall (fun c => map (at_sub c) (tpaths c) = map Some (citation_iter c)) l ->
  map (at_path (pre ++ l)) (fpaths (length pre) l) = map Some (flat_map citation_iter l).
Proof.
  induction l as [|x l IH]; intros pre H; [reflexivity|]. inversion H as [|? ? Hx Hl]; subst. cbn [fpaths flat_map].
  rewrite !map_app. rewrite map_at_cons by reflexivity. rewrite Hx. f_equal.
  specialize (IH (pre ++ [x]) Hl). rewrite app_length in IH. cbn in IH. rewrite Nat.add_1_r, <- app_assoc in IH. exact IH.
Qed.

Lemma iter_tree : forall c, map (at_sub c) (tpaths c) = map Some (citation_iter c).
Proof.
  induction c as [n r l IH] using citation_ind'. rewrite tpaths_eq. cbn [citation_iter map]. f_equal.
  rewrite <- (iter_forest l [] IH). apply map_ext_in. intros p Hp. apply fpaths_In in Hp.
  destruct Hp as [j [c [q [_ [-> _]]]]]. reflexivity.
Qed.

Lemma iter_positions : forall f, map (at_path f) (fpaths 0 f) = map Some (flat_map citation_iter f).
Proof. intros f. apply (iter_forest f []). apply Forall_forall. intros; apply iter_tree. Qed.

(** ** Size *)

Lemma len_tree : forall c, citation_len c = length (citation_iter c) - 1 /\ 1 <= length (citation_iter c).
Proof.
  induction c as [n r l IH] using citation_ind'. cbn [citation_iter citation_len length]. split; [|lia]. rewrite Nat.sub_succ, Nat.sub_0_r.
  induction IH as [|x l [H1 H2] _ IH']; [reflexivity|]. cbn. rewrite app_length. unfold list_sum in *. cbn. lia.
Qed.

Lemma len_forest : forall f, length f + list_sum (map citation_len f) = length (flat_map citation_iter f).
Proof.
  induction f as [|x f IH]; [reflexivity|]. cbn. rewrite app_length. destruct (len_tree x) as [H1 H2]. unfold list_sum in *. cbn. lia.
Qed.

(** ** Levels *)

Lemma filter_map_cons : forall i k ps,
  filter (fun p : list nat => length p =? S k) (map (cons i) ps) = map (cons i) (filter (fun p => length p =? k) ps).
Proof. induction ps as [|p ps IH]; [reflexivity|]. cbn. rewrite IH. destruct (length p =? k); reflexivity. Qed.

Lemma filter_fpaths_0 : forall l i, filter (fun p : list nat => length p =? 0) (fpaths i l) = [].
Proof.
  induction l as [|x l IH]; intros i; [reflexivity|]. cbn [fpaths]. rewrite filter_app, IH, app_nil_r.
  induction (tpaths x) as [|p ps IHp]; [reflexivity|]. cbn. exact IHp.
Qed.

Lemma filter_tpaths_0 : forall c, filter (fun p : list nat => length p =? 0) (tpaths c) = [[]].
Proof. intros [n r l]. rewrite tpaths_eq. cbn [filter length Nat.eqb]. rewrite filter_fpaths_0. reflexivity. Qed.

Lemma filter_tpaths_S : forall c k,
  filter (fun p : list nat => length p =? S k) (tpaths c) = filter (fun p => length p =? S k) (fpaths 0 (c_children c)).
Proof. intros [n r l] k. rewrite tpaths_eq. reflexivity. Qed.

Lemma levels_forest : forall k l pre,
  map (at_path (pre ++ l)) (filter (fun p => length p =? S k) (fpaths (length pre) l)) = map Some (level k l).
Proof.
  induction k as [|k IHk]; intros l.
  - induction l as [|x l IH]; intros pre; [reflexivity|]. cbn [fpaths level map] in *.
    rewrite filter_app, map_app, filter_map_cons, filter_tpaths_0, map_at_cons by reflexivity. cbn.
    f_equal. specialize (IH (pre ++ [x])). rewrite app_length in IH. cbn in IH.
    rewrite Nat.add_1_r, <- app_assoc in IH. exact IH.
  - induction l as [|x l IH]; intros pre; [reflexivity|]. cbn [fpaths level flat_map].
    rewrite filter_app, !map_app, filter_map_cons, filter_tpaths_S, map_at_cons by reflexivity. f_equal.
    + rewrite <- (IHk (c_children x) []). cbn [app length]. apply map_ext_in. intros p Hp. apply filter_In in Hp.
      destruct Hp as [_ Hp]. destruct p as [|i p]; [discriminate|]. reflexivity.
    + specialize (IH (pre ++ [x])). rewrite app_length in IH. cbn [length] in IH.
      rewrite Nat.add_1_r, <- app_assoc in IH. exact IH.
Qed.

(** ** Depth *)

Lemma max_bound : forall l x, In x l -> x <= fold_right Nat.max 0 l.
Proof. induction l as [|y l IH]; intros x; [intros []|]. intros [->|H]; cbn; [lia|]. specialize (IH x H). lia. Qed.
Lemma max_attained : forall l, l <> [] -> In (fold_right Nat.max 0 l) l.
Proof.
  induction l as [|y l IH]; intros H; [congruence|]. destruct l as [|z l]; [left; cbn; lia|].
  cbn [fold_right]. destruct (Nat.max_spec y (fold_right Nat.max 0 (z :: l))) as [[_ E]|[_ E]]; cbn [fold_right] in E; rewrite E.
  - right. apply IH; discriminate.
  - left; reflexivity.
Qed.

Lemma citation_depth_eq : forall n r l, citation_depth (Cite n r l) = S (fold_right Nat.max 0 (map citation_depth l)).
Proof. intros n r [|x l]; reflexivity. Qed.

Lemma depth_bound : forall c p, In p (tpaths c) -> S (length p) <= citation_depth c.
Proof.
  induction c as [n r l IH] using citation_ind'. intros p. rewrite tpaths_eq, citation_depth_eq. intros [<-|Hp]; [cbn; lia|].
  apply fpaths_In in Hp. destruct Hp as [j [c [q [Hj [-> Hq]]]]]. rewrite Forall_forall in IH.
  specialize (IH c (nth_error_In _ _ Hj) q Hq). pose proof (max_bound (map citation_depth l) (citation_depth c)) as Hb.
  cbn [length]. enough (citation_depth c <= fold_right Nat.max 0 (map citation_depth l)) by lia.
  apply Hb. apply in_map. eapply nth_error_In; exact Hj.
Qed.

Lemma depth_attained : forall c, exists p, In p (tpaths c) /\ S (length p) = citation_depth c.
Proof.
  induction c as [n r l IH] using citation_ind'. rewrite tpaths_eq, citation_depth_eq. destruct l as [|x l].
  - exists []. split; [left; reflexivity|reflexivity].
  - assert (Hm : In (fold_right Nat.max 0 (map citation_depth (x :: l))) (map citation_depth (x :: l)))
      by (apply max_attained; discriminate).
    apply in_map_iff in Hm. destruct Hm as [c [E Hc]]. rewrite Forall_forall in IH. destruct (IH c Hc) as [q [Hq Hl]].
    apply In_nth_error in Hc. destruct Hc as [j Hj]. exists (j :: q). split.
    + right. apply fpaths_In. exists j, c, q. auto.
    + cbn [length]. rewrite <- E, <- Hl. reflexivity.
Qed.

Lemma forest_depth : forall f, let d := fold_right Nat.max 0 (map citation_depth f) in
  (forall p, In p (fpaths 0 f) -> length p <= d) /\ (f <> [] -> exists p, In p (fpaths 0 f) /\ length p = d).
Proof.
  intros f d. split.
  - intros p Hp. apply fpaths_In in Hp. destruct Hp as [j [c [q [Hj [-> Hq]]]]]. cbn [length].
    apply depth_bound in Hq. pose proof (max_bound (map citation_depth f) (citation_depth c) (in_map _ _ _ (nth_error_In _ _ Hj))) as Hb.
    fold d in Hb. lia.
  - intros Hf. assert (Hm : In d (map citation_depth f)) by (apply max_attained; destruct f; [congruence|discriminate]).
    apply in_map_iff in Hm. destruct Hm as [c [E Hc]]. destruct (depth_attained c) as [q [Hq Hl]].
    apply In_nth_error in Hc. destruct Hc as [j Hj]. exists (j :: q). split.
    + apply fpaths_In. exists j, c, q. auto.
    + cbn. congruence.
Qed.

(** ** Statements *)

Lemma set_by_positions : forall f declared ps, all_positions f ps ->
  let s := MkSet f declared in
  map Some (set_iter s) = map (at_path f) ps /\
  set_len s = length ps /\
  (forall k : nat, exists l, set_getitem s (Z.of_nat k) = Ok l /\
     map Some l = map (at_path f) (filter (fun p => length p =? S k) ps)).
Proof.
  intros f declared ps Hp s. apply positions_unique in Hp. subst ps. split; [|split].
  - unfold s, set_iter. cbn [s_children]. rewrite iter_positions. reflexivity.
  - unfold s, set_len. cbn [s_children]. rewrite len_forest, <- (map_length Some), <- iter_positions, map_length. reflexivity.
  - intros k. exists (level k f). unfold s, set_getitem, getitem. cbn [s_children].
    destruct (Z.ltb_spec (Z.of_nat k) 0); [lia|]. destruct (Z.ltb_spec (Z.of_nat k) 0); [lia|]. rewrite Nat2Z.id.
    split; [reflexivity|]. exact (eq_sym (levels_forest k f [])).
Qed.

Lemma set_depth_positions : forall f ps, all_positions f ps ->
  exists d : nat, set_depth (MkSet f None) = Z.of_nat d /\
    (forall p, In p ps -> length p <= d) /\ (f = [] -> d = 0) /\ (f <> [] -> exists p, In p ps /\ length p = d).
Proof.
  intros f ps Hp. apply positions_unique in Hp. subst ps. eexists. split; [reflexivity|].
  destruct (forest_depth f) as [A B]. split; [exact A|]. split; [intros ->; reflexivity|exact B].
Qed.

Lemma negative_index : forall f declared (k : nat),
  let s := MkSet f declared in 1 <= k ->
  set_getitem s (- Z.of_nat k) =
    if (Z.of_nat k <=? set_depth s)%Z then set_getitem s (set_depth s - Z.of_nat k) else Err CitationDepthError.
Proof.
  intros f declared k s Hk. unfold set_getitem, getitem.
  destruct (Z.ltb_spec (- Z.of_nat k) 0); [|lia].
  destruct (Z.leb_spec (Z.of_nat k) (set_depth s)).
  - destruct (Z.ltb_spec (set_depth s + - Z.of_nat k) 0); [lia|].
    destruct (Z.ltb_spec (set_depth s - Z.of_nat k) 0); [lia|].
    destruct (Z.ltb_spec (set_depth s - Z.of_nat k) 0); [lia|]. reflexivity.
  - destruct (Z.ltb_spec (set_depth s + - Z.of_nat k) 0); [reflexivity|lia].
Qed.

(** The levels partition the listing. *)
Lemma levels_partition : forall A (size : A -> nat) d (l : list A), (forall x, In x l -> 1 <= size x <= d) ->
  Permutation l (flat_map (fun k => filter (fun x => size x =? S k) l) (seq 0 d)).
Proof.
  intros A size d l. induction l as [|x l IH]; intros H.
  - induction (seq 0 d); [constructor|exact IHl].
  - specialize (IH (fun y Hy => H y (or_intror Hy))). specialize (H x (or_introl eq_refl)).
    assert (Hs : forall b n, size x < S b \/ b + n < size x ->
              flat_map (fun k => filter (fun y => size y =? S k) (x :: l)) (seq b n) =
              flat_map (fun k => filter (fun y => size y =? S k) l) (seq b n)).
    { intros b n; revert b. induction n as [|n IHn]; intros b Hb; [reflexivity|]. cbn [seq flat_map]. rewrite IHn by lia.
      cbn [filter]. destruct (Nat.eqb_spec (size x) (S b)); [lia|reflexivity]. }
    replace d with ((size x - 1) + S (d - size x)) in * by lia. rewrite seq_app in *. rewrite !flat_map_app in *.
    rewrite Hs by lia. cbn [seq flat_map] in *. cbn [filter].
    replace (0 + (size x - 1)) with (size x - 1) in * by lia.
    destruct (Nat.eqb_spec (size x) (S (size x - 1))); [|lia]. rewrite Hs by lia. cbn [app].
    rewrite <- Permutation_middle. constructor. exact IH.
Qed.

Lemma set_levels : forall f, exists levels,
  mapM (fun k => set_getitem (MkSet f None) (Z.of_nat k)) (seq 0 (Z.to_nat (set_depth (MkSet f None)))) = Ok levels /\
  Permutation (set_iter (MkSet f None)) (concat levels).
Proof.
  intros f. set (d := Z.to_nat (set_depth (MkSet f None))).
  assert (E : forall b n, mapM (fun k => set_getitem (MkSet f None) (Z.of_nat k)) (seq b n) = Ok (map (fun k => level k f) (seq b n))).
  { intros b n; revert b. induction n as [|n IH]; intros b; [reflexivity|]. cbn [seq mapM map]. rewrite IH.
    unfold set_getitem, getitem. destruct (Z.ltb_spec (Z.of_nat b) 0); [lia|]. destruct (Z.ltb_spec (Z.of_nat b) 0); [lia|].
    rewrite Nat2Z.id. reflexivity. }
  eexists. split; [apply E|].
  assert (P : Permutation (map Some (set_iter (MkSet f None))) (map Some (concat (map (fun k => level k f) (seq 0 d))))).
  { unfold set_iter. cbn [s_children]. rewrite <- iter_positions.
    rewrite <- flat_map_concat_map.
    assert (M : map Some (flat_map (fun k => level k f) (seq 0 d)) =
                map (at_path f) (flat_map (fun k => filter (fun p => length p =? S k) (fpaths 0 f)) (seq 0 d))).
    { induction (seq 0 d) as [|k ks IH]; [reflexivity|]. cbn [flat_map]. rewrite !map_app, IH. f_equal.
      exact (eq_sym (levels_forest k f [])). }
    rewrite M. apply Permutation_map. apply levels_partition. intros p Hp. split.
    - apply fpaths_In in Hp. destruct Hp as [j [c [q [_ [-> _]]]]]. cbn. lia.
    - unfold d, set_depth. cbn [s_depth s_children]. rewrite Nat2Z.id. apply (forest_depth f); exact Hp. }
  clear - P. remember (map Some (set_iter (MkSet f None))) as a. remember (map Some (concat _)) as b.
  apply (Permutation_flat_map (fun o => match o with Some c => [c] | None => [] end)) in P. subst.
  assert (F : forall l : list citation, flat_map (fun o => match o with Some c => [c] | None => [] end) (map Some l) = l).
  { induction l as [|x l IH]; [reflexivity|]. cbn. rewrite IH; reflexivity. }
  rewrite !F in P. exact P.
Qed.

(** ** DTS JSON *)

Fixpoint reroot (r : option nat) (c : citation) : citation :=
  match c with Cite n _ l => Cite n r (map (reroot r) l) end.

Lemma reroot_shape : forall r c, shape_of (reroot r c) = shape_of c.
Proof.
  intros r. induction c as [n r' l IH] using citation_ind'. cbn. f_equal. rewrite map_map. apply map_ext_in.
  rewrite Forall_forall in IH. exact IH.
Qed.

Lemma reroot_iter : forall r c, Forall (fun x => c_root x = r) (citation_iter (reroot r c)).
Proof.
  intros r. induction c as [n r' l IH] using citation_ind'. cbn. constructor; [reflexivity|].
  apply Forall_forall. intros x Hx. apply in_flat_map in Hx. destruct Hx as [y [Hy Hx]]. apply in_map_iff in Hy.
  destruct Hy as [z [<- Hz]]. rewrite Forall_forall in IH. specialize (IH z Hz). rewrite Forall_forall in IH. apply IH; exact Hx.
Qed.

Lemma ct_cs : str_eqb cite_type_iri cite_structure_iri = false. Proof. reflexivity. Qed.
Lemma cs_ct : str_eqb cite_structure_iri cite_type_iri = false. Proof. reflexivity. Qed.

Section Json.
Variables (tt st : str).
Hypothesis Hne : tt <> st.

Lemma find_structure : forall root (l : list citation),
  Forall (fun c => citation_ingest root (expand tt st (citation_export tt st c)) = Ok (reroot root c)) l ->
  (fix go (vs : list json) : result (list citation) :=
     match vs with
     | [] => Ok []
     | x :: vs' => c <- citation_ingest root x ;; cs <- go vs' ;; Ok (c :: cs)
     end) (map (expand tt st) (map (citation_export tt st) l)) = Ok (map (reroot root) l).
Proof.
  intros root l H. induction H as [|c l Hc _ IH]; [reflexivity|]. cbn [map]. rewrite Hc. cbn [bind]. rewrite IH. reflexivity.
Qed.

Lemma str_eqb_refl' : forall s, str_eqb s s = true.
Proof. intros s. apply str_eqb_eq. reflexivity. Qed.
Lemma str_eqb_neq' : forall a b, a <> b -> str_eqb a b = false.
Proof. intros a b H. destruct (str_eqb a b) eqn:E; [|reflexivity]. apply str_eqb_eq in E. contradiction. Qed.

Lemma ingest_expanded : forall root c,
  citation_ingest root (expand tt st (citation_export tt st c)) = Ok (reroot root c).
Proof.
  intros root. induction c as [n r l IH] using citation_ind'. cbn [citation_export].
  assert (Hl : is_empty l = true -> l = []) by (destruct l; [reflexivity|discriminate]).
  destruct n as [n|]; destruct (is_empty l) eqn:El.
  - rewrite (Hl eq_refl). cbn [expand flat_map app]. rewrite str_eqb_refl'. reflexivity.
  - cbn [expand flat_map app]. rewrite !str_eqb_refl'. cbn [app citation_ingest field].
    rewrite !str_eqb_refl', ct_cs. cbn [get_first get_key bind name_of field]. rewrite str_eqb_refl'. cbn [bind name_of].
    rewrite (find_structure root l IH). reflexivity.
  - rewrite (Hl eq_refl). reflexivity.
  - cbn [expand flat_map app]. rewrite !str_eqb_refl'. cbn [app citation_ingest field].
    rewrite cs_ct, !str_eqb_refl'. cbn [bind].
    rewrite (find_structure root l IH). reflexivity.
Qed.
End Json.

Lemma set_json_round_trip : forall tt st s self, 
  exists s', set_ingest self (expand tt st (set_export tt st s)) = Ok s' /\
    map shape_of (s_children s') = map shape_of (s_children s) /\
    Forall (fun c => c_root c = Some self) (set_iter s').
Proof.
  intros tt st s self. exists (MkSet (map (reroot (Some self)) (s_children s)) None). split; [|split].
  - unfold set_ingest, set_export. cbn [expand iter_json bind].
    assert (E : forall l, mapM (citation_ingest (Some self)) (map (expand tt st) (map (citation_export tt st) l)) = Ok (map (reroot (Some self)) l)).
    { induction l as [|c l IH]; [reflexivity|]. cbn [map mapM]. rewrite ingest_expanded. cbn [bind]. rewrite IH. reflexivity. }
    rewrite E. reflexivity.
  - cbn [s_children]. rewrite map_map. apply map_ext. intros; apply reroot_shape.
  - unfold set_iter. cbn [s_children]. apply Forall_forall. intros x Hx. apply in_flat_map in Hx. destruct Hx as [y [Hy Hx]].
    apply in_map_iff in Hy. destruct Hy as [z [<- _]]. pose proof (reroot_iter (Some self) z) as F. rewrite Forall_forall in F. apply F; exact Hx.
Qed.

Lemma ingest_without_root : forall tt st c, exists c',
  citation_ingest None (expand tt st (citation_export tt st c)) = Ok c' /\ shape_of c' = shape_of c /\
  Forall (fun x => citation_is_root x = true) (citation_iter c').
Proof.
  intros tt st c. exists (reroot None c). split; [apply ingest_expanded|]. split; [apply reroot_shape|].
  eapply Forall_impl; [|apply reroot_iter]. intros x Hx. unfold citation_is_root. rewrite Hx. reflexivity.
Qed.

Fixpoint export_shape (tt st : str) (s : shape) : json :=
  match s with
  | Shape name l => JObj ((tt, match name with Some n => JStr n | None => JNull end) ::
      (match l with [] => [] | _ => [(st, JList (map (export_shape tt st) l))] end))
  end.
Lemma export_by_shape : forall tt st c, citation_export tt st c = export_shape tt st (shape_of c).
Proof.
  intros tt st. induction c as [n r l IH] using citation_ind'. cbn. do 2 f_equal. destruct l as [|x l]; [reflexivity|].
  cbn [is_empty map]. do 3 f_equal. inversion IH as [|? ? Hx Hl]; subst. f_equal; [exact Hx|]. rewrite map_map. apply map_ext_in.
  rewrite Forall_forall in Hl. exact Hl.
Qed.
Lemma export_same_shape : forall tt st s s', map shape_of (s_children s) = map shape_of (s_children s') ->
  set_export tt st s = set_export tt st s'.
Proof.
  intros tt st s s' H. unfold set_export. f_equal.
  rewrite !(map_ext (citation_export tt st) (fun c => export_shape tt st (shape_of c)) (export_by_shape tt st)).
  rewrite <- !(map_map shape_of (export_shape tt st)), H. reflexivity.
Qed.

(** ** Equality of ingested citations *)

Section ShapeInduction.
Variable P : shape -> Prop.
Hypothesis H : forall n l, Forall P l -> P (Shape n l).
Fixpoint shape_ind' (s : shape) : P s :=
  match s with
  | Shape n l => H n l ((fix go l : Forall P l :=
                           match l with [] => Forall_nil _ | x :: l' => Forall_cons _ (shape_ind' x) (go l') end) l)
  end.
End ShapeInduction.

Lemma name_eqb_eq : forall a b, name_eqb a b = true <-> a = b.
Proof.
  intros [a|] [b|]; cbn; split; intros E; try discriminate; try reflexivity.
  - apply str_eqb_eq in E. congruence.
  - injection E as ->. apply str_eqb_refl'.
Qed.

Lemma ingested_fun : forall h s t, forall i s' t', ingested h s i t -> ingested h s' i t' -> s = s' /\ t = t'.
Proof.
  intros h s t. induction t as [n l IH] using shape_ind'. intros i s' t' H1 H2.
  inversion H1 as [? ? ids kids E1 F1]; subst. inversion H2 as [? ? ids' kids' E2 F2]; subst.
  rewrite E1 in E2. injection E2 as -> -> ->. split; [reflexivity|]. f_equal.
  clear - IH F1 F2. revert kids' F2. induction F1 as [|x y ids l Hx F1 IHF]; intros kids' F2; inversion F2; subst; [reflexivity|].
  inversion IH as [|? ? Hy IHl]; subst. f_equal.
  - eapply Hy; eassumption.
  - apply IHF; assumption.
Qed.

Lemma Forall2_len : forall A B (R : A -> B -> Prop) l m, Forall2 R l m -> length l = length m.
Proof. intros A B R l m H. induction H; cbn; congruence. Qed.

Lemma list_eq_shapes : forall eq h s s' ids kids ids' kids',
  (forall x y t t', In t kids -> In x ids -> ingested h s x t -> ingested h s' y t' ->
     exists b, eq x y = Ok b /\ (b = true <-> s = s' /\ t = t')) ->
  Forall2 (ingested h s) ids kids -> Forall2 (ingested h s') ids' kids' -> length ids = length ids' -> 
  exists b, list_eq eq ids ids' = Ok b /\ (b = true <-> (kids = [] \/ s = s') /\ kids = kids').
Proof.
  intros eq h s s' ids kids ids' kids' Heq F1. revert ids' kids'.
  induction F1 as [|x t ids kids Hx F1 IH]; intros ids' kids' F2 Hl; inversion F2 as [|y t' ids2 kids2 Hy F2']; subst; try discriminate.
  - exists true. cbn. split; [reflexivity|]. tauto.
  - cbn [list_eq].
    assert (E : exists b, (if x =? y then Ok true else eq x y) = Ok b /\ (b = true <-> s = s' /\ t = t')).
    { destruct (Nat.eqb_spec x y) as [->|Hn].
      - destruct (ingested_fun h s t y s' t' Hx Hy) as [-> ->]. exists true. tauto.
      - apply (Heq x y t t'); auto; left; reflexivity. }
    destruct E as [b [-> Hb]]. cbn [bind].
    destruct (IH (fun a c u u' Hu Ha => Heq a c u u' (or_intror Hu) (or_intror Ha)) ids2 kids2 F2') as [b2 [E2 Hb2]];
      [cbn in Hl; lia|].
    destruct b.
    + rewrite E2. exists b2. split; [reflexivity|]. rewrite Hb2. destruct (proj1 Hb eq_refl) as [-> ->].
      split; intros [A B]; (split; [right; reflexivity|]); [congruence|]. injection B as ->. reflexivity.
    + exists false. split; [reflexivity|]. split; [discriminate|]. intros [[A|A] B]; [discriminate|].
      injection B as Bt Bk. destruct Hb as [_ Hb]. apply Hb. auto.
Qed.

Lemma ingested_eq : forall h s s' t, 
  (exists l, nth_error h s = Some (OSet l)) -> (exists l, nth_error h s' = Some (OSet l)) ->
  forall fuel a b t', shape_depth t < fuel -> ingested h s a t -> ingested h s' b t' ->
  exists r, citation_eq fuel h a b = Ok r /\ (r = true <-> s = s' /\ t = t').
Proof.
  intros h s s' t [ls Hs] [ls' Hs']. induction t as [n l IH] using shape_ind'. intros fuel a b t' Hf Ha Hb.
  destruct fuel as [|fuel]; [lia|]. cbn [citation_eq].
  inversion Ha as [? ? ids kids E1 F1]; subst. inversion Hb as [? n' ids' kids' E2 F2]; subst. rewrite E1, E2.
  destruct (name_eqb n n') eqn:En.
  2:{ exists false. split; [reflexivity|]. split; [discriminate|]. intros [_ X]. injection X as X _. apply name_eqb_eq in X. congruence. }
  apply name_eqb_eq in En. subst n'.
  cbn [shape_depth] in Hf.
  destruct (Nat.eqb_spec (length ids) (length ids')) as [Hl|Hl].
  2:{ exists false. cbn [bind]. split; [reflexivity|]. split; [discriminate|]. intros [_ X]. injection X as X.
      apply Forall2_len in F1. apply Forall2_len in F2. congruence. }
  destruct (list_eq_shapes (citation_eq fuel h) h s s' ids l ids' kids') as [r [Er Hr]]; try assumption.
  { intros x y u u' Hu _ Hx Hy. rewrite Forall_forall in IH. apply (IH u Hu fuel x y u'); try assumption.
    pose proof (max_bound (map shape_depth l) (shape_depth u) (in_map _ _ _ Hu)). lia. }
  rewrite Er. cbn [bind]. destruct r.
  - destruct fuel as [|fuel]; [lia|]. cbn [citation_eq]. rewrite Hs.
    exists (s =? s'). split; [reflexivity|]. destruct (proj1 Hr eq_refl) as [_ ->]. rewrite Nat.eqb_eq.
    split; [auto|tauto].
  - exists false. split; [reflexivity|]. split; [discriminate|]. intros [-> X]. injection X as ->.
    destruct Hr as [_ Hr]. discriminate (Hr (conj (or_intror eq_refl) eq_refl)).
Qed.

(** Two copies of a hand-made two-level tree: the comparison never ends. *)
Definition loop_heap : list dobj :=
  [OCit (Some #"book") None [1]; OCit (Some #"line") (Some 0) [];
   OCit (Some #"book") None [3]; OCit (Some #"line") (Some 2) []].
Lemma eq_loops : forall fuel, citation_eq fuel loop_heap 0 2 = Err RecursionError /\ citation_eq fuel loop_heap 1 3 = Err RecursionError.
Proof.
  induction fuel as [|fuel [IH1 IH2]]; [split; reflexivity|]. split; cbn [citation_eq loop_heap nth_error].
  - change (name_eqb _ _) with true. cbn [length Nat.eqb list_eq]. change (1 =? 3) with false. cbn iota.
    unfold loop_heap in *. rewrite IH2. reflexivity.
  - change (name_eqb _ _) with true. cbn [length Nat.eqb list_eq bind]. unfold loop_heap in *. exact IH1.
Qed.
