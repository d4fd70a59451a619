(** getReffs below a range: the passage of the range lists the references of the
    document that lie between its ends. *)

From Coq Require Import List NArith ZArith Arith Bool Lia Sorted.
From Verif Require Import PyStr PyStrFacts RefModel RefProofs CiteModel SchemeModel UrnModel.
From Verif Require Import XmlModel XmlSpec XmlProofs XPathModel TemplateSpec TemplateProofs.
From Verif Require Import PassageModel PassageSpec PassageProofs PassageTree PassageNav.
Import ListNotations.

(** ** Sorted lists *)

Section SortedLists.
Variables (A : Type) (lt : A -> A -> Prop) (good : A -> Prop).
Hypothesis asym : forall a b, good a -> good b -> lt a b -> lt b a -> False.

Lemma sorted_unique : forall l1 l2, (forall a, In a l1 -> good a) -> StronglySorted lt l1 -> StronglySorted lt l2 ->
  (forall a, In a l1 <-> In a l2) -> l1 = l2.
Proof.
  induction l1 as [|a l1 IH]; intros l2 Hg H1 H2 Hm.
  - destruct l2 as [|b l2]; [reflexivity|]. destruct (proj2 (Hm b) (or_introl eq_refl)).
  - destruct l2 as [|b l2]; [destruct (proj1 (Hm a) (or_introl eq_refl))|].
    inversion H1 as [|? ? S1 F1]; subst. inversion H2 as [|? ? S2 F2]; subst. rewrite Forall_forall in F1, F2.
    assert (Hb : good b) by (apply Hg, Hm; left; reflexivity). assert (Ha : good a) by (apply Hg; left; reflexivity).
    assert (E : a = b).
    { destruct (proj1 (Hm a) (or_introl eq_refl)) as [E|E]; [congruence|]. destruct (proj2 (Hm b) (or_introl eq_refl)) as [E'|E']; [congruence|].
      destruct (asym a b Ha Hb (F1 b E') (F2 a E)). }
    subst b. f_equal. apply IH; [intros c Hc; apply Hg; right; exact Hc|exact S1|exact S2|].
    intros c. split; intros Hc.
    + destruct (proj1 (Hm c) (or_intror Hc)) as [<-|H]; [|exact H]. destruct (asym a a Ha Ha (F1 a Hc) (F1 a Hc)).
    + destruct (proj2 (Hm c) (or_intror Hc)) as [<-|H]; [|exact H]. destruct (asym a a Ha Ha (F2 a Hc) (F2 a Hc)).
Qed.

Lemma sorted_nth : forall l i j a b, StronglySorted lt l -> nth_error l i = Some a -> nth_error l j = Some b -> i < j -> lt a b.
Proof.
  induction l as [|c l IH]; intros i j a b H Hi Hj Hij; [destruct i; discriminate|]. inversion H as [|? ? S F]; subst.
  destruct j as [|j]; [lia|]. destruct i as [|i].
  - injection Hi as <-. cbn in Hj. rewrite Forall_forall in F. apply F. eapply nth_error_In; exact Hj.
  - cbn in Hi, Hj. apply (IH i j); auto; lia.
Qed.

Lemma nth_firstn : forall (l : list A) n m, m < n -> nth_error (firstn n l) m = nth_error l m.
Proof.
  induction l as [|a l IH]; intros n m H; [rewrite firstn_nil; reflexivity|]. destruct n as [|n]; [lia|]. destruct m as [|m]; [reflexivity|].
  cbn. apply IH. lia.
Qed.
Lemma nth_skipn : forall i (l : list A) m, nth_error (skipn i l) m = nth_error l (i + m).
Proof.
  induction i as [|i IH]; intros l m; [reflexivity|]. destruct l as [|a l]; [destruct m; reflexivity|]. cbn. apply IH.
Qed.

Lemma nth_slice : forall (l : list A) i n m, nth_error (firstn n (skipn i l)) m = if m <? n then nth_error l (i + m) else None.
Proof.
  intros l i n m. destruct (m <? n) eqn:E.
  - apply Nat.ltb_lt in E. rewrite nth_firstn by exact E. apply nth_skipn.
  - apply nth_error_None. rewrite firstn_length. apply Nat.ltb_ge in E. lia.
Qed.

Lemma In_slice : forall l i j a b c, (forall a, In a l -> good a) -> StronglySorted lt l -> nth_error l i = Some a -> nth_error l j = Some b ->
  (In c (firstn (S j - i) (skipn i l)) <-> In c l /\ (c = a \/ lt a c) /\ (c = b \/ lt c b)).
Proof.
  intros l i j a b c Hg Hs Hi Hj.
  assert (Hga : good a) by (apply Hg; eapply nth_error_In; exact Hi). assert (Hgb : good b) by (apply Hg; eapply nth_error_In; exact Hj). split.
  - intros Hc. apply In_nth_error in Hc. destruct Hc as [m Hm]. rewrite nth_slice in Hm.
    destruct (m <? S j - i) eqn:E; [|discriminate]. apply Nat.ltb_lt in E. split; [eapply nth_error_In; exact Hm|]. split.
    + destruct m as [|m]; [left; rewrite Nat.add_0_r in Hm; congruence|]. right. eapply sorted_nth; [exact Hs|exact Hi|exact Hm|lia].
    + destruct (Nat.eq_dec (i + m) j) as [Ej|Ej]; [left; congruence|]. right. eapply sorted_nth; [exact Hs|exact Hm|exact Hj|lia].
  - intros (Hc & H1 & H2). apply In_nth_error in Hc. destruct Hc as [m Hm].
    assert (Hgc : good c) by (apply Hg; eapply nth_error_In; exact Hm).
    assert (L1 : i <= m).
    { destruct (le_lt_dec i m) as [H|H]; [exact H|]. pose proof (sorted_nth l m i c a Hs Hm Hi H) as Hl.
      destruct H1 as [->|H1]; [destruct (asym a a Hga Hga Hl Hl)|destruct (asym c a Hgc Hga Hl H1)]. }
    assert (L2 : m <= j).
    { destruct (le_lt_dec m j) as [H|H]; [exact H|]. pose proof (sorted_nth l j m b c Hs Hj Hm H) as Hl.
      destruct H2 as [->|H2]; [destruct (asym b b Hgb Hgb Hl Hl)|destruct (asym b c Hgb Hgc Hl H2)]. }
    apply (nth_error_In _ (m - i)). rewrite nth_slice. replace (m - i <? S j - i) with true by (symmetry; apply Nat.ltb_lt; lia).
    replace (i + (m - i)) with m by lia. exact Hm.
Qed.

Lemma SSorted_skipn : forall n l, StronglySorted lt l -> StronglySorted lt (skipn n l).
Proof.
  induction n as [|n IH]; intros l H; [exact H|]. destruct l as [|a l]; [exact H|]. cbn. apply IH. inversion H; assumption.
Qed.
Lemma In_firstn : forall n (l : list A) a, In a (firstn n l) -> In a l.
Proof. intros n l a H. rewrite <- (firstn_skipn n l). apply in_or_app. left; exact H. Qed.
Lemma SSorted_firstn : forall n l, StronglySorted lt l -> StronglySorted lt (firstn n l).
Proof.
  induction n as [|n IH]; intros l H; [constructor|]. destruct l as [|a l]; [exact H|]. cbn. inversion H as [|? ? S F]; subst.
  constructor; [apply IH; exact S|]. rewrite Forall_forall in *. intros b Hb. apply F. eapply In_firstn; exact Hb.
Qed.
End SortedLists.

(** ** Common beginnings *)

Fixpoint common (a b : list str) : list str :=
  match a, b with
  | u :: a', v :: b' => if str_eqb u v then u :: common a' b' else []
  | _, _ => []
  end.

Lemma common_begins : forall a b, begins (common a b) a /\ begins (common a b) b.
Proof.
  induction a as [|u a IH]; intros b; [split; eexists; reflexivity|].
  destruct b as [|v b]; [split; eexists; reflexivity|]. cbn. destruct (str_eqb u v) eqn:E; [|split; eexists; reflexivity].
  apply str_eqb_eq in E. subst v. destruct (IH b) as [(r1 & E1) (r2 & E2)]. split; [exists r1|exists r2]; cbn; congruence.
Qed.

Lemma common_longest : forall a b, longest_common (common a b) a b.
Proof.
  intros a b. split; [|split]; try apply common_begins. revert b. induction a as [|u a IH]; intros b d [r1 E1] [r2 E2].
  - destruct d; [cbn; lia|discriminate].
  - destruct d as [|w d]; [cbn; lia|]. cbn in E1. injection E1 as -> E1. destruct b as [|v b]; [discriminate|].
    cbn in E2. injection E2 as -> E2. cbn [common]. rewrite str_eqb_refl. cbn.
    apply le_n_S. apply IH; [exists r1; exact E1|exists r2; exact E2].
Qed.

Lemma common_unique : forall c a b, longest_common c a b -> c = common a b.
Proof.
  intros c a b (H1 & H2 & H3). pose proof (common_longest a b) as (G1 & G2 & G3).
  assert (length c = length (common a b)) by (apply Nat.le_antisymm; auto).
  destruct H1 as [r1 E1], G1 as [r2 E2]. assert (E : firstn (length c) a = c) by (rewrite E1, firstn_app, Nat.sub_diag, firstn_all, app_nil_r; reflexivity).
  rewrite H in E. rewrite <- E. rewrite E2 at 2. rewrite firstn_app, Nat.sub_diag, firstn_all, app_nil_r. reflexivity.
Qed.

Lemma common_parts_spec : forall start i d pre last, length pre = i -> length (pre ++ last) <= d ->
  common_parts i d start (pre ++ last) =
  if (length last <? length start)%nat && list_eqb str_eqb (firstn (length last) start) last then Err IndexError else Ok (common start last).
Proof.
  induction start as [|u start IH]; intros i d pre last Hi Hd; [reflexivity|]. cbn [common_parts].
  assert (Hld : i <= d) by (rewrite app_length in Hd; lia). apply Nat.leb_le in Hld. rewrite Hld.
  rewrite nth_error_app2 by lia. replace (i - length pre) with 0 by lia.
  destruct last as [|v last]; [reflexivity|]. cbn [nth_error length common].
  change (S (length last) <? length (u :: start))%nat with (length last <? length start)%nat. cbn [firstn list_eqb].
  destruct (str_eqb u v) eqn:E; [|rewrite andb_false_r; reflexivity].
  replace (pre ++ v :: last) with ((pre ++ [v]) ++ last) by (rewrite <- app_assoc; reflexivity).
  rewrite IH; [|rewrite app_length; cbn; lia|rewrite <- app_assoc; exact Hd]. rewrite andb_true_l.
  destruct (_ && _); reflexivity.
Qed.

Lemma common_same_length : forall start last d, length start <= length last -> length last <= d ->
  common_parts 0 d start last = Ok (common start last).
Proof.
  intros start last d H Hd. change last with ([] ++ last) at 1. rewrite (common_parts_spec start 0 d [] last) by (reflexivity || exact Hd).
  replace (length last <? length start)%nat with false by (symmetry; apply Nat.ltb_ge; exact H). reflexivity.
Qed.

(** ** One element has one list of identifiers *)

Section Unique.
Variables (levels : list level) (x : node).
Hypothesis Hwf : Forall wf_level levels.

Lemma prefix_chain : forall (p q r : path), is_prefix p r = true -> is_prefix q r = true -> is_prefix p q = true \/ is_prefix q p = true.
Proof.
  induction p as [|i p IH]; intros q r H1 H2; [left; reflexivity|]. destruct q as [|j q]; [right; reflexivity|].
  destruct r as [|h r]; [discriminate|]. cbn in *. apply andb_true_iff in H1. apply andb_true_iff in H2. destruct H1 as [E1 H1], H2 as [E2 H2].
  apply Nat.eqb_eq in E1. apply Nat.eqb_eq in E2. subst. rewrite Nat.eqb_refl. cbn. exact (IH q r H1 H2).
Qed.

Lemma is_prefix_app : forall a b, is_prefix a (a ++ b) = true.
Proof. induction a as [|i a IH]; intros b; [reflexivity|]. cbn. rewrite Nat.eqb_refl. exact (IH b). Qed.

Lemma is_prefix_split : forall a p, is_prefix a p = true -> exists b, p = a ++ b.
Proof.
  induction a as [|i a IH]; intros p H; [exists p; reflexivity|]. destruct p as [|j p]; [discriminate|]. cbn in H.
  apply andb_true_iff in H. destruct H as [E H]. apply Nat.eqb_eq in E. subst j. destruct (IH p H) as [b ->]. exists b. reflexivity.
Qed.

(** Two units of one level, both above or at one element. *)
Lemma same_unit : forall k j p q r, not_nested levels x k -> j < k -> is_unit levels x j p -> is_unit levels x j q ->
  is_prefix p r = true -> is_prefix q r = true -> p = q.
Proof.
  intros k j p q r Hn Hj Hp Hq H1 H2. destruct (prefix_chain p q r H1 H2) as [H|H]; [eapply Hn; eauto|symmetry; eapply Hn; eauto].
Qed.

Lemma cites_functional : forall c d p q r, length c = length d -> length c <= length levels -> not_nested levels x (S (length c)) ->
  cites levels x c p -> cites levels x d q -> is_prefix p r = true -> is_prefix q r = true -> c = d /\ p = q.
Proof.
  intros c d p q r Hl Hk Hn Hc Hd H1 H2.
  assert (E : p = q).
  { apply (same_unit (S (length c)) (length c) p q r Hn); [lia| | |exact H1|exact H2]; [|rewrite Hl]; apply cites_unit; assumption. }
  split; [|exact E]. subst q. clear H1 H2 r.
  revert d p Hl Hk Hn Hc Hd. induction c as [|v c IH] using rev_ind; intros d p Hl Hk Hn Hc Hd.
  - destruct d; [reflexivity|discriminate].
  - destruct d as [|w d _] using rev_ind; [rewrite app_length in Hl; cbn in Hl; lia|]. rewrite !app_length in *. cbn in Hl, Hk.
    assert (Hl' : length c = length d) by lia.
    destruct (nth_error levels (length c)) as [lv|] eqn:Elv; [|apply nth_error_None in Elv; lia].
    destruct (cites_value levels x Hwf c lv v p Elv Hc) as [V1 _]. rewrite Hl' in Elv, V1.
    destruct (cites_value levels x Hwf d lv w p Elv Hd) as [V2 _].
    destruct (cites_prefix levels x c [v] p Hc) as (a & b & Ep & Ha). destruct (cites_prefix levels x d [w] p Hd) as (a' & b' & Ep' & Ha').
    assert (Hn' : not_nested levels x (S (length c))) by (intros j p0 q0 Hj; apply Hn; cbn; lia).
    assert (a = a').
    { apply (same_unit (S (length c)) (length c) a a' p Hn'); [lia|apply cites_unit; exact Ha|rewrite Hl'; apply cites_unit; exact Ha'| |];
        [rewrite Ep|rewrite Ep']; apply is_prefix_app. }
    subst a'. rewrite (IH d a Hl' ltac:(lia) Hn' Ha Ha'). congruence.
Qed.
End Unique.

(** ** The passage of a range *)

Section Range.
Variables (levels : list level) (x R : node) (cs ce : list str) (P1 P2 : path) (d : nat).
Hypothesis Hwf : Forall wf_level levels.
Hypothesis Hd : 0 < d <= length levels.
Hypothesis Hcs : length cs = d.
Hypothesis Hce : length ce = d.
Hypothesis C1 : cites levels x cs P1.
Hypothesis C2 : cites levels x ce P2.
Hypothesis Ho : precedes P1 P2 = true.
Hypothesis Hnn : not_nested levels x (S d).

Let parts := part_of P1 P2.

Lemma ends_apart : is_prefix P1 P2 = false.
Proof.
  destruct (is_prefix P1 P2) eqn:E; [|reflexivity]. exfalso.
  assert (P1 = P2) by (apply (Hnn d); [lia| | |exact E]; [rewrite <- Hcs|rewrite <- Hce]; apply cites_unit; assumption).
  subst. rewrite precedes_irrefl in Ho. discriminate.
Qed.

Lemma range_closed : closed parts.
Proof. apply part_of_closed. right. split; [exact Ho|exact ends_apart]. Qed.

Hypothesis HR : document R = prune (part_of P1 P2) [] (document x).

Lemma selects_R : forall xs q', selects xs (document R) q' <-> exists q, selects xs (document x) q /\ kept parts q = true /\ q' = renumber parts q.
Proof. intros xs q'. rewrite HR. apply selects_prune; [exact range_closed|apply part_of_root]. Qed.

Lemma unit_kept : forall q, is_unit levels x d q ->
  (kept parts q = true <-> (q = P1 \/ precedes P1 q = true) /\ (q = P2 \/ precedes q P2 = true)).
Proof.
  intros q Hq.
  assert (N : forall P, P = P1 \/ P = P2 -> (is_prefix q P = true -> q = P) /\ (is_prefix P q = true -> P = q)).
  { intros P HP. assert (HuP : is_unit levels x d P) by (destruct HP; subst P; [rewrite <- Hcs|rewrite <- Hce]; apply cites_unit; assumption).
    split; intros H; apply (Hnn d); try assumption; lia. }
  assert (A : forall P, P = P1 \/ P = P2 -> is_above q P = false).
  { intros P HP. unfold is_above. destruct (is_prefix q P) eqn:E; [|reflexivity]. apply (N P HP) in E. subst P. rewrite is_prefix_refl. reflexivity. }
  unfold kept, parts, part_of. rewrite !A by auto. cbn [negb orb]. rewrite andb_true_r.
  assert (L : is_prefix P1 q || precedes P1 q = true <-> q = P1 \/ precedes P1 q = true).
  { rewrite orb_true_iff. split; (intros [H|H]; [left|right; exact H]); [symmetry; apply (N P1); auto|subst; apply is_prefix_refl]. }
  assert (L2 : precedes q P2 || is_prefix P2 q = true <-> q = P2 \/ precedes q P2 = true).
  { rewrite orb_true_iff. split; (intros [H|H]; [|]); auto; [left; symmetry; apply (N P2); auto|subst; right; apply is_prefix_refl]. }
  rewrite <- L, <- L2. destruct (is_prefix P1 q || precedes P1 q), (precedes q P2 || is_prefix P2 q); cbn; intuition congruence.
Qed.

Lemma below_kept : forall q b, is_unit levels x d q -> kept parts q = true -> kept parts (q ++ b) = true.
Proof.
  intros q b Hq Hk. apply (unit_kept q Hq) in Hk. destruct Hk as [K1 K2].
  assert (F1 : is_prefix P1 (q ++ b) || precedes P1 (q ++ b) = true).
  { destruct K1 as [->|K1]; [rewrite is_prefix_app; reflexivity|].
    destruct (is_prefix P1 q) eqn:E; [apply is_prefix_split in E; destruct E as [r ->]; rewrite <- app_assoc, is_prefix_app; reflexivity|].
    rewrite <- (app_nil_r P1) at 2. rewrite (precedes_apart P1 q [] b K1 E). apply orb_true_r. }
  assert (N2 : q = P2 \/ is_prefix q P2 = false).
  { destruct (is_prefix q P2) eqn:E; [left|right; reflexivity]. apply (Hnn d); [lia|exact Hq| |exact E]. rewrite <- Hce. apply cites_unit. exact C2. }
  assert (F2 : precedes (q ++ b) P2 || is_prefix P2 (q ++ b) = true).
  { destruct K2 as [->|K2]; [rewrite is_prefix_app; apply orb_true_r|]. destruct N2 as [->|N2]; [rewrite precedes_irrefl in K2; discriminate|].
    rewrite <- (app_nil_r P2) at 1. rewrite (precedes_apart q P2 b [] K2 N2). reflexivity. }
  assert (F3 : is_above (q ++ b) P2 = false).
  { unfold is_above. destruct (is_prefix (q ++ b) P2) eqn:E; [|reflexivity]. apply is_prefix_split in E. destruct E as [r E].
    destruct N2 as [<-|N2]; [rewrite is_prefix_app; reflexivity|]. rewrite E, <- app_assoc, is_prefix_app in N2. discriminate. }
  unfold kept, parts, part_of. rewrite F1, F2, F3. reflexivity.
Qed.

Variable k : nat.
Hypothesis Hk : d <= k <= length levels.
Hypothesis Hun : unambiguous levels x k.
Hypothesis Hnk : not_nested levels x k.

(** What the passage lists. *)
Definition within (c : list str) : Prop :=
  exists q, cites levels x (firstn d c) q /\ (q = P1 \/ precedes P1 q = true) /\ (q = P2 \/ precedes q P2 = true).

Lemma cites_within : forall c p, length c = k -> cites levels x c p -> (kept parts p = true <-> within c).
Proof.
  intros c p Hc Hp. rewrite <- (firstn_skipn d c) in Hp. destruct (cites_prefix levels x _ _ _ Hp) as (a & b & -> & Ha).
  assert (Hf : length (firstn d c) = d) by (apply firstn_length_le; lia).
  assert (Hu : is_unit levels x d a) by (rewrite <- Hf; apply cites_unit; exact Ha). split.
  - intros K. apply (range_closed a b) in K. exists a. split; [exact Ha|]. apply unit_kept; assumption.
  - intros (q & Hq & H1). apply below_kept; [exact Hu|]. apply (unit_kept a Hu).
    rewrite (Hun (firstn d c) a q) by (assumption || lia). exact H1.
Qed.

(** The beginning shared by the two ends begins everything between them. *)
Lemma within_common : forall c, length c = k -> within c -> begins (common cs ce) c.
Proof.
  intros c Hc (q & Hq & B1 & B2). assert (Hf : length (firstn d c) = d) by (apply firstn_length_le; lia).
  destruct (common_begins cs ce) as [[r1 E1] [r2 E2]]. set (m := common cs ce) in *.
  assert (Hm : length m <= d) by (apply (f_equal (@length _)) in E1; rewrite app_length in E1; lia).
  rewrite E1 in C1. rewrite E2 in C2.
  destruct (cites_prefix levels x _ _ _ C1) as (u1 & b1 & EP1 & U1). destruct (cites_prefix levels x _ _ _ C2) as (u2 & b2 & EP2 & U2).
  assert (u1 = u2) by (apply (Hun m); [lia|exact U1|exact U2]). subst u2.
  assert (Hq' : is_prefix u1 q = true).
  { destruct B1 as [->|B1]; [rewrite EP1; apply is_prefix_app|]. destruct B2 as [->|B2]; [rewrite EP2; apply is_prefix_app|].
    rewrite EP1 in B1. rewrite EP2 in B2. clear - B1 B2. revert q B1 B2.
    induction u1 as [|i u IH]; intros q B1 B2; [reflexivity|]. destruct q as [|j q]; [discriminate|]. cbn [app] in *. rewrite precedes_cons in *.
    apply orb_true_iff in B1. apply orb_true_iff in B2. rewrite andb_true_iff, Nat.ltb_lt, Nat.eqb_eq in *. cbn [is_prefix].
    destruct B1 as [B1|[-> B1]], B2 as [B2|[B2' B2]]; try lia. rewrite Nat.eqb_refl. exact (IH q B1 B2). }
  rewrite <- (firstn_skipn (length m) (firstn d c)) in Hq. destruct (cites_prefix levels x _ _ _ Hq) as (a & b & Eq & Ha).
  assert (Hfm : length (firstn (length m) (firstn d c)) = length m) by (apply firstn_length_le; lia).
  assert (E : m = firstn (length m) (firstn d c) /\ u1 = a).
  { apply (cites_functional levels x Hwf m (firstn (length m) (firstn d c)) u1 a q); try assumption; try lia.
    - intros j p0 q0 Hj. apply Hnn. lia.
    - rewrite Eq. apply is_prefix_app. }
  destruct E as [E _]. exists (skipn (length m) (firstn d c) ++ skipn d c). rewrite E at 1. rewrite app_assoc, firstn_skipn, firstn_skipn. reflexivity.
Qed.

Lemma unambiguous_R : unambiguous levels R k.
Proof.
  intros c p' q' Hc Hp Hq. apply selects_R in Hp. apply selects_R in Hq. destruct Hp as (p & Hp & _ & ->), Hq as (q & Hq & _ & ->).
  rewrite (Hun c p q Hc Hp Hq). reflexivity.
Qed.

Lemma not_nested_R : not_nested levels R k.
Proof.
  intros j p' q' Hj Hp Hq Hpre. apply selects_R in Hp. apply selects_R in Hq. destruct Hp as (p & Hp & K1 & ->), Hq as (q & Hq & K2 & ->).
  rewrite kept_of_renumber_prefix in Hpre by (assumption || exact range_closed). rewrite (Hnk j p q Hj Hp Hq Hpre). reflexivity.
Qed.

Lemma plain_units_R : plain_units levels x -> plain_units levels R.
Proof.
  intros Hpl j lv p' n' v Hlv Hp Hn Hv. apply selects_R in Hp. destruct Hp as (p & Hp & K & ->). rewrite HR in Hn.
  apply (at_position_prune _ _ _ _ _ range_closed) in Hn. destruct Hn as (q & m & y & Hm & Kq & E & ->).
  assert (Kq' : kept parts q = true) by (destruct q; [apply part_of_root|apply Kq; discriminate]).
  apply (renumber_inj p q parts range_closed K Kq') in E. subst q. rewrite prune_unfold in Hv. cbn [n_attrs] in Hv.
  exact (Hpl j lv p m v Hlv Hp Hm Hv).
Qed.

Lemma common_short : length (common cs ce) < d.
Proof.
  destruct (common_begins cs ce) as [[r1 E1] [r2 E2]]. destruct (le_lt_dec d (length (common cs ce))) as [H|H]; [exfalso|exact H].
  assert (r1 = []) by (apply length_zero_iff_nil; apply (f_equal (@length _)) in E1; rewrite app_length in E1; lia).
  assert (r2 = []) by (apply length_zero_iff_nil; apply (f_equal (@length _)) in E2; rewrite app_length in E2; lia).
  subst. rewrite app_nil_r in *. assert (E : cs = ce) by congruence. rewrite <- E in C2.
  assert (P1 = P2) by (apply (Hun cs); [lia|exact C1|exact C2]). subst. rewrite precedes_irrefl in Ho. discriminate.
Qed.

Lemma In_range : forall c, In c (enum levels R (k - length (common cs ce)) (common cs ce)) <->
  length c = k /\ (exists p, cites levels x c p) /\ within c.
Proof.
  intros c. pose proof common_short as Hs. rewrite (In_enum levels R Hwf) by lia. split.
  - intros (_ & Hl & p' & Hp). assert (Hlc : length c = k) by lia. apply selects_R in Hp. destruct Hp as (p & Hp & K & ->).
    split; [exact Hlc|]. split; [eauto|]. apply (cites_within c p Hlc Hp). exact K.
  - intros (Hl & (p & Hp) & Hw). split; [apply within_common; assumption|]. split; [lia|]. exists (renumber parts p).
    apply selects_R. exists p. split; [exact Hp|]. split; [|reflexivity]. apply (cites_within c p Hl Hp). exact Hw.
Qed.

Lemma range_sorted : StronglySorted (ordered levels x) (enum levels R (k - length (common cs ce)) (common cs ce)).
Proof.
  pose proof common_short as Hs.
  pose proof (enum_order levels R Hwf (k - length (common cs ce)) (common cs ce)) as H.
  replace (length (common cs ce) + (k - length (common cs ce))) with k in H by lia.
  specialize (H ltac:(lia) ltac:(lia) unambiguous_R not_nested_R).
  rewrite <- (map_id (enum levels R (k - length (common cs ce)) (common cs ce))). revert H. apply SSorted_map.
  intros c e Hc He Hlt p q Hp Hq. apply In_range in Hc. apply In_range in He.
  destruct Hc as (Lc & _ & Wc), He as (Le & _ & We).
  assert (Kp : kept parts p = true) by (apply (cites_within c p Lc Hp); exact Wc).
  assert (Kq : kept parts q = true) by (apply (cites_within e q Le Hq); exact We).
  rewrite <- (renumber_precedes p q parts range_closed Kp Kq). apply Hlt; apply selects_R; eauto.
Qed.

End Range.

Lemma whole_sorted : forall levels x k, Forall wf_level levels -> 0 < k <= length levels -> unambiguous levels x k -> not_nested levels x k ->
  StronglySorted (ordered levels x) (enum levels x k []).
Proof. intros levels x k Hwf Hk Hun Hnk. apply (enum_order levels x Hwf k []); cbn; [lia|lia|exact Hun|exact Hnk]. Qed.

Lemma whole_citable : forall levels x k, Forall wf_level levels -> 0 < k <= length levels ->
  forall c, In c (enum levels x k []) -> exists p, cites levels x c p.
Proof. intros levels x k Hwf Hk c Hc. apply (In_enum levels x Hwf) in Hc; [|cbn; lia|lia]. apply Hc. Qed.

Lemma citable_asym : forall levels x c e, (exists p, cites levels x c p) -> (exists p, cites levels x e p) ->
  ordered levels x c e -> ordered levels x e c -> False.
Proof.
  intros levels x c e [p Hp] [q Hq] H1 H2. pose proof (precedes_trans p q p (H1 p q Hp Hq) (H2 q p Hq Hp)) as H.
  rewrite precedes_irrefl in H. discriminate.
Qed.

(** The references between the ends of a range, at the level of the range. *)
Lemma range_slice : forall levels x R cs ce P1 P2 d i j,
  Forall wf_level levels -> 0 < d <= length levels -> length cs = d -> length ce = d ->
  cites levels x cs P1 -> cites levels x ce P2 -> precedes P1 P2 = true ->
  unambiguous levels x d -> not_nested levels x (S d) -> document R = prune (part_of P1 P2) [] (document x) ->
  nth_error (enum levels x d []) i = Some cs -> nth_error (enum levels x d []) j = Some ce ->
  enum levels R (d - length (common cs ce)) (common cs ce) = firstn (S j - i) (skipn i (enum levels x d [])).
Proof.
  intros levels x R cs ce P1 P2 d i j Hwf Hd Hcs Hce C1 C2 Ho Hun Hnn HR Hi Hj.
  assert (Hnd : not_nested levels x d) by (intros a p q Ha; apply Hnn; lia).
  pose proof (whole_sorted levels x d Hwf Hd Hun Hnd) as Hsort.
  pose proof (whole_citable levels x d Hwf Hd) as Hcit.
  apply (sorted_unique _ (ordered levels x) (fun c => exists p, cites levels x c p) (citable_asym levels x)).
  - intros c Hc. apply (In_range levels x R cs ce P1 P2 d Hwf Hd Hcs Hce C1 C2 Ho Hnn HR d ltac:(lia) Hun) in Hc. apply Hc.
  - apply (range_sorted levels x R cs ce P1 P2 d); try assumption; lia.
  - apply SSorted_firstn, SSorted_skipn. exact Hsort.
  - intros c. rewrite (In_range levels x R cs ce P1 P2 d Hwf Hd Hcs Hce C1 C2 Ho Hnn HR d ltac:(lia) Hun).
    rewrite (In_slice _ (ordered levels x) (fun c => exists p, cites levels x c p) (citable_asym levels x) _ i j cs ce c Hcit Hsort Hi Hj).
    rewrite (In_enum levels x Hwf d [] c) by (cbn; lia). split.
    + intros (Hl & (p & Hp) & (q & Hq & B1 & B2)). rewrite firstn_all2 in Hq by lia.
      split; [split; [exists c; reflexivity|split; [exact Hl|eauto]]|].
      assert (Eqp : forall p, cites levels x c p -> p = q) by (intros p0 Hp0; apply (Hun c); [lia|exact Hp0|exact Hq]).
      split.
      * destruct B1 as [->|B1]; [left|right; intros p1 q1 Hp1 Hq1].
        -- symmetry. apply (cites_functional levels x Hwf cs c P1 P1 P1); try assumption; try lia; try apply is_prefix_refl. rewrite Hcs. exact Hnn.
        -- rewrite (Eqp q1 Hq1), (Hun cs p1 P1 ltac:(lia) Hp1 C1). exact B1.
      * destruct B2 as [->|B2]; [left|right; intros p1 q1 Hp1 Hq1].
        -- symmetry. apply (cites_functional levels x Hwf ce c P2 P2 P2); try assumption; try lia; try apply is_prefix_refl. rewrite Hce. exact Hnn.
        -- rewrite (Eqp p1 Hp1), (Hun ce q1 P2 ltac:(lia) Hq1 C2). exact B2.
    + intros ((_ & Hl & (q & Hq)) & B1 & B2). cbn in Hl. split; [exact Hl|]. split; [eauto|]. exists q. rewrite firstn_all2 by lia. split; [exact Hq|]. split.
      * destruct B1 as [->|B1]; [left; apply (Hun cs); [lia|exact Hq|exact C1]|right; apply B1; assumption].
      * destruct B2 as [->|B2]; [left; apply (Hun ce); [lia|exact Hq|exact C2]|right; apply B2; assumption].
Qed.
