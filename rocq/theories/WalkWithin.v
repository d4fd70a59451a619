(** What can be cited in the tree rebuilt for one passage. *)

From Coq Require Import List NArith ZArith Arith Bool Lia Sorted.
From Verif Require Import PyStr PyStrFacts RefModel UrnModel UrnSpec XmlModel XmlSpec XmlProofs XPathModel TemplateSpec.
From Verif Require Import PassageModel PassageSpec PassageProofs PassageTree PassageRange PassageNav PassageWords PassageApi PassageFinal WalkModel WalkSpec WalkLists.
Import ListNotations.

Lemma begins_firstn_self : forall (e d : list str), begins e d <-> e = firstn (length e) d.
Proof.
  intros e d. split.
  - intros (r & ->). rewrite firstn_app, firstn_all, Nat.sub_diag. cbn. rewrite app_nil_r. reflexivity.
  - intros E. exists (skipn (length e) d). rewrite E at 1. symmetry. apply firstn_skipn.
Qed.

Lemma kept_one : forall P q, kept (part_of P P) q = true <-> is_prefix q P = true \/ is_prefix P q = true.
Proof.
  induction P as [|i P IH]; intros q.
  - unfold kept. rewrite part_of_here. cbn. intuition.
  - destruct q as [|j q]; [unfold kept, part_of; cbn; intuition|]. unfold kept. rewrite part_of_cons_eq. cbn [is_prefix]. rewrite (Nat.eqb_sym i j).
    destruct (Nat.eqb j i); cbn [andb]; [apply IH|]. intuition discriminate.
Qed.

Section Within.
Variables (levels : list level) (x R : node) (d : list str).
Hypothesis Hclear : clear_text levels x (length levels).
Hypothesis Nd : d <> [].
Hypothesis Ld : length d <= length levels.
Hypothesis HR : rebuilt_content levels x d R.

Lemma within_tree : exists P, cites levels x d P /\ R = prune (part_of (tl P) (tl P)) [] x /\ document R = prune (part_of P P) [] (document x).
Proof using Hclear Nd HR.
  destruct HR as (P & e & (C & _) & _ & _ & HL). exists P. split; [exact C|].
  assert (E : R = prune (part_of (tl P) (tl P)) [] x).
  { apply prune_of_lines; [apply part_of_closed; left; reflexivity|apply part_of_root|exact HL]. }
  split; [exact E|]. rewrite E.
  assert (Hrt : rooted levels) by apply Hclear. apply (cites_tail levels x d Hrt Nd) in C. destruct C as (p & -> & _). cbn [tl]. apply document_prune.
Qed.

Lemma closed_one : forall P, closed (part_of P P).
Proof using. intros P. apply part_of_closed. left. reflexivity. Qed.

(** What is cited in the tree. *)
Lemma cites_in : exists P, cites levels x d P /\ forall e q', cites levels R e q' <->
  exists q, cites levels x e q /\ kept (part_of P P) q = true /\ q' = renumber (part_of P P) q.
Proof using Hclear Nd HR.
  destruct within_tree as (P & C & _ & E). exists P. split; [exact C|]. intros e q'. unfold cites. rewrite E. apply selects_prune; [apply closed_one|apply part_of_root].
Qed.

Lemma near : forall P e q, cites levels x d P -> cites levels x e q -> length e <= length levels ->
  (kept (part_of P P) q = true <-> begins e d \/ begins d e).
Proof using Hclear Nd Ld HR.
  destruct Hclear as ((Hwf & _) & _ & Hun & Hnn).
  assert (One : forall a b p q, cites levels x a p -> cites levels x b q -> length a <= length b -> length b <= length levels ->
    (is_prefix p q = true \/ is_prefix q p = true <-> begins a b)).
  { intros a b p q Ha Hb L Lb. assert (Lf : length (firstn (length a) b) = length a) by (apply firstn_length_le; exact L). split.
    - intros H. rewrite <- (firstn_skipn (length a) b) in Hb. destruct (cites_prefix levels x _ _ _ Hb) as (p' & r & -> & Hp').
      assert (F : a = firstn (length a) b /\ p = p').
      { assert (G : forall r', is_prefix p r' = true -> is_prefix p' r' = true -> a = firstn (length a) b /\ p = p').
        { intros r' H1 H2. apply (cites_functional levels x Hwf a _ p p' r'); try assumption; try lia. intros j p0 q0 Hj. apply Hnn. lia. }
        destruct H as [H|H]; [apply (G (p' ++ r)); [exact H|apply is_prefix_app]|]. apply (G p); [apply is_prefix_refl|].
        apply is_prefix_split in H. destruct H as (s & ->). rewrite <- app_assoc. apply is_prefix_app. }
      apply begins_firstn_self. apply F.
    - intros (r & ->). destruct (cites_prefix levels x _ _ _ Hb) as (p' & s & -> & Hp'). rewrite (Hun a p p' ltac:(rewrite app_length in Lb; lia) Ha Hp').
      left. apply is_prefix_app. }
  assert (Short : forall a b, begins a b -> length b <= length a -> a = b).
  { intros a b (r & ->) L. rewrite app_length in L. destruct r; [symmetry; apply app_nil_r|cbn in L; lia]. }
  intros P e q Hd He Le. rewrite kept_one. destruct (le_lt_dec (length e) (length d)) as [L|L].
  - rewrite (One e d q P He Hd L Ld). split; [auto|]. intros [H|H]; [exact H|]. rewrite (Short d e H L). exists []. symmetry. apply app_nil_r.
  - rewrite or_comm. rewrite (One d e P q Hd He ltac:(lia) Le). split; [auto|]. intros [H|H]; [|exact H].
    destruct H as (r & ->). rewrite app_length in L. lia.
Qed.

(** Something is cited in the tree when it is cited in the text and contains the
    passage or is contained in it. *)
Lemma cited_within : forall e, length e <= length levels ->
  ((exists q, cites levels R e q) <-> (exists q, cites levels x e q) /\ (begins e d \/ begins d e)).
Proof using Hclear Nd Ld HR.
  intros e Le. destruct cites_in as (P & C & Ci). split.
  - intros (q' & Hq). apply Ci in Hq. destruct Hq as (q & Hq & K & _). split; [eauto|]. apply (near P e q C Hq Le). exact K.
  - intros ((q & Hq) & B). exists (renumber (part_of P P) q). apply Ci. exists q. split; [exact Hq|]. split; [|reflexivity]. apply (near P e q C Hq Le). exact B.
Qed.

Lemma within_clear : clear_text levels R (length levels).
Proof using Hclear Nd Ld HR.
  destruct within_tree as (P & C & _ & E). pose proof (closed_one P) as Cl.
  assert (S1 : forall xs q', selects xs (document R) q' <-> exists q, selects xs (document x) q /\ kept (part_of P P) q = true /\ q' = renumber (part_of P P) q).
  { intros xs q'. rewrite E. apply selects_prune; [exact Cl|apply part_of_root]. }
  destruct Hclear as (Hu & Hg & Hun & Hnn). split; [exact Hu|]. split; [|split].
  - intros j lv p' n' v Hlv Hp Hn Hv. apply S1 in Hp. destruct Hp as (p & Hp & K & ->). rewrite E in Hn.
    apply (at_position_prune _ _ _ _ _ Cl) in Hn. destruct Hn as (q & m & y & Hm & Kq & E' & ->).
    assert (Kq' : kept (part_of P P) q = true) by (destruct q; [apply part_of_root|apply Kq; discriminate]).
    apply (renumber_inj p q _ Cl K Kq') in E'. subst q. rewrite prune_unfold in Hv. cbn [n_attrs] in Hv.
    exact (Hg j lv p m v Hlv Hp Hm Hv).
  - intros c p' q' Hc Hp Hq. apply S1 in Hp. apply S1 in Hq. destruct Hp as (p & Hp & _ & ->), Hq as (q & Hq & _ & ->).
    rewrite (Hun c p q Hc Hp Hq). reflexivity.
  - intros j p' q' Hj Hp Hq Hpre. apply S1 in Hp. apply S1 in Hq. destruct Hp as (p & Hp & K1 & ->), Hq as (q & Hq & K2 & ->).
    rewrite kept_of_renumber_prefix in Hpre by (assumption || exact Cl). rewrite (Hnn j p q Hj Hp Hq Hpre). reflexivity.
Qed.

Lemma within_root : proper_root levels x -> proper_root levels R.
Proof using Hclear Nd HR.
  intros H s rest comps Hc E. destruct within_tree as (P & _ & -> & _). apply prune_step. exact (H s rest comps Hc E).
Qed.

(** Order is kept. *)
Lemma before_within : forall a b, before levels R a b -> before levels x a b.
Proof using Hclear Nd HR.
  intros a b (c & e & p' & q' & Nc & Ne & -> & -> & Hp & Hq & Hpre). destruct within_tree as (P & C & _ & E). pose proof (closed_one P) as Cl.
  unfold cites in Hp, Hq. rewrite E in Hp, Hq. apply (selects_prune _ _ _ _ _ Cl (part_of_root P P)) in Hp. apply (selects_prune _ _ _ _ _ Cl (part_of_root P P)) in Hq.
  destruct Hp as (p & Hp & K1 & ->), Hq as (q & Hq & K2 & ->). exists c, e, p, q. repeat (split; [assumption || reflexivity|]).
  rewrite <- (renumber_precedes p q _ Cl K1 K2). exact Hpre.
Qed.

Lemma told_near_level : forall parts k r, told_level levels R parts k r -> told_near levels x d parts k r.
Proof using Hclear Nd Ld HR.
  intros parts k [l|[]] T; cbn in *; try contradiction; try exact T.
  - destruct T as (L & N & HL & ND & SS). split; [exact L|]. split; [exact N|]. split; [exact ND|]. split.
    + clear - SS Hclear Nd HR. induction SS as [|a l SS IH F]; constructor; [exact IH|]. eapply Forall_impl; [|exact F]. intros b. apply before_within.
    + intros o. rewrite (HL o). split.
      * intros (e & p & -> & Le & B & C). destruct (proj1 (cited_within e ltac:(lia)) (ex_intro _ p C)) as ((q & Hq) & O). exists e, q. auto.
      * intros (e & p & -> & Le & B & C & O). destruct (proj2 (cited_within e ltac:(lia)) (conj (ex_intro _ p C) O)) as (q & Hq). exists e, q. auto.
  - destruct T as (L & T). split; [exact L|]. intros e p Le B O C.
    destruct (proj2 (cited_within e ltac:(lia)) (conj (ex_intro _ p C) O)) as (q & Hq). exact (T e q Le B Hq).
Qed.

Section Object.
Variables (same : node -> node -> bool) (self : tobj).
Hypothesis Hself : o_xml (text_object self) = R.
Notation scheme := (write_scheme levels).

(** Its references below some other passage. *)
Lemma near_below : forall level parts k, parts <> [] -> Forall plain parts -> Z.of_nat k = Z.max level (Z.of_nat (length parts) + 1) ->
  told_near levels x d parts k (get_reffs scheme same self (Some level) (Some (reference_to parts))).
Proof using Hclear Nd Ld HR Hself.
  intros level parts k Np Pp Hk. apply told_near_level. exact (told_below levels R same within_clear self level parts k Hself Np Pp Hk).
Qed.

(** There are none below a passage of the same level. *)
Lemma near_none : forall level c, c <> [] -> Forall plain c -> length c = length d -> c <> d ->
  get_reffs scheme same self (Some level) (Some (reference_to c)) =
  Err (if (Z.of_nat (length levels) <? Z.max level (Z.of_nat (length c) + 1))%Z then CitationDepthError else KeyError).
Proof using Hclear Nd Ld HR Hself.
  intros level c Nc Pc Lc Ne. set (k := Z.to_nat (Z.max level (Z.of_nat (length c) + 1))).
  assert (K : Z.of_nat k = Z.max level (Z.of_nat (length c) + 1)) by (unfold k; lia).
  pose proof (near_below level c k Nc Pc K) as T. rewrite <- K.
  destruct (get_reffs scheme same self (Some level) (Some (reference_to c))) as [l|[]]; cbn in T; try contradiction.
  - exfalso. destruct T as (L & N & _ & _ & HL). destruct l as [|o l]; [congruence|]. destruct (proj1 (HL o) (or_introl eq_refl)) as (e & p & _ & Le & (r & B) & _ & O).
    destruct O as [(s & O)|(s & O)].
    + apply (f_equal (@length _)) in O. rewrite app_length in O. lia.
    + apply Ne. rewrite B in O. clear - O Lc. revert d Lc O. induction c as [|a c IH]; intros [|b d'] Lc O; try discriminate Lc; [reflexivity|].
      cbn in O. injection O as -> O. f_equal. apply (IH d'); [cbn in Lc; lia|exact O].
  - destruct (Z.ltb_spec (Z.of_nat (length levels)) (Z.of_nat k)) as [L|L]; [lia|reflexivity].
  - destruct (Z.ltb_spec (Z.of_nat (length levels)) (Z.of_nat k)) as [L|L]; [reflexivity|lia].
Qed.

(** Reading from it. *)
Lemma near_node : forall e, proper_root levels x -> good_urn (o_urn self) -> e <> [] -> Forall good_id e -> length e <= length levels ->
  ((exists p, cites levels x e p) /\ overlap d e) /\ (exists o, get_node scheme same self (reference_to e) = Ok o) \/
  ~ ((exists p, cites levels x e p) /\ overlap d e) /\ get_node scheme same self (reference_to e) = Err IndexError.
Proof using Hclear Nd Ld HR Hself.
  intros e Hroot Hu Ne Ge Le. destruct (cites_dec levels R within_clear e Ne) as [H|H].
  - left. split; [apply (cited_within e Le); exact H|].
    destruct (node_read levels R same within_clear self e Hself Hu ltac:(split; [exact Ne|]; auto)) as (R' & v & E & _). eauto.
  - right. split; [intros X; apply (cited_within e Le) in X; destruct X as (p & X); exact (H p X)|].
    apply (read_unknown_one levels R same self e (proj1 Hclear) (within_root Hroot) Hself Ne Ge Le H).
Qed.
End Object.
End Within.
