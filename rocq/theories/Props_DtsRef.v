(** Property C66: DTS references and sets of them. *)

From Coq Require Import List NArith ZArith Arith Bool Lia.
From Verif Require Import PyStr PyStrFacts DtsRefModel.
Import ListNotations.

(** ** Specification *)

(** A reference as one writes it: a passage, or a range; with a type or not. *)
Record written := Written { w_start : str; w_end : option str; w_type : option str }.
Definition typed_well (r : written) : Prop := w_type r <> Some [].
Definition ref_of (r : written) : value :=
  match w_end r with
  | None => new_ref [VText (w_start r)] (w_type r)
  | Some e => new_ref [VText (w_start r); VText e] (w_type r)
  end.

(** ** Facts *)

Lemma veq_unfold : forall a b, veq a b =
  match a, b with
  | VNone, VNone => true
  | VText s, VText t => str_eqb s t
  | VTuple l, VTuple l' => veq_all l l'
  | VRef l ty, VRef l' ty' => veq_all l l' && otext_eqb ty ty'
  | _, _ => false
  end.
Proof.
  assert (A : forall l l', (fix all (l l' : list value) : bool := match l, l' with [] , [] => true | x :: r, y :: r' => veq x y && all r r' | _, _ => false end) l l' = veq_all l l').
  { induction l as [|x l IH]; intros [|y l']; cbn; try reflexivity; rewrite IH; reflexivity. }
  intros [|s|l|l ty] [|t|l'|l' ty']; cbn; try reflexivity; rewrite A; reflexivity.
Qed.

Lemma otext_eqb_eq : forall a b, otext_eqb a b = true <-> a = b.
Proof.
  intros [a|] [b|]; cbn; split; intros H; try discriminate; try reflexivity.
  - apply str_eqb_eq in H. congruence.
  - injection H as ->. apply str_eqb_refl.
Qed.

Fixpoint size (v : value) : nat :=
  match v with
  | VTuple l => S ((fix sum (l : list value) := match l with [] => 0 | x :: r => size x + sum r end) l)
  | VRef l _ => S ((fix sum (l : list value) := match l with [] => 0 | x :: r => size x + sum r end) l)
  | _ => 1
  end.
Lemma size_in : forall x l, In x l -> size x <= (fix sum (l : list value) := match l with [] => 0 | x :: r => size x + sum r end) l.
Proof. induction l as [|y l IH]; intros []; [subst; lia|]. specialize (IH H). lia. Qed.

Lemma veq_eq : forall n a b, size a < n -> veq a b = true <-> a = b.
Proof.
  induction n as [|n IH]; intros a b L; [lia|]. rewrite veq_unfold.
  assert (ALL : forall l l', (forall x, In x l -> size x < n) -> veq_all l l' = true <-> l = l').
  { induction l as [|x l IHl]; intros [|y l'] H; cbn; split; intros E; try discriminate; try reflexivity.
    - apply andb_prop in E. destruct E as [E1 E2]. apply IH in E1; [|apply H; left; reflexivity]. apply IHl in E2; [|intros; apply H; right; assumption]. congruence.
    - injection E as <- <-. apply andb_true_intro. split; [apply IH; [apply H; left; reflexivity|reflexivity]|apply IHl; [intros; apply H; right; assumption|reflexivity]]. }
  destruct a as [|s|l|l ty], b as [|t|l'|l' ty']; split; intros E; try discriminate; try reflexivity.
  - apply str_eqb_eq in E. congruence.
  - injection E as ->. apply str_eqb_refl.
  - f_equal. apply (ALL l l'); [|exact E]. intros x I. apply size_in in I. cbn in L. lia.
  - injection E as ->. apply (ALL l' l'); [|reflexivity]. intros x I. apply size_in in I. cbn in L. lia.
  - apply andb_prop in E. destruct E as [E1 E2]. apply otext_eqb_eq in E2. subst ty'. f_equal. apply (ALL l l'); [|exact E1]. intros x I. apply size_in in I. cbn in L. lia.
  - injection E as -> ->. apply andb_true_intro. split; [|apply otext_eqb_eq; reflexivity]. apply (ALL l' l'); [|reflexivity]. intros x I. apply size_in in I. cbn in L. lia.
Qed.
Lemma veq_iff : forall a b, veq a b = true <-> a = b.
Proof. intros a b. apply (veq_eq (S (size a))). lia. Qed.
Lemma veq_all_iff : forall l l', veq_all l l' = true <-> l = l'.
Proof.
  induction l as [|x l IH]; intros [|y l']; cbn; split; intros E; try discriminate; try reflexivity.
  - apply andb_prop in E. destruct E as [E1 E2]. apply veq_iff in E1. apply IH in E2. congruence.
  - injection E as -> ->. apply andb_true_intro. split; [apply veq_iff|apply IH]; reflexivity.
Qed.

Lemma ref_of_eq : forall r q, typed_well r -> typed_well q -> ref_of r = ref_of q <-> r = q.
Proof.
  intros [s e t] [s' e' t'] Hr Hq. unfold typed_well in *. cbn in *. split; [|congruence].
  assert (N : forall u : option str, u <> Some [] -> match u with Some [] => None | _ => u end = u) by (intros [[|c u]|] H; congruence).
  unfold ref_of. cbn. destruct e as [e|], e' as [e'|]; cbn; rewrite (N t Hr), (N t' Hq); intros E; injection E; intros; subst; congruence.
Qed.

Lemma ref_of_tuple : forall r, exists l ty, ref_of r = VRef l ty /\ length l = 2.
Proof. intros [s [e|] t]; cbn; eexists; eexists; split; reflexivity. Qed.

(** ** References *)

(** What was written can be read, and a range is one with an end. *)
Theorem C66_reads : forall r,
  ref_start (ref_of r) = Ok (VText (w_start r)) /\
  ref_end (ref_of r) = Ok (match w_end r with Some e => VText e | None => VNone end) /\
  ref_is_range (ref_of r) = Ok (match w_end r with Some (_ :: _) => true | _ => false end).
Proof. intros [s [[|c e]|] t]; repeat split. Qed.
Print Assumptions C66_reads.

(** Two references are equal exactly when start, end and type are. *)
Theorem C66_equal : forall r q, typed_well r -> typed_well q -> veq (ref_of r) (ref_of q) = true <-> r = q.
Proof. intros r q Hr Hq. rewrite veq_iff. apply ref_of_eq; assumption. Qed.
Print Assumptions C66_equal.

(** A reference is not equal to its text, nor to the plain pair. *)
Theorem C66_not_a_pair : forall r v, (forall l ty, v <> VRef l ty) -> veq (ref_of r) v = false /\ veq v (ref_of r) = false.
Proof.
  intros r v H. destruct (ref_of_tuple r) as (l & ty & -> & _). destruct v as [|s|l'|l' ty']; split; try reflexivity; exfalso; eapply H; reflexivity.
Qed.
Print Assumptions C66_not_a_pair.

(** They are different by [!=] exactly when start or end differ. *)
Theorem C66_different : forall r q, vne (ref_of r) (ref_of q) = false <-> w_start r = w_start q /\ w_end r = w_end q.
Proof.
  assert (Y : forall r, exists ty, ref_of r = VRef [VText (w_start r); match w_end r with Some e => VText e | None => VNone end] ty) by
    (intros [s [e|] t]; eexists; reflexivity).
  intros r q. destruct (Y r) as (ty & ->). destruct (Y q) as (ty' & ->).
  unfold vne. cbn [is_tuple items andb]. rewrite negb_false_iff, veq_all_iff. split.
  - intros [= A B]. split; [exact A|]. destruct (w_end r), (w_end q); congruence.
  - intros [-> ->]. reflexivity.
Qed.
Print Assumptions C66_different.

(** Finding: [!=] does not look at the type: there are references which are neither
    equal nor different. *)
Theorem C66_different_refuted : exists r q, typed_well r /\ typed_well q /\ veq (ref_of r) (ref_of q) = false /\ vne (ref_of r) (ref_of q) = false.
Proof.
  exists (Written #"1" None (Some #"book")), (Written #"1" None (Some #"line")). split; [discriminate|]. split; [discriminate|]. vm_compute. auto.
Qed.
Print Assumptions C66_different_refuted.

(** Finding: the copy of a reference has the pair as its start, and no end. *)
Theorem C66_copy_refuted : forall r, exists l, ref_start (copy_ref (ref_of r)) = Ok (VTuple l) /\
  ref_end (copy_ref (ref_of r)) = Err IndexError /\ veq (copy_ref (ref_of r)) (ref_of r) = false.
Proof. intros [s [e|] t]; cbn; eexists; split; [reflexivity|split; reflexivity|reflexivity|split; reflexivity]. Qed.
Print Assumptions C66_copy_refuted.

Example C66_sample :
  let book := Written #"1" None (Some #"book") in
  let lines := Written #"1.1" (Some #"1.5") None in
  typed_well book /\ typed_well lines /\ ref_of book = VRef [VText #"1"; VNone] (Some #"book") /\
  veq (ref_of book) (ref_of book) = true /\ veq (ref_of book) (ref_of (Written #"1" None None)) = false /\
  ref_is_range (ref_of lines) = Ok true /\ ref_is_range (ref_of book) = Ok false.
Proof. cbv zeta. split; [discriminate|]. split; [discriminate|]. vm_compute. repeat split. Qed.

(** ** Sets *)

(** A set of several references, or of none, has them in order with its level and
    citation; and it has those, no other; by a text, it has the reference of that
    text without end nor type. *)
Theorem C66_set : forall refs level citation, length refs <> 1 -> Forall typed_well refs ->
  exists s, new_refset (map ref_of refs) level citation = Ok s /\
    st_items s = map ref_of refs /\ st_level s = level /\ st_citation s = citation /\
    (forall q, typed_well q -> refset_has s (ref_of q) = true <-> In q refs) /\
    (forall t, refset_has s (VText t) = true <-> In (Written t None None) refs).
Proof.
  intros refs level citation L W. exists (MkRefset (map ref_of refs) level citation).
  split; [destruct refs as [|a [|b refs]]; cbn in *; try reflexivity; lia|]. cbn [st_items st_level st_citation].
  split; [reflexivity|]. split; [reflexivity|]. split; [reflexivity|]. rewrite Forall_forall in W.
  assert (IN : forall q, typed_well q -> existsb (fun y => veq y (ref_of q)) (map ref_of refs) = true <-> In q refs).
  { intros q Q. rewrite existsb_exists. split.
    - intros (y & I & E). apply in_map_iff in I. destruct I as (r & <- & I). apply veq_iff in E. apply ref_of_eq in E; [subst; exact I|exact (W _ I)|exact Q].
    - intros I. exists (ref_of q). split; [apply in_map; exact I|apply veq_iff; reflexivity]. }
  unfold refset_has. cbn [st_items]. split.
  - intros q Q. rewrite orb_true_iff, (IN q Q). split; [|auto]. intros [I|I]; [exact I|exfalso].
    apply existsb_exists in I. destruct I as (y & I & E). apply in_map_iff in I. destruct I as (r & <- & I). apply veq_iff in E.
    destruct (ref_of_tuple r) as (l & ty & El & Ll). destruct (ref_of_tuple q) as (l' & ty' & Eq & _). rewrite El, Eq in E. cbn in E. injection E as -> _. discriminate.
  - intros t. change (new_ref [VText t] None) with (ref_of (Written t None None)). rewrite orb_true_iff, (IN (Written t None None)) by discriminate.
    split; [|auto]. intros [I|I]; [exfalso|exact I]. apply existsb_exists in I. destruct I as (y & I & E). apply in_map_iff in I. destruct I as (r & <- & _).
    apply veq_iff in E. destruct (ref_of_tuple r) as (l & ty & El & _). congruence.
Qed.
Print Assumptions C66_set.

(** Finding: in a set of references with a type, none is found by its text. *)
Theorem C66_text_refuted : exists refs s, length refs <> 1 /\ Forall typed_well refs /\ new_refset (map ref_of refs) 1 (Some #"book") = Ok s /\
  In #"1" (map w_start refs) /\ refset_has s (VText #"1") = false.
Proof.
  exists [Written #"1" None (Some #"book"); Written #"2" None (Some #"book")]. eexists. split; [discriminate|].
  split; [repeat constructor; discriminate|]. split; [reflexivity|]. split; [left; reflexivity|]. vm_compute. reflexivity.
Qed.
Print Assumptions C66_text_refuted.

(** Finding: a set of a single reference is made of its two halves: it does not
    have the reference, and has None when that is no range. *)
Theorem C66_single_refuted : forall r level citation, exists s, new_refset [ref_of r] level citation = Ok s /\
  refset_has s (ref_of r) = false /\ (w_end r = None -> refset_has s VNone = true).
Proof.
  intros [t e ty] level citation. destruct e as [e|]; eexists; (split; [reflexivity|]); (split; [vm_compute; reflexivity|]); [discriminate|].
  intros _. unfold refset_has. cbn. reflexivity.
Qed.
Print Assumptions C66_single_refuted.

(** What a single argument makes: a list is the set of what it lists, a text that of
    its characters, and None is refused. *)
Theorem C66_one_argument : forall level citation,
  new_refset [VNone] level citation = Err TypeError /\
  (forall l, exists s, new_refset [VTuple l] level citation = Ok s /\ st_items s = l /\ st_level s = level /\ st_citation s = citation) /\
  (forall t, exists s, new_refset [VText t] level citation = Ok s /\ st_items s = map (fun c => VText [c]) t /\ st_level s = level /\ st_citation s = citation).
Proof. intros level citation. split; [reflexivity|]. split; intros x; eexists; repeat split; reflexivity. Qed.
Print Assumptions C66_one_argument.

(** Two sets are equal exactly when they have the same references in the same
    order, at the same level, with the same citation. *)
Theorem C66_sets_equal : forall refs refs' level level' c c' s s', length refs <> 1 -> length refs' <> 1 ->
  Forall typed_well refs -> Forall typed_well refs' ->
  new_refset (map ref_of refs) level c = Ok s -> new_refset (map ref_of refs') level' c' = Ok s' ->
  refset_eq s (TSet s') = Ok true <-> refs = refs' /\ level = level' /\ c = c'.
Proof.
  intros refs refs' level level' c c' s s' L L' W W' E E'.
  destruct (C66_set refs level c L W) as (s0 & F & I & LV & CI & _). destruct (C66_set refs' level' c' L' W') as (s1 & F' & I' & LV' & CI' & _).
  rewrite E in F. injection F as <-. rewrite E' in F'. injection F' as <-. cbn [refset_eq]. rewrite I, I', LV, LV', CI, CI'.
  assert (M : map ref_of refs = map ref_of refs' <-> refs = refs').
  { split; [|congruence]. clear -W W'. revert refs' W'. induction W as [|r refs Hr W IH]; intros refs' W' E; destruct W' as [|q refs' Hq W']; cbn in E; try discriminate; [reflexivity|].
    injection E as E1 E2. apply ref_of_eq in E1; [|assumption|assumption]. rewrite (IH refs' W' E2). congruence. }
  split.
  - intros H. injection H as H. apply andb_prop in H. destruct H as [H H3]. apply andb_prop in H. destruct H as [H1 H2].
    apply veq_all_iff in H1. apply M in H1. apply Z.eqb_eq in H2. apply otext_eqb_eq in H3. auto.
  - intros (-> & -> & ->). f_equal. rewrite Z.eqb_refl, (proj2 (veq_all_iff _ _) eq_refl), (proj2 (otext_eqb_eq _ _) eq_refl). reflexivity.
Qed.
Print Assumptions C66_sets_equal.

(** The copy of a set is equal to it, also when it has one reference or none. *)
Theorem C66_copy_set : forall s, exists s', copy_refset s = Ok s' /\ s' = s /\ refset_eq s (TSet s') = Ok true.
Proof.
  intros [l level c]. eexists. split; [reflexivity|]. split; [reflexivity|]. cbn.
  rewrite Z.eqb_refl, (proj2 (veq_all_iff _ _) eq_refl), (proj2 (otext_eqb_eq _ _) eq_refl). reflexivity.
Qed.
Print Assumptions C66_copy_set.

(** Finding: a deep copy, or what is read back from a pickle, is not. *)
Theorem C66_deep_copy_refuted : forall refs level c s, length refs <> 1 -> refs <> [] ->
  new_refset (map ref_of refs) level c = Ok s -> exists s', deep_copy_refset s = Ok s' /\ refset_eq s (TSet s') = Ok false.
Proof.
  intros refs level c s L N E. destruct refs as [|a [|b refs]]; [congruence|cbn in L; lia|]. injection E as <-. eexists. split; [reflexivity|].
  cbn [refset_eq st_items]. destruct (ref_of_tuple a) as (l & ty & Ea & La). cbn [map veq_all]. rewrite Ea. cbn [copy_ref new_ref is_tuple]. rewrite veq_unfold.
  destruct l as [|x [|y l]]; try discriminate. cbn [veq_all]. rewrite andb_false_r. reflexivity.
Qed.
Print Assumptions C66_deep_copy_refuted.

(** Finding: a set cannot be compared with a tuple that has the same members, nor
    with anything that is not a tuple. *)
Theorem C66_comparison_refuted : forall s, refset_eq s (TTuple (st_items s)) = Err AttributeError /\ refset_eq s TOther = Err AttributeError.
Proof. intros s. split; [|reflexivity]. cbn. rewrite (proj2 (veq_all_iff _ _) eq_refl). reflexivity. Qed.
Print Assumptions C66_comparison_refuted.

Example C66_set_sample : exists s,
  new_refset (map ref_of [Written #"1" None None; Written #"2" None (Some #"poem"); Written #"3" (Some #"4") None]) 2 (Some #"poem") = Ok s /\
  refset_has s (VText #"1") = true /\ refset_has s (VText #"3") = false /\ refset_has s (ref_of (Written #"3" (Some #"4") None)) = true /\
  refset_eq s (TSet s) = Ok true.
Proof. eexists. split; [reflexivity|]. vm_compute. repeat split. Qed.
