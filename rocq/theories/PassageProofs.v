(** Listing the references of a local text. *)

From Coq Require Import List NArith ZArith Arith Bool Lia Sorted.
From Verif Require Import PyStr PyStrFacts RefModel CiteModel CiteSpec CiteProofs SchemeModel UrnModel.
From Verif Require Import XmlModel XmlSpec XmlProofs XPathModel TemplateSpec TemplateProofs PassageModel PassageSpec.
Import ListNotations.

(** ** Selection and sequences of steps *)

Lemma at_position_app : forall a b n m, at_position n (a ++ b) m <->
  exists k, at_position n a k /\ at_position k b m.
Proof.
  intros a b n m. rewrite at_position_lookup, lookup_app. split.
  - destruct (lookup n a) as [k|] eqn:E; [|discriminate]. intros H. exists k. rewrite !at_position_lookup. auto.
  - intros (k & H1 & H2). rewrite at_position_lookup in H1, H2. rewrite H1. exact H2.
Qed.

Lemma at_position_fun : forall n p a b, at_position n p a -> at_position n p b -> a = b.
Proof. intros n p a b H1 H2. rewrite at_position_lookup in *. congruence. Qed.

Lemma selects_at : forall xs n p, selects xs n p -> exists m, at_position n p m.
Proof. intros xs n p H. apply selects_lookup in H. destruct H as [m H]. exists m. apply at_position_lookup; exact H. Qed.

Lemma selects_app : forall xs ys n p, selects (xs ++ ys) n p <->
  exists a b m, p = a ++ b /\ selects xs n a /\ at_position n a m /\ selects ys m b.
Proof.
  induction xs as [|s xs IH]; intros ys n p; cbn [app].
  - split.
    + intros H. exists [], p, n. split; [reflexivity|]. split; [constructor|]. split; [constructor|exact H].
    + intros (a & b & m & -> & Ha & Hm & Hb). apply selects_nil in Ha. subst a. apply at_position_nil in Hm. subst m. exact Hb.
  - split.
    + intros H. apply selects_inv in H. destruct H as (a & i & p' & m & -> & Hm & Hs & Hd & H). apply IH in H.
      destruct H as (a' & b & m' & -> & Ha' & Hm' & Hb). exists (a ++ i :: a'), b, m'. split; [rewrite <- app_assoc; reflexivity|].
      split; [econstructor; eassumption|]. split; [|exact Hb].
      replace (a ++ i :: a') with ((a ++ [i]) ++ a') by (rewrite <- app_assoc; reflexivity). apply at_position_app. eauto.
    + intros (a & b & m & -> & Ha & Hm & Hb). apply selects_inv in Ha.
      destruct Ha as (a1 & i & p' & m1 & -> & Hm1 & Hs & Hd & Ha).
      replace (a1 ++ i :: p') with ((a1 ++ [i]) ++ p') in Hm by (rewrite <- app_assoc; reflexivity).
      apply at_position_app in Hm. destruct Hm as (k & Hk & Hm). rewrite (at_position_fun _ _ _ _ Hm1 Hk) in *.
      rewrite <- app_assoc. cbn [app]. econstructor; [exact Hk|exact Hs|exact Hd|]. apply IH. eauto 10.
Qed.

(** Replacing the last step. *)
Lemma selects_last : forall xs s s' n p m, selects (xs ++ [s]) n p -> at_position n p m ->
  s_desc s' = s_desc s -> step_holds s m /\ (step_holds s' m -> selects (xs ++ [s']) n p).
Proof.
  intros xs s s' n p m H Hm Hd. apply selects_app in H. destruct H as (a & b & k & -> & Ha & Hk & Hb).
  apply selects_inv in Hb. destruct Hb as (c & i & p' & m' & -> & Hm' & Hs & Hd' & Hp'). apply selects_nil in Hp'. subst p'.
  apply at_position_app in Hm. destruct Hm as (k' & Hk' & Hm). rewrite (at_position_fun _ _ _ _ Hk Hk') in *.
  rewrite (at_position_fun _ _ _ _ Hm Hm') in *. split; [exact Hs|]. intros Hs'. apply selects_app.
  exists a, (c ++ [i]), k'. split; [reflexivity|]. split; [exact Ha|]. split; [exact Hk'|].
  econstructor; [exact Hm'|exact Hs'|rewrite Hd; exact Hd'|constructor].
Qed.

(** Steps that ask for less select at least as much. *)
Definition weaker (s s' : step) : Prop := s_desc s = s_desc s' /\ forall m, step_holds s m -> step_holds s' m.
Lemma selects_weaker : forall xs ys, Forall2 weaker xs ys -> forall n p, selects xs n p -> selects ys n p.
Proof.
  induction 1 as [|s s' xs ys [Hd Hw] H IH]; intros n p Hp; [exact Hp|].
  apply selects_inv in Hp. destruct Hp as (a & i & p' & m & -> & Hm & Hs & Hd' & Hp).
  econstructor; [exact Hm|apply Hw; exact Hs|rewrite <- Hd; exact Hd'|apply IH; exact Hp].
Qed.

(** ** The meaning of patterns *)

Lemma mean_snoc : forall levels comps c lv, nth_error levels (length comps) = Some lv ->
  mean levels (comps ++ [c]) = mean levels comps ++ mean_level c lv.
Proof.
  induction levels as [|l levels IH]; intros comps c lv H; [destruct (length comps); discriminate|].
  destruct comps as [|c0 comps]; cbn in *.
  - injection H as ->. destruct levels; cbn; rewrite app_nil_r; reflexivity.
  - rewrite (IH comps c lv H), app_assoc. reflexivity.
Qed.

Lemma mean_firstn : forall levels comps k, length comps <= k -> mean (firstn k levels) comps = mean levels comps.
Proof.
  induction levels as [|l levels IH]; intros comps k H; [rewrite firstn_nil; reflexivity|].
  destruct comps as [|c comps]; [destruct k; reflexivity|]. cbn in H. destruct k as [|k]; [lia|]. cbn. rewrite IH by lia. reflexivity.
Qed.

Lemma mean_app : forall levels c1 c2, exists zs, mean levels (c1 ++ c2) = mean levels c1 ++ zs.
Proof.
  induction levels as [|l levels IH]; intros c1 c2; [exists []; reflexivity|]. destruct c1 as [|c c1]; [exists (mean (l :: levels) c2); reflexivity|].
  cbn. destruct (IH c1 c2) as [zs ->]. exists zs. rewrite app_assoc. reflexivity.
Qed.

Lemma mean_nonnil : forall levels comps, levels <> [] -> comps <> [] -> mean levels comps <> [].
Proof.
  intros [|l levels] [|c comps] H1 H2; try congruence. cbn. unfold mean_level. intros E.
  apply app_eq_nil in E. destruct E as [E _]. apply app_eq_nil in E. destruct E; discriminate.
Qed.

(** Tests of a group, with and without a value. *)
Lemma mean_test_slots : forall g v m,
  (forall t, In t (map (mean_test (Some v)) g) -> test_holds m t) <->
  (forall t, In t (map (mean_test None) g) -> test_holds m t) /\
  (forall a, In a (gslots g) -> get_attr (clark a) (n_attrs m) = Some v).
Proof.
  intros g v m. induction g as [|t g IH]; cbn [map gslots flat_map].
  - split; [intros _; split; intros ? []|intros _ ? []].
  - assert (Hx : test_holds m (mean_test (Some v) t) <->
        test_holds m (mean_test None t) /\ (forall a, In a (match t with TSlot a => [a] | _ => [] end) -> get_attr (clark a) (n_attrs m) = Some v)).
    { destruct t as [a|a w|a]; cbn.
      - split; [intros H; split; [exact H|intros ? []]|intros [H _]; exact H].
      - split; [intros H; split; [exact H|intros ? []]|intros [H _]; exact H].
      - split; [intros H; split; [eauto|intros ? [<-|[]]; exact H]|intros [_ H]; apply H; left; reflexivity]. }
    split.
    + intros H. pose proof (proj1 Hx (H _ (or_introl eq_refl))) as [H1 H2].
      destruct (proj1 IH (fun t' Ht' => H t' (or_intror Ht'))) as [H3 H4]. split.
      * intros t' [<-|Ht']; auto.
      * intros a Ha. apply in_app_or in Ha. destruct Ha; auto.
    + intros [H1 H2] t' [<-|Ht'].
      * apply Hx. split; [apply H1; left; reflexivity|intros a Ha; apply H2; apply in_or_app; left; exact Ha].
      * revert t' Ht'. apply IH. split; [intros t' Ht'; apply H1; right; exact Ht'|intros a Ha; apply H2; apply in_or_app; right; exact Ha].
Qed.

Lemma step_value : forall s v m,
  step_holds (mean_tstep (Some v) s) m <->
  step_holds (mean_tstep None s) m /\ (forall a, In a (slots_of s) -> get_attr (clark a) (n_attrs m) = Some v).
Proof.
  intros [d n gs] v m. unfold step_holds, mean_tstep, slots_of. cbn [s_name s_preds t_desc t_name t_groups].
  assert (H : (forall g t, In g (map (map (mean_test (Some v))) gs) -> In t g -> test_holds m t) <->
    (forall g t, In g (map (map (mean_test None)) gs) -> In t g -> test_holds m t) /\
    (forall a, In a (gslots (concat gs)) -> get_attr (clark a) (n_attrs m) = Some v)).
  { induction gs as [|g gs IH]; cbn [map concat].
    - split; [intros _; split; [intros ? ? []|intros ? []]|intros _ ? ? []].
    - pose proof (mean_test_slots g v m) as Hg. rewrite gslots_app. split.
      + intros H. destruct (proj1 Hg (fun t Ht => H _ t (or_introl eq_refl) Ht)) as [H1 H2].
        destruct (proj1 IH (fun g' t Hg' Ht => H g' t (or_intror Hg') Ht)) as [H3 H4]. split.
        * intros g' t [<-|Hg'] Ht; eauto.
        * intros a Ha. apply in_app_or in Ha. destruct Ha; auto.
      + intros [H1 H2] g' t [<-|Hg'] Ht.
        * revert t Ht. apply Hg. split; [intros t Ht; apply (H1 _ t (or_introl eq_refl) Ht)|intros a Ha; apply H2; apply in_or_app; left; exact Ha].
        * revert g' t Hg' Ht. apply IH. split; [intros g' t Hg' Ht; apply (H1 g' t (or_intror Hg') Ht)|intros a Ha; apply H2; apply in_or_app; right; exact Ha]. }
  change (flat_map (fun t => match t with TSlot a => [a] | _ => [] end) (concat gs)) with (gslots (concat gs)).
  rewrite H. tauto.
Qed.

Lemma slot_present : forall s m a, step_holds (mean_tstep None s) m -> In a (slots_of s) -> exists v, get_attr (clark a) (n_attrs m) = Some v.
Proof.
  intros [d n gs] m a [_ H] Ha. unfold slots_of in Ha. cbn [t_groups] in Ha. apply in_flat_map in Ha.
  destruct Ha as (t & Ht & Ha). apply in_concat in Ht. destruct Ht as (g & Hg & Ht).
  destruct t as [b|b w|b]; cbn in Ha; [contradiction|contradiction|]. destruct Ha as [<-|[]].
  apply (H (map (mean_test None) g) (mean_test None (TSlot b))).
  - unfold mean_tstep. cbn [s_preds t_groups]. apply in_map. exact Hg.
  - apply in_map. exact Ht.
Qed.

(** ** One level down *)

Section Level.
Variables (levels : list level) (x : node).
Hypothesis Hwf : Forall wf_level levels.

Lemma level_wf : forall j lv, nth_error levels j = Some lv -> wf_level lv.
Proof. intros j lv H. rewrite Forall_forall in Hwf. apply Hwf. apply nth_error_In in H. exact H. Qed.

(** The elements selected when the last slot is left open carry the identifier
    that makes them cited, and no other does. *)
Lemma open_slot : forall comps lv p n v, nth_error levels (length comps) = Some lv -> at_position (document x) p n ->
  (cites levels x (comps ++ [v]) p <->
   selects (mean levels (map Some comps ++ [None])) (document x) p /\ get_attr (id_attr lv) (n_attrs n) = Some v).
Proof.
  intros comps lv p n v Hlv Hn. unfold cites. rewrite map_app. cbn [map].
  rewrite !(mean_snoc levels (map Some comps) _ lv) by (rewrite map_length; exact Hlv).
  unfold mean_level. rewrite !app_assoc. pose proof (level_wf _ _ Hlv) as (_ & _ & _ & a & Ha).
  assert (Hid : id_attr lv = clark a) by (unfold id_attr; rewrite Ha; reflexivity). rewrite Hid.
  split.
  - intros H. destruct (selects_last _ _ (mean_tstep None (l_unit lv)) _ _ _ H Hn eq_refl) as [Hs Hr].
    apply step_value in Hs. destruct Hs as [Hs Hv]. split; [apply Hr; exact Hs|]. apply Hv. rewrite Ha. left; reflexivity.
  - intros [H Hv]. destruct (selects_last _ _ (mean_tstep (Some v) (l_unit lv)) _ _ _ H Hn eq_refl) as [Hs Hr].
    apply Hr. apply step_value. split; [exact Hs|]. rewrite Ha. intros a' [<-|[]]. exact Hv.
Qed.

Lemma open_slot_value : forall comps lv p, nth_error levels (length comps) = Some lv ->
  selects (mean levels (map Some comps ++ [None])) (document x) p ->
  exists n v, at_position (document x) p n /\ get_attr (id_attr lv) (n_attrs n) = Some v.
Proof.
  intros comps lv p Hlv H. destruct (selects_at _ _ _ H) as [n Hn].
  rewrite (mean_snoc levels (map Some comps) _ lv) in H by (rewrite map_length; exact Hlv).
  unfold mean_level in H. rewrite app_assoc in H. pose proof (level_wf _ _ Hlv) as (_ & _ & _ & a & Ha).
  destruct (selects_last _ _ (mean_tstep None (l_unit lv)) _ _ _ H Hn eq_refl) as [Hs _].
  destruct (slot_present _ _ a Hs) as [v Hv]; [rewrite Ha; left; reflexivity|].
  exists n, v. split; [exact Hn|]. unfold id_attr. rewrite Ha. exact Hv.
Qed.

Lemma weaker_refl : forall s, weaker s s.
Proof. intros s. split; auto. Qed.

Lemma Forall2_weaker_refl : forall xs, Forall2 weaker xs xs.
Proof. induction xs; constructor; auto using weaker_refl. Qed.

Lemma mean_weaker : forall ls comps comps', Forall2 (fun c c' => c' = c \/ c' = None) comps comps' ->
  Forall2 weaker (mean ls comps) (mean ls comps').
Proof.
  induction ls as [|l ls IH]; intros comps comps' H; [constructor|]. destruct H as [|c c' comps comps' Hc H]; [constructor|].
  cbn. apply Forall2_app; [|apply IH; exact H]. unfold mean_level. apply Forall2_app; [apply Forall2_weaker_refl|].
  constructor; [|constructor]. split; [reflexivity|]. intros m Hm. destruct Hc as [->| ->]; [exact Hm|].
  destruct c as [v|]; [|exact Hm]. apply step_value in Hm. apply Hm.
Qed.

Lemma cites_unit : forall comps p, cites levels x comps p -> is_unit levels x (length comps) p.
Proof.
  intros comps p. apply selects_weaker. apply mean_weaker. induction comps; constructor; auto.
Qed.

Lemma open_unit : forall comps p, selects (mean levels (map Some comps ++ [None])) (document x) p -> is_unit levels x (S (length comps)) p.
Proof.
  intros comps p. apply selects_weaker. apply mean_weaker. induction comps; cbn; constructor; auto.
Qed.

Lemma cites_prefix : forall comps rest p, cites levels x (comps ++ rest) p ->
  exists a b, p = a ++ b /\ cites levels x comps a.
Proof.
  intros comps rest p H. unfold cites in *. rewrite map_app in H. destruct (mean_app levels (map Some comps) (map Some rest)) as [zs E].
  rewrite E in H. apply selects_app in H. destruct H as (a & b & m & -> & Ha & _). eauto.
Qed.

Hypothesis Hplain : plain_units levels x.

Lemma cited_plain : forall comps p, length comps <= length levels -> cites levels x comps p -> Forall plain comps.
Proof.
  induction comps as [|v comps IH] using rev_ind; intros p Hl H; [constructor|]. rewrite app_length in Hl. cbn in Hl.
  destruct (cites_prefix _ _ _ H) as (a & b & -> & Ha). apply Forall_app. split; [apply (IH a); [lia|exact Ha]|].
  constructor; [|constructor]. destruct (nth_error levels (length comps)) as [lv|] eqn:E; [|apply nth_error_None in E; lia].
  destruct (selects_at _ _ _ H) as [n Hn]. apply (open_slot comps lv (a ++ b) n v E Hn) in H. destruct H as [H Hv].
  apply (Hplain (length comps) lv (a ++ b) n v E); auto. apply open_unit. exact H.
Qed.

(** ** The enumeration the loop makes *)

Definition value_at (j : nat) (p : path) : str :=
  match nth_error levels j, lookup (document x) p with
  | Some lv, Some n => match get_attr (id_attr lv) (n_attrs n) with Some v => v | None => [] end
  | _, _ => []
  end.
Definition open_paths (comps : list str) : list path := xpath_abs x (mean levels (map Some comps ++ [None])).
Definition enum_step (comps : list str) : list (list str) :=
  map (fun p => comps ++ [value_at (length comps) p]) (open_paths comps).
Fixpoint enum (n : nat) (comps : list str) : list (list str) :=
  match n with 0 => [comps] | S n' => flat_map (enum n') (enum_step comps) end.

Lemma In_open_paths : forall comps lv p, nth_error levels (length comps) = Some lv ->
  (In p (open_paths comps) <-> cites levels x (comps ++ [value_at (length comps) p]) p).
Proof.
  intros comps lv p Hlv. unfold open_paths, xpath_abs. rewrite In_xpath.
  2:{ apply mean_nonnil; [intros E; rewrite E in Hlv; destruct (length comps); discriminate|].
      intros E. apply app_eq_nil in E. destruct E; discriminate. }
  split.
  - intros H. destruct (open_slot_value comps lv p Hlv H) as (n & v & Hn & Hv).
    apply (open_slot comps lv p n _ Hlv Hn). split; [exact H|]. unfold value_at. rewrite Hlv.
    apply at_position_lookup in Hn. rewrite Hn, Hv. reflexivity.
  - intros H. destruct (selects_at _ _ _ H) as [n Hn]. apply (open_slot comps lv p n _ Hlv Hn) in H. apply H.
Qed.

Lemma cites_value : forall comps lv v p, nth_error levels (length comps) = Some lv -> cites levels x (comps ++ [v]) p ->
  value_at (length comps) p = v /\ In p (open_paths comps).
Proof.
  intros comps lv v p Hlv H. destruct (selects_at _ _ _ H) as [n Hn].
  assert (Hv : value_at (length comps) p = v).
  { apply (open_slot comps lv p n v Hlv Hn) in H. destruct H as [_ H]. unfold value_at. rewrite Hlv.
    apply at_position_lookup in Hn. rewrite Hn, H. reflexivity. }
  split; [exact Hv|]. apply (In_open_paths comps lv p Hlv). rewrite Hv. exact H.
Qed.

Lemma In_enum_step : forall comps c, length comps < length levels ->
  (In c (enum_step comps) <-> exists v p, c = comps ++ [v] /\ cites levels x c p).
Proof.
  intros comps c Hl. destruct (nth_error levels (length comps)) as [lv|] eqn:E; [|apply nth_error_None in E; lia].
  unfold enum_step. rewrite in_map_iff. split.
  - intros (p & <- & Hp). apply (In_open_paths comps lv p E) in Hp. eauto.
  - intros (v & p & -> & Hp). destruct (cites_value comps lv v p E Hp) as [Hv Hi]. exists p. rewrite Hv. auto.
Qed.

Lemma In_enum : forall n comps c, length comps + n <= length levels -> 0 < n ->
  (In c (enum n comps) <-> begins comps c /\ length c = length comps + n /\ exists p, cites levels x c p).
Proof.
  induction n as [|n IH]; intros comps c Hl Hn; [lia|]. cbn [enum]. rewrite in_flat_map.
  destruct n as [|n].
  - split.
    + intros (c1 & H1 & [<-|[]]). apply In_enum_step in H1; [|lia]. destruct H1 as (v & p & -> & Hp).
      split; [exists [v]; reflexivity|]. split; [rewrite app_length; reflexivity|eauto].
    + intros ([rest ->] & Hlen & p & Hp). rewrite app_length in Hlen. destruct rest as [|v [|? ?]]; cbn in Hlen; try lia.
      exists (comps ++ [v]). split; [|left; reflexivity]. apply In_enum_step; [lia|]. eauto.
  - split.
    + intros (c1 & H1 & H2). apply In_enum_step in H1; [|lia]. destruct H1 as (v & p1 & -> & Hp1).
      apply IH in H2; [|rewrite app_length; cbn; lia|lia]. destruct H2 as ([rest ->] & Hlen & Hp).
      rewrite !app_length in *. cbn [length] in *. split; [exists ([v] ++ rest); rewrite app_assoc; reflexivity|]. split; [lia|exact Hp].
    + intros ([rest ->] & Hlen & p & Hp). rewrite app_length in Hlen. destruct rest as [|v rest]; [cbn in Hlen; lia|]. cbn in Hlen.
      replace (comps ++ v :: rest) with ((comps ++ [v]) ++ rest) in * by (rewrite <- app_assoc; reflexivity).
      destruct (cites_prefix _ _ _ Hp) as (a & b & -> & Ha).
      exists (comps ++ [v]). split; [apply In_enum_step; [lia|]; eauto|]. apply IH; [rewrite app_length; cbn; lia|lia|].
      split; [eexists; reflexivity|]. rewrite !app_length. cbn. split; [lia|eauto].
Qed.

(** ** The loop computes the enumeration. *)

Variable Hsmall : length levels <= 999.

Lemma mapM_ok : forall A B (f : A -> result B) (g : A -> B) l, (forall a, In a l -> f a = Ok (g a)) -> mapM f l = Ok (map g l).
Proof.
  intros A B f g. induction l as [|a l IH]; intros H; [reflexivity|]. cbn. rewrite (H a (or_introl eq_refl)). cbn.
  rewrite IH by (intros b Hb; apply H; right; exact Hb). reflexivity.
Qed.

Lemma mapM_map : forall A B C (f : B -> result C) (h : A -> B) l, mapM f (map h l) = mapM (fun a => f (h a)) l.
Proof. intros A B C f h. induction l as [|a l IH]; [reflexivity|]. cbn. destruct (f (h a)); cbn; [rewrite IH|]; reflexivity. Qed.

Lemma nth_scheme : forall j, j < length levels -> nth_error (write_scheme levels) j = Some (write_from 1 (firstn (S j) levels)).
Proof.
  intros j Hj. unfold write_scheme. rewrite nth_error_map.
  rewrite (nth_error_nth' (seq 1 (length levels)) 0) by (rewrite seq_length; exact Hj). rewrite seq_nth by exact Hj. reflexivity.
Qed.

Lemma scheme_length : length (write_scheme levels) = length levels.
Proof. unfold write_scheme. rewrite map_length, seq_length. reflexivity. Qed.

Lemma list_index_scheme : forall j, j < length levels ->
  list_index (write_scheme levels) (Z.of_nat (S j) - 1) = Ok (write_from 1 (firstn (S j) levels)).
Proof.
  intros j Hj. unfold list_index. rewrite scheme_length.
  replace (Z.of_nat (S j) - 1)%Z with (Z.of_nat j) by lia.
  replace (Z.of_nat j <? 0)%Z with false by (symmetry; apply Z.ltb_ge; lia).
  rewrite (proj2 (Z.ltb_ge (Z.of_nat j) 0)) by lia. rewrite Nat2Z.id, nth_scheme by exact Hj. reflexivity.
Qed.

Lemma filled_firstn : forall ls comps k, length comps <= k -> filled_steps (firstn k ls) comps = filled_steps ls comps.
Proof.
  induction ls as [|l ls IH]; intros comps k H; [rewrite firstn_nil; reflexivity|].
  destruct comps as [|c comps]; [destruct k; reflexivity|]. cbn in H. destruct k as [|k]; [lia|]. cbn [firstn filled_steps]. rewrite IH by lia. reflexivity.
Qed.

Lemma wf_firstn : forall k, Forall wf_level (firstn k levels).
Proof.
  intros k. rewrite Forall_forall in *. intros l Hl. apply Hwf. rewrite <- (firstn_skipn k levels). apply in_or_app; left; exact Hl.
Qed.

(** Filling the pattern of the level of [comps]. *)
Lemma fill_level : forall comps, 0 < length comps <= length levels ->
  fill (Some (write_from 1 (firstn (length comps) levels))) (FList comps) = Ok (write_tsteps 0 (filled_steps levels comps)).
Proof.
  intros comps Hl. rewrite fill_pattern; [rewrite filled_firstn by lia; reflexivity|apply wf_firstn| |];
    rewrite firstn_length; lia.
Qed.

Lemma eval_level : forall comps, 0 < length comps <= length levels -> Forall quote_free comps ->
  eval_abs x (write_tsteps 0 (filled_steps levels comps)) = Ok (xpath_abs x (mean levels comps)).
Proof.
  intros comps Hl Hq. rewrite eval_abs_write.
  - rewrite mean_filled by exact Hwf. reflexivity.
  - apply filled_readable; assumption.
  - intros E. apply (f_equal (map (mean_tstep None))) in E. rewrite mean_filled in E by exact Hwf.
    revert E. apply mean_nonnil; intros E; rewrite E in Hl; cbn in Hl; lia.
Qed.

Lemma quote_free_some : forall comps, Forall (fun v => ~ In c_quote v) comps -> Forall quote_free (map Some comps ++ [None]).
Proof. intros comps H. apply Forall_app. split; [apply Forall_map; exact H|constructor; [exact I|constructor]]. Qed.

Lemma extend_one_spec : forall comps, length comps < length levels -> Forall (fun v => ~ In c_quote v) comps ->
  extend_one (write_scheme levels) x (map Some comps) =
  Ok (open_paths comps, map Some comps, write_from 1 (firstn (S (length comps)) levels)).
Proof.
  intros comps Hl Hq. unfold extend_one. rewrite app_length, map_length. cbn [length]. rewrite Nat.add_1_r.
  rewrite list_index_scheme by exact Hl. cbn [bind].
  assert (Hlen : length (map Some comps ++ [None]) = S (length comps)) by (rewrite app_length, map_length; cbn; lia).
  pose proof (fill_level (map Some comps ++ [None])) as Hf. rewrite Hlen in Hf. rewrite Hf by lia. cbn [bind].
  rewrite eval_level by (try rewrite Hlen; try lia; apply quote_free_some; exact Hq). reflexivity.
Qed.

Lemma str_replace_none : forall old new s, mem c_colon s = false -> mem c_colon old = true ->
  forall fuel, replace_fuel fuel s old new = s.
Proof.
  intros old new s Hs Ho fuel. revert s Hs. induction fuel as [|fuel IH]; intros s Hs; [reflexivity|]. cbn.
  destruct (startswith s old) eqn:E.
  - apply startswith_spec in E. destruct E as [t ->]. rewrite mem_app, Ho in Hs. discriminate.
  - destruct s as [|c s]; [reflexivity|]. f_equal. apply IH. cbn in Hs. apply orb_false_iff in Hs. apply Hs.
Qed.

Lemma attribute_key_clark : forall a, slot_attr a -> attribute_key a = clark a.
Proof.
  intros a H. destruct (slot_attr_clark a H) as (l & Hl & Ha & E). pose proof (alpha_mem c_colon l eq_refl Ha) as Hm.
  unfold clark, attribute_key, str_replace. destruct E as [[-> E]|[-> E]]; rewrite E.
  - apply str_replace_none; [exact Hm|reflexivity].
  - cbn [replace_fuel]. rewrite startswith_app. f_equal.
    replace (skipn (length #"xml:") (#"xml:" ++ l)) with l by reflexivity. apply str_replace_none; [exact Hm|reflexivity].
Qed.

Lemma citing_value_spec : forall comps p lv, nth_error levels (length comps) = Some lv -> In p (open_paths comps) ->
  citing_value (write_from 1 (firstn (S (length comps)) levels)) (lookup (document x) p) =
  Ok (Some (value_at (length comps) p)).
Proof.
  intros comps p lv Hlv Hp. unfold citing_value.
  assert (Hf : firstn (S (length comps)) levels = firstn (length comps) levels ++ [lv]).
  { clear - Hlv. revert Hlv. generalize (length comps) as j. induction levels as [|l ls IH]; intros [|j] H; cbn in *; try discriminate.
    - injection H as ->. reflexivity.
    - f_equal. apply IH. exact H. }
  pose proof (level_wf _ _ Hlv) as Hw.
  rewrite Hf, attribute_pattern by (apply wf_firstn || exact Hw). cbn [bind].
  destruct Hw as (_ & [_ Hg] & _ & a & Ha).
  assert (Hsa : slot_attr a).
  { assert (Hi : In a (slots_of (l_unit lv))) by (rewrite Ha; left; reflexivity). unfold slots_of in Hi. apply in_flat_map in Hi.
    destruct Hi as (t & Ht & Hi). apply in_concat in Ht. destruct Ht as (g & Hg1 & Ht). rewrite Forall_forall in Hg.
    destruct (Hg g Hg1) as [_ Hg2]. rewrite Forall_forall in Hg2. specialize (Hg2 t Ht). destruct t; try destruct Hi as []. subst. exact Hg2. destruct H. }
  rewrite Ha. cbn [hd]. rewrite (attribute_key_clark a Hsa).
  assert (Hs : selects (mean levels (map Some comps ++ [None])) (document x) p).
  { pose proof (proj1 (In_open_paths comps lv p Hlv) Hp) as Hc. destruct (selects_at _ _ _ Hc) as [n Hn].
    apply (open_slot comps lv p n _ Hlv Hn) in Hc. apply Hc. }
  destruct (open_slot_value comps lv p Hlv Hs) as (n & v & Hn & Hv). apply at_position_lookup in Hn.
  unfold value_at. rewrite Hlv, Hn, Hv. unfold id_attr in Hv. rewrite Ha in Hv. cbn [hd] in Hv. rewrite Hv. reflexivity.
Qed.

Lemma extend_all_spec : forall L, (forall c, In c L -> length c < length levels /\ Forall (fun v => ~ In c_quote v) c) ->
  extend_all (write_scheme levels) x (map (map Some) L) =
  match flat_map enum_step L with [] => Err KeyError | l => Ok (map (map Some) l) end.
Proof.
  intros L HL. unfold extend_all. rewrite mapM_map.
  rewrite (mapM_ok _ _ _ (fun c => (open_paths c, map Some c, write_from 1 (firstn (S (length c)) levels)))).
  2:{ intros c Hc. destruct (HL c Hc). apply extend_one_spec; assumption. }
  cbn [bind]. rewrite mapM_map.
  rewrite (mapM_ok _ _ _ (fun c => map (map Some) (enum_step c))).
  2:{ intros c Hc. destruct (HL c Hc) as [Hl _].
      destruct (nth_error levels (length c)) as [lv|] eqn:E; [|apply nth_error_None in E; lia].
      rewrite (mapM_ok _ _ _ (fun p => map Some c ++ [Some (value_at (length c) p)])).
      - f_equal. unfold enum_step. rewrite map_map. apply map_ext. intros p. rewrite map_app. reflexivity.
      - intros p Hp. rewrite (citing_value_spec c p lv E Hp). reflexivity. }
  cbn [bind]. replace (concat (map (fun c => map (map Some) (enum_step c)) L)) with (map (map Some) (flat_map enum_step L)).
  - destruct (flat_map enum_step L); reflexivity.
  - rewrite flat_map_concat_map, concat_map, map_map. reflexivity.
Qed.

Lemma enum_step_ok : forall L, (forall c, In c L -> length c < length levels /\ Forall (fun v => ~ In c_quote v) c) ->
  forall c, In c (flat_map enum_step L) -> (exists c0, In c0 L /\ length c = S (length c0)) /\ Forall (fun v => ~ In c_quote v) c.
Proof.
  intros L HL c Hc. apply in_flat_map in Hc. destruct Hc as (c0 & H0 & Hc). destruct (HL c0 H0) as [Hl Hq].
  apply In_enum_step in Hc; [|exact Hl]. destruct Hc as (v & p & -> & Hp). split.
  - exists c0. rewrite app_length. cbn. split; [exact H0|lia].
  - assert (Hpl : Forall plain (c0 ++ [v])) by (apply (cited_plain _ p); [rewrite app_length; cbn; lia|exact Hp]).
    eapply Forall_impl; [|exact Hpl]. intros w Hw. apply Hw.
Qed.

Lemma extend_times_spec : forall n L, L <> [] ->
  (forall c, In c L -> length c + n <= length levels /\ Forall (fun v => ~ In c_quote v) c) ->
  extend_times (write_scheme levels) n x (map (map Some) L) =
  match flat_map (enum n) L with [] => Err KeyError | l => Ok (map (map Some) l) end.
Proof.
  induction n as [|n IH]; intros L Hne HL; cbn [extend_times].
  - assert (E : flat_map (enum 0) L = L) by (clear; induction L as [|c L IH]; [reflexivity|cbn; f_equal; exact IH]).
    rewrite E. destruct L; [congruence|reflexivity].
  - rewrite extend_all_spec by (intros c Hc; destruct (HL c Hc); split; [lia|assumption]).
    assert (E : flat_map (enum (S n)) L = flat_map (enum n) (flat_map enum_step L)).
    { clear. induction L as [|c L IH]; [reflexivity|]. cbn [flat_map]. rewrite IH, flat_map_app. reflexivity. }
    rewrite E. destruct (flat_map enum_step L) as [|c0 L0] eqn:E0; [reflexivity|]. cbn [bind].
    rewrite IH; [reflexivity|discriminate|]. rewrite <- E0. intros c Hc.
    destruct (enum_step_ok L (fun c Hc => ltac:(destruct (HL c Hc); split; [lia|assumption])) c Hc) as [(c1 & H1 & H2) Hq].
    destruct (HL c1 H1). split; [lia|exact Hq].
Qed.

Lemma join_nonnil : forall c l, c <> [] -> join [c_dot] (c :: l) <> [].
Proof. intros [|x0 c] l H; [congruence|]. destruct l; cbn; discriminate. Qed.

Lemma some_all_map : forall l, some_all (map Some l) = Ok l.
Proof. induction l as [|a l IH]; [reflexivity|]. cbn. rewrite IH. reflexivity. Qed.

Lemma listed_spec : forall c, c <> [] -> Forall plain c -> cts_reference (VStr (join [c_dot] c)) = Ok (Some (reference_to c)).
Proof.
  intros c Hc Hp. unfold cts_reference, val_truthy, val_str.
  destruct c as [|v c]; [congruence|]. rewrite (proj2 (truthy_spec _)) by (apply join_nonnil; inversion Hp; subst; apply H1).
  cbn [negb]. unfold cts_reference_string.
  assert (Hd : mem c_dash (join [c_dot] (v :: c)) = false).
  { destruct (mem c_dash (join [c_dot] (v :: c))) eqn:E; [|reflexivity]. exfalso. clear Hc.
    assert (H : forall l, Forall plain l -> mem c_dash (join [c_dot] l) = false).
    { induction l as [|w l IH]; intros Hl; [reflexivity|]. inversion Hl as [|? ? Hw Hl']; subst. destruct l as [|w2 l].
      - cbn. destruct (mem c_dash w) eqn:Ew; [|reflexivity]. apply mem_In in Ew. destruct Hw as (_ & _ & Hw & _). contradiction.
      - rewrite join_cons by discriminate. rewrite !mem_app, (IH Hl').
        destruct (mem c_dash w) eqn:Ew; [|reflexivity]. apply mem_In in Ew. destruct Hw as (_ & _ & Hw & _). contradiction. }
    rewrite (H _ Hp) in E. discriminate. }
  rewrite Hd. reflexivity.
Qed.

(** Everything after the level has been fixed: [n] levels below [parts]. *)
Lemma listing : forall parts n, length parts + n <= length levels -> 0 < n -> Forall (fun v => ~ In c_quote v) parts ->
  (passages <- extend_times (write_scheme levels) n x [map Some parts] ;; listed_references passages) =
  match enum n parts with [] => Err KeyError | l => Ok (map (fun c => Some (reference_to c)) l) end.
Proof.
  intros parts n Hl Hn Hq. pose proof (extend_times_spec n [parts]) as E. cbn [map flat_map] in E.
  rewrite app_nil_r in E. rewrite E; [|discriminate|intros c [<-|[]]; auto].
  assert (Hok : listed_references (map (map Some) (enum n parts)) = Ok (map (fun c => Some (reference_to c)) (enum n parts))).
  2:{ destruct (enum n parts) as [|c0 L] eqn:El; [reflexivity|]. exact Hok. }
  unfold listed_references. rewrite mapM_map, (mapM_ok _ _ _ (join [c_dot])) by (intros c _; unfold join_opt; rewrite some_all_map; reflexivity).
  cbn [bind]. rewrite mapM_map. apply mapM_ok. intros c Hc. apply In_enum in Hc; [|exact Hl|exact Hn]. destruct Hc as ([rest ->] & Hlen & p & Hp).
  apply listed_spec.
  - intros E'. rewrite E' in Hlen. cbn in Hlen. lia.
  - apply (cited_plain _ p); [lia|exact Hp].
Qed.

End Level.

(** ** Order and repetitions *)

Lemma precedes_cons : forall i p j q, precedes (i :: p) (j :: q) = Nat.ltb i j || (Nat.eqb i j && precedes p q).
Proof. reflexivity. Qed.

Lemma SSorted_app : forall A (R : A -> A -> Prop) a b, StronglySorted R a -> StronglySorted R b ->
  (forall u v, In u a -> In v b -> R u v) -> StronglySorted R (a ++ b).
Proof.
  intros A R a b Ha Hb H. induction Ha as [|u a Ha IH Hu]; [exact Hb|]. cbn. constructor.
  - apply IH. intros v w Hv Hw. apply H; [right|]; assumption.
  - apply Forall_app. split; [exact Hu|]. rewrite Forall_forall. intros v Hv. apply H; [left; reflexivity|exact Hv].
Qed.

Lemma SSorted_map : forall A B (R : A -> A -> Prop) (R' : B -> B -> Prop) (f : A -> B) l,
  (forall u v, In u l -> In v l -> R u v -> R' (f u) (f v)) -> StronglySorted R l -> StronglySorted R' (map f l).
Proof.
  intros A B R R' f l H Hl. induction Hl as [|u l Hl IH Hu]; [constructor|]. cbn. constructor.
  - apply IH. intros; apply H; [right|right|]; assumption.
  - apply Forall_map. rewrite Forall_forall in *. intros v Hv. apply H; [left; reflexivity|right; exact Hv|apply Hu; exact Hv].
Qed.

Lemma SSorted_filter : forall A (R : A -> A -> Prop) f l, StronglySorted R l -> StronglySorted R (filter f l).
Proof.
  intros A R f l H. induction H as [|u l H IH Hu]; [constructor|]. cbn. destruct (f u); [|exact IH].
  constructor; [exact IH|]. rewrite Forall_forall in *. intros v Hv. apply filter_In in Hv. apply Hu. apply Hv.
Qed.

Lemma SSorted_flat_map : forall A B (R : A -> A -> Prop) (R' : B -> B -> Prop) (f : A -> list B) l,
  StronglySorted R l -> (forall a, In a l -> StronglySorted R' (f a)) ->
  (forall a b c d, In a l -> In b l -> R a b -> In c (f a) -> In d (f b) -> R' c d) -> StronglySorted R' (flat_map f l).
Proof.
  intros A B R R' f l H. induction H as [|u l H IH Hu]; intros H1 H2; [constructor|]. cbn. apply SSorted_app.
  - apply H1. left; reflexivity.
  - apply IH; [intros a Ha; apply H1; right; exact Ha|]. intros a b c d Ha Hb. apply H2; right; assumption.
  - intros c d Hc Hd. apply in_flat_map in Hd. destruct Hd as (b & Hb & Hd). rewrite Forall_forall in Hu.
    apply (H2 u b); auto; [left; reflexivity|right; exact Hb].
Qed.

Definition before (p q : path) : Prop := precedes p q = true.

Lemma below_sorted : forall n, StronglySorted before (below n).
Proof.
  intros n. induction n as [t a x y kids IH] using node_ind'. rewrite below_unfold. cbn [n_kids].
  generalize 0 as i. induction kids as [|k kids IHk]; intros i; [constructor|].
  rewrite Forall_cons_iff in IH. destruct IH as [Hk IH].
  change (below_from i (k :: kids)) with ([i] :: map (cons i) (below k) ++ below_from (S i) kids). constructor.
  - apply SSorted_app.
    + apply (SSorted_map _ _ before before (cons i)); [|exact Hk]. intros u v _ _ H. unfold before in *. rewrite precedes_cons, Nat.eqb_refl, H.
      apply orb_true_r.
    + apply IHk. exact IH.
    + intros u v Hu Hv. apply in_map_iff in Hu. destruct Hu as (u' & <- & _). apply In_below_from in Hv.
      destruct Hv as (j & k' & q & _ & -> & _). unfold before. rewrite precedes_cons. replace (i <? S i + j)%nat with true; [reflexivity|].
      symmetry. apply Nat.ltb_lt. lia.
  - rewrite Forall_forall. intros v Hv. apply in_app_or in Hv. unfold before. destruct Hv as [Hv|Hv].
    + apply in_map_iff in Hv. destruct Hv as (v' & <- & Hv). apply In_below in Hv. destruct Hv as [Hv _].
      rewrite precedes_cons, Nat.eqb_refl. destruct v'; [congruence|apply orb_true_r].
    + apply In_below_from in Hv. destruct Hv as (j & k' & q & _ & -> & _). rewrite precedes_cons.
      replace (i <? S i + j)%nat with true; [reflexivity|]. symmetry. apply Nat.ltb_lt. lia.
Qed.

Lemma xpath_sorted : forall n xs, StronglySorted before (xpath n xs).
Proof. intros n xs. apply SSorted_filter, below_sorted. Qed.

Lemma precedes_prefix_false : forall p q, precedes p q = true -> is_prefix q p = false.
Proof.
  induction p as [|i p IH]; intros [|j q] H; cbn in *; try discriminate; try reflexivity.
  apply orb_true_iff in H. destruct H as [H|H].
  - apply Nat.ltb_lt in H. replace (j =? i)%nat with false; [reflexivity|]. symmetry. apply Nat.eqb_neq. lia.
  - apply andb_true_iff in H. destruct H as [H1 H2]. rewrite (IH _ H2). apply andb_false_r.
Qed.

Lemma SSorted_before_NoDup : forall l, StronglySorted before l -> NoDup l.
Proof.
  intros l H. induction H as [|u l H IH Hu]; constructor; [|exact IH]. intros Hi. rewrite Forall_forall in Hu.
  specialize (Hu u Hi). unfold before in Hu. rewrite precedes_irrefl in Hu. discriminate.
Qed.

Lemma precedes_apart : forall p q a b, precedes p q = true -> is_prefix p q = false -> precedes (p ++ a) (q ++ b) = true.
Proof.
  induction p as [|i p IH]; intros [|j q] a b H H'; cbn in *; try discriminate.
  apply orb_true_iff in H. destruct H as [H|H]; [rewrite H; reflexivity|]. apply andb_true_iff in H. destruct H as [H1 H2].
  rewrite H1 in *. cbn in *. rewrite (IH q a b H2 H'). apply orb_true_r.
Qed.

Section Order.
Variables (levels : list level) (x : node).
Hypothesis Hwf : Forall wf_level levels.

(** References in the order of all the elements they cite. *)
Definition ordered (c d : list str) : Prop :=
  forall p q, cites levels x c p -> cites levels x d q -> precedes p q = true.

Lemma open_paths_sorted : forall comps, StronglySorted before (open_paths levels x comps).
Proof. intros comps. apply xpath_sorted. Qed.

Lemma enum_step_order : forall comps, length comps < length levels -> unambiguous levels x (S (length comps)) ->
  StronglySorted ordered (enum_step levels x comps).
Proof.
  intros comps Hl Hu. destruct (nth_error levels (length comps)) as [lv|] eqn:E; [|apply nth_error_None in E; lia].
  apply (SSorted_map _ _ before); [|apply open_paths_sorted]. intros p q Hp Hq Hpq p' q' Hp' Hq'.
  apply (In_open_paths levels x Hwf comps lv p E) in Hp. apply (In_open_paths levels x Hwf comps lv q E) in Hq.
  assert (E1 : p' = p) by (apply (Hu (comps ++ [value_at levels x (length comps) p])); [rewrite app_length; cbn; lia|assumption|assumption]).
  assert (E2 : q' = q) by (apply (Hu (comps ++ [value_at levels x (length comps) q])); [rewrite app_length; cbn; lia|assumption|assumption]).
  subst. exact Hpq.
Qed.

Lemma enum_order : forall n comps, 0 < n -> length comps + n <= length levels ->
  unambiguous levels x (length comps + n) -> not_nested levels x (length comps + n) ->
  StronglySorted ordered (enum levels x n comps).
Proof.
  induction n as [|n IH]; intros comps Hn Hl Hu Hf; [lia|]. cbn [enum].
  assert (Hs : StronglySorted ordered (enum_step levels x comps)).
  { apply enum_step_order; [lia|]. intros c p q Hc. apply Hu. lia. }
  destruct n as [|n].
  { assert (E : forall l, flat_map (enum levels x 0) l = l) by (induction l as [|c l IHl]; [reflexivity|cbn; f_equal; exact IHl]).
    rewrite E. exact Hs. }
  apply (SSorted_flat_map _ _ ordered); [exact Hs| |].
  - intros c Hc. apply In_enum_step in Hc; [|exact Hwf|lia]. destruct Hc as (v & p & -> & _).
    apply IH; rewrite ?app_length; cbn [length]; try lia.
    + intros d p1 q1 Hd. apply Hu. lia.
    + intros j p1 q1 Hj. apply Hf. lia.
  - intros a b c d Ha Hb Hab Hc Hd p q Hp Hq.
    apply In_enum_step in Ha; [|exact Hwf|lia]. destruct Ha as (v & pa & -> & Hpa).
    apply In_enum_step in Hb; [|exact Hwf|lia]. destruct Hb as (w & pb & -> & Hpb).
    apply In_enum in Hc; [|exact Hwf|rewrite app_length; cbn; lia|lia]. destruct Hc as ([rc ->] & _ & _).
    apply In_enum in Hd; [|exact Hwf|rewrite app_length; cbn; lia|lia]. destruct Hd as ([rd ->] & _ & _).
    destruct (cites_prefix _ _ _ _ _ Hp) as (a1 & b1 & -> & Ha1). destruct (cites_prefix _ _ _ _ _ Hq) as (a2 & b2 & -> & Ha2).
    pose proof (Hab _ _ Ha1 Ha2) as Hp12. apply precedes_apart; [exact Hp12|].
    destruct (is_prefix a1 a2) eqn:Epre; [|reflexivity]. exfalso.
    pose proof (cites_unit _ _ _ _ Ha1) as U1. pose proof (cites_unit _ _ _ _ Ha2) as U2. rewrite app_length in U1, U2. cbn in U1, U2.
    assert (E : a1 = a2) by (apply (Hf (length comps + 1) a1 a2); [lia|assumption|assumption|exact Epre]).
    subst a2. rewrite precedes_irrefl in Hp12. discriminate.
Qed.

(** How often an identifier list is enumerated. *)
Definition comps_dec : forall a b : list str, {a = b} + {a <> b} := list_eq_dec str_eq_dec.
Definition cited_paths (c : list str) : list path := xpath_abs x (mean levels (map Some c)).

Lemma count_flat_map : forall (f : list str -> list (list str)) c b l,
  (forall a, In a l -> a <> b -> ~ In c (f a)) ->
  count_occ comps_dec (flat_map f l) c = count_occ comps_dec l b * count_occ comps_dec (f b) c.
Proof.
  intros f c b l H. induction l as [|a l IH]; [reflexivity|]. cbn [flat_map]. rewrite count_occ_app, IH by (intros a' Ha'; apply H; right; exact Ha').
  cbn [count_occ]. destruct (comps_dec a b) as [->|Hab]; [cbn; lia|].
  rewrite (proj1 (count_occ_not_In comps_dec (f a) c)) by (apply H; [left; reflexivity|exact Hab]). reflexivity.
Qed.

Lemma count_enum_step : forall comps v, length comps < length levels ->
  count_occ comps_dec (enum_step levels x comps) (comps ++ [v]) = length (cited_paths (comps ++ [v])).
Proof.
  intros comps v Hl. destruct (nth_error levels (length comps)) as [lv|] eqn:E; [|apply nth_error_None in E; lia].
  assert (Hc : forall l, count_occ comps_dec (map (fun p => comps ++ [value_at levels x (length comps) p]) l) (comps ++ [v]) =
    length (filter (fun p => str_eqb (value_at levels x (length comps) p) v) l)).
  { induction l as [|p l IH]; [reflexivity|]. cbn [map count_occ filter].
    destruct (comps_dec _ _) as [H|H]; destruct (str_eqb_spec (value_at levels x (length comps) p) v) as [H'|H'].
    - cbn [length]. rewrite IH. reflexivity.
    - apply app_inv_head in H. congruence.
    - congruence.
    - exact IH. }
  unfold enum_step. rewrite Hc. apply Nat.le_antisymm; apply NoDup_incl_length.
  - apply NoDup_filter, SSorted_before_NoDup, open_paths_sorted.
  - intros p Hp. apply filter_In in Hp. destruct Hp as [Hp Hv]. apply str_eqb_eq in Hv.
    apply (In_open_paths levels x Hwf comps lv p E) in Hp. rewrite Hv in Hp. apply In_xpath; [|exact Hp].
    apply mean_nonnil; [destruct levels; [cbn in Hl; lia|discriminate]|]. destruct comps; discriminate.
  - apply SSorted_before_NoDup, xpath_sorted.
  - intros p Hp. apply In_xpath in Hp.
    2:{ apply mean_nonnil; [destruct levels; [cbn in Hl; lia|discriminate]|]. destruct comps; discriminate. }
    destruct (cites_value levels x Hwf comps lv v p E Hp) as [Hv Hi]. apply filter_In. split; [exact Hi|]. apply str_eqb_eq. exact Hv.
Qed.

Lemma count_enum : forall n comps rest, length rest = n -> length comps + n <= length levels ->
  count_occ comps_dec (enum levels x n comps) (comps ++ rest) =
  fold_right Nat.mul 1 (map (fun j => length (cited_paths (comps ++ firstn j rest))) (seq 1 n)).
Proof.
  induction n as [|n IH]; intros comps rest Hr Hl.
  - destruct rest; [|discriminate]. rewrite app_nil_r. cbn [enum count_occ]. destruct (comps_dec comps comps); [reflexivity|congruence].
  - destruct rest as [|v rest]; [discriminate|]. cbn in Hr. injection Hr as Hr. cbn [enum].
    rewrite (count_flat_map _ _ (comps ++ [v])).
    + rewrite count_enum_step by lia. cbn [seq map fold_right firstn]. f_equal.
      replace (comps ++ v :: rest) with ((comps ++ [v]) ++ rest) by (rewrite <- app_assoc; reflexivity).
      rewrite IH by (try exact Hr; rewrite app_length; cbn; lia). f_equal. rewrite <- (seq_shift n 1), map_map. apply map_ext.
      intros j. rewrite <- app_assoc. reflexivity.
    + intros a Ha Hne Hin. apply In_enum_step in Ha; [|exact Hwf|lia]. destruct Ha as (w & p & -> & _).
      assert (Hb : begins (comps ++ [w]) (comps ++ v :: rest)).
      { destruct n as [|n]; [destruct Hin as [<-|[]]; exists []; rewrite app_nil_r; reflexivity|].
        apply In_enum in Hin; [apply Hin|exact Hwf|rewrite app_length; cbn; lia|lia]. }
      destruct Hb as [t Ht]. rewrite <- app_assoc in Ht. apply app_inv_head in Ht. cbn in Ht. injection Ht as -> _. congruence.
Qed.

Lemma begins_firstn : forall n comps c, In c (enum levels x n comps) -> length comps + n <= length levels ->
  exists rest, c = comps ++ rest /\ length rest = n.
Proof.
  intros n comps c H Hl. destruct n as [|n]; [destruct H as [<-|[]]; exists []; rewrite app_nil_r; auto|].
  apply In_enum in H; [|exact Hwf|exact Hl|lia]. destruct H as ([rest ->] & H & _). exists rest. rewrite app_length in H. split; [reflexivity|lia].
Qed.

Lemma enum_NoDup : forall n comps, length comps + n <= length levels ->
  unambiguous levels x (length comps + n) -> NoDup (enum levels x n comps).
Proof.
  intros n comps Hl Hu. apply (NoDup_count_occ comps_dec). intros c.
  destruct (in_dec comps_dec c (enum levels x n comps)) as [Hin|Hin]; [|rewrite (proj1 (count_occ_not_In comps_dec _ c) Hin); lia].
  destruct (begins_firstn _ _ _ Hin Hl) as (rest & -> & Hr). rewrite count_enum by assumption.
  assert (H : forall m a, a + m <= S n -> fold_right Nat.mul 1 (map (fun j => length (cited_paths (comps ++ firstn j rest))) (seq a m)) <= 1).
  { induction m as [|m IHm]; intros a Ha; [cbn; lia|]. cbn [seq map fold_right].
    assert (H1 : length (cited_paths (comps ++ firstn a rest)) <= 1).
    { destruct (cited_paths (comps ++ firstn a rest)) as [|p [|q l]] eqn:E; cbn; try lia. exfalso.
      pose proof (xpath_sorted (document x) (mean levels (map Some (comps ++ firstn a rest)))) as Hs.
      fold (xpath_abs x (mean levels (map Some (comps ++ firstn a rest)))) in Hs. fold (cited_paths (comps ++ firstn a rest)) in Hs. rewrite E in Hs.
      inversion Hs as [|? ? _ Hs1]; subst. inversion Hs1 as [|? ? Hpq _]; subst.
      assert (Hx : mean levels (map Some (comps ++ firstn a rest)) <> []).
      { intros Hx. unfold cited_paths, xpath_abs in E. rewrite Hx in E. unfold xpath in E.
        assert (Hp : In p (p :: q :: l)) by (left; reflexivity). rewrite <- E in Hp. apply filter_In in Hp. destruct Hp as [Hp1 Hp2].
        apply matches_selects, selects_nil in Hp2. apply In_below in Hp1. tauto. }
      assert (Hpp : p = q).
      { apply (Hu (comps ++ firstn a rest)).
        - rewrite app_length, firstn_length. lia.
        - apply In_xpath; [exact Hx|]. fold (xpath_abs x (mean levels (map Some (comps ++ firstn a rest)))). fold (cited_paths (comps ++ firstn a rest)). rewrite E. left; reflexivity.
        - apply In_xpath; [exact Hx|]. fold (xpath_abs x (mean levels (map Some (comps ++ firstn a rest)))). fold (cited_paths (comps ++ firstn a rest)). rewrite E. right; left; reflexivity. }
      subst q. unfold before in Hpq. rewrite precedes_irrefl in Hpq. discriminate. }
    specialize (IHm (S a) ltac:(lia)). nia. }
  apply (H n 1). lia.
Qed.

End Order.

(** ** The reference of some identifiers *)

Lemma reference_to_inj : forall c d, c <> [] -> d <> [] -> Forall plain c -> Forall plain d ->
  reference_to c = reference_to d -> c = d.
Proof.
  intros c d Hc Hd Pc Pd H. injection H as H _. apply (f_equal (split c_dot)) in H.
  assert (S : forall l, l <> [] -> Forall plain l -> split c_dot (join [c_dot] l) = l).
  { intros l Hl Pl. apply split_join; [exact Hl|]. rewrite Forall_forall in *. intros v Hv. destruct (Pl v Hv) as (_ & Hp & _).
    destruct (mem c_dot v) eqn:E; [|reflexivity]. apply mem_In in E. contradiction. }
  rewrite !S in H by assumption. exact H.
Qed.

(** ** getReffs *)

Section Reffs.
Variables (levels : list level) (x : node) (same : node -> node -> bool).
Hypothesis Hwf : Forall wf_level levels.
Hypothesis Hsmall : length levels <= 999.
Hypothesis Hplain : plain_units levels x.

Definition listed (parts : list str) (k : nat) : result (list (option ref)) :=
  match enum levels x (k - length parts) parts with
  | [] => Err KeyError
  | l => Ok (map (fun c => Some (reference_to c)) l)
  end.

Lemma bind_match : forall A B (r : result A) (f : A -> result B),
  bind r f = match r with Ok a => f a | Err e => Err e end.
Proof. intros A B [a|e] f; reflexivity. Qed.

Lemma level_listing : forall parts k, length parts < k -> Forall (fun v => ~ In c_quote v) parts ->
  (if (Z.of_nat (length (write_scheme levels)) <? Z.of_nat k)%Z then Err CitationDepthError else
   passages <- extend_times (write_scheme levels) (Z.to_nat (Z.of_nat k - Z.of_nat (length parts))) x [map Some parts] ;;
   refs <- listed_references passages ;;
   _ <- citation_at (write_scheme levels) (Z.of_nat k - 1) ;; Ok (refs, Z.of_nat k)) =
  if Nat.ltb (length levels) k then Err CitationDepthError else
  l <- listed parts k ;; Ok (l, Z.of_nat k).
Proof.
  intros parts k Hk Hq. rewrite scheme_length.
  replace (Z.of_nat (length levels) <? Z.of_nat k)%Z with (Nat.ltb (length levels) k).
  2:{ destruct (Nat.ltb_spec (length levels) k); symmetry; [apply Z.ltb_lt|apply Z.ltb_ge]; lia. }
  destruct (Nat.ltb_spec (length levels) k) as [H|H]; [reflexivity|].
  replace (Z.to_nat (Z.of_nat k - Z.of_nat (length parts))) with (k - length parts) by lia.
  pose proof (listing levels x Hwf Hplain Hsmall parts (k - length parts) ltac:(lia) ltac:(lia) Hq) as E.
  rewrite bind_match in E. rewrite bind_match.
  assert (Hc : citation_at (write_scheme levels) (Z.of_nat k - 1) = Ok (write_from 1 (firstn k levels))).
  { unfold citation_at. rewrite scheme_length. replace (Z.of_nat (length levels) - 1 <? Z.of_nat k - 1)%Z with false by (symmetry; apply Z.ltb_ge; lia).
    destruct k as [|k]; [lia|]. apply list_index_scheme; [exact Hsmall|lia]. }
  unfold listed. destruct (extend_times _ _ _ _) as [ps|e].
  - rewrite E. rewrite Hc. destruct (enum levels x (k - length parts) parts); reflexivity.
  - rewrite <- E. reflexivity.
Qed.

Lemma reffs_whole : forall self level k, o_xml (text_object self) = x -> 0 < k ->
  level = Some (Z.of_nat k) \/ level = None /\ k = 1 ->
  valid_reff (write_scheme levels) same self level None =
  if Nat.ltb (length levels) k then Err CitationDepthError else l <- listed [] k ;; Ok (l, Z.of_nat k).
Proof.
  intros self level k Hx Hk Hl. rewrite <- (level_listing [] k) by (try constructor; cbn; lia).
  unfold valid_reff, reff_start. rewrite Hx. cbn [bind length].
  replace (match level with Some l => l | None => 1%Z end) with (Z.of_nat k) by (destruct Hl as [->|[-> ->]]; reflexivity).
  rewrite andb_false_r. reflexivity.
Qed.

Lemma reffs_below : forall self level r k, o_xml (text_object self) = x -> r_end r = None ->
  Forall (fun v => ~ In c_quote v) (id_list (r_start r)) ->
  Z.of_nat k = Z.max (match level with Some l => l | None => 1 end) (Z.of_nat (length (id_list (r_start r))) + 1) ->
  valid_reff (write_scheme levels) same self level (Some r) =
  if Nat.ltb (length levels) k then Err CitationDepthError else l <- listed (id_list (r_start r)) k ;; Ok (l, Z.of_nat k).
Proof.
  intros self level r k Hx He Hq Hk. rewrite <- level_listing by (try exact Hq; lia).
  unfold valid_reff, reff_start. rewrite He, Hx. cbn [bind]. rewrite andb_true_r.
  assert (Hlen : (0 < Z.of_nat (length (id_list (r_start r))))%Z).
  { unfold id_list. rewrite split_length. lia. }
  set (len := Z.of_nat (length (id_list (r_start r)))) in *.
  replace (if (match match level with Some 0%Z => None | _ => level end with Some l => l | None => 1 end <=? len)%Z then (len + 1)%Z
           else match match level with Some 0%Z => None | _ => level end with Some l => l | None => 1%Z end) with (Z.of_nat k); [reflexivity|].
  destruct level as [l|]; [|destruct (Z.leb_spec 1 len); lia].
  destruct (Z.eq_dec l 0) as [->|Hl0]; [destruct (Z.leb_spec 1 len); lia|].
  replace (match l with 0%Z => None | _ => Some l end) with (Some l) by (destruct l; congruence || reflexivity).
  destruct (Z.leb_spec l len); lia.
Qed.

Lemma listed_ok : forall parts k l, length parts < k <= length levels -> listed parts k = Ok l ->
  lists_level levels x parts k l /\ l <> [].
Proof.
  intros parts k l Hk H. unfold listed in H.
  assert (Hl : l = map (fun c => Some (reference_to c)) (enum levels x (k - length parts) parts) /\ enum levels x (k - length parts) parts <> []).
  { destruct (enum levels x (k - length parts) parts); [discriminate|]. injection H as <-. split; [reflexivity|discriminate]. }
  destruct Hl as [-> Hne]. split; [|intros E; apply Hne; destruct (enum _ _ _ _); [reflexivity|discriminate]].
  intros o. rewrite in_map_iff. split.
  - intros (c & <- & Hc). apply In_enum in Hc; [|exact Hwf|lia|lia]. destruct Hc as (Hb & Hlen & p & Hp).
    exists c, p. split; [reflexivity|]. split; [lia|]. auto.
  - intros (c & p & -> & Hlen & Hb & Hp). exists c. split; [reflexivity|]. apply In_enum; [exact Hwf|lia|lia|].
    split; [exact Hb|]. split; [lia|eauto].
Qed.

Lemma listed_error : forall parts k e, length parts < k <= length levels -> listed parts k = Err e ->
  e = KeyError /\ forall comps p, length comps = k -> begins parts comps -> ~ cites levels x comps p.
Proof.
  intros parts k e Hk H. unfold listed in H. destruct (enum levels x (k - length parts) parts) eqn:E; [|discriminate].
  injection H as <-. split; [reflexivity|]. intros comps p Hlen Hb Hp.
  assert (Hin : In comps (enum levels x (k - length parts) parts)) by (apply In_enum; [exact Hwf|lia|lia|]; split; [exact Hb|split; [lia|eauto]]).
  rewrite E in Hin. destruct Hin.
Qed.

Lemma listed_spec_iff : forall parts k, length parts < k <= length levels ->
  (exists comps p, length comps = k /\ begins parts comps /\ cites levels x comps p) <-> listed parts k <> Err KeyError.
Proof.
  intros parts k Hk. split.
  - intros (comps & p & H1 & H2 & H3) E. destruct (listed_error parts k KeyError Hk E) as [_ H]. exact (H comps p H1 H2 H3).
  - intros H. destruct (listed parts k) as [l|e] eqn:E.
    + destruct (listed_ok parts k l Hk E) as [Hl Hne]. destruct l as [|o l]; [congruence|].
      destruct (proj1 (Hl o) (or_introl eq_refl)) as (comps & p & _ & H1 & H2 & H3). eauto.
    + destruct (listed_error parts k e Hk E) as [-> _]. congruence.
Qed.

Lemma listed_full : forall parts k, length parts < k <= length levels ->
  (exists l, listed parts k = Ok l /\ l <> [] /\ lists_level levels x parts k l) \/
  (listed parts k = Err KeyError /\ forall comps p, length comps = k -> begins parts comps -> ~ cites levels x comps p).
Proof.
  intros parts k Hk. destruct (listed parts k) as [l|e] eqn:E.
  - left. exists l. destruct (listed_ok parts k l Hk E). auto.
  - right. destruct (listed_error parts k e Hk E) as [-> H]. auto.
Qed.

(** Order and repetitions of what is listed. *)
Lemma listed_enum : forall parts k l, listed parts k = Ok l ->
  l = map (fun c => Some (reference_to c)) (enum levels x (k - length parts) parts).
Proof. intros parts k l H. unfold listed in H. destruct (enum _ _ _ _); [discriminate|]. injection H as <-. reflexivity. Qed.

Lemma enum_plain : forall parts k c, length parts < k <= length levels -> In c (enum levels x (k - length parts) parts) ->
  c <> [] /\ Forall plain c.
Proof.
  intros parts k c Hk Hc. apply In_enum in Hc; [|exact Hwf|lia|lia]. destruct Hc as (_ & Hlen & p & Hp). split.
  - intros ->. cbn in Hlen. lia.
  - apply (cited_plain levels x Hwf Hplain c p); [lia|exact Hp].
Qed.

Lemma NoDup_map_in : forall A B (f : A -> B) l, (forall a b, In a l -> In b l -> f a = f b -> a = b) -> NoDup l -> NoDup (map f l).
Proof.
  intros A B f l H Hn. induction Hn as [|a l Ha Hn IH]; [constructor|]. cbn. constructor.
  - intros Hi. apply in_map_iff in Hi. destruct Hi as (b & E & Hb). apply Ha.
    rewrite (H a b (or_introl eq_refl) (or_intror Hb) (eq_sym E)). exact Hb.
  - apply IH. intros a' b' Ha' Hb'. apply H; right; assumption.
Qed.

Lemma listed_once : forall parts k l, length parts < k <= length levels -> listed parts k = Ok l -> unambiguous levels x k -> NoDup l.
Proof.
  intros parts k l Hk H Hu. rewrite (listed_enum _ _ _ H). apply NoDup_map_in.
  - intros a b Ha Hb E. injection E as E. destruct (enum_plain _ _ _ Hk Ha), (enum_plain _ _ _ Hk Hb).
    apply reference_to_inj; try assumption. unfold reference_to. rewrite E. reflexivity.
  - apply enum_NoDup; [exact Hwf|lia|]. replace (length parts + (k - length parts)) with k by lia. exact Hu.
Qed.

Lemma listed_ordered : forall parts k l, length parts < k <= length levels -> listed parts k = Ok l ->
  unambiguous levels x k -> not_nested levels x k ->
  exists ps, located levels x l ps /\ StronglySorted (fun p q => precedes p q = true) ps.
Proof.
  intros parts k l Hk H Hu Hn. rewrite (listed_enum _ _ _ H).
  pose proof (enum_order levels x Hwf (k - length parts) parts) as Ho.
  replace (length parts + (k - length parts)) with k in Ho by lia. specialize (Ho ltac:(lia) ltac:(lia) Hu Hn).
  assert (Hp : forall c, In c (enum levels x (k - length parts) parts) -> exists p, cites levels x c p).
  { intros c Hc. apply In_enum in Hc; [apply Hc|exact Hwf|lia|lia]. }
  assert (Hpos : forall c, In c (enum levels x (k - length parts) parts) -> cites levels x c (hd [] (cited_paths levels x c))).
  { intros c Hc. destruct (Hp c Hc) as [p Hcp]. assert (Hx : mean levels (map Some c) <> []).
    { apply mean_nonnil; [intros E; rewrite E in Hk; cbn in Hk; lia|]. destruct (enum_plain _ _ _ Hk Hc) as [Hne _]. destruct c; [congruence|discriminate]. }
    destruct (cited_paths levels x c) as [|q qs] eqn:E.
    - apply (In_xpath _ _ p Hx) in Hcp. unfold cited_paths, xpath_abs in E. rewrite E in Hcp. destruct Hcp.
    - apply (In_xpath _ _ q Hx). unfold cited_paths, xpath_abs in E. rewrite E. left; reflexivity. }
  exists (map (fun c => hd [] (cited_paths levels x c)) (enum levels x (k - length parts) parts)). split.
  - unfold located. clear Ho Hp H. induction (enum levels x (k - length parts) parts) as [|c l' IH]; [constructor|]. cbn [map]. constructor.
    + exists c. split; [reflexivity|]. apply Hpos. left; reflexivity.
    + apply IH. intros d Hd. apply Hpos. right; exact Hd.
  - apply (SSorted_map _ _ (ordered levels x)); [|exact Ho]. intros c d Hc Hd Hcd. apply Hcd; auto.
Qed.

Lemma count_map_in : forall A B (decA : forall a b : A, {a = b} + {a <> b}) (decB : forall a b : B, {a = b} + {a <> b}) (f : A -> B) l c,
  (forall a, In a l -> f a = f c -> a = c) -> count_occ decB (map f l) (f c) = count_occ decA l c.
Proof.
  intros A B decA decB f l c. induction l as [|a l IH]; intros H; [reflexivity|]. cbn.
  rewrite IH by (intros a' Ha'; apply H; right; exact Ha'). destruct (decB (f a) (f c)) as [E|E], (decA a c) as [E'|E']; try congruence.
  elim E'. apply H; [left; reflexivity|exact E].
Qed.

Lemma listed_times : forall parts k l dec rest found, length parts < k <= length levels -> listed parts k = Ok l ->
  length (parts ++ rest) = k -> Forall plain (parts ++ rest) ->
  (forall j, length parts < j <= k -> NoDup (found j) /\ forall p, In p (found j) <-> cites levels x (firstn j (parts ++ rest)) p) ->
  count_occ dec l (Some (reference_to (parts ++ rest))) =
  product (map (fun j => length (found j)) (seq (S (length parts)) (k - length parts))).
Proof.
  intros parts k l dec rest found Hk H Hlen Hpl Hf. rewrite (listed_enum _ _ _ H).
  rewrite (count_map_in _ _ comps_dec dec (fun c => Some (reference_to c))).
  2:{ intros a Ha E. injection E as E. destruct (enum_plain _ _ _ Hk Ha). apply reference_to_inj; try assumption.
      - intros E0. rewrite E0 in Hlen. cbn in Hlen. lia.
      - unfold reference_to. rewrite E. reflexivity. }
  rewrite app_length in Hlen. rewrite count_enum by (exact Hwf || lia).
  assert (Hx : forall j, 1 <= j <= k - length parts -> length (found (length parts + j)) = length (cited_paths levels x (parts ++ firstn j rest))).
  { intros j Hj. destruct (Hf (length parts + j) ltac:(lia)) as [Hn Hi]. rewrite firstn_app_2 in Hi.
    assert (Hm : mean levels (map Some (parts ++ firstn j rest)) <> []).
    { apply mean_nonnil; [intros E; rewrite E in Hk; cbn in Hk; lia|]. intros E. apply (f_equal (@length _)) in E.
      rewrite map_length, app_length, firstn_length in E. cbn in E. lia. }
    apply Nat.le_antisymm; apply NoDup_incl_length.
    - exact Hn.
    - intros p Hp. apply In_xpath; [exact Hm|]. apply Hi. exact Hp.
    - apply SSorted_before_NoDup, xpath_sorted.
    - intros p Hp. apply In_xpath in Hp; [|exact Hm]. apply Hi. exact Hp. }
  assert (E : forall m a, 1 <= a -> a + m <= S (k - length parts) ->
    fold_right Nat.mul 1 (map (fun j => length (cited_paths levels x (parts ++ firstn j rest))) (seq a m)) =
    product (map (fun j => length (found j)) (seq (length parts + a) m))).
  { induction m as [|m IH]; intros a Ha Hm; [reflexivity|]. cbn [seq map fold_right product]. rewrite Hx by lia.
    rewrite IH by lia. replace (length parts + S a) with (S (length parts + a)) by lia. reflexivity. }
  rewrite (E _ 1) by lia. replace (length parts + 1) with (S (length parts)) by lia. reflexivity.
Qed.
End Reffs.
