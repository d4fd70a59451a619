(** Structured patterns: filling, reading and splitting their text. *)

From Coq Require Import List NArith Arith Bool Lia.
From Verif Require Import PyStr PyStrFacts PyRe RefModel CiteModel CiteSpec CiteProofs.
From Verif Require Import XmlModel XPathModel TemplateSpec.
Import ListNotations.

(** ** Patterns as tokens *)

Inductive tok := X (s : str) | P (p : piece) (s : str).

Definition write_tok (t : tok) : str := match t with X s => s | P p s => write_piece p ++ s end.
Definition write_toks (l : list tok) : str := flat_map write_tok l.

Fixpoint split_toks (l : list tok) : str * list (piece * str) :=
  match l with
  | [] => ([], [])
  | X s :: r => let '(t, l') := split_toks r in (s ++ t, l')
  | P p s :: r => let '(t, l') := split_toks r in ([], (p, s ++ t) :: l')
  end.

Lemma split_toks_write : forall l, let '(t, ps) := split_toks l in write_toks l = t ++ write_pieces ps.
Proof.
  induction l as [|[s|p s] l IH]; cbn; [reflexivity| |]; destruct (split_toks l) as [t ps].
  - unfold write_toks in IH. rewrite IH, app_assoc. reflexivity.
  - unfold write_toks in IH. rewrite IH. cbn [write_pieces flat_map fst snd app]. rewrite <- !app_assoc. reflexivity.
Qed.

Definition is_slot (t : tok) : bool := match t with P (Slot _ _) _ => true | _ => false end.
Definition nslots (l : list tok) : nat := length (filter is_slot l).

Lemma nslots_app : forall a b, nslots (a ++ b) = nslots a + nslots b.
Proof. intros a b. unfold nslots. rewrite filter_app, app_length. reflexivity. Qed.

Lemma split_toks_slots : forall l, slots (snd (split_toks l)) = nslots l.
Proof.
  induction l as [|[s|[a q|a r] s] l IH]; cbn; [reflexivity| | |]; destruct (split_toks l) as [t ps]; cbn in *;
    unfold slots, nslots in *; cbn; lia.
Qed.

Fixpoint fill_toks (l : list tok) (comps : list (option str)) : str :=
  match l with
  | [] => []
  | X s :: r => s ++ fill_toks r comps
  | P (Fixed a q) s :: r => [c_at] ++ a ++ q ++ s ++ fill_toks r comps
  | P (Slot a q) s :: r =>
      [c_at] ++ a ++
      match comps with Some v :: _ => [c_equal] ++ [c_quote] ++ v ++ [c_quote] | _ => [] end ++
      s ++ fill_toks r (tl comps)
  end.

Lemma split_toks_filled : forall l comps, let '(t, ps) := split_toks l in fill_toks l comps = t ++ filled ps comps.
Proof.
  induction l as [|[s|[a q|a q] s] l IH]; intros comps; cbn [split_toks fill_toks]; [reflexivity| | |].
  - specialize (IH comps). destruct (split_toks l) as [t ps]. rewrite IH, app_assoc. reflexivity.
  - specialize (IH (tl comps)). destruct (split_toks l) as [t ps]. rewrite IH.
    cbn [filled]. change ([] ++ ?x) with x. rewrite <- ?app_assoc. reflexivity.
  - specialize (IH comps). destruct (split_toks l) as [t ps]. rewrite IH.
    cbn [filled]. change ([] ++ ?x) with x. rewrite <- ?app_assoc. reflexivity.
Qed.

Definition wf_tok (t : tok) : Prop :=
  match t with
  | X s => ~ In c_at s
  | P p s => wf_piece (p, s) /\ (s <> [] \/ exists a r, p = Fixed a r)
  end.

(** Text may be added behind a piece that already has some. *)
Lemma wf_piece_more : forall p s t, s <> [] \/ (exists a r, p = Fixed a r) -> ~ In c_at t ->
  wf_piece (p, s) -> wf_piece (p, s ++ t).
Proof.
  intros p s t Hs Ht [H1 H2]. split.
  - cbn in *. intros Hi. apply in_app_or in Hi. tauto.
  - destruct p as [a q|a q]; cbn [fst snd] in *; [|exact H2].
    destruct H2 as (A & B & C & D & E). repeat split; auto; try lia.
    destruct E as [E|E]; [left; exact E|right].
    destruct Hs as [Hs|[a' [r' Hs]]]; [|discriminate]. destruct s; [congruence|exact E].
Qed.

Lemma wf_split_toks : forall l, Forall wf_tok l ->
  let '(t, ps) := split_toks l in ~ In c_at t /\ Forall wf_piece ps.
Proof.
  induction 1 as [|[s|p s] l Hx Hl IH]; cbn [split_toks]; [split; [intros []|constructor]| |];
    destruct (split_toks l) as [t ps]; destruct IH as [IH1 IH2].
  - split; [|exact IH2]. cbn in Hx. intros Hi. apply in_app_or in Hi. tauto.
  - split; [intros []|]. constructor; [|exact IH2]. destruct Hx as [Hx1 Hx2]. apply wf_piece_more; assumption.
Qed.

Lemma fill_write_toks : forall l comps, Forall wf_tok l -> nslots l <= length comps ->
  fill (Some (write_toks l)) (FList comps) = Ok (fill_toks l comps).
Proof.
  intros l comps Hl Hn. pose proof (wf_split_toks l Hl) as Hw. pose proof (split_toks_write l) as E.
  pose proof (split_toks_filled l comps) as F. pose proof (split_toks_slots l) as Z.
  destruct (split_toks l) as [t ps]. destruct Hw as [Hw1 Hw2]. rewrite E, F.
  apply (proj1 (fill_list_cases t ps comps Hw1 Hw2)). cbn [snd] in Z. rewrite Z. exact Hn.
Qed.

Lemma fill_toks_app : forall a b comps,
  fill_toks (a ++ b) comps = fill_toks a comps ++ fill_toks b (skipn (nslots a) comps).
Proof.
  induction a as [|[s|[x q|x q] s] a IH]; intros b comps; cbn [app fill_toks]; [reflexivity| | |];
    rewrite IH, <- ?app_assoc; unfold nslots; cbn [filter is_slot length]; try reflexivity.
  destruct comps; [cbn [tl]; rewrite !skipn_nil|]; reflexivity.
Qed.

Lemma fill_toks_none : forall l comps, nslots l = 0 -> fill_toks l comps = write_toks l.
Proof.
  induction l as [|[s|[x q|x q] s] l IH]; intros comps H; cbn [fill_toks]; [reflexivity| | |].
  - rewrite IH by exact H. reflexivity.
  - discriminate.
  - rewrite IH by exact H. cbn. rewrite <- !app_assoc. reflexivity.
Qed.

(** ** The tokens of a pattern *)

Definition test_tok (k : nat) (t : ttest) (sep : str) : tok :=
  match t with
  | TAttr a => P (Fixed a sep) []
  | TValue a v => P (Fixed a (#"='" ++ v ++ #"'")) sep
  | TSlot a => P (Slot a (#"'$" ++ str_of_nat k ++ #"'")) sep
  end.
Fixpoint tests_toks (k : nat) (g : list ttest) : list tok :=
  match g with
  | [] => []
  | [t] => [test_tok k t #"]"]
  | t :: g' => test_tok k t #" and " :: tests_toks k g'
  end.
Definition group_toks (k : nat) (g : list ttest) : list tok := X #"[" :: tests_toks k g.
Definition step_toks (k : nat) (s : tstep) : list tok :=
  X ((if t_desc s then #"//" else #"/") ++ t_name s) :: flat_map (group_toks k) (t_groups s).
Definition steps_toks (k : nat) (l : list tstep) : list tok := flat_map (step_toks k) l.

Lemma write_toks_app : forall a b, write_toks (a ++ b) = write_toks a ++ write_toks b.
Proof. intros a b. apply flat_map_app. Qed.

Lemma write_test_tok : forall k t sep, write_tok (test_tok k t sep) = write_test k t ++ sep.
Proof. intros k [a|a v|a] sep; cbn; rewrite <- ?app_assoc; cbn; rewrite ?app_nil_r, <- ?app_assoc; reflexivity. Qed.

Lemma write_tests_toks : forall k g, g <> [] -> write_toks (tests_toks k g) = join #" and " (map (write_test k) g) ++ #"]".
Proof.
  intros k. induction g as [|t g IH]; [congruence|]. intros _. destruct g as [|t2 g].
  - cbn [tests_toks write_toks flat_map map join]. rewrite write_test_tok, app_nil_r. reflexivity.
  - change (tests_toks k (t :: t2 :: g)) with (test_tok k t #" and " :: tests_toks k (t2 :: g)).
    unfold write_toks. cbn [flat_map]. fold (write_toks (tests_toks k (t2 :: g))).
    rewrite IH by discriminate. rewrite write_test_tok.
    change (map (write_test k) (t :: t2 :: g)) with (write_test k t :: map (write_test k) (t2 :: g)).
    rewrite (join_cons #" and " (write_test k t)) by discriminate. rewrite <- !app_assoc. reflexivity.
Qed.

Lemma write_group_toks : forall k g, g <> [] -> write_toks (group_toks k g) = write_group k g.
Proof. intros k g H. unfold group_toks, write_group. cbn [write_toks flat_map write_tok]. fold (write_toks (tests_toks k g)). rewrite write_tests_toks by exact H. reflexivity. Qed.

Lemma write_step_toks : forall k s, Forall (fun g => g <> []) (t_groups s) -> write_toks (step_toks k s) = write_tstep k s.
Proof.
  intros k s H. unfold step_toks, write_tstep. cbn [write_toks flat_map write_tok].
  rewrite <- app_assoc. do 2 f_equal. induction H as [|g gs Hg _ IH]; cbn [flat_map]; [reflexivity|].
  rewrite flat_map_app, IH. f_equal. apply write_group_toks; exact Hg.
Qed.

Lemma write_steps_toks : forall k l, Forall (fun s => Forall (fun g => g <> []) (t_groups s)) l ->
  write_toks (steps_toks k l) = write_tsteps k l.
Proof.
  intros k l H. induction H as [|s l Hs _ IH]; cbn [steps_toks write_tsteps flat_map]; [reflexivity|].
  rewrite write_toks_app. rewrite write_step_toks by exact Hs. f_equal. exact IH.
Qed.

(** ** Well-formed patterns have well-formed tokens. *)

Lemma small_number : forall k, k <= 999 -> 1 <= length (str_of_nat k) <= 3.
Proof.
  intros k Hk.
  assert (H : forallb (fun k => (1 <=? length (str_of_nat k)) && (length (str_of_nat k) <=? 3)) (seq 0 1000) = true)
    by (vm_compute; reflexivity).
  rewrite forallb_forall in H. specialize (H k). rewrite andb_true_iff, !Nat.leb_le in H.
  apply H. apply in_seq. lia.
Qed.

Lemma slot_attr_text : forall a, slot_attr a -> a <> [] /\ attr_text a /\ name_text a.
Proof.
  intros a (l & Hl & Ha & E).
  assert (Hal : forall c, is_alpha c = true -> attr_symbol c = true)
    by (intros c Hc; unfold attr_symbol; rewrite Hc, orb_true_r; reflexivity).
  destruct E as [-> | ->].
  - split; [exact Hl|]. split; [intros c Hc; auto|]. split; [exact Hl|]. intros c Hc; left; auto.
  - split; [discriminate|]. split.
    + intros c Hc. apply in_app_or in Hc. destruct Hc as [Hc|Hc]; [|auto].
      cbn in Hc. destruct Hc as [<-|[<-|[<-|[<-|[]]]]]; reflexivity.
    + split; [discriminate|]. intros c Hc. apply in_app_or in Hc. destruct Hc as [Hc|Hc]; [|left; auto].
      cbn in Hc. destruct Hc as [<-|[<-|[<-|[<-|[]]]]]; [left|left|left|right]; reflexivity.
Qed.

Lemma digit_slot_symbol : forall c, is_digit c = true -> slot_symbol c = true.
Proof. intros c H. rewrite slot_symbol_ok. unfold slot_char. rewrite H, orb_true_r. reflexivity. Qed.

Lemma number_slot_text : forall k, slot_text (#"'$" ++ str_of_nat k ++ #"'").
Proof.
  intros k c Hc. apply in_app_or in Hc. destruct Hc as [Hc|Hc].
  - cbn in Hc. destruct Hc as [<-|[<-|[]]]; reflexivity.
  - apply in_app_or in Hc. destruct Hc as [Hc|Hc].
    + apply digit_slot_symbol. apply (proj1 (forallb_In _ _) (str_of_nat_digits k) _ Hc).
    + cbn in Hc. destruct Hc as [<-|[]]; reflexivity.
Qed.

Definition sep_ok (sep : str) : Prop := sep = #"]" \/ sep = #" and ".

Lemma sep_no_at : forall sep, sep_ok sep -> ~ In c_at sep.
Proof. intros sep [-> | ->] H; apply mem_In in H; discriminate. Qed.

Lemma wf_test_tok : forall k t sep, k <= 999 -> wf_test t -> sep_ok sep -> wf_tok (test_tok k t sep).
Proof.
  intros k t sep Hk Ht Hs. pose proof (sep_no_at _ Hs) as Hat. destruct t as [a|a v|a]; cbn [test_tok wf_tok].
  - destruct Ht as [_ [Ha1 Ha2]]. split; [|right; eauto]. split; [intros []|]. cbn [fst].
    split; [exact Ha2|]. split; [exact Hat|]. destruct Hs as [-> | ->]; cbn; (split; [reflexivity|left; discriminate]).
  - destruct Ht as [[_ [Ha1 Ha2]] (Hq & Hv & _ & j & x & Hj & Hx & Hn)]. split; [|right; eauto].
    split; [exact Hat|]. cbn [fst]. split; [exact Ha2|]. split.
    + intros Hi. cbn in Hi. destruct Hi as [Hi|[Hi|Hi]]; try discriminate.
      apply in_app_or in Hi. destruct Hi as [Hi|[Hi|[]]]; [contradiction|discriminate].
    + split; [reflexivity|]. right. exists (S j), x. split; [lia|]. split; [|exact Hn].
      cbn. rewrite nth_error_app1; [exact Hx|]. apply nth_error_Some. congruence.
  - pose proof (small_number k Hk) as Hl. apply slot_attr_text in Ht. destruct Ht as [Ha1 [Ha2 _]].
    split; [|left; destruct Hs as [-> | ->]; discriminate].
    split; [exact Hat|]. cbn [fst snd]. repeat split; auto; try apply number_slot_text;
      try (rewrite !app_length; cbn [length lit]; lia).
    right. destruct Hs as [-> | ->]; reflexivity.
Qed.

Lemma wf_tests_toks : forall k g, k <= 999 -> Forall wf_test g -> Forall wf_tok (tests_toks k g).
Proof.
  intros k g Hk H. induction H as [|t g Ht Hg IH]; [constructor|]. destruct g as [|t2 g].
  - constructor; [|constructor]. apply wf_test_tok; auto. left; reflexivity.
  - constructor; [|exact IH]. apply wf_test_tok; auto. right; reflexivity.
Qed.

Lemma qname_no : forall q c, qname_char c = false -> qname q -> ~ In c q.
Proof. intros q c Hc [_ H] Hi. rewrite (H c Hi) in Hc. discriminate. Qed.

Lemma wf_step_toks : forall k s, k <= 999 -> wf_tstep s -> Forall wf_tok (step_toks k s).
Proof.
  intros k s Hk [Hn Hg]. constructor.
  - cbn. intros Hi. apply in_app_or in Hi. destruct Hi as [Hi|Hi].
    + apply mem_In in Hi. destruct (t_desc s); discriminate.
    + destruct Hn as [Hn|Hn]; [rewrite Hn in Hi; apply mem_In in Hi; discriminate|].
      revert Hi. apply qname_no; [reflexivity|exact Hn].
  - induction Hg as [|g gs [Hg1 Hg2] _ IH]; cbn [flat_map]; [constructor|]. apply Forall_app. split; [|exact IH].
    constructor; [cbn; intros [Hi|[]]; discriminate|]. apply wf_tests_toks; auto.
Qed.

Lemma wf_steps_toks : forall k l, k <= 999 -> Forall wf_tstep l -> Forall wf_tok (steps_toks k l).
Proof.
  intros k l Hk H. induction H as [|s l Hs _ IH]; [constructor|]. apply Forall_app. split; [apply wf_step_toks; auto|exact IH].
Qed.

Lemma wf_groups : forall s, wf_tstep s -> Forall (fun g => g <> []) (t_groups s).
Proof. intros s [_ H]. eapply Forall_impl; [|exact H]. cbn. tauto. Qed.

(** ** Filling a structured pattern *)

Definition subst_test (c : option str) (t : ttest) : ttest :=
  match t with TSlot a => match c with Some v => TValue a v | None => TAttr a end | _ => t end.
Definition subst_tstep (c : option str) (s : tstep) : tstep :=
  MkT (t_desc s) (t_name s) (map (map (subst_test c)) (t_groups s)).

Lemma mean_subst : forall c s, mean_tstep None (subst_tstep c s) = mean_tstep c s.
Proof.
  intros c [d n gs]. unfold mean_tstep, subst_tstep. cbn [t_desc t_name t_groups]. f_equal.
  rewrite map_map. apply map_ext. intros g. rewrite map_map. apply map_ext.
  intros [a|a v|a]; cbn; try reflexivity. destruct c; reflexivity.
Qed.

Definition gslots (g : list ttest) : list str := flat_map (fun t => match t with TSlot a => [a] | _ => [] end) g.

Lemma gslots_app : forall a b, gslots (a ++ b) = gslots a ++ gslots b.
Proof. intros a b. apply flat_map_app. Qed.

Lemma nslots_tests : forall k g, nslots (tests_toks k g) = length (gslots g).
Proof.
  intros k. induction g as [|t g IH]; [reflexivity|]. destruct g as [|t2 g].
  - destruct t; reflexivity.
  - change (tests_toks k (t :: t2 :: g)) with ([test_tok k t #" and "] ++ tests_toks k (t2 :: g)).
    rewrite nslots_app, IH. destruct t; reflexivity.
Qed.

Lemma nslots_groups : forall k gs, nslots (flat_map (group_toks k) gs) = length (gslots (concat gs)).
Proof.
  intros k. induction gs as [|g gs IH]; [reflexivity|]. cbn [flat_map concat].
  rewrite nslots_app, IH, gslots_app, app_length. f_equal.
  change (group_toks k g) with ([X #"["] ++ tests_toks k g). rewrite nslots_app, nslots_tests. reflexivity.
Qed.

Lemma nslots_step : forall k s, nslots (step_toks k s) = length (slots_of s).
Proof. intros k s. apply (nslots_groups k (t_groups s)). Qed.

Lemma subst_none : forall c g, gslots g = [] -> map (subst_test c) g = g.
Proof.
  intros c. induction g as [|[a|a v|a] g IH]; intros H; cbn in *; try discriminate; [reflexivity| |]; rewrite IH by exact H; reflexivity.
Qed.

Lemma subst_none_groups : forall c gs, gslots (concat gs) = [] -> map (map (subst_test c)) gs = gs.
Proof.
  intros c. induction gs as [|g gs IH]; intros H; [reflexivity|]. cbn in *. rewrite gslots_app in H.
  apply app_eq_nil in H. destruct H as [H1 H2]. rewrite subst_none by exact H1. rewrite IH by exact H2. reflexivity.
Qed.

Lemma subst_none_step : forall c s, slots_of s = [] -> subst_tstep c s = s.
Proof. intros c [d n gs] H. unfold subst_tstep. cbn [t_groups]. rewrite subst_none_groups by exact H. reflexivity. Qed.

(** The number written in the slots does not matter once they are gone. *)
Lemma fill_tests : forall k k' g c r, length (gslots g) <= 1 ->
  fill_toks (tests_toks k g) (c :: r) = write_toks (tests_toks k' (map (subst_test c) g)).
Proof.
  intros k k'. induction g as [|t g IH]; intros c r H; [reflexivity|].
  assert (Hfix : forall t sep, match t with TSlot _ => False | _ => True end ->
    fill_toks [test_tok k t sep] (c :: r) = write_tok (test_tok k' (subst_test c t) sep)).
  { intros [a|a v|a] sep Hf; [| |destruct Hf]; cbn; rewrite ?app_nil_r, <- ?app_assoc; cbn; rewrite <- ?app_assoc; reflexivity. }
  assert (Hslot : forall a sep r', fill_toks [test_tok k (TSlot a) sep] (c :: r') = write_tok (test_tok k' (subst_test c (TSlot a)) sep)).
  { intros a sep r'. destruct c as [v|]; cbn; rewrite ?app_nil_r, <- ?app_assoc; cbn; rewrite <- ?app_assoc; reflexivity. }
  destruct g as [|t2 g].
  - cbn [tests_toks map write_toks flat_map]. rewrite app_nil_r. destruct t; first [apply Hfix; exact I|apply Hslot].
  - change (tests_toks k (t :: t2 :: g)) with ([test_tok k t #" and "] ++ tests_toks k (t2 :: g)).
    change (tests_toks k' (map (subst_test c) (t :: t2 :: g)))
      with ([test_tok k' (subst_test c t) #" and "] ++ tests_toks k' (map (subst_test c) (t2 :: g))).
    rewrite fill_toks_app, write_toks_app.
    replace (write_toks [test_tok k' (subst_test c t) #" and "]) with (write_tok (test_tok k' (subst_test c t) #" and "))
      by (cbn; rewrite app_nil_r; reflexivity).
    destruct t as [a|a v|a].
    + rewrite Hfix by exact I. f_equal. apply IH. exact H.
    + rewrite Hfix by exact I. f_equal. apply IH. exact H.
    + rewrite Hslot. f_equal.
      assert (Hz : gslots (t2 :: g) = []).
      { change (gslots (TSlot a :: t2 :: g)) with (a :: gslots (t2 :: g)) in H.
        destruct (gslots (t2 :: g)); [reflexivity|cbn in H; lia]. }
      rewrite fill_toks_none by (rewrite nslots_tests, Hz; reflexivity).
      rewrite (subst_none c (t2 :: g) Hz).
      clear - Hz. generalize dependent (t2 :: g). clear. intros g. induction g as [|t g IH]; intros Hz; [reflexivity|].
      assert (Hg : gslots g = []) by (destruct t; cbn in Hz; [exact Hz|exact Hz|discriminate]).
      destruct g as [|t2 g]; [destruct t; [reflexivity|reflexivity|discriminate]|].
      change (tests_toks k (t :: t2 :: g)) with ([test_tok k t #" and "] ++ tests_toks k (t2 :: g)).
      change (tests_toks k' (t :: t2 :: g)) with ([test_tok k' t #" and "] ++ tests_toks k' (t2 :: g)).
      rewrite !write_toks_app, IH by exact Hg. f_equal. destruct t; [reflexivity|reflexivity|discriminate].
Qed.

Lemma fill_groups : forall k k' gs c r, length (gslots (concat gs)) <= 1 ->
  fill_toks (flat_map (group_toks k) gs) (c :: r) = write_toks (flat_map (group_toks k') (map (map (subst_test c)) gs)).
Proof.
  intros k k'. induction gs as [|g gs IH]; intros c r H; [reflexivity|]. cbn [flat_map map concat] in *.
  rewrite gslots_app, app_length in H. rewrite fill_toks_app, write_toks_app. f_equal.
  - unfold group_toks at 1 2. cbn [fill_toks]. rewrite (fill_tests k k') by lia. reflexivity.
  - destruct (gslots g) as [|a l] eqn:Eg.
    + replace (nslots (group_toks k g)) with 0; [apply IH; cbn in H; lia|].
      change (group_toks k g) with ([X #"["] ++ tests_toks k g). rewrite nslots_app, nslots_tests, Eg. reflexivity.
    + assert (Hz : gslots (concat gs) = []) by (destruct (gslots (concat gs)); [reflexivity|cbn in H; lia]).
      rewrite fill_toks_none by (rewrite nslots_groups, Hz; reflexivity).
      rewrite <- (fill_toks_none _ (c :: r)) by (rewrite nslots_groups, Hz; reflexivity).
      apply IH. rewrite Hz. cbn. lia.
Qed.

Lemma fill_step : forall k k' s c r, length (slots_of s) <= 1 ->
  fill_toks (step_toks k s) (c :: r) = write_toks (step_toks k' (subst_tstep c s)).
Proof.
  intros k k' s c r H. unfold step_toks. cbn [fill_toks subst_tstep t_desc t_name t_groups].
  rewrite (fill_groups k k') by exact H. reflexivity.
Qed.

Lemma steps_no_slot_number : forall k k' s, slots_of s = [] -> write_toks (step_toks k s) = write_toks (step_toks k' s).
Proof.
  intros k k' s H. rewrite <- (fill_toks_none (step_toks k s) [None]) by (rewrite nslots_step, H; reflexivity).
  rewrite (fill_step k k') by (rewrite H; cbn; lia). rewrite subst_none_step by exact H. reflexivity.
Qed.

(** ** Levels *)

Fixpoint levels_toks (k : nat) (levels : list level) : list tok :=
  match levels with
  | [] => []
  | lv :: levels' => steps_toks k (l_way lv ++ [l_unit lv]) ++ levels_toks (S k) levels'
  end.

(** The steps of the filled pattern. *)
Fixpoint filled_steps (levels : list level) (comps : list (option str)) : list tstep :=
  match levels, comps with
  | lv :: levels', c :: comps' => l_way lv ++ [subst_tstep c (l_unit lv)] ++ filled_steps levels' comps'
  | _, _ => []
  end.

Lemma mean_filled : forall levels comps, Forall wf_level levels ->
  map (mean_tstep None) (filled_steps levels comps) = mean levels comps.
Proof.
  induction levels as [|lv levels IH]; intros comps H; [reflexivity|]. destruct comps as [|c comps]; [reflexivity|].
  inversion H; subst. cbn [filled_steps mean]. rewrite !map_app, IH by assumption. unfold mean_level.
  cbn [map]. rewrite mean_subst, <- app_assoc. reflexivity.
Qed.

Lemma nslots_steps : forall k l, nslots (steps_toks k l) = length (flat_map slots_of l).
Proof.
  intros k. induction l as [|s l IH]; [reflexivity|]. cbn [steps_toks flat_map]. unfold steps_toks in IH.
  rewrite nslots_app, nslots_step, IH, app_length. reflexivity.
Qed.

Lemma way_slots : forall lv, wf_level lv -> flat_map slots_of (l_way lv) = [].
Proof. intros lv (_ & _ & H & _). induction H as [|s l Hs _ IH]; cbn; [reflexivity|]. rewrite Hs, IH. reflexivity. Qed.

Lemma level_slots : forall k lv, wf_level lv -> nslots (steps_toks k (l_way lv ++ [l_unit lv])) = 1.
Proof.
  intros k lv H. rewrite nslots_steps, flat_map_app, (way_slots _ H). destruct H as (_ & _ & _ & a & Ha).
  cbn. rewrite Ha. reflexivity.
Qed.

Lemma levels_slots : forall levels k, Forall wf_level levels -> nslots (levels_toks k levels) = length levels.
Proof.
  induction levels as [|lv levels IH]; intros k H; [reflexivity|]. inversion H; subst. cbn [levels_toks].
  rewrite nslots_app, level_slots, IH by assumption. reflexivity.
Qed.

Lemma way_write : forall k k' l, flat_map slots_of l = [] -> write_toks (steps_toks k l) = write_toks (steps_toks k' l).
Proof.
  intros k k'. induction l as [|s l IH]; intros H; [reflexivity|]. cbn in H. apply app_eq_nil in H. destruct H as [H1 H2].
  change (steps_toks ?k (s :: l)) with (step_toks k s ++ steps_toks k l). rewrite !write_toks_app.
  rewrite (steps_no_slot_number k k') by exact H1. rewrite IH by exact H2. reflexivity.
Qed.

Lemma fill_levels : forall levels comps k, Forall wf_level levels -> length comps = length levels ->
  fill_toks (levels_toks k levels) comps = write_toks (steps_toks 0 (filled_steps levels comps)).
Proof.
  induction levels as [|lv levels IH]; intros comps k H Hc; [destruct comps; reflexivity|].
  destruct comps as [|c comps]; [discriminate|]. inversion H as [|? ? Hlv Hl]; subst.
  cbn [levels_toks filled_steps]. rewrite fill_toks_app, level_slots by exact Hlv. cbn [skipn].
  rewrite IH by (auto; cbn in Hc; lia). unfold steps_toks. rewrite !flat_map_app, !write_toks_app.
  rewrite app_assoc. f_equal. rewrite fill_toks_app.
  pose proof (way_slots lv Hlv) as Hw. fold (steps_toks k (l_way lv)). fold (steps_toks 0 (l_way lv)).
  rewrite fill_toks_none by (rewrite nslots_steps, Hw; reflexivity). rewrite nslots_steps, Hw. cbn [length skipn].
  f_equal; [apply way_write; exact Hw|]. cbn [flat_map]. rewrite !app_nil_r.
  destruct Hlv as (_ & _ & _ & a & Ha). rewrite (fill_step k 0) by (rewrite Ha; cbn; lia). reflexivity.
Qed.

Lemma levels_wf_toks : forall levels k, Forall wf_level levels -> k + length levels <= 1000 -> Forall wf_tok (levels_toks k levels).
Proof.
  induction levels as [|lv levels IH]; intros k H Hk; [constructor|]. cbn in Hk.
  inversion H as [|? ? (Hw & Hu & _ & _) Hl]; subst. cbn [levels_toks].
  apply Forall_app. split; [apply wf_steps_toks; [lia|]; apply Forall_app; auto|apply IH; [exact Hl|lia]].
Qed.

Lemma level_groups : forall lv, wf_level lv -> Forall (fun s => Forall (fun g => g <> []) (t_groups s)) (l_way lv ++ [l_unit lv]).
Proof.
  intros lv (Hw & Hu & _ & _). apply Forall_app. split; [|constructor; [apply wf_groups; exact Hu|constructor]].
  eapply Forall_impl; [|exact Hw]. apply wf_groups.
Qed.

Lemma write_levels_toks : forall levels k, Forall wf_level levels -> write_toks (levels_toks k levels) = write_from k levels.
Proof.
  induction levels as [|lv levels IH]; intros k H; [reflexivity|]. inversion H; subst. cbn [levels_toks write_from].
  rewrite write_toks_app, IH by assumption. rewrite write_steps_toks by (apply level_groups; assumption). reflexivity.
Qed.

Lemma filled_groups : forall levels comps, Forall wf_level levels ->
  Forall (fun s => Forall (fun g => g <> []) (t_groups s)) (filled_steps levels comps).
Proof.
  induction levels as [|lv levels IH]; intros comps H; [constructor|]. destruct comps as [|c comps]; [constructor|].
  inversion H as [|? ? Hlv Hl]; subst. pose proof (level_groups _ Hlv) as Hg. apply Forall_app in Hg. destruct Hg as [Hg1 Hg2].
  cbn [filled_steps]. apply Forall_app. split; [exact Hg1|]. constructor; [|apply IH; exact Hl].
  inversion Hg2; subst. cbn [subst_tstep t_groups]. apply Forall_map. eapply Forall_impl; [|eassumption].
  intros g Hg. destruct g; [congruence|discriminate].
Qed.

(** The text of a filled pattern is that of its steps. *)
Lemma fill_pattern : forall levels comps, Forall wf_level levels -> length levels <= 999 -> length comps = length levels ->
  fill (Some (write_from 1 levels)) (FList comps) = Ok (write_tsteps 0 (filled_steps levels comps)).
Proof.
  intros levels comps H Hn Hc. rewrite <- write_levels_toks by exact H.
  rewrite fill_write_toks; [|apply levels_wf_toks; [exact H|lia]|rewrite levels_slots by exact H; lia].
  rewrite fill_levels by assumption. rewrite write_steps_toks by (apply filled_groups; exact H). reflexivity.
Qed.

(** ** Reading *)

Definition readable_test (t : ttest) : Prop :=
  match t with TAttr a => qname a | TValue a v => qname a /\ ~ In c_quote v | TSlot _ => False end.
Definition readable (s : tstep) : Prop :=
  (t_name s = #"*" \/ qname (t_name s)) /\
  Forall (fun g => g <> [] /\ Forall readable_test g) (t_groups s).

Definition stops (f : N -> bool) (r : str) : Prop := match r with [] => True | c :: _ => f c = false end.

Lemma take_while_stop : forall f a r, (forall c, In c a -> f c = true) -> stops f r -> take_while f (a ++ r) = a.
Proof.
  intros f. induction a as [|x a IH]; intros r Ha Hr; cbn.
  - destruct r as [|c r]; cbn in *; [reflexivity|]. rewrite Hr. reflexivity.
  - rewrite (Ha x (or_introl eq_refl)). f_equal. apply IH; [|exact Hr]. intros c Hc; apply Ha; right; exact Hc.
Qed.

Lemma drop_while_stop : forall f a r, (forall c, In c a -> f c = true) -> stops f r -> drop_while f (a ++ r) = r.
Proof.
  intros f. induction a as [|x a IH]; intros r Ha Hr; cbn.
  - destruct r as [|c r]; cbn in *; [reflexivity|]. rewrite Hr. reflexivity.
  - rewrite (Ha x (or_introl eq_refl)). apply IH; [|exact Hr]. intros c Hc; apply Ha; right; exact Hc.
Qed.

Lemma starts_with_app : forall p r, starts_with p (p ++ r) = Some r.
Proof.
  intros p r. unfold starts_with. rewrite startswith_app. f_equal. induction p; cbn; auto.
Qed.

Lemma resolve_clark : forall q, qname q -> resolve q = Some (clark q).
Proof. intros q [H _]. unfold clark. destruct (resolve q); [reflexivity|congruence]. Qed.

Lemma read_test_write : forall k t r, readable_test t -> stops qname_char r -> starts_with #"='" r = None ->
  read_test (write_test k t ++ r) = Some (mean_test None t, r).
Proof.
  intros k t r Ht Hr Hs. destruct t as [a|a v|a]; [| |destruct Ht].
  - unfold write_test, read_test. rewrite <- app_assoc, starts_with_app. cbn in Ht.
    rewrite take_while_stop, drop_while_stop by (apply Ht || exact Hr). rewrite (resolve_clark _ Ht), Hs. reflexivity.
  - destruct Ht as [Ha Hv]. unfold write_test, read_test. rewrite <- !app_assoc, starts_with_app.
    rewrite take_while_stop, drop_while_stop by (apply Ha || reflexivity). rewrite (resolve_clark _ Ha).
    rewrite starts_with_app.
    assert (Hnq : forall c, In c v -> negb (N.eqb c c_quote) = true)
      by (intros c Hc; apply negb_true_iff, N.eqb_neq; intros ->; contradiction).
    rewrite drop_while_stop, take_while_stop by (exact Hnq || reflexivity). reflexivity.
Qed.

Lemma read_tests_write : forall k g r fuel, g <> [] -> Forall readable_test g -> length g <= fuel ->
  read_tests fuel (join #" and " (map (write_test k) g) ++ #"]" ++ r) = Some (map (mean_test None) g, r).
Proof.
  intros k. induction g as [|t g IH]; intros r fuel Hg H Hf; [congruence|]. inversion H as [|? ? Ht Hl]; subst.
  destruct fuel as [|fuel]; [cbn in Hf; lia|]. destruct g as [|t2 g].
  - cbn [map join read_tests]. rewrite read_test_write by (auto || reflexivity). rewrite starts_with_app. reflexivity.
  - change (map (write_test k) (t :: t2 :: g)) with (write_test k t :: map (write_test k) (t2 :: g)).
    rewrite join_cons by discriminate. rewrite <- !app_assoc. cbn [read_tests].
    rewrite read_test_write by (auto || reflexivity).
    replace (starts_with #"]" (#" and " ++ join #" and " (map (write_test k) (t2 :: g)) ++ #"]" ++ r)) with (@None str) by reflexivity.
    rewrite starts_with_app. rewrite IH by (auto; try discriminate; cbn in *; lia). reflexivity.
Qed.

Lemma write_test_length : forall k t, 1 <= length (write_test k t).
Proof. intros k [a|a v|a]; cbn; lia. Qed.

Lemma tests_length : forall k g, length g <= length (join #" and " (map (write_test k) g)).
Proof.
  intros k. induction g as [|t g IH]; [cbn; lia|]. pose proof (write_test_length k t). destruct g as [|t2 g].
  - cbn [map join length]. lia.
  - change (map (write_test k) (t :: t2 :: g)) with (write_test k t :: map (write_test k) (t2 :: g)).
    rewrite join_cons by discriminate. rewrite !app_length. cbn [length] in *. lia.
Qed.

Lemma read_groups_write : forall k gs r fuel, Forall (fun g => g <> [] /\ Forall readable_test g) gs ->
  starts_with #"[" r = None -> length gs < fuel ->
  read_groups fuel (flat_map (write_group k) gs ++ r) = Some (map (map (mean_test None)) gs, r).
Proof.
  intros k. induction gs as [|g gs IH]; intros r fuel H Hr Hf; destruct fuel as [|fuel]; cbn in Hf; try lia.
  - cbn [flat_map app read_groups]. rewrite Hr. reflexivity.
  - inversion H as [|? ? [Hg1 Hg2] Hl]; subst. cbn [flat_map]. unfold write_group at 1. rewrite <- !app_assoc.
    cbn [read_groups]. rewrite starts_with_app. rewrite read_tests_write; auto.
    + rewrite IH by (auto; lia). reflexivity.
    + rewrite !app_length. pose proof (tests_length k g). lia.
Qed.

Lemma groups_length : forall k gs, length gs <= length (flat_map (write_group k) gs).
Proof. intros k. induction gs as [|g gs IH]; cbn [flat_map length]; [lia|]. rewrite app_length. unfold write_group at 1. rewrite app_length. change (length #"[") with 1. lia. Qed.

Definition body (k : nat) (s : tstep) : str := t_name s ++ flat_map (write_group k) (t_groups s).

Lemma read_step_write : forall k s r, readable s -> (r = [] \/ exists r', r = c_slash :: r') ->
  read_step (t_desc s) (body k s ++ r) = Some (mean_tstep None s, r).
Proof.
  intros k s r [Hn Hg] Hr. unfold read_step, body. rewrite <- app_assoc.
  assert (Hb : starts_with #"[" r = None) by (destruct Hr as [->|[r' ->]]; reflexivity).
  assert (Hst : stops qname_char (flat_map (write_group k) (t_groups s) ++ r))
    by (destruct (t_groups s); [destruct Hr as [->|[r' ->]]; [exact I|reflexivity]|reflexivity]).
  assert (Hrg : read_groups (S (length (flat_map (write_group k) (t_groups s) ++ r))) (flat_map (write_group k) (t_groups s) ++ r)
                = Some (map (map (mean_test None)) (t_groups s), r)).
  { apply read_groups_write; auto. rewrite app_length. pose proof (groups_length k (t_groups s)). lia. }
  unfold mean_tstep. destruct Hn as [Hn|Hn].
  - rewrite Hn. rewrite starts_with_app, Hrg. reflexivity.
  - assert (Hstar : str_eqb (t_name s) #"*" = false).
    { apply str_eqb_neq. intros E. destruct Hn as [_ Hn]. rewrite E in Hn. specialize (Hn 42%N (or_introl eq_refl)). discriminate. }
    rewrite Hstar. rewrite take_while_stop, drop_while_stop by (apply Hn || exact Hst).
    assert (Hns : starts_with #"*" (t_name s ++ flat_map (write_group k) (t_groups s) ++ r) = None).
    { pose proof (resolve_clark _ Hn) as Hres. destruct Hn as [_ Hn]. destruct (t_name s) as [|c n]; [discriminate|].
      unfold starts_with. change #"*" with [42%N]. cbn [app startswith]. destruct (N.eqb_spec c 42%N) as [->|]; [|reflexivity].
      specialize (Hn _ (or_introl eq_refl)). discriminate. }
    rewrite Hns, (resolve_clark _ Hn), Hrg. reflexivity.
Qed.

Lemma write_tsteps_head : forall k l, write_tsteps k l = [] \/ exists r, write_tsteps k l = c_slash :: r.
Proof. intros k [|s l]; [left; reflexivity|right]. cbn. unfold write_tstep. destruct (t_desc s); cbn; eexists; reflexivity. Qed.

Lemma body_head : forall k s r, readable s -> exists c b, body k s ++ r = c :: b /\ c <> c_slash.
Proof.
  intros k s r [[Hn|Hn] _]; unfold body.
  - rewrite Hn. cbn. do 2 eexists. split; [reflexivity|]. discriminate.
  - pose proof (resolve_clark _ Hn) as Hres. destruct Hn as [_ Hn]. destruct (t_name s) as [|c n]; [discriminate|].
    cbn. do 2 eexists. split; [reflexivity|]. intros ->. specialize (Hn _ (or_introl eq_refl)). discriminate.
Qed.

Lemma read_path_write : forall k l fuel, Forall readable l -> length l < fuel ->
  read_path fuel (write_tsteps k l) = Some (map (mean_tstep None) l).
Proof.
  intros k. induction l as [|s l IH]; intros fuel H Hf; destruct fuel as [|fuel]; cbn in Hf; try lia; [reflexivity|].
  inversion H as [|? ? Hs Hl]; subst.
  change (write_tsteps k (s :: l)) with (write_tstep k s ++ write_tsteps k l). unfold write_tstep.
  fold (body k s). rewrite <- app_assoc.
  pose proof (read_step_write k s _ Hs (write_tsteps_head k l)) as Hr.
  destruct (t_desc s) eqn:Ed.
  - cbn [read_path]. replace (#"//" ++ body k s ++ write_tsteps k l) with (c_slash :: c_slash :: body k s ++ write_tsteps k l) by reflexivity.
    cbv beta iota. change (starts_with #"//" (c_slash :: c_slash :: ?z)) with (starts_with #"//" (#"//" ++ z)).
    rewrite starts_with_app.
    rewrite Hr. rewrite IH by (auto; lia). reflexivity.
  - destruct (body_head k s (write_tsteps k l) Hs) as (c & b & Eb & Hc).
    cbn [read_path]. rewrite Eb in *. change (#"/" ++ c :: b) with (c_slash :: c :: b). cbv beta iota.
    replace (starts_with #"//" (c_slash :: c :: b)) with (@None str).
    2:{ unfold starts_with. change #"//" with [c_slash; c_slash]. cbn [startswith]. replace (N.eqb c c_slash) with false; [rewrite andb_false_r; reflexivity|].
        symmetry; apply N.eqb_neq; exact Hc. }
    change (starts_with #"/" (c_slash :: ?z)) with (starts_with #"/" (#"/" ++ z)). rewrite starts_with_app. rewrite Hr. rewrite IH by (auto; lia). reflexivity.
Qed.

Lemma tsteps_length : forall k l, length l <= length (write_tsteps k l).
Proof.
  intros k. induction l as [|s l IH]; [cbn; lia|]. change (write_tsteps k (s :: l)) with (write_tstep k s ++ write_tsteps k l).
  rewrite app_length. unfold write_tstep. destruct (t_desc s); cbn; lia.
Qed.

Lemma eval_abs_write : forall k l root, Forall readable l -> l <> [] ->
  eval_abs root (write_tsteps k l) = Ok (xpath_abs root (map (mean_tstep None) l)).
Proof.
  intros k l root H Hl. unfold eval_abs. destruct (write_tsteps k l) as [|c r] eqn:E.
  - pose proof (tsteps_length k l) as Hn. rewrite E in Hn. destruct l; [congruence|cbn in Hn; lia].
  - rewrite <- E. rewrite read_path_write; [reflexivity|exact H|]. pose proof (tsteps_length k l). lia.
Qed.

(** ** Splitting at the slashes *)

Definition step_text (k : nat) (s : tstep) : str := (if t_desc s then [c_slash] else []) ++ body k s.

Lemma step_of_step_text : forall k s, readable s -> step_of_text (step_text k s) = Ok (mean_tstep None s).
Proof.
  intros k s Hs. pose proof (read_step_write k s [] Hs (or_introl eq_refl)) as Hr. rewrite app_nil_r in Hr.
  unfold step_of_text, step_text. destruct (t_desc s).
  - change (starts_with #"/" ([c_slash] ++ ?z)) with (starts_with #"/" (#"/" ++ z)). rewrite starts_with_app, Hr. reflexivity.
  - cbn [app]. destruct (body_head k s [] Hs) as (c & b & Eb & Hc). rewrite app_nil_r in Eb. rewrite Eb in *.
    replace (starts_with #"/" (c :: b)) with (@None str); [rewrite Hr; reflexivity|].
    unfold starts_with. change #"/" with [c_slash]. cbn [startswith]. replace (N.eqb c c_slash) with false; [reflexivity|].
    symmetry; apply N.eqb_neq; exact Hc.
Qed.

Definition no_slash (s : tstep) : Prop :=
  Forall (Forall (fun t => match t with TValue _ v => ~ In c_slash v | _ => True end)) (t_groups s).

Lemma body_no_slash : forall k s, readable s -> no_slash s -> mem c_slash (body k s) = false.
Proof.
  intros k s [Hn Hg] Hs. unfold body. rewrite mem_app. apply orb_false_iff. split.
  - destruct Hn as [->|Hn]; [reflexivity|]. destruct (mem c_slash (t_name s)) eqn:E; [|reflexivity].
    apply mem_In in E. destruct (qname_no _ c_slash eq_refl Hn E).
  - unfold no_slash in Hs. induction Hs as [|g gs Hg1 _ IH]; [reflexivity|]. inversion Hg as [|? ? [_ Hr] Hl]; subst.
    cbn [flat_map]. rewrite mem_app, (IH Hl), orb_false_r. unfold write_group. rewrite !mem_app.
    change (mem c_slash #"[") with false. change (mem c_slash #"]") with false. rewrite orb_false_r. cbn [orb].
    apply not_true_is_false. intros E.
    assert (Hj : forall l, (forall x, In x l -> mem c_slash x = false) -> mem c_slash (join #" and " l) = false).
    { induction l as [|x l IHl]; intros Hx; [reflexivity|]. destruct l as [|y l]; [apply Hx; left; reflexivity|].
      rewrite join_cons by discriminate. rewrite !mem_app, (Hx x (or_introl eq_refl)). cbn [orb].
      rewrite IHl by (intros z Hz; apply Hx; right; exact Hz). reflexivity. }
    rewrite Hj in E; [discriminate|]. intros x Hx. apply in_map_iff in Hx. destruct Hx as (t & <- & Ht).
    rewrite Forall_forall in Hg1, Hr. specialize (Hg1 t Ht). specialize (Hr t Ht).
    assert (Hq : forall q, qname q -> mem c_slash q = false).
    { intros q Hq. destruct (mem c_slash q) eqn:Eq; [|reflexivity]. apply mem_In in Eq. destruct (qname_no _ c_slash eq_refl Hq Eq). }
    destruct t as [a|a v|a]; [| |destruct Hr]; cbn [write_test]; rewrite !mem_app.
    + rewrite (Hq _ Hr). reflexivity.
    + destruct Hr as [Ha _]. rewrite (Hq _ Ha). destruct (mem c_slash v) eqn:Ev; [apply mem_In in Ev; contradiction|]. reflexivity.
Qed.

Lemma normalize_bodies : forall k l prev s, readable s -> no_slash s -> Forall readable l -> Forall no_slash l ->
  normalize_from prev (split c_slash (body k s ++ write_tsteps k l)) =
  ((if prev : bool then [c_slash] else []) ++ body k s) :: map (step_text k) l.
Proof.
  intros k. induction l as [|s2 l IH]; intros prev s Hs Hn Hl Hln.
  - cbn [write_tsteps flat_map]. rewrite app_nil_r. rewrite split_no_sep by (apply body_no_slash; assumption).
    destruct (body_head k s [] Hs) as (c & b & Eb & _). rewrite app_nil_r in Eb. rewrite Eb. destruct prev; reflexivity.
  - inversion Hl; inversion Hln; subst.
    destruct (body_head k s [] Hs) as (c & b & Eb & _). rewrite app_nil_r in Eb.
    change (write_tsteps k (s2 :: l)) with (write_tstep k s2 ++ write_tsteps k l). unfold write_tstep. fold (body k s2).
    rewrite <- app_assoc. cbn [map]. unfold step_text at 1.
    destruct (t_desc s2).
    + replace (body k s ++ #"//" ++ body k s2 ++ write_tsteps k l)
        with (body k s ++ c_slash :: [] ++ c_slash :: body k s2 ++ write_tsteps k l) by reflexivity.
      rewrite !split_app_sep by (reflexivity || (apply body_no_slash; assumption)).
      cbn [normalize_from]. rewrite IH by assumption. rewrite Eb. destruct prev; reflexivity.
    + replace (body k s ++ #"/" ++ body k s2 ++ write_tsteps k l)
        with (body k s ++ c_slash :: body k s2 ++ write_tsteps k l) by reflexivity.
      rewrite split_app_sep by (apply body_no_slash; assumption).
      cbn [normalize_from]. rewrite IH by assumption. rewrite Eb. destruct prev; reflexivity.
Qed.

(** What getTextualNode hands to passageLoop: all steps but the first. *)
Lemma normalize_write : forall k s l, t_desc s = false -> readable s -> no_slash s -> Forall readable l -> Forall no_slash l ->
  normalize_xpath (skipn 2 (split c_slash (write_tsteps k (s :: l)))) = map (step_text k) l.
Proof.
  intros k s l Hd Hs Hn Hl Hln.
  change (write_tsteps k (s :: l)) with (write_tstep k s ++ write_tsteps k l). unfold write_tstep. rewrite Hd. fold (body k s).
  rewrite <- app_assoc. change (#"/" ++ ?x) with ([] ++ c_slash :: x). rewrite split_app_sep by reflexivity.
  destruct l as [|s2 l].
  - cbn [write_tsteps flat_map]. rewrite app_nil_r, split_no_sep by (apply body_no_slash; assumption). reflexivity.
  - inversion Hl; inversion Hln; subst.
    change (write_tsteps k (s2 :: l)) with (write_tstep k s2 ++ write_tsteps k l). unfold write_tstep. fold (body k s2).
    rewrite <- app_assoc. cbn [map]. unfold step_text at 1, normalize_xpath. destruct (t_desc s2).
    + replace (body k s ++ #"//" ++ body k s2 ++ write_tsteps k l)
        with (body k s ++ c_slash :: [] ++ c_slash :: body k s2 ++ write_tsteps k l) by reflexivity.
      rewrite !split_app_sep by (reflexivity || (apply body_no_slash; assumption)).
      cbn [skipn normalize_from]. rewrite normalize_bodies by assumption. reflexivity.
    + replace (body k s ++ #"/" ++ body k s2 ++ write_tsteps k l)
        with (body k s ++ c_slash :: body k s2 ++ write_tsteps k l) by reflexivity.
      rewrite split_app_sep by (apply body_no_slash; assumption).
      cbn [skipn]. rewrite normalize_bodies by assumption. reflexivity.
Qed.

(** ** Filled patterns are readable. *)

Lemma alpha_not : forall c, qname_char c = false \/ c = c_colon -> is_alpha c = false.
Proof.
  intros c [H| ->]; [|reflexivity]. unfold qname_char in H. destruct (is_alpha c); [discriminate|reflexivity].
Qed.

Lemma alpha_mem : forall c l, is_alpha c = false -> (forall x, In x l -> is_alpha x = true) -> mem c l = false.
Proof.
  intros c l Hc Hl. destruct (mem c l) eqn:E; [|reflexivity]. apply mem_In in E. rewrite (Hl c E) in Hc. discriminate.
Qed.

Lemma slot_attr_clark : forall a, slot_attr a -> exists l, l <> [] /\ (forall c, In c l -> is_alpha c = true) /\
  (a = l /\ resolve a = Some l \/
   a = #"xml:" ++ l /\ resolve a = Some (#"{http://www.w3.org/XML/1998/namespace}" ++ l)).
Proof.
  intros a (l & Hl & Ha & E). exists l. split; [exact Hl|]. split; [exact Ha|].
  pose proof (alpha_mem c_colon l eq_refl Ha) as Hm. destruct E as [-> | ->].
  - left. split; [reflexivity|]. unfold resolve. rewrite (split_no_sep _ _ Hm). rewrite (proj2 (truthy_spec l) Hl). reflexivity.
  - right. split; [reflexivity|]. unfold resolve.
    change (#"xml:" ++ l) with (#"xml" ++ c_colon :: l). rewrite split_app_sep by reflexivity.
    rewrite (split_no_sep _ _ Hm), (proj2 (truthy_spec l) Hl). reflexivity.
Qed.

Lemma slot_attr_qname : forall a, slot_attr a -> qname a.
Proof.
  intros a H. pose proof (slot_attr_clark a H) as (l & Hl & Ha & E). split.
  - destruct E as [[_ E]|[_ E]]; rewrite E; discriminate.
  - assert (Hq : forall c, is_alpha c = true -> qname_char c = true) by (intros c Hc; unfold qname_char; rewrite Hc; reflexivity).
    intros c Hc. destruct E as [[-> _]|[-> _]]; [auto|]. apply in_app_or in Hc. destruct Hc as [Hc|Hc]; [|auto].
    cbn in Hc. destruct Hc as [<-|[<-|[<-|[<-|[]]]]]; reflexivity.
Qed.

Definition quote_free (c : option str) : Prop := match c with Some v => ~ In c_quote v | None => True end.
Definition slash_free (c : option str) : Prop := match c with Some v => ~ In c_slash v | None => True end.

Lemma readable_subst_test : forall c t, quote_free c -> wf_test t -> readable_test (subst_test c t).
Proof.
  intros c [a|a v|a] Hc Ht; cbn in *.
  - apply Ht.
  - destruct Ht as [[Hq _] [Hv _]]. auto.
  - destruct c as [v|]; cbn; [split; [|exact Hc]|]; apply slot_attr_qname; exact Ht.
Qed.

Lemma readable_subst : forall c s, quote_free c -> wf_tstep s -> readable (subst_tstep c s).
Proof.
  intros c s Hc [Hn Hg]. split; [exact Hn|]. cbn [subst_tstep t_groups]. apply Forall_map.
  eapply Forall_impl; [|exact Hg]. intros g [Hg1 Hg2]. split; [destruct g; [congruence|discriminate]|].
  apply Forall_map. eapply Forall_impl; [|exact Hg2]. intros t Ht. apply readable_subst_test; assumption.
Qed.

Lemma readable_wf : forall s, wf_tstep s -> slots_of s = [] -> readable s.
Proof. intros s H Hs. rewrite <- (subst_none_step None s Hs). apply readable_subst; [exact I|exact H]. Qed.

Lemma filled_readable : forall levels comps, Forall wf_level levels -> Forall quote_free comps ->
  Forall readable (filled_steps levels comps).
Proof.
  induction levels as [|lv levels IH]; intros comps H Hc; [constructor|]. destruct Hc as [|c comps Hc Hcs]; [constructor|].
  inversion H as [|? ? (Hw & Hu & Hs & _) Hl]; subst. cbn [filled_steps].
  apply Forall_app. split; [|constructor; [apply readable_subst; assumption|apply IH; assumption]].
  rewrite Forall_forall in *. intros s Hi. apply readable_wf; auto.
Qed.

(** ** The attribute of a pattern *)

Definition dollars (k : nat) (t : tok) : Prop :=
  match t with
  | X s => ~ In c_dollar s
  | P (Fixed a r) s => ~ In c_dollar (a ++ r ++ s)
  | P (Slot a q) s => q = #"'$" ++ str_of_nat k ++ #"'" /\ name_text a /\ ~ In c_dollar (a ++ s)
  end.

Lemma no_dollar_mem : forall s, mem c_dollar s = false -> ~ In c_dollar s.
Proof. intros s H Hi. apply mem_In in Hi. congruence. Qed.
Lemma mem_no_dollar : forall s, ~ In c_dollar s -> mem c_dollar s = false.
Proof. intros s H. destruct (mem c_dollar s) eqn:E; [|reflexivity]. apply mem_In in E. contradiction. Qed.

Lemma test_dollars : forall k t sep, wf_test t -> sep_ok sep -> dollars k (test_tok k t sep).
Proof.
  intros k t sep Ht Hs.
  assert (Hsep : mem c_dollar sep = false) by (destruct Hs as [-> | ->]; reflexivity).
  assert (Hq : forall q, qname q -> mem c_dollar q = false)
    by (intros q Hq; apply mem_no_dollar; apply (qname_no q c_dollar eq_refl Hq)).
  destruct t as [a|a v|a]; cbn [test_tok dollars].
  - destruct Ht as [Ha _]. apply no_dollar_mem. rewrite !mem_app, (Hq _ Ha), Hsep. reflexivity.
  - destruct Ht as [[Ha _] (_ & _ & Hv & _)]. apply no_dollar_mem.
    rewrite !mem_app, (Hq _ Ha), Hsep, (mem_no_dollar _ Hv). reflexivity.
  - split; [reflexivity|]. split; [apply slot_attr_text; exact Ht|].
    apply no_dollar_mem. rewrite mem_app, (Hq _ (slot_attr_qname _ Ht)), Hsep. reflexivity.
Qed.

Lemma step_dollars : forall k s, wf_tstep s -> Forall (dollars k) (step_toks k s).
Proof.
  intros k s [Hn Hg]. constructor.
  - cbn. apply no_dollar_mem. rewrite mem_app. replace (mem c_dollar (t_name s)) with false.
    + destruct (t_desc s); reflexivity.
    + symmetry. destruct Hn as [->|Hn]; [reflexivity|]. apply mem_no_dollar. apply (qname_no _ c_dollar eq_refl Hn).
  - induction Hg as [|g gs [_ Hg2] _ IH]; cbn [flat_map]; [constructor|]. apply Forall_app. split; [|exact IH].
    constructor; [apply no_dollar_mem; reflexivity|]. clear IH. induction Hg2 as [|t g Ht Hg IH]; [constructor|].
    destruct g as [|t2 g]; (constructor; [apply test_dollars; [exact Ht|]|]); [left; reflexivity|constructor|right; reflexivity|exact IH].
Qed.

Lemma count_none : forall s, ~ In c_dollar s -> count c_dollar s = 0.
Proof. intros s H. apply count_0_mem. apply mem_no_dollar; exact H. Qed.

Lemma number_no_dollar : forall k, ~ In c_dollar (str_of_nat k).
Proof. intros k. apply digits_not_In; [reflexivity|apply str_of_nat_digits]. Qed.

Lemma count_tok : forall k t, dollars k t -> count c_dollar (write_tok t) = if is_slot t then 1 else 0.
Proof.
  intros k [s|[a q|a r] s] H; cbn [dollars write_tok is_slot write_piece] in *.
  - apply count_none; exact H.
  - destruct H as [-> [_ H]]. rewrite !count_app. assert (Ha : count c_dollar (a ++ s) = 0) by (apply count_none; exact H).
    rewrite count_app in Ha. rewrite (count_none _ (number_no_dollar k)). cbn. lia.
  - rewrite !count_app. assert (Ha : count c_dollar (a ++ r ++ s) = 0) by (apply count_none; exact H).
    rewrite !count_app in Ha. cbn. lia.
Qed.

Lemma count_toks : forall k l, Forall (dollars k) l -> count c_dollar (write_toks l) = nslots l.
Proof.
  intros k l H. induction H as [|t l Ht _ IH]; [reflexivity|]. unfold write_toks in *. cbn [flat_map].
  rewrite count_app, (count_tok k t Ht), IH. unfold nslots. cbn [filter]. destruct (is_slot t); reflexivity.
Qed.

Lemma steps_dollars : forall k l, Forall wf_tstep l -> Forall (dollars k) (steps_toks k l).
Proof. intros k l H. induction H as [|s l Hs _ IH]; [constructor|]. apply Forall_app. split; [apply step_dollars; exact Hs|exact IH]. Qed.

Lemma count_write_from : forall levels k, Forall wf_level levels -> count c_dollar (write_from k levels) = length levels.
Proof.
  induction levels as [|lv levels IH]; intros k H; [reflexivity|]. inversion H as [|? ? Hlv Hl]; subst. cbn [write_from length].
  rewrite count_app, IH by exact Hl. rewrite <- write_steps_toks by (apply level_groups; exact Hlv).
  rewrite (count_toks k), level_slots by (exact Hlv || (destruct Hlv as (Hw & Hu & _); apply steps_dollars; apply Forall_app; auto)).
  reflexivity.
Qed.

Lemma one_slot : forall l, nslots l = 1 -> exists t1 a q s t2, l = t1 ++ P (Slot a q) s :: t2 /\ nslots t1 = 0 /\ nslots t2 = 0.
Proof.
  induction l as [|t l IH]; intros H; [discriminate|]. destruct (is_slot t) eqn:E.
  - destruct t as [|[a q|] s]; try discriminate. exists [], a, q, s, l. split; [reflexivity|]. split; [reflexivity|].
    unfold nslots in *. cbn in H. lia.
  - destruct IH as (t1 & a & q & s & t2 & -> & H1 & H2).
    + unfold nslots in *. cbn in H. rewrite E in H. exact H.
    + exists (t :: t1), a, q, s, t2. split; [reflexivity|]. split; [|exact H2]. unfold nslots in *. cbn. rewrite E. exact H1.
Qed.

Lemma slot_of_toks : forall k s t1 a q x t2, step_toks k s = t1 ++ P (Slot a q) x :: t2 -> In a (slots_of s).
Proof.
  intros k s t1 a q x t2 H. assert (Hi : In (P (Slot a q) x) (step_toks k s)) by (rewrite H; apply in_or_app; right; left; reflexivity).
  destruct Hi as [Hi|Hi]; [discriminate|]. apply in_flat_map in Hi. destruct Hi as (g & Hg & [Hi|Hi]); [discriminate|].
  unfold slots_of. apply in_flat_map.
  assert (Ht : exists t sep, In t g /\ test_tok k t sep = P (Slot a q) x).
  { clear - Hi. induction g as [|t g IH]; [destruct Hi|]. destruct g as [|t2 g].
    - destruct Hi as [Hi|[]]. exists t, #"]". split; [left; reflexivity|exact Hi].
    - destruct Hi as [Hi|Hi]; [exists t, #" and "; split; [left; reflexivity|exact Hi]|].
      destruct (IH Hi) as (t' & sep & H1 & H2). exists t', sep. split; [right; exact H1|exact H2]. }
  destruct Ht as (t & sep & Ht & E). exists t. split; [apply in_concat; eauto|].
  destruct t; cbn in E; try discriminate. injection E as -> _ _. left; reflexivity.
Qed.

Lemma attribute_pattern : forall levels lv, Forall wf_level levels -> wf_level lv ->
  attribute (Some (write_from 1 (levels ++ [lv]))) = Ok (hd [] (slots_of (l_unit lv))).
Proof.
  intros levels lv Hl Hlv.
  assert (Hall : Forall wf_level (levels ++ [lv])) by (apply Forall_app; auto).
  pose proof (count_write_from (levels ++ [lv]) 1 Hall) as Hc. rewrite app_length in Hc. cbn [length] in Hc.
  assert (Hw : forall ls k, write_from k (ls ++ [lv]) = write_from k ls ++ write_tsteps (k + length ls) (l_way lv) ++ write_tstep (k + length ls) (l_unit lv)).
  { induction ls as [|l ls IH]; intros k; cbn [app write_from length].
    - rewrite Nat.add_0_r, app_nil_r. unfold write_tsteps. rewrite flat_map_app. cbn. rewrite app_nil_r. reflexivity.
    - rewrite IH. replace (S k + length ls) with (k + S (length ls)) by lia. rewrite <- app_assoc. reflexivity. }
  specialize (Hw levels 1). set (k := 1 + length levels) in *. replace (length levels + 1) with k in Hc by (unfold k; lia).
  destruct Hlv as (Hway & Hu & Hs & a & Ha).
  destruct (one_slot (step_toks k (l_unit lv))) as (t1 & a' & q & x & t2 & E & H1 & H2); [rewrite nslots_step, Ha; reflexivity|].
  pose proof (slot_of_toks _ _ _ _ _ _ _ E) as Hin. rewrite Ha in Hin. destruct Hin as [<-|[]]. rewrite Ha. cbn [hd].
  pose proof (step_dollars k (l_unit lv) Hu) as Hd. rewrite E in Hd. apply Forall_app in Hd. destruct Hd as [_ Hd].
  apply Forall_cons_iff in Hd. destruct Hd as [Hd1 Hd2]. cbn [dollars] in Hd1. destruct Hd1 as (-> & Hn & Hx).
  rewrite <- (write_step_toks k (l_unit lv)) in Hw by (apply wf_groups; exact Hu).
  rewrite E, write_toks_app in Hw. unfold write_toks at 2 in Hw. cbn [flat_map write_tok write_piece] in Hw. fold (write_toks t2) in Hw.
  assert (Hpost : ~ In c_dollar (x ++ write_toks t2)).
  { apply no_dollar_mem. rewrite mem_app. apply orb_false_iff. split.
    - apply mem_no_dollar. intros Hi. apply Hx. apply in_or_app; right; exact Hi.
    - apply count_0_mem. rewrite (count_toks k t2 Hd2). exact H2. }
  pose proof (attribute_spec (write_from 1 levels ++ write_tsteps k (l_way lv) ++ write_toks t1) a [c_quote] k [c_quote] (x ++ write_toks t2)
                Hn (or_introl eq_refl) (or_introl eq_refl) Hpost) as HA.
  cbv zeta in HA.
  replace ((write_from 1 levels ++ write_tsteps k (l_way lv) ++ write_toks t1) ++
        [c_at] ++ a ++ [c_equal] ++ [c_quote] ++ [c_dollar] ++ str_of_nat k ++ [c_quote] ++ x ++ write_toks t2)
    with (write_from 1 (levels ++ [lv])) in HA.
  - apply HA. exact Hc.
  - rewrite Hw. rewrite <- !app_assoc. reflexivity.
Qed.
