(** Lemmas about citation patterns. *)

From Coq Require Import List NArith Arith Bool Lia.
From Verif Require Import PyStr PyStrFacts PyRe RefModel RefProofs CiteModel CiteSpec.
Import ListNotations.

Lemma forallb_In : forall (f : N -> bool) s, forallb f s = true <-> (forall c, In c s -> f c = true).
Proof. intros; apply forallb_forall. Qed.

(** The character classes of the specification are those of the regular
    expressions. *)
Lemma slot_symbol_ok : forall c, slot_symbol c = slot_char c.
Proof.
  intros c. unfold slot_symbol, slot_char, is_digit.
  match goal with |- mem c ?l = _ => let l' := eval vm_compute in l in change l with l' end. cbn [mem].
  apply eq_true_iff_eq. rewrite !orb_true_iff, !andb_true_iff, !N.eqb_eq, !N.leb_le.
  change c_backslash with 92%N; change c_dollar with 36%N; change c_quote with 39%N;
  change c_dquote with 34%N; change c_qmark with 63%N. 
  split; intros H; repeat (destruct H as [H|H]); try discriminate; try (cbn in H); lia.
Qed.
Lemma attr_symbol_ok : forall c, attr_symbol c = attr_char c.
Proof.
  intros c. unfold attr_symbol, attr_char.
  match goal with |- context [mem c ?l] => let l' := eval vm_compute in l in change l with l' end. cbn [mem].
  rewrite (N.eqb_sym _ c). change c_colon with 58%N.
  destruct (N.eqb c 58%N), (is_alpha c), (is_digit c); reflexivity.
Qed.
Lemma step_symbol_ok : forall c, step_symbol c = step_char c.
Proof.
  intros c. unfold step_symbol, step_char.
  match goal with |- context [mem c ?l] => let l' := eval vm_compute in l in change l with l' end. cbn [mem].
  match goal with |- context [existsb _ ?l] => let l' := eval vm_compute in l in change l with l' end. cbn [existsb].
  rewrite !(N.eqb_sym _ c). change c_dquote with 34%N.
  destruct (is_alpha c), (is_digit c), (is_space c); rewrite ?orb_true_r, ?orb_false_r; try reflexivity.
  rewrite orb_comm. reflexivity.
Qed.

Definition slot_text_m (q : str) : Prop := forall c, In c q -> slot_char c = true.
Definition attr_text_m (a : str) : Prop := forall c, In c a -> attr_char c = true.
Definition wf_piece_m (pt : piece * str) : Prop :=
  ~ In c_at (snd pt) /\
  match fst pt with
  | Slot a q =>
      a <> [] /\ attr_text_m a /\ slot_text_m q /\ 3 <= length q <= 6 /\
      (length q = 6 \/ match snd pt with [] => True | c :: _ => slot_char c = false end)
  | Fixed a r =>
      attr_text_m a /\ ~ In c_at r /\
      match r with
      | [] => False
      | c :: r' =>
          attr_char c = false /\
          (c <> c_equal \/ exists k x, k < 3 /\ nth_error r' k = Some x /\ slot_char x = false)
      end
  end.

Lemma attr_text_m_of : forall a, attr_text a -> attr_text_m a.
Proof. intros a H c Hc. rewrite <- attr_symbol_ok. apply H; exact Hc. Qed.
Lemma slot_text_m_of : forall a, slot_text a -> slot_text_m a.
Proof. intros a H c Hc. rewrite <- slot_symbol_ok. apply H; exact Hc. Qed.

Lemma wf_piece_m_of : forall l, Forall wf_piece l -> Forall wf_piece_m l.
Proof.
  intros l H. eapply Forall_impl; [|exact H]. intros [[a q|a r] t] [H1 H2]; (split; [exact H1|]); cbn [fst snd] in *.
  - destruct H2 as [A [B [C [D E]]]]. split; [exact A|]. split; [apply attr_text_m_of; exact B|].
    split; [apply slot_text_m_of; exact C|]. split; [exact D|]. destruct t; [exact E|]. rewrite <- slot_symbol_ok. exact E.
  - destruct H2 as [A [B C]]. split; [apply attr_text_m_of; exact A|]. split; [exact B|]. destruct r as [|c r]; [exact C|].
    rewrite <- attr_symbol_ok. destruct C as [C [D|[k [x [D [E F]]]]]]; (split; [exact C|]); [left; exact D|].
    right. exists k, x. rewrite <- slot_symbol_ok. auto.
Qed.

(** Two decompositions around the first character outside a class agree. *)
Lemma span_unique : forall (f : N -> bool) a c r w d u,
  forallb f a = true -> f c = false -> forallb f w = true -> f d = false ->
  a ++ c :: r = w ++ d :: u -> a = w /\ c = d /\ r = u.
Proof.
  induction a as [|x a IH]; intros c r [|y w] d u Ha Hc Hw Hd E; cbn in *.
  - injection E as -> ->. auto.
  - injection E as -> ->. apply andb_true_iff in Hw. destruct Hw; congruence.
  - injection E as -> _. apply andb_true_iff in Ha. destruct Ha; congruence.
  - injection E as -> E. apply andb_true_iff in Ha, Hw.
    destruct (IH c r w d u) as [-> [-> ->]]; tauto.
Qed.

Lemma rr_no_at : forall c s, c <> c_at -> rmatch reference_replacer (c :: s) = None.
Proof.
  intros c s H. apply rmatch_head_none; [cbn; lia|]. cbn. apply is_char_neq. congruence.
Qed.

Lemma rr_skip_text : forall s t, ~ In c_at s ->
  re_scan reference_replacer (s ++ t) = map inl s ++ re_scan reference_replacer t.
Proof.
  intros s t H. apply re_scan_skip_app. intros a b E Hb. destruct b as [|c b]; [congruence|].
  apply rr_no_at. intros ->. apply H. rewrite E. apply in_or_app; right; left; reflexivity.
Qed.

Lemma rr_nil : re_scan reference_replacer [] = [].
Proof. reflexivity. Qed.

Lemma attr_char_not_at : attr_char c_at = false. Proof. reflexivity. Qed.
Lemma attr_char_not_equal : attr_char c_equal = false. Proof. reflexivity. Qed.
Lemma slot_char_not_at : slot_char c_at = false. Proof. reflexivity. Qed.

Lemma attr_text_no_at : forall a, attr_text_m a -> ~ In c_at a.
Proof. intros a H Hi. apply H in Hi. rewrite attr_char_not_at in Hi. discriminate. Qed.

Lemma write_pieces_head : forall l, match write_pieces l with [] => True | c :: _ => c = c_at end.
Proof. intros [|[[a q|a r] t] l]; cbn; exact I || reflexivity. Qed.

Lemma rr_slot : forall a q t, a <> [] -> attr_text_m a -> slot_text_m q -> 3 <= length q <= 6 ->
  (length q = 6 \/ match t with [] => True | c :: _ => slot_char c = false end) ->
  re_scan reference_replacer ([c_at] ++ a ++ [c_equal] ++ q ++ t)
  = inr [[c_at]; a; [c_equal]; q] :: re_scan reference_replacer t.
Proof.
  intros a q t Ha Hat Hq Hlen Hmax.
  replace ([c_at] ++ a ++ [c_equal] ++ q ++ t) with (concat [[c_at]; a; [c_equal]; q] ++ t)
    by (cbn [concat]; rewrite <- ?app_assoc; cbn [app]; rewrite <- ?app_assoc; reflexivity).
  apply re_scan_match; [|discriminate]. apply rmatch_max.
  cbn [pieces_max reference_replacer concat app]. repeat split; cbn; try lia; try (left; reflexivity).
  - apply forallb_In; exact Hat.
  - destruct a; [congruence|cbn; lia].
  - right. reflexivity.
  - apply forallb_In; exact Hq.
  - destruct Hmax as [E|H]; [left; cbn; f_equal; lia|right; exact H].
Qed.

Lemma rr_fixed : forall a r t, attr_text_m a -> ~ In c_at r ->
  match r with
  | [] => False
  | c :: r' => attr_char c = false /\
      (c <> c_equal \/ exists k x, k < 3 /\ nth_error r' k = Some x /\ slot_char x = false)
  end ->
  re_scan reference_replacer ([c_at] ++ a ++ r ++ t)
  = map inl ([c_at] ++ a ++ r) ++ re_scan reference_replacer t.
Proof.
  intros a r t Ha Hr Hd.
  replace ([c_at] ++ a ++ r ++ t) with (([c_at] ++ a ++ r) ++ t)
    by (cbn [app]; rewrite <- ?app_assoc; reflexivity).
  apply re_scan_skip_app. intros p b E Hb. destruct p as [|c p].
  - cbn [app] in E. subst b. cbn [app]. apply rmatch_none. intros ws u Eu Hok.
    inversion Hok as [|? w0 ? ws0 H0 Hok0]; subst. inversion Hok0 as [|? w1 ? ws1 H1 Hok1]; subst.
    inversion Hok1 as [|? w2 ? ws2 H2 Hok2]; subst. inversion Hok2 as [|? w3 ? ws3 H3 Hok3]; subst.
    inversion Hok3; subst.
    destruct H0 as [_ [L0 U0]]; cbn in L0, U0. destruct w0 as [|x0 [|? ?]]; cbn in L0, U0; try lia.
    destruct H2 as [A2 [L2 U2]]; cbn in L2, U2. destruct w2 as [|x2 [|? ?]]; cbn in L2, U2; try lia.
    cbn in A2. rewrite andb_true_r in A2. unfold is_char in A2. apply N.eqb_eq in A2. subst x2.
    cbn in Eu. injection Eu as _ Eu. rewrite <- !app_assoc in Eu. cbn in Eu.
    destruct r as [|c r']; [contradiction|]. destruct Hd as [Hc Hd].
    destruct H1 as [A1 _]. cbn in A1.
    cbn [app] in Eu.
    rewrite app_nil_r in Eu.
    destruct (span_unique attr_char a c (r' ++ t) w1 c_equal (w3 ++ u)) as [-> [-> Er]];
      [apply forallb_In; exact Ha|exact Hc|exact A1|reflexivity|exact Eu|].
    destruct Hd as [Hd|[k [x [Hk [Hx Hs]]]]]; [congruence|].
    destruct H3 as [A3 [L3 _]]. cbn in L3, A3.
    assert (Hin : nth_error (r' ++ t) k = Some x).
    { rewrite nth_error_app1; [exact Hx|]. apply nth_error_Some. congruence. }
    rewrite Er, nth_error_app1 in Hin by lia.
    apply nth_error_In in Hin. rewrite (proj1 (forallb_In _ _) A3 x Hin) in Hs. discriminate.
  - cbn [app] in E. injection E as _ E. destruct b as [|d b]; [congruence|].
    apply rr_no_at. intros ->.
    assert (Hi : In c_at (a ++ r)) by (rewrite E; apply in_or_app; right; left; reflexivity).
    apply in_app_or in Hi. destruct Hi as [Hi|Hi]; [|tauto]. revert Hi; apply attr_text_no_at; exact Ha.
Qed.

(** The scan of a written pattern. *)
Fixpoint piece_segs (l : list (piece * str)) : list (N + list str) :=
  match l with
  | [] => []
  | (Slot a q, t) :: l' => inr [[c_at]; a; [c_equal]; q] :: map inl t ++ piece_segs l'
  | (Fixed a r, t) :: l' => map inl ([c_at] ++ a ++ r) ++ map inl t ++ piece_segs l'
  end.

Lemma rr_pieces : forall l, Forall wf_piece_m l ->
  re_scan reference_replacer (write_pieces l) = piece_segs l.
Proof.
  induction l as [|[[a q|a r] t] l IH]; intros H; [reflexivity|..];
    inversion H as [|? ? Hp Hl]; subst; destruct Hp as [Ht Hp]; cbn [fst snd] in *; specialize (IH Hl);
    cbn [write_pieces flat_map piece_segs fst snd write_piece]; fold (write_pieces l).
  - destruct Hp as [H1 [H2 [H3 [H4 H5]]]].
    replace ((([c_at] ++ a ++ [c_equal] ++ q) ++ t) ++ write_pieces l)
      with ([c_at] ++ a ++ [c_equal] ++ q ++ (t ++ write_pieces l))
      by (cbn [app]; rewrite <- ?app_assoc; cbn [app]; rewrite <- ?app_assoc; reflexivity).
    rewrite rr_slot; try assumption.
    + rewrite rr_skip_text by exact Ht. rewrite IH. reflexivity.
    + destruct H5 as [H5|H5]; [left; exact H5|right]. destruct t as [|c t]; [|exact H5].
      cbn. pose proof (write_pieces_head l) as HW. destruct (write_pieces l); [exact I|].
      rewrite HW; reflexivity.
  - destruct Hp as [H1 [H2 H3]].
    replace ((([c_at] ++ a ++ r) ++ t) ++ write_pieces l) with ([c_at] ++ a ++ r ++ (t ++ write_pieces l))
      by (cbn [app]; rewrite <- ?app_assoc; reflexivity).
    rewrite rr_fixed by assumption. rewrite rr_skip_text by exact Ht. rewrite IH. reflexivity.
Qed.

Lemma rr_pattern : forall t l, ~ In c_at t -> Forall wf_piece_m l ->
  re_scan reference_replacer (t ++ write_pieces l) = map inl t ++ piece_segs l.
Proof. intros t l Ht Hl. rewrite rr_skip_text by exact Ht. rewrite rr_pieces by exact Hl. reflexivity. Qed.

Lemma fill_scan_text : forall t segs it,
  fill_scan (map inl t ++ segs) it = (x <- fill_scan segs it ;; Ok (t ++ x)).
Proof.
  induction t as [|c t IH]; intros segs it; cbn [map app fill_scan].
  - destruct (fill_scan segs it); reflexivity.
  - rewrite IH. destruct (fill_scan segs it); reflexivity.
Qed.

Lemma fill_pieces : forall l it,
  fill_scan (piece_segs l) it =
    if Nat.leb (slots l) (length it) then Ok (filled l it) else Err StopIteration.
Proof.
  induction l as [|[[a q|a r] t] l IH]; intros it; [reflexivity|..]; cbn [piece_segs].
  - unfold slots in *. cbn [fill_scan filter fst length].
    destruct it as [|[v|] it]; cbn [length Nat.leb filled tl]; [reflexivity|..];
      rewrite fill_scan_text, IH;
      destruct (Nat.leb (length (filter _ l)) (length it)); cbn [bind]; try reflexivity.
    f_equal. unfold rr_group1; cbn [nth lit]. cbn [app]. rewrite <- ?app_assoc. cbn [app]. rewrite <- ?app_assoc. reflexivity.
  - rewrite !fill_scan_text, IH. unfold slots; cbn [filter fst].
    destruct (Nat.leb (length (filter _ l)) (length it)); cbn [bind]; [|reflexivity].
    f_equal. cbn [filled app]. rewrite <- ?app_assoc. reflexivity.
Qed.

Lemma fill_list_spec : forall t l comps, ~ In c_at t -> Forall wf_piece l ->
  fill (Some (t ++ write_pieces l)) (FList comps) =
    if Nat.leb (slots l) (length comps) then Ok (t ++ filled l comps) else Err StopIteration.
Proof.
  intros t l comps Ht Hl. unfold fill. rewrite rr_pattern by (try apply wf_piece_m_of; assumption).
  rewrite fill_scan_text, fill_pieces. destruct (Nat.leb _ _); reflexivity.
Qed.

Lemma sub_pieces : forall l,
  flat_map (fun x : N + list str => match x with inr ws => rr_group1 ws | inl c => [c] end) (piece_segs l)
  = filled l [].
Proof.
  induction l as [|[[a q|a r] t] l IH]; [reflexivity|..]; cbn [piece_segs filled tl].
  - cbn [flat_map]. rewrite flat_map_app, flat_map_inl_id, IH. reflexivity.
  - rewrite !flat_map_app, !flat_map_inl_id, IH. cbn [app]. rewrite <- ?app_assoc. reflexivity.
Qed.

Lemma fill_none_spec : forall t l, ~ In c_at t -> Forall wf_piece l ->
  fill (Some (t ++ write_pieces l)) FNone = Ok (t ++ filled l []).
Proof.
  intros t l Ht Hl. unfold fill, re_sub. rewrite rr_pattern by (try apply wf_piece_m_of; assumption).
  rewrite flat_map_app, flat_map_inl_id, sub_pieces. reflexivity.
Qed.

Lemma fill_ref_spec : forall rd r, fill rd (FRef r) = fill rd (FList (map Some (id_list (r_start r)))).
Proof. intros [rd|] r; reflexivity. Qed.

(** ** Numbering *)

Lemma find_char_app : forall c p s, ~ In c p -> find_char c (p ++ c :: s) = Some (length p).
Proof.
  induction p as [|x p IH]; intros s H; cbn.
  - rewrite N.eqb_refl; reflexivity.
  - destruct (N.eqb_spec x c); [exfalso; apply H; left; assumption|]. rewrite IH; [reflexivity|].
    intros Hi; apply H; right; exact Hi.
Qed.
Lemma find_char_none : forall c s, ~ In c s -> find_char c s = None.
Proof.
  induction s as [|x s IH]; intros H; cbn; [reflexivity|].
  destruct (N.eqb_spec x c); [exfalso; apply H; left; assumption|].
  rewrite IH; [reflexivity|]. intros Hi; apply H; right; exact Hi.
Qed.

Lemma str_of_nat_digits : forall n, forallb is_digit (str_of_nat n) = true.
Proof. intros; apply str_of_N_digits. Qed.
Lemma digits_not_In : forall c s, is_digit c = false -> forallb is_digit s = true -> ~ In c s.
Proof. intros c s Hc Hs Hi. rewrite (proj1 (forallb_In _ _) Hs c Hi) in Hc. discriminate. Qed.

Lemma skipn_past : forall (c : N) p s, skipn (S (length p)) (p ++ c :: s) = s.
Proof. induction p as [|x p IH]; intros s; [reflexivity|]. cbn [length app]. exact (IH s). Qed.

Lemma number_loop_spec : forall s p ii, ~ In c_qmark p ->
  number_loop (count c_qmark s) ii (p ++ s) = p ++ numbered ii s.
Proof.
  induction s as [|c s IH]; intros p ii Hp; cbn [count numbered].
  - unfold number_loop. rewrite app_nil_r, find_char_none by exact Hp. reflexivity.
  - destruct (N.eqb_spec c c_qmark) as [->|Hc].
    + cbn [number_loop]. rewrite find_char_app by exact Hp.
      rewrite firstn_app_exact.
      rewrite skipn_past.
      replace (p ++ [c_dollar] ++ str_of_nat ii ++ s) with ((p ++ [c_dollar] ++ str_of_nat ii) ++ s)
        by (rewrite <- !app_assoc; reflexivity).
      rewrite IH.
      * rewrite <- !app_assoc. reflexivity.
      * intros Hi. apply in_app_or in Hi. destruct Hi as [Hi|Hi]; [tauto|].
        destruct Hi as [Hi|Hi]; [discriminate|]. revert Hi. apply digits_not_In; [reflexivity|apply str_of_nat_digits].
    + replace (p ++ c :: s) with ((p ++ [c]) ++ s) by (rewrite <- app_assoc; reflexivity).
      rewrite IH; [rewrite <- app_assoc; reflexivity|].
      intros Hi. apply in_app_or in Hi. destruct Hi as [Hi|[Hi|[]]]; [tauto|congruence].
Qed.

Lemma number_slots_spec : forall s, number_slots s = numbered 1 s.
Proof. intros s. apply (number_loop_spec s [] 1). intros []. Qed.

Lemma numbered_app : forall a b i, numbered i (a ++ b) = numbered i a ++ numbered (i + count c_qmark a) b.
Proof.
  induction a as [|c a IH]; intros b i; cbn [app numbered count].
  - rewrite Nat.add_0_r; reflexivity.
  - destruct (N.eqb_spec c c_qmark); rewrite IH.
    + cbn [app]. rewrite <- ?app_assoc. rewrite Nat.add_succ_r. reflexivity.
    + reflexivity.
Qed.

Lemma numbered_no_slot : forall s i, ~ In c_qmark s -> numbered i s = s.
Proof.
  induction s as [|c s IH]; intros i H; cbn; [reflexivity|].
  destruct (N.eqb_spec c c_qmark); [exfalso; apply H; left; assumption|].
  rewrite IH; [reflexivity|]. intros Hi; apply H; right; exact Hi.
Qed.

Lemma count_dollar_numbered : forall s i, ~ In c_dollar s -> count c_dollar (numbered i s) = count c_qmark s.
Proof.
  induction s as [|c s IH]; intros i H; [reflexivity|]. cbn [numbered count].
  assert (Hs : ~ In c_dollar s) by (intros Hi; apply H; right; exact Hi).
  destruct (N.eqb_spec c c_qmark) as [->|Hc].
  - cbn [app count]. rewrite N.eqb_refl. rewrite count_app, IH by exact Hs.
    rewrite (proj2 (count_0_mem _ _)); [reflexivity|]. apply not_In_mem.
    apply digits_not_In; [reflexivity|apply str_of_nat_digits].
  - cbn [count]. destruct (N.eqb_spec c c_dollar) as [->|]; [exfalso; apply H; left; reflexivity|].
    apply IH; exact Hs.
Qed.

(** ** Removing the numbers *)

Lemma numbered_head_digit : forall s i,
  match s with d :: _ => is_digit d = false | [] => True end ->
  match numbered i s with d :: _ => is_digit d = false | [] => True end.
Proof.
  intros [|c s] i H; cbn; [exact I|]. destruct (N.eqb c c_qmark); [reflexivity|exact H].
Qed.

Lemma unnumber_numbered : forall s i, ~ In c_dollar s -> no_digit_after_slot s ->
  unnumber (numbered i s) = s.
Proof.
  unfold unnumber, re_sub.
  induction s as [|c s IH]; intros i H Hn; [reflexivity|]. cbn [numbered].
  assert (Hs : ~ In c_dollar s) by (intros Hi; apply H; right; exact Hi).
  destruct Hn as [Hd Hn].
  destruct (N.eqb_spec c c_qmark) as [->|Hc].
  - replace ([c_dollar] ++ str_of_nat i ++ numbered (S i) s)
      with (concat [[c_dollar]; str_of_nat i] ++ numbered (S i) s)
      by (cbn [concat app]; rewrite app_nil_r; reflexivity).
    rewrite (re_scan_match refsdecl_replacer _ [[c_dollar]; str_of_nat i] (numbered (S i) s)).
    + cbn [flat_map app]. rewrite IH by assumption. reflexivity.
    + apply rmatch_max. cbn [pieces_max refsdecl_replacer]. repeat split; cbn; try lia; try (left; reflexivity).
      * apply str_of_nat_digits.
      * pose proof (str_of_N_nonnil (N.of_nat i)) as Hx. unfold str_of_nat. destruct (str_of_N (N.of_nat i)); [congruence|cbn; lia].
      * right. cbn. apply numbered_head_digit. apply Hd; reflexivity.
    + discriminate.
  - rewrite re_scan_skip.
    + cbn [flat_map app]. rewrite IH by assumption. reflexivity.
    + apply rmatch_head_none; [cbn; lia|]. cbn. apply is_char_neq. intros <-. apply H; left; reflexivity.
Qed.

(** ** Splitting into steps *)

Lemma step_char_not_slash : step_char c_slash = false. Proof. reflexivity. Qed.

Definition wf_numbered_step (st : nat * str) : Prop :=
  1 <= fst st /\ snd st <> [] /\ forallb step_char (snd st) = true.

Lemma splitter_step : forall n b t, 1 <= n -> b <> [] -> forallb step_char b = true ->
  match t with c :: _ => step_char c = false | [] => True end ->
  re_scan refsdecl_splitter (repeat c_slash n ++ b ++ t)
  = inr [repeat c_slash n; b] :: re_scan refsdecl_splitter t.
Proof.
  intros n b t Hn Hb Hs Ht.
  replace (repeat c_slash n ++ b ++ t) with (concat [repeat c_slash n; b] ++ t)
    by (cbn [concat]; rewrite app_nil_r, <- app_assoc; reflexivity).
  apply re_scan_match.
  - apply rmatch_max. cbn [pieces_max refsdecl_splitter concat]. rewrite app_nil_r.
    split; [|split; [|split; [|split; [|exact I]]]].
    + split; [|split; [|exact I]].
      * apply forallb_In. intros c Hc. apply repeat_spec in Hc. subst c. reflexivity.
      * cbn. rewrite repeat_length; exact Hn.
    + right. destruct b as [|c b]; [congruence|]. cbn. apply is_char_neq. intros <-.
      cbn [forallb] in Hs. rewrite step_char_not_slash in Hs. discriminate.
    + split; [exact Hs|split; [|exact I]]. cbn. destruct b; [congruence|cbn; lia].
    + right. exact Ht.
  - destruct n; [lia|discriminate].
Qed.

Lemma splitter_steps : forall l, Forall wf_numbered_step l ->
  re_findall refsdecl_splitter (write_steps l) = map (fun st => [repeat c_slash (fst st); snd st]) l.
Proof.
  unfold re_findall.
  induction l as [|[n b] l IH]; intros H; [reflexivity|]. inversion H as [|? ? Hp Hl]; subst.
  destruct Hp as [H1 [H2 H3]]. cbn [fst snd] in *. unfold write_steps; cbn [flat_map]; fold (write_steps l).
  unfold write_step at 1; cbn [fst snd]. rewrite <- app_assoc.
  rewrite splitter_step; try assumption.
  - cbn [flat_map map fst snd app]. rewrite IH by exact Hl. reflexivity.
  - destruct l as [|[m d] l]; [exact I|]. inversion Hl as [|? ? Hp _]; subst. destruct Hp as [Hm _]. cbn in Hm |- *.
    destruct m; [lia|]. reflexivity.
Qed.

(** Numbering a list of steps. *)
Fixpoint number_steps (i : nat) (l : list (nat * str)) : list (nat * str) :=
  match l with
  | [] => []
  | (n, b) :: l' => (n, numbered i b) :: number_steps (i + count c_qmark b) l'
  end.

Lemma write_step_numbered : forall n b i, numbered i (write_step (n, b)) = write_step (n, numbered i b).
Proof.
  intros n b i. unfold write_step; cbn [fst snd]. rewrite numbered_app.
  assert (Hq : ~ In c_qmark (repeat c_slash n)).
  { intros Hi. apply repeat_spec in Hi. discriminate. }
  rewrite numbered_no_slot by exact Hq.
  rewrite (proj2 (count_0_mem _ _)) by (apply not_In_mem; exact Hq). rewrite Nat.add_0_r. reflexivity.
Qed.

Lemma count_write_step : forall n b, count c_qmark (write_step (n, b)) = count c_qmark b.
Proof.
  intros. unfold write_step; cbn [fst snd]. rewrite count_app.
  rewrite (proj2 (count_0_mem _ _)); [reflexivity|]. apply not_In_mem. intros Hi. apply repeat_spec in Hi. discriminate.
Qed.

Lemma write_number_steps : forall l i, numbered i (write_steps l) = write_steps (number_steps i l).
Proof.
  induction l as [|[n b] l IH]; intros i; [reflexivity|].
  cbn [write_steps flat_map number_steps]. fold (write_steps l). fold (write_steps (number_steps (i + count c_qmark b) l)).
  rewrite numbered_app, write_step_numbered, count_write_step, IH. reflexivity.
Qed.

Lemma number_steps_app : forall l m i,
  number_steps i (l ++ m) = number_steps i l ++ number_steps (i + count c_qmark (write_steps l)) m.
Proof.
  induction l as [|[n b] l IH]; intros m i; cbn [app number_steps].
  - cbn. rewrite Nat.add_0_r; reflexivity.
  - rewrite IH. cbn [write_steps flat_map]. fold (write_steps l). rewrite count_app, count_write_step, Nat.add_assoc.
    reflexivity.
Qed.

Lemma numbered_step_chars : forall b i,
  (forall c, In c b -> c <> c_dollar /\ (c = c_qmark \/ step_symbol c = true)) ->
  forallb step_char (numbered i b) = true.
Proof.
  induction b as [|c b IH]; intros i H; [reflexivity|]. cbn [numbered].
  destruct (N.eqb_spec c c_qmark) as [->|Hc].
  - rewrite !forallb_app. rewrite IH by (intros; apply H; right; assumption).
    rewrite andb_true_r. cbn [forallb]. rewrite andb_true_r. cbn.
    apply forallb_In. intros d Hd. pose proof (proj1 (forallb_In _ _) (str_of_nat_digits i) d Hd) as Hdg.
    unfold step_char. rewrite Hdg. apply orb_true_r.
  - cbn [forallb]. rewrite IH by (intros; apply H; right; assumption). rewrite andb_true_r.
    destruct (H c (or_introl eq_refl)) as [_ [E|E]]; [congruence|]. rewrite <- step_symbol_ok; exact E.
Qed.

Lemma numbered_nonnil : forall b i, b <> [] -> numbered i b <> [].
Proof. intros [|c b] i H; [congruence|]. cbn. destruct (N.eqb c c_qmark); discriminate. Qed.

Lemma number_steps_wf : forall l i, Forall wf_step l -> Forall wf_numbered_step (number_steps i l).
Proof.
  induction l as [|[n b] l IH]; intros i H; [constructor|]. inversion H as [|? ? Hp Hl]; subst.
  destruct Hp as [H1 [H2 [H3 H4]]]. cbn [fst snd] in *. constructor; [|apply IH; exact Hl].
  repeat split; cbn [fst snd]; [exact H1|apply numbered_nonnil; exact H2|apply numbered_step_chars; exact H3].
Qed.

Lemma wf_steps_no_dollar : forall l, Forall wf_step l -> ~ In c_dollar (write_steps l).
Proof.
  intros l H Hi. apply in_flat_map in Hi. destruct Hi as [[n b] [Hst Hi]].
  rewrite Forall_forall in H. destruct (H _ Hst) as [_ [_ [H3 _]]]. unfold write_step in Hi; cbn [fst snd] in *.
  apply in_app_or in Hi. destruct Hi as [Hi|Hi]; [apply repeat_spec in Hi; discriminate|].
  destruct (H3 _ Hi) as [Hx _]; congruence.
Qed.

Lemma ndas_app : forall a b, no_digit_after_slot a -> no_digit_after_slot b ->
  match b with d :: _ => is_digit d = false | [] => True end ->
  no_digit_after_slot (a ++ b).
Proof.
  induction a as [|c a IH]; intros b Ha Hb Hh; [exact Hb|]. destruct Ha as [H1 H2]. cbn. split.
  - intros E. specialize (H1 E). destruct a as [|d a]; [exact Hh|exact H1].
  - apply IH; assumption.
Qed.

Lemma ndas_slashes : forall n b, no_digit_after_slot b -> no_digit_after_slot (repeat c_slash n ++ b).
Proof.
  induction n as [|n IH]; intros b H; [exact H|]. cbn. split; [discriminate|]. apply IH; exact H.
Qed.

Lemma ndas_steps : forall l, Forall wf_step l -> no_digit_after_slot (write_steps l).
Proof.
  induction l as [|[n b] l IH]; intros H; [exact I|]. inversion H as [|? ? Hp Hl]; subst.
  destruct Hp as [H1 [H2 [H3 H4]]]. cbn [fst snd] in *. cbn [write_steps flat_map]. fold (write_steps l).
  apply ndas_app.
  - apply ndas_slashes; exact H4.
  - apply IH; exact Hl.
  - destruct l as [|[m d] l]; [exact I|]. inversion Hl as [|? ? Hp _]; subst. destruct Hp as [Hm _]. cbn in Hm |- *.
    destruct m; [lia|]. reflexivity.
Qed.

Lemma concat_step_pieces : forall l,
  map (@concat N) (map (fun st : nat * str => [repeat c_slash (fst st); snd st]) l) = map write_step l.
Proof.
  induction l as [|[n b] l IH]; [reflexivity|]. cbn [map concat fst snd]. rewrite IH, app_nil_r. reflexivity.
Qed.

Lemma parse_scope_numbered : forall before last,
  Forall wf_step before -> wf_step last ->
  parse_xpath_scope (Some (numbered 1 (write_steps (before ++ [last])))) =
    Ok (write_steps before, write_step last).
Proof.
  intros before [n b] Hb Hl. unfold parse_xpath_scope.
  rewrite write_number_steps, splitter_steps
    by (apply number_steps_wf; apply Forall_app; split; [exact Hb|constructor; [exact Hl|constructor]]).
  rewrite concat_step_pieces, number_steps_app, map_app, rev_app_distr. cbn [number_steps map rev app].
  rewrite rev_involutive. rewrite <- flat_map_concat_map. fold (write_steps (number_steps 1 before)).
  rewrite <- write_number_steps, <- write_step_numbered.
  rewrite unnumber_numbered by (apply wf_steps_no_dollar || apply ndas_steps; exact Hb).
  assert (Hl1 : Forall wf_step [(n, b)]) by (constructor; [exact Hl|constructor]).
  replace (write_step (n, b)) with (write_steps [(n, b)]) by (cbn; apply app_nil_r).
  rewrite unnumber_numbered by (apply wf_steps_no_dollar || apply ndas_steps; exact Hl1).
  reflexivity.
Qed.

Lemma scope_round_trip : forall before last,
  Forall wf_step before -> wf_step last ->
  let rd := numbered 1 (write_steps (before ++ [last])) in
  exists scope xpath,
    parse_xpath_scope (Some rd) = Ok (scope, xpath) /\
    scope = write_steps before /\ xpath = write_step last /\
    number_slots (scope ++ xpath) = rd.
Proof.
  intros before last Hb Hl rd. exists (write_steps before), (write_step last).
  split; [apply parse_scope_numbered; assumption|]. split; [reflexivity|]. split; [reflexivity|].
  rewrite number_slots_spec. unfold rd, write_steps. rewrite flat_map_app. cbn [flat_map]. rewrite app_nil_r. reflexivity.
Qed.

Lemma setters_spec : forall before last v,
  Forall wf_step before -> wf_step last ->
  let rd := Some (numbered 1 (write_steps (before ++ [last]))) in
  set_xpath (Some v) rd = Ok (Some (numbered 1 (write_steps before ++ v))) /\
  set_scope (Some v) rd = Ok (Some (numbered 1 (v ++ write_step last))) /\
  set_xpath None rd = Ok rd /\ set_scope None rd = Ok rd.
Proof.
  intros before last v Hb Hl rd. unfold set_xpath, set_scope.
  assert (Ht : truthy_opt rd = true).
  { unfold rd; cbn [truthy_opt]. apply truthy_spec. apply numbered_nonnil. unfold write_steps. rewrite flat_map_app.
    destruct last as [n b]. destruct Hl as [_ [Hx _]]; cbn [snd] in Hx. cbn [flat_map]. rewrite app_nil_r. unfold write_step; cbn [fst snd].
    intros E. apply app_eq_nil in E. destruct E as [_ E]. apply app_eq_nil in E. destruct E as [_ E]. congruence. }
  rewrite Ht. unfold rd. rewrite parse_scope_numbered by assumption. cbn [bind]. rewrite !number_slots_spec. auto.
Qed.

Lemma init_numbered : forall scope xpath rd, scope <> [] -> xpath <> [] ->
  init_refsdecl (Some scope) (Some xpath) rd = Some (numbered 1 (scope ++ xpath)).
Proof.
  intros scope xpath rd H1 H2. unfold init_refsdecl.
  rewrite (proj2 (truthy_spec _) H1), (proj2 (truthy_spec _) H2). cbn. rewrite number_slots_spec. reflexivity.
Qed.

(** ** The attribute of the last slot *)

Lemma scan_last : forall rest v ws t,
  Forall (fun it => i_cls it c_at = false) rest ->
  let items := one (is_char c_at) :: rest in
  rmatch items (c_at :: v) = Some (ws, t) -> re_findall items t = [] ->
  forall n s, length s <= n ->
  exists l, re_findall items (s ++ c_at :: v) = l ++ [ws].
Proof.
  intros rest v ws t Hrest items Hm Ht.
  assert (Hne : forall x u, rmatch items x = Some u -> concat (fst u) <> [] /\
            exists w, concat (fst u) = c_at :: w /\ ~ In c_at w).
  { intros x [ws' u] E. apply rmatch_sound in E. destruct E as [_ E]. cbn [fst].
    inversion E as [|? w0 ? ws0 H0 H1]; subst. destruct H0 as [A0 [L0 U0]]; cbn in L0, U0.
    destruct w0 as [|c [|? ?]]; cbn in L0, U0; try lia. cbn in A0. rewrite andb_true_r in A0.
    apply is_char_spec in A0. subst c. cbn [concat app]. split; [discriminate|].
    exists (concat ws0). split; [reflexivity|]. clear - Hrest H1.
    induction H1 as [|it w rest ws [Hp _] H1 IH]; [intros []|]. inversion Hrest; subst.
    cbn. intros Hi. apply in_app_or in Hi. destruct Hi as [Hi|Hi]; [|apply IH; assumption].
    rewrite (proj1 (forallb_In _ _) Hp _ Hi) in H2. discriminate. }
  induction n as [|n IH]; intros s Hs.
  - destruct s; [|cbn in Hs; lia]. exists []. cbn [app]. unfold re_findall.
    rewrite (re_scan_match items _ ws t Hm) by (apply (Hne _ _ Hm)). cbn [flat_map app].
    f_equal. exact Ht.
  - destruct s as [|c s].
    + exists []. cbn [app]. unfold re_findall.
      rewrite (re_scan_match items _ ws t Hm) by (apply (Hne _ _ Hm)). cbn [flat_map app].
      f_equal. exact Ht.
    + destruct (rmatch items ((c :: s) ++ c_at :: v)) as [[ws' u]|] eqn:E.
      * destruct (Hne _ _ E) as [Hc [w [Ew Hw]]]. cbn [fst] in *.
        pose proof (proj1 (rmatch_sound _ _ _ _ E)) as Eu. rewrite Ew in Eu. cbn in Eu.
        injection Eu as -> Eu.
        assert (Hp : exists s', s = w ++ s' /\ u = s' ++ c_at :: v).
        { clear - Eu Hw. revert s Eu. induction w as [|x w IHw]; intros s Eu.
          - exists s. cbn in Eu. auto.
          - destruct s as [|y s]; cbn in Eu; injection Eu as Ey Eu.
            + exfalso; apply Hw; left; congruence.
            + destruct (IHw (fun h => Hw (or_intror h)) s Eu) as [s' [-> ->]]. exists s'. subst y. auto. }
        destruct Hp as [s' [-> ->]]. cbn in Hs. rewrite app_length in Hs.
        destruct (IH s') as [l Hl]; [lia|].
        exists (ws' :: l). unfold re_findall in *. rewrite (re_scan_match items _ ws' (s' ++ c_at :: v) E) by exact Hc.
        cbn [flat_map app]. rewrite Hl. reflexivity.
      * cbn in Hs. destruct (IH s) as [l Hl]; [lia|]. exists l. cbn [app] in E |- *.
        unfold re_findall in *. rewrite (re_scan_skip items _ _ E). cbn [flat_map app]. exact Hl.
Qed.

Lemma pieces_max_app : forall i1 w1 i2 w2 t,
  pieces_max i1 w1 (concat w2 ++ t) -> pieces_max i2 w2 t -> pieces_max (i1 ++ i2) (w1 ++ w2) t.
Proof.
  induction i1 as [|it i1 IH]; intros [|w w1] i2 w2 t H1 H2; cbn in *; try contradiction; [exact H2|].
  destruct H1 as [Ha [Hb Hc]]. split; [exact Ha|]. split; [|apply IH; assumption].
  rewrite concat_app, <- app_assoc. exact Hb.
Qed.

Lemma pieces_max_literal : forall s t,
  pieces_max (map (fun d => one (is_char d)) s) (map (fun d => [d]) s) t.
Proof.
  induction s as [|c s IH]; intros t; cbn; [exact I|]. split; [|split; [left; reflexivity|apply IH]].
  repeat split; cbn; try lia. rewrite andb_true_r. apply is_char_spec; reflexivity.
Qed.

Lemma concat_singletons : forall s : str, concat (map (fun d => [d]) s) = s.
Proof. induction s as [|c s IH]; cbn; [reflexivity|rewrite IH; reflexivity]. Qed.

Lemma quote_pieces : forall q t, quote_text q ->
  exists b c, q = b ++ [c] /\ is_quote c = true /\ (b = [] \/ b = [c_backslash]) /\
    pieces_max [opt (is_char c_backslash); one is_quote] [b; [c]] t.
Proof.
  intros q t [ -> | [ -> | [ -> | -> ]]];
    [exists [], c_quote | exists [], c_dquote
    | exists [c_backslash], c_quote | exists [c_backslash], c_dquote];
    (split; [reflexivity|]); (split; [reflexivity|]);
    (split; [first [left; reflexivity | right; reflexivity]|]);
    cbn [pieces_max concat app];
    (split; [repeat split; cbn; lia|]); (split; [first [left; reflexivity | right; reflexivity]|]);
    (split; [repeat split; cbn; lia|]); (split; [left; reflexivity|exact I]).
Qed.

Lemma findall_no_dollar : forall n u, ~ In c_dollar u -> re_findall (attribute_re n) u = [].
Proof.
  intros n u Hu. unfold re_findall. rewrite <- (app_nil_r u), re_scan_skip_app.
  - rewrite flat_map_app, flat_map_inl_nil. reflexivity.
  - intros a b E Hb. rewrite app_nil_r. destruct (rmatch (attribute_re n) b) as [[ws t]|] eqn:Em; [|reflexivity].
    exfalso. apply Hu. rewrite E. apply in_or_app; right.
    apply rmatch_sound in Em. destruct Em as [-> Hp]. apply in_or_app; left.
    unfold attribute_re in Hp. cbn [app] in Hp.
    inversion Hp as [|? w1 ? ws1 _ H1]; subst. inversion H1 as [|? w2 ? ws2 _ H2]; subst.
    inversion H2 as [|? w3 ? ws3 _ H3]; subst. inversion H3 as [|? w4 ? ws4 _ H4]; subst.
    inversion H4 as [|? w5 ? ws5 _ H5]; subst. inversion H5 as [|? w6 ? ws6 H6 _]; subst.
    destruct H6 as [A [L U]]. cbn in L, U. destruct w6 as [|c [|? ?]]; cbn in L, U; try lia.
    cbn in A. rewrite andb_true_r in A. apply is_char_spec in A. subst c.
    cbn [concat]. do 5 (apply in_or_app; right). left; reflexivity.
Qed.

Lemma attribute_spec : forall pre a q1 n q2 post,
  name_text a -> quote_text q1 -> quote_text q2 -> ~ In c_dollar post ->
  let rd := pre ++ [c_at] ++ a ++ [c_equal] ++ q1 ++ [c_dollar] ++ str_of_nat n ++ q2 ++ post in
  count c_dollar rd = n -> attribute (Some rd) = Ok a.
Proof.
  intros pre a q1 n q2 post [Ha1 Ha2] Hq1 Hq2 Hpost rd Hn. unfold attribute. rewrite Hn.
  destruct (quote_pieces q2 post Hq2) as [b2 [c2 [E2 [Q2 [B2 P2]]]]].
  destruct (quote_pieces q1 ([c_dollar] ++ str_of_nat n ++ q2 ++ post) Hq1) as [b1 [c1 [E1 [Q1 [B1 P1]]]]].
  set (ws := [[c_at]; a; [c_equal]] ++ [b1; [c1]] ++ [[c_dollar]] ++ map (fun d => [d]) (str_of_nat n) ++ [b2; [c2]]).
  assert (Hc : concat ws ++ post = [c_at] ++ a ++ [c_equal] ++ q1 ++ [c_dollar] ++ str_of_nat n ++ q2 ++ post).
  { unfold ws. rewrite !concat_app, concat_singletons. cbn [concat]. rewrite E1, E2, ?app_nil_r, <- ?app_assoc. reflexivity. }
  assert (Hm : rmatch (attribute_re n) (concat ws ++ post) = Some (ws, post)).
  { apply rmatch_max. unfold attribute_re, ws.
    apply (pieces_max_app [one (is_char c_at); plus name_char; one (is_char c_equal)]
             [[c_at]; a; [c_equal]]
             ([opt (is_char c_backslash); one is_quote; one (is_char c_dollar)] ++ _)).
    - cbn. repeat split; auto; try lia; try (left; reflexivity).
      + apply forallb_In. intros c Hc'. unfold name_char. apply orb_true_iff. destruct (Ha2 c Hc') as [Hx| ->]; [left; exact Hx|right; reflexivity].
      + destruct a; [congruence|cbn; lia].
      + right; reflexivity.
    - apply (pieces_max_app [opt (is_char c_backslash); one is_quote] [b1; [c1]]
               ([one (is_char c_dollar)] ++ _)).
      + replace (concat ([[c_dollar]] ++ map (fun d => [d]) (str_of_nat n) ++ [b2; [c2]]) ++ post)
          with ([c_dollar] ++ str_of_nat n ++ q2 ++ post); [exact P1|].
        rewrite !concat_app, concat_singletons, E2. cbn [concat]. rewrite ?app_nil_r, <- ?app_assoc. reflexivity.
      + apply pieces_max_app.
        * cbn [pieces_max]. split; [repeat split; cbn; lia|]. split; [left; reflexivity|exact I].
        * apply pieces_max_app; [apply pieces_max_literal|exact P2]. }
  assert (Hitems : exists rest, attribute_re n = one (is_char c_at) :: rest /\
            Forall (fun it => i_cls it c_at = false) rest).
  { eexists. split; [unfold attribute_re; cbn [app]; reflexivity|].
    repeat (constructor; [reflexivity|]). apply Forall_app. split.
    - apply Forall_forall. intros it Hit. apply in_map_iff in Hit. destruct Hit as [d [<- Hd]]. cbn.
      apply is_char_neq. intros ->. revert Hd. apply digits_not_In; [reflexivity|apply str_of_nat_digits].
    - repeat (constructor; [reflexivity|]). constructor. }
  destruct Hitems as [rest [Er Hr]].   rewrite Hc, Er in Hm. cbn [app] in Hm.
  assert (Hf : re_findall (one (is_char c_at) :: rest) post = []) by (rewrite <- Er; apply findall_no_dollar; exact Hpost).
  destruct (scan_last rest _ ws post Hr Hm Hf (length pre) pre (le_n _)) as [l Hl].
  rewrite Er. unfold rd. cbn [app]. rewrite Hl, rev_app_distr. reflexivity.
Qed.

Lemma fill_list_cases : forall t l comps, ~ In c_at t -> Forall wf_piece l ->
  (slots l <= length comps ->
     fill (Some (t ++ write_pieces l)) (FList comps) = Ok (t ++ filled l comps)) /\
  (length comps < slots l ->
     fill (Some (t ++ write_pieces l)) (FList comps) = Err StopIteration).
Proof.
  intros t l comps Ht Hl. rewrite fill_list_spec by assumption.
  split; intros H; destruct (Nat.leb_spec (slots l) (length comps)); try reflexivity; lia.
Qed.

Lemma fill_reference : forall t l r, ~ In c_at t -> Forall wf_piece l ->
  slots l <= length (id_list (r_start r)) ->
  fill (Some (t ++ write_pieces l)) (FRef r) = Ok (t ++ filled l (map Some (id_list (r_start r)))).
Proof.
  intros t l r Ht Hl H. rewrite fill_ref_spec. apply fill_list_cases; try assumption. rewrite map_length. exact H.
Qed.

Lemma filled_none : forall l, filled l [] = filled l (repeat None (slots l)).
Proof.
  induction l as [|[[a q|a r] t] l IH]; [reflexivity|..]; unfold slots in *; cbn [filter fst length repeat filled tl]; rewrite IH; reflexivity.
Qed.

Lemma fill_none_repeat : forall t l, ~ In c_at t -> Forall wf_piece l ->
  fill (Some (t ++ write_pieces l)) FNone = Ok (t ++ filled l (repeat None (slots l))).
Proof. intros t l Ht Hl. rewrite <- filled_none. apply fill_none_spec; assumption. Qed.

Lemma views_round_trip : forall before last,
  Forall wf_step before -> wf_step last ->
  let rd := numbered 1 (write_steps (before ++ [last])) in
  exists scope xpath,
    parse_xpath_scope (Some rd) = Ok (scope, xpath) /\
    scope = write_steps before /\ xpath = write_step last /\
    (scope <> [] -> init_refsdecl (Some scope) (Some xpath) None = Some rd).
Proof.
  intros before last Hb Hl rd. destruct (scope_round_trip before last Hb Hl) as [s [x [A [B [C D]]]]].
  exists s, x. split; [exact A|]. split; [exact B|]. split; [exact C|]. intros Hs.
  rewrite init_numbered; [rewrite <- number_slots_spec, D; reflexivity|exact Hs|].
  rewrite C. destruct Hl as [_ [Hx _]]. unfold write_step. destruct (snd last); [congruence|]. destruct (repeat c_slash (fst last)); discriminate.
Qed.
