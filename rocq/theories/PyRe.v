(** The fragment of Python's [re] used by the code base: a pattern is a sequence
    of character classes, each with a greedy repetition count {lo,hi}; matching
    is by backtracking, longest repetition first.  This models the builtin
    module [re], not code of /repo; the patterns themselves are defined, with
    their citations, in the model files that use them. *)

From Coq Require Import List NArith Arith Bool Lia.
From Verif Require Import PyStr PyStrFacts.
Import ListNotations.

Record item := It { i_cls : N -> bool; i_lo : nat; i_hi : option nat }.

(** Number of leading characters of [s] in the class, at most [hi]. *)
Fixpoint span_len (cls : N -> bool) (s : str) : nat :=
  match s with
  | c :: s' => if cls c then S (span_len cls s') else 0
  | [] => 0
  end.

Definition span (it : item) (s : str) : nat :=
  match i_hi it with
  | Some h => Nat.min h (span_len (i_cls it) s)
  | None => span_len (i_cls it) s
  end.

(** Try [k] repetitions, then fewer, down to [lo]. *)
Fixpoint back (m : str -> option (list str * str)) (lo : nat) (s : str) (k : nat)
  : option (list str * str) :=
  match (if Nat.leb lo k then m (skipn k s) else None) with
  | Some (ws, t) => Some (firstn k s :: ws, t)
  | None => match k with 0 => None | S k' => back m lo s k' end
  end.

(** One match attempt at the start of [s]: the piece matched by each item and
    the rest of the string. *)
Fixpoint rmatch (items : list item) (s : str) : option (list str * str) :=
  match items with
  | [] => Some ([], s)
  | it :: rest => back (rmatch rest) (i_lo it) s (span it s)
  end.

(** [finditer]: the string cut into single characters that are not part of a
    match and matches (by their pieces).  An empty match advances by one
    character. *)
Fixpoint re_scan_fuel (fuel : nat) (items : list item) (s : str) : list (N + list str) :=
  match fuel with
  | 0 => []
  | S fuel' =>
      match rmatch items s with
      | Some (ws, t) =>
          if Nat.ltb (length t) (length s) then inr ws :: re_scan_fuel fuel' items t
          else inr ws :: match s with c :: s' => inl c :: re_scan_fuel fuel' items s' | [] => [] end
      | None => match s with c :: s' => inl c :: re_scan_fuel fuel' items s' | [] => [] end
      end
  end.

Definition re_scan (items : list item) (s : str) : list (N + list str) :=
  re_scan_fuel (S (length s)) items s.

(** [findall] (pieces) and [sub] with a replacement function. *)
Definition re_findall (items : list item) (s : str) : list (list str) :=
  flat_map (fun x => match x with inr ws => [ws] | inl _ => [] end) (re_scan items s).

Definition re_sub (items : list item) (f : list str -> str) (s : str) : str :=
  flat_map (fun x => match x with inr ws => f ws | inl c => [c] end) (re_scan items s).

(** Character classes. *)
Definition is_char (c : N) : N -> bool := N.eqb c.
Global Arguments is_char _ _ : simpl never.
Definition one (cls : N -> bool) : item := It cls 1 (Some 1).
Definition opt (cls : N -> bool) : item := It cls 0 (Some 1).
Definition plus (cls : N -> bool) : item := It cls 1 None.
Definition star (cls : N -> bool) : item := It cls 0 None.

(** [\s] for [str] patterns. *)
Definition is_space (c : N) : bool :=
  ((9 <=? c) && (c <=? 13) || (28 <=? c) && (c <=? 32) || (c =? 133) || (c =? 160) ||
   (c =? 5760) || (8192 <=? c) && (c <=? 8202) || (c =? 8232) || (c =? 8233) ||
   (c =? 8239) || (c =? 8287) || (c =? 12288))%N.

(** ** Facts *)

Definition piece_ok (it : item) (w : str) : Prop :=
  forallb (i_cls it) w = true /\ i_lo it <= length w /\
  match i_hi it with Some h => length w <= h | None => True end.

Lemma span_len_le : forall cls s, span_len cls s <= length s.
Proof. induction s as [|c s IH]; cbn; [lia|]. destruct (cls c); cbn; lia. Qed.

Lemma span_le : forall it s, span it s <= length s.
Proof. intros it s. unfold span. pose proof (span_len_le (i_cls it) s). destruct (i_hi it); lia. Qed.

Lemma span_hi : forall it s k, k <= span it s -> match i_hi it with Some h => k <= h | None => True end.
Proof. intros it s k H. unfold span in H. destruct (i_hi it); [lia|exact I]. Qed.

Lemma span_len_firstn : forall cls s k, k <= span_len cls s -> forallb cls (firstn k s) = true.
Proof.
  induction s as [|c s IH]; intros [|k] H; cbn in *; try reflexivity.
  destruct (cls c); [|lia]. cbn. apply IH; lia.
Qed.

Lemma span_firstn : forall it s k, k <= span it s -> forallb (i_cls it) (firstn k s) = true.
Proof.
  intros it s k H. apply span_len_firstn. unfold span in H. destruct (i_hi it); lia.
Qed.

Lemma back_sound : forall m lo s k ws t, back m lo s k = Some (ws, t) ->
  exists j ws', j <= k /\ lo <= j /\ ws = firstn j s :: ws' /\ m (skipn j s) = Some (ws', t).
Proof.
  intros m lo s k. induction k as [|k IH]; intros ws t; unfold back; fold back.
  - destruct (Nat.leb_spec lo 0); [|discriminate]. destruct (m (skipn 0 s)) as [[ws' t']|] eqn:E; [|discriminate].
    intros H0; injection H0 as <- <-. exists 0, ws'. auto.
  - destruct (Nat.leb_spec lo (S k)) as [Hlo|Hlo].
    + destruct (m (skipn (S k) s)) as [[ws' t']|] eqn:E.
      * intros H0; injection H0 as <- <-. exists (S k), ws'. auto.
      * intros H. destruct (IH ws t H) as [j [ws' [H1 [H2 H3]]]]. exists j, ws'. split; [lia|auto].
    + intros H. destruct (IH ws t H) as [j [ws' [H1 [H2 H3]]]]. exists j, ws'. split; [lia|auto].
Qed.

Lemma rmatch_sound : forall items s ws t, rmatch items s = Some (ws, t) ->
  s = concat ws ++ t /\ Forall2 piece_ok items ws.
Proof.
  induction items as [|it rest IH]; intros s ws t H; cbn [rmatch] in H.
  - injection H as <- <-. split; [reflexivity|constructor].
  - apply back_sound in H. destruct H as [j [ws' [H1 [H2 [-> H3]]]]]. apply IH in H3.
    destruct H3 as [E1 E2]. cbn [concat]. split.
    + rewrite <- app_assoc, <- E1. symmetry; apply firstn_skipn.
    + pose proof (span_le it s). constructor; [|exact E2]. split; [apply span_firstn; lia|].
      rewrite firstn_length_le by lia. split; [exact H2|]. apply (span_hi it s); lia.
Qed.

Lemma span_len_app : forall cls w t, forallb cls w = true ->
  match t with c :: _ => cls c = false | [] => True end ->
  span_len cls (w ++ t) = length w.
Proof.
  induction w as [|c w IH]; intros t Hw Ht; cbn.
  - destruct t as [|c t]; [reflexivity|]. cbn; rewrite Ht; reflexivity.
  - cbn in Hw. apply andb_true_iff in Hw. destruct Hw as [-> Hw]. rewrite IH by assumption. reflexivity.
Qed.

Lemma span_len_app_ge : forall cls w t, forallb cls w = true -> length w <= span_len cls (w ++ t).
Proof.
  induction w as [|c w IH]; intros t Hw; cbn; [lia|].
  cbn in Hw. apply andb_true_iff in Hw. destruct Hw as [-> Hw]. specialize (IH t Hw). lia.
Qed.

(** The piece cannot be extended: its count is at the maximum or the next
    character is outside the class. *)
Definition maximal (it : item) (w t : str) : Prop :=
  i_hi it = Some (length w) \/ match t with c :: _ => i_cls it c = false | [] => True end.

Fixpoint pieces_max (items : list item) (ws : list str) (t : str) : Prop :=
  match items, ws with
  | it :: items', w :: ws' =>
      piece_ok it w /\ maximal it w (concat ws' ++ t) /\ pieces_max items' ws' t
  | [], [] => True
  | _, _ => False
  end.

Lemma firstn_app_exact : forall A (w t : list A), firstn (length w) (w ++ t) = w.
Proof. intros. rewrite firstn_app, Nat.sub_diag, firstn_all. cbn. apply app_nil_r. Qed.
Lemma skipn_app_exact : forall A (w t : list A), skipn (length w) (w ++ t) = t.
Proof. intros. rewrite skipn_app, Nat.sub_diag, skipn_all. reflexivity. Qed.

Lemma rmatch_max : forall items ws t, pieces_max items ws t ->
  rmatch items (concat ws ++ t) = Some (ws, t).
Proof.
  induction items as [|it rest IH]; intros [|w ws] t H; cbn in H; try contradiction.
  - reflexivity.
  - destruct H as [[Hw [Hlo Hhi]] [Hmax H]].
    assert (Hs : span it ((w ++ concat ws) ++ t) = length w).
    { rewrite <- app_assoc. unfold span. destruct Hmax as [E|Hm].
      - rewrite E. pose proof (span_len_app_ge (i_cls it) w (concat ws ++ t) Hw). lia.
      - rewrite (span_len_app (i_cls it) w (concat ws ++ t) Hw Hm). destruct (i_hi it); lia. }
    cbn [concat rmatch]. rewrite Hs.
    assert (Hb : forall k, k = length w -> back (rmatch rest) (i_lo it) ((w ++ concat ws) ++ t) k = Some (w :: ws, t)).
    { intros k Hk. destruct k; cbn [back]; rewrite (proj2 (Nat.leb_le _ _)) by lia; rewrite Hk;
        rewrite <- app_assoc, skipn_app_exact, (IH ws t H), firstn_app_exact; reflexivity. }
    apply Hb; reflexivity.
Qed.

Lemma rmatch_none : forall items s,
  (forall ws t, s = concat ws ++ t -> Forall2 piece_ok items ws -> False) ->
  rmatch items s = None.
Proof.
  intros items s H. destruct (rmatch items s) as [[ws t]|] eqn:E; [|reflexivity].
  exfalso. apply rmatch_sound in E. destruct E as [E1 E2]. eapply H; eassumption.
Qed.

(** ** Scanning equations *)

Lemma re_scan_fuel_enough : forall items n m s, length s < n -> length s < m ->
  re_scan_fuel n items s = re_scan_fuel m items s.
Proof.
  intros items. induction n as [|n IH]; intros [|m] s Hn Hm; try lia.
  cbn [re_scan_fuel]. destruct (rmatch items s) as [[ws t]|].
  - destruct (Nat.ltb_spec (length t) (length s)).
    + f_equal. apply IH; lia.
    + destruct s as [|c s']; [reflexivity|]. cbn in *. do 2 f_equal. apply IH; lia.
  - destruct s as [|c s']; [reflexivity|]. cbn in *. f_equal. apply IH; lia.
Qed.

Lemma re_scan_skip : forall items c s, rmatch items (c :: s) = None ->
  re_scan items (c :: s) = inl c :: re_scan items s.
Proof.
  intros items c s H. unfold re_scan. cbn [re_scan_fuel length]. rewrite H. reflexivity.
Qed.

Lemma re_scan_nil : forall items, rmatch items [] = None -> re_scan items [] = [].
Proof. intros items H. unfold re_scan. cbn [re_scan_fuel length]. rewrite H. reflexivity. Qed.

Lemma re_scan_match : forall items s ws t, rmatch items s = Some (ws, t) -> concat ws <> [] ->
  re_scan items s = inr ws :: re_scan items t.
Proof.
  intros items s ws t H Hne. pose proof (proj1 (rmatch_sound _ _ _ _ H)) as E.
  assert (Hl : length t < length s).
  { rewrite E, app_length. destruct (concat ws); [congruence|cbn; lia]. }
  unfold re_scan. rewrite (re_scan_fuel_enough items (S (length t)) (length s) t) by lia.
  cbn [re_scan_fuel]. rewrite H. rewrite (proj2 (Nat.ltb_lt _ _) Hl). reflexivity.
Qed.

(** Text in which no match can start. *)
Lemma re_scan_skip_app : forall items s t,
  (forall a b, s = a ++ b -> b <> [] -> rmatch items (b ++ t) = None) ->
  re_scan items (s ++ t) = map inl s ++ re_scan items t.
Proof.
  intros items. induction s as [|c s IH]; intros t H; [reflexivity|].
  cbn [app map]. rewrite re_scan_skip.
  - f_equal. apply IH. intros a b E Hb. apply (H (c :: a) b); [rewrite E; reflexivity|exact Hb].
  - apply (H [] (c :: s)); [reflexivity|discriminate].
Qed.

Lemma flat_map_inl_id : forall (f : list str -> str) s,
  flat_map (fun x : N + list str => match x with inr ws => f ws | inl c => [c] end) (map inl s) = s.
Proof. induction s as [|c s IH]; cbn; [reflexivity|]. rewrite IH; reflexivity. Qed.

Lemma flat_map_inl_nil : forall s,
  flat_map (fun x : N + list str => match x with inr ws => [ws] | inl _ => [] end) (map inl s) = [].
Proof. induction s as [|c s IH]; cbn; [reflexivity|exact IH]. Qed.

(** A match attempt fails at a character outside the class of a first item that
    must match at least once. *)
Lemma rmatch_head_none : forall it rest s, 1 <= i_lo it ->
  match s with c :: _ => i_cls it c = false | [] => True end ->
  rmatch (it :: rest) s = None.
Proof.
  intros it rest s Hlo Hs. apply rmatch_none. intros ws t E H. inversion H as [|? w ? ws' Hp Hr]; subst.
  destruct Hp as [Hw [Hl _]]. destruct w as [|c w]; [cbn in Hl; lia|].
  cbn in Hs. cbn in Hw. rewrite Hs in Hw. discriminate.
Qed.

(** Matches together with the skipped characters rebuild the string. *)
Lemma re_scan_fuel_concat : forall items n s, length s < n ->
  flat_map (fun x : N + list str => match x with inr ws => concat ws | inl c => [c] end)
    (re_scan_fuel n items s) = s.
Proof.
  intros items. induction n as [|n IH]; intros s Hn; [lia|]. cbn [re_scan_fuel].
  destruct (rmatch items s) as [[ws t]|] eqn:E.
  - apply rmatch_sound in E. destruct E as [E _].
    destruct (Nat.ltb_spec (length t) (length s)).
    + cbn. rewrite IH by lia. symmetry; exact E.
    + assert (concat ws = []) as E0.
      { rewrite E, app_length in H. destruct (concat ws); [reflexivity|cbn in H; lia]. }
      destruct s as [|c s']; cbn; rewrite E0; [reflexivity|]. cbn in Hn |- *. rewrite IH by lia. reflexivity.
  - destruct s as [|c s']; [reflexivity|]. cbn in *. rewrite IH by lia. reflexivity.
Qed.

Lemma is_char_spec : forall a b, is_char a b = true <-> a = b.
Proof. intros; unfold is_char; apply N.eqb_eq. Qed.
Lemma is_char_neq : forall a b, a <> b -> is_char a b = false.
Proof. intros; unfold is_char; apply N.eqb_neq; assumption. Qed.
