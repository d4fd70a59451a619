(** C81: the URN of a text. *)

From Coq Require Import List NArith Arith Bool Lia.
From Verif Require Import PyStr PyStrFacts RefModel UrnModel UrnSpec UrnProofs TextUrnModel TextUrnSpec TextUrnProofs.
Import ListNotations.

(** Every reply is right, whatever was done before. *)
Theorem C81_replies : forall h, length (snd (run start h)) = length h /\ all_right [] (combine h (snd (run start h))).
Proof. intros h. split; [apply run_length|]. apply (run_right h [] start []). apply inv_start. Qed.
Print Assumptions C81_replies.

(** ... and the specification leaves one answer: at a place there is one URN object at
    most, made of one text and changed in one way, and a text was made once. *)
Definition story (h : list deed) : trace := rev (combine h (snd (run start h))).

Theorem C81_one_answer : forall h,
  (forall pl n n', names (story h) pl n -> names (story h) pl n' -> n = n') /\
  (forall pl s ops s' ops', holds (story h) pl s ops -> holds (story h) pl s' ops' -> s = s' /\ ops = ops') /\
  (forall pl n, names (story h) pl n -> exists s ops u, holds (story h) pl s ops /\ urn_parse s = Ok u) /\
  (forall t b tr0 g b' tr0' g', made_with (story h) t b tr0 g -> made_with (story h) t b' tr0' g' -> b = b' /\ tr0 = tr0' /\ g = g').
Proof.
  intros h. destruct (run_inv h [] start [] inv_start) as (tm & I). rewrite app_nil_r in I. change (rev (combine h (snd (run start h)))) with (story h) in I.
  assert (One : forall pl n n', names (story h) pl n -> names (story h) pl n' -> n = n').
  { intros pl n n' A B. apply (i_names _ _ _ I) in A. apply (i_names _ _ _ I) in B. destruct A as (i & A1 & A2). destruct B as (j & B1 & B2). congruence. }
  split; [exact One|]. split; [|split; [|apply (i_only _ _ _ I)]].
  - intros pl s ops s' ops' (n & A & B) (n' & A' & B'). rewrite (One pl n' n A' A) in B'. destruct (changed_fun _ _ _ _ B _ _ B'). auto.
  - intros pl n A. apply (i_names _ _ _ I) in A. destruct A as (i & A & _). destruct (place_holds _ _ _ pl i I A) as (m & u & s & ops & _ & _ & X & Y & (u0 & ops' & E & _)).
    exists s, ops, u0. split; [exists m; auto|exact E].
Qed.
Print Assumptions C81_one_answer.

Lemma run_app : forall a b w, run w (a ++ b) = let '(w1, r1) := run w a in let '(w2, r2) := run w1 b in (w2, r1 ++ r2).
Proof.
  induction a as [|d a IH]; intros b w; cbn [run app]; [destruct (run w b); reflexivity|]. destruct (step w d) as [w1 r]. rewrite IH. destruct (run w1 a) as [w2 rs].
  destruct (run w2 b) as [w3 rs']. reflexivity.
Qed.

(** What is done with [h] behind. *)
Definition after (h l : list deed) : list reply := snd (run (fst (run start h)) l).

Theorem C81_after : forall h l, snd (run start (h ++ l)) = snd (run start h) ++ after h l.
Proof. intros h l. unfold after. rewrite run_app. destruct (run start h) as [w r]. cbn [fst]. destruct (run w l). reflexivity. Qed.
Print Assumptions C81_after.

(** What is refused leaves everything as it was. *)
Theorem C81_refused : forall h d l e, (forall pl o, d <> ChangeUrn pl o) -> (forall t r, d <> AskPassage t r) -> (forall t, d <> AskUrn t) ->
  (forall pl, d <> MakeText false (From pl)) ->
  hd Done (after h [d]) = Raised e -> after h (d :: l) = Raised e :: after h l.
Proof.
  intros h d l e N1 N2 N3 N4 H. unfold after in *. cbn [run] in H. destruct (run start h) as [w rs]. cbn [fst snd] in *. cbn [run].
  assert (X : step w d = (w, Raised e)).
  { destruct (step w d) as [w1 r] eqn:S1. cbn in H. subst r. destruct d as [s|pl o|b g|t g|t|t|t|t x]; cbn [step] in S1.
    - destruct (urn_parse s); congruence.
    - elim (N1 pl o eq_refl).
    - destruct b.
      + unfold make_passage, add_text in S1. destruct g as [|s|pl|]; cbn [accept] in S1; [congruence| | |congruence].
        * destruct (urn_parse s); congruence.
        * destruct (at_place w pl); congruence.
      + unfold make_text, add_text in S1. destruct g as [|s|pl|]; cbn [accept spell_given is_none] in S1; [congruence| | |congruence].
        * destruct (urn_parse s); congruence.
        * elim (N4 pl eq_refl).
    - destruct (nth_error (w_texts w) t) as [x|]; [|congruence]. destruct g as [|s|pl|]; cbn [accept] in S1; [congruence| | |congruence].
      + destruct (urn_parse s); congruence.
      + destruct (at_place w pl); congruence.
    - elim (N3 t eq_refl).
    - unfold on_urn in S1. destruct (nth_error (w_texts w) t) as [x|]; [|congruence]. destruct (t_passage x); [|congruence].
      destruct (at_place w (UrnOf t)) as [i|]; [|congruence]. destruct (nth_error (w_urns w) i); congruence.
    - unfold on_urn in S1. destruct (at_place w (UrnOf t)) as [i|]; [|congruence]. destruct (nth_error (w_urns w) i); congruence.
    - elim (N2 t x eq_refl). }
  rewrite X. destruct (run w l) as [w2 r2]. reflexivity.
Qed.
Print Assumptions C81_refused.

(** The URN assigned last is the one of the text, written as it was given, and the one
    that passages are asked with. *)
Theorem C81_assigned : forall h t s u r, hd Done (after h [AskId t]) <> Raised AttributeError -> urn_parse s = Ok u ->
  after h [Assign t (Word s); AskUrn t; AskPassage t r] =
    [Done; Says (hd [] (split c_hash s)); Says (hd [] (split c_hash s) ++ #":" ++ r_str r)].
Proof.
  intros h t s u r X E. destruct (run_inv h [] start [] inv_start) as (tm & I). unfold after in *. destruct (run start h) as [w rs]. cbn [fst snd] in *. cbn [run step] in X |- *.
  destruct (nth_error (w_texts w) t) as [x|] eqn:T; [|elim X; reflexivity]. cbn [accept]. rewrite E.
  set (w1 := with_texts (replace t (MkText (t_passage x) (t_id x) (Some (length (w_urns w)))) (w_texts (with_urns (w_urns w ++ [u]) w))) (with_urns (w_urns w ++ [u]) w)).
  assert (A : at_place w1 (UrnOf t) = Some (length (w_urns w))).
  { unfold w1. cbn [at_place with_texts with_urns w_texts]. rewrite replace_same by (apply (nth_lt _ _ _ T)). reflexivity. }
  assert (U : nth_error (w_urns w1) (length (w_urns w)) = Some u) by (unfold w1; cbn [with_texts with_urns w_urns]; rewrite nth_snoc, Nat.eqb_refl; reflexivity).
  assert (V : is_urn s [] u) by (apply is_urn_new; exact E). assert (Sp : spelled s [] = Ok (hd [] (split c_hash s))) by (unfold spelled; rewrite E; reflexivity).
  unfold on_urn. rewrite A, U. unfold spell at 1. rewrite U, (is_urn_str _ _ _ V), Sp.
  set (w2 := with_urns (replace (length (w_urns w)) (snd (urn_str u)) (w_urns w1)) w1). change (at_place w2 (UrnOf t)) with (at_place w1 (UrnOf t)). rewrite A.
  assert (U2 : nth_error (w_urns w2) (length (w_urns w)) = Some (snd (urn_str u))) by (unfold w2; cbn [with_urns w_urns]; apply replace_same; apply (nth_lt _ _ _ U)).
  rewrite U2. unfold spell. rewrite U2, (is_urn_str _ _ _ (is_urn_cached _ _ _ V)), Sp. reflexivity.
Qed.
Print Assumptions C81_assigned.

(** A URN object that was given is shared: whatever is done to it afterwards, from
    where it was got, the text's URN is written alike. *)
Lemma changes_places : forall ops pl w pl', at_place (fst (run w (map (ChangeUrn pl) ops))) pl' = at_place w pl'.
Proof.
  induction ops as [|o ops IH]; intros pl w pl'; [reflexivity|]. cbn [map run].
  assert (X : at_place (fst (step w (ChangeUrn pl o))) pl' = at_place w pl').
  { cbn [step]. destruct (at_place w pl) as [i|]; [|reflexivity]. destruct (nth_error (w_urns w) i); [destruct pl'; reflexivity|reflexivity]. }
  destruct (step w (ChangeUrn pl o)) as [w1 r]. cbn [fst] in X. specialize (IH pl w1 pl'). destruct (run w1 (map (ChangeUrn pl) ops)). cbn [fst] in *. congruence.
Qed.

Theorem C81_shared : forall h t pl ops, hd Done (after h [AskId t]) <> Raised AttributeError -> hd SaysNone (after h [Assign t (From pl)]) = Done ->
  exists said, after (h ++ Assign t (From pl) :: map (ChangeUrn pl) ops) [ChangeUrn pl OpStr; AskUrn t] = [said; said].
Proof.
  intros h t pl ops X D.
  destruct (run_inv (h ++ Assign t (From pl) :: map (ChangeUrn pl) ops) [] start [] inv_start) as (tm & I).
  assert (P : exists i, at_place (fst (run start (h ++ Assign t (From pl) :: map (ChangeUrn pl) ops))) pl = Some i /\ at_place (fst (run start (h ++ Assign t (From pl) :: map (ChangeUrn pl) ops))) (UrnOf t) = Some i).
  { rewrite run_app. unfold after in X, D. destruct (run start h) as [w rs]. cbn [fst snd] in *. cbn [run step accept] in *. destruct (nth_error (w_texts w) t) as [x|] eqn:T; [|elim X; reflexivity].
    destruct (at_place w pl) as [i|] eqn:A; [|discriminate D]. exists i.
    pose proof (changes_places ops pl (with_texts (replace t (MkText (t_passage x) (t_id x) (Some i)) (w_texts w)) w)) as C.
    destruct (run (with_texts (replace t (MkText (t_passage x) (t_id x) (Some i)) (w_texts w)) w) (map (ChangeUrn pl) ops)) as [w1 r1]. cbn [fst] in *. rewrite !C.
    assert (Y : at_place (with_texts (replace t (MkText (t_passage x) (t_id x) (Some i)) (w_texts w)) w) (UrnOf t) = Some i)
      by (cbn [at_place with_texts w_texts]; rewrite replace_same by (apply (nth_lt _ _ _ T)); reflexivity).
    split; [|exact Y]. destruct pl as [k|t']; [exact A|]. destruct (Nat.eq_dec t t') as [<-|N]; [exact Y|]. cbn [at_place with_texts w_texts] in *. rewrite replace_other by exact N. exact A. }
  unfold after. rewrite app_nil_r in I. destruct (run start (h ++ Assign t (From pl) :: map (ChangeUrn pl) ops)) as [w rs]. cbn [fst snd] in *. destruct P as (i & A & B).
  destruct (place_holds _ _ _ _ i I A) as (n & u & s & o & _ & U & _ & _ & V). cbn [run step]. rewrite A, U. cbn [urn_step].
  unfold on_urn. change (at_place (with_urns (replace i (snd (urn_str u)) (w_urns w)) w) (UrnOf t)) with (at_place w (UrnOf t)). rewrite B. cbn [with_urns w_urns]. unfold spell. cbn [with_urns w_urns].
  rewrite replace_same by (apply (nth_lt _ _ _ U)). rewrite (is_urn_str _ _ _ V), (is_urn_str _ _ _ (is_urn_cached _ _ _ V)). eexists. reflexivity.
Qed.
Print Assumptions C81_shared.

(** ** What a reader may not expect *)

(** The identifier of a text is not that of its URN: it stays what was given when the
    text was made ... *)
Theorem C81_id_refuted : forall h s s' u u', urn_parse s = Ok u -> urn_parse s' = Ok u' ->
  let t := length (w_texts (fst (run start h))) in
  after h [MakeText false (Word s); Assign t (Word s'); AskUrn t; AskId t] = [Gives t; Done; Says (hd [] (split c_hash s')); Says s].
Proof.
  intros h s s' u u' E E' t. unfold t, after. destruct (run start h) as [w rs]. cbn [fst snd]. cbn [run step]. unfold make_text. cbn [spell_given is_none accept]. rewrite E.
  unfold add_text, with_texts, with_urns. cbn [w_texts w_urns w_named]. rewrite nth_snoc, Nat.eqb_refl. cbn [accept]. rewrite E'. unfold with_urns, on_urn. cbn [at_place w_texts w_urns w_named t_passage t_id].
  assert (L : length (w_texts w) < length (w_texts w ++ [MkText false s (Some (length (w_urns w)))])) by (rewrite app_length; cbn; lia).
  rewrite !replace_same by exact L. cbn [t_urn]. rewrite nth_snoc, Nat.eqb_refl. unfold spell. cbn [w_urns]. rewrite nth_snoc, Nat.eqb_refl.
  rewrite (is_urn_str s' [] u' (is_urn_new _ _ E')). unfold spelled, with_urns. rewrite E'. cbn [existsb w_texts]. rewrite replace_same by exact L. reflexivity.
Qed.
Print Assumptions C81_id_refuted.

(** ... which for a text made without URN is the word None, also in what it asks for. *)
Theorem C81_none_refuted : forall h r, let t := length (w_texts (fst (run start h))) in
  after h [MakeText false Nothing; AskUrn t; AskId t; AskPassage t r; AskDepth t] =
    [Gives t; SaysNone; Says #"None"; Says (#"None:" ++ r_str r); Raised AttributeError].
Proof.
  intros h r t. unfold t, after. destruct (run start h) as [w rs]. cbn [fst snd]. cbn [run step]. unfold make_text, on_urn. cbn [spell_given is_none]. unfold add_text, with_texts. cbn [w_texts at_place].
  repeat (rewrite nth_snoc, Nat.eqb_refl; cbn [t_urn t_passage t_id w_texts]). reflexivity.
Qed.
Print Assumptions C81_none_refuted.

(** Two texts that were given one URN object are not independent. *)
Theorem C81_shared_refuted :
  let u := #"urn:cts:latinLit:phi1294.phi002.perseus-lat2" in
  snd (run start [MakeUrn u; MakeText false (From (Named 0)); MakeText false (From (UrnOf 0)); ChangeUrn (UrnOf 0) (OpVs (Some #"perseus-eng1")); AskUrn 1; AskId 1; AskUrn 0; ChangeUrn (Named 0) OpStr])
  = [Gives 0; Gives 0; Gives 1; Done; Says #"urn:cts:latinLit:phi1294.phi002.perseus-eng1"; Says u; Says #"urn:cts:latinLit:phi1294.phi002.perseus-eng1"; Says #"urn:cts:latinLit:phi1294.phi002.perseus-eng1"].
Proof. vm_compute. reflexivity. Qed.
Print Assumptions C81_shared_refuted.

(** ** Examples *)

Example C81_example :
  let u := #"urn:cts:latinLit:phi1294.phi002.perseus-lat2" in
  snd (run start [MakeText true (Word (u ++ #":1.1")); AskId 0; AskDepth 0; AskUrn 0; Assign 0 (Word (u ++ #":2.3.4")); AskId 0; AskDepth 0; Assign 0 Other; Assign 0 (Word #"urn"); AskUrn 0])
  = [Gives 0; Says #"1.1"; Counts 2; Says (u ++ #":1.1"); Done; Says #"2.3.4"; Counts 3; Raised TypeError; Raised ValueError; Says (u ++ #":2.3.4")].
Proof. vm_compute. reflexivity. Qed.

(** The hypotheses of [C81_assigned], [C81_shared] and [C81_refused] are met. *)
Example C81_hypotheses :
  let h := [MakeUrn #"urn:cts:latinLit:phi1294.phi002"; MakeText false Nothing] in
  hd Done (after h [AskId 0]) <> Raised AttributeError /\ hd SaysNone (after h [Assign 0 (From (Named 0))]) = Done /\ hd Done (after h [Assign 0 (From (UrnOf 0))]) = Raised TypeError /\
  exists u, urn_parse #"urn:cts:latinLit:phi1294.phi002" = Ok u.
Proof. cbv zeta. repeat split; [vm_compute; discriminate|]. eexists. vm_compute. reflexivity. Qed.
