(** Proofs about the URNs of texts. *)

From Coq Require Import List NArith Arith Bool Lia.
From Verif Require Import PyStr PyStrFacts RefModel UrnModel UrnSpec UrnProofs TextUrnModel TextUrnSpec.
Import ListNotations.

(** ** Lists *)

Lemma replace_length : forall {A} i (x : A) l, length (replace i x l) = length l.
Proof. intros A i x l. revert i. induction l as [|y l IH]; intros [|i]; cbn; auto. Qed.
Lemma replace_same : forall {A} i (x : A) l, i < length l -> nth_error (replace i x l) i = Some x.
Proof. intros A i x l. revert i. induction l as [|y l IH]; intros [|i] H; cbn in *; try lia; [reflexivity|]. apply IH. lia. Qed.
Lemma replace_other : forall {A} i j (x : A) l, i <> j -> nth_error (replace i x l) j = nth_error l j.
Proof. intros A i j x l. revert i j. induction l as [|y l IH]; intros [|i] [|j] H; cbn in *; try reflexivity; try lia. apply IH. lia. Qed.
Lemma nth_snoc : forall {A} (l : list A) x i, nth_error (l ++ [x]) i = if Nat.eqb i (length l) then Some x else nth_error l i.
Proof.
  intros A l x i. destruct (Nat.eqb_spec i (length l)) as [->|N].
  - rewrite nth_error_app2, Nat.sub_diag by lia. reflexivity.
  - destruct (lt_dec i (length l)); [apply nth_error_app1; assumption|]. rewrite nth_error_app2 by lia.
    assert (X : nth_error l i = None) by (apply nth_error_None; lia). rewrite X. destruct (i - length l) as [|k] eqn:E; [lia|]. cbn. destruct k; reflexivity.
Qed.

(** ** Only assignments matter to how a URN is written *)

Lemma existsb_sets : forall ops, existsb is_set_op ops = match filter is_set_op ops with [] => false | _ => true end.
Proof. induction ops as [|o ops IH]; [reflexivity|]. cbn. destruct (is_set_op o); cbn; auto. Qed.
Lemma sets_ns : forall ops d, last_ns ops d = last_ns (filter is_set_op ops) d.
Proof. induction ops as [|[] ops IH]; intros d; cbn; auto. Qed.
Lemma sets_cts : forall ops d, last_cts ops d = last_cts (filter is_set_op ops) d.
Proof. induction ops as [|[] ops IH]; intros d; cbn; auto. Qed.
Lemma sets_tg : forall ops d, last_tg ops d = last_tg (filter is_set_op ops) d.
Proof. induction ops as [|[] ops IH]; intros d; cbn; auto. Qed.
Lemma sets_wk : forall ops d, last_wk ops d = last_wk (filter is_set_op ops) d.
Proof. induction ops as [|[] ops IH]; intros d; cbn; auto. Qed.
Lemma sets_vs : forall ops d, last_vs ops d = last_vs (filter is_set_op ops) d.
Proof. induction ops as [|[] ops IH]; intros d; cbn; auto. Qed.
Lemma sets_ref : forall ops d, last_ref ops d = last_ref (filter is_set_op ops) d.
Proof. induction ops as [|[] ops IH]; intros d; cbn; auto. Qed.

Lemma spelled_sets : forall s a b, filter is_set_op a = filter is_set_op b -> spelled s a = spelled s b.
Proof.
  intros s a b H. unfold spelled. destruct (urn_parse s) as [u|e]; [|reflexivity].
  rewrite (existsb_sets a), (existsb_sets b), (sets_ns a), (sets_ns b), (sets_cts a), (sets_cts b), (sets_tg a), (sets_tg b), (sets_wk a), (sets_wk b), (sets_vs a), (sets_vs b),
    (sets_ref a), (sets_ref b), H. reflexivity.
Qed.

(** An object that was made of [s] and to which [ops] was done. *)
Definition is_urn (s : str) (ops : list urn_op) (u : urn) : Prop :=
  exists u0 ops', urn_parse s = Ok u0 /\ u = urn_run u0 ops' /\ filter is_set_op ops' = filter is_set_op ops.

Lemma is_urn_str : forall s ops u, is_urn s ops u -> fst (urn_str u) = spelled s ops.
Proof.
  intros s ops u (u0 & ops' & E & -> & F). change (to_str (urn_run u0 ops') = spelled s ops). rewrite (history_canonical s u0 ops' E).
  rewrite <- (spelled_sets s _ _ F). unfold spelled. rewrite E. reflexivity.
Qed.
Lemma is_urn_ref : forall s ops u, is_urn s ops u -> u_ref u = reference_now s ops.
Proof.
  intros s ops u (u0 & ops' & E & -> & F). unfold reference_now. rewrite E. destruct (run_fields ops' u0) as (_ & _ & _ & _ & _ & ->). rewrite sets_ref, (sets_ref ops), F. reflexivity.
Qed.
Lemma is_urn_new : forall s u, urn_parse s = Ok u -> is_urn s [] u.
Proof. intros s u H. exists u, []. auto. Qed.
Lemma is_urn_step : forall s ops u o, is_urn s ops u -> is_urn s (ops ++ [o]) (urn_step u o).
Proof.
  intros s ops u o (u0 & ops' & E & -> & F). exists u0, (ops' ++ [o]). split; [exact E|]. split; [unfold urn_run; rewrite fold_left_app; reflexivity|].
  rewrite !filter_app, F. reflexivity.
Qed.
Lemma is_urn_cached : forall s ops u, is_urn s ops u -> is_urn s ops (snd (urn_str u)).
Proof.
  intros s ops u H. apply (is_urn_step s ops u OpStr) in H. destruct H as (u0 & ops' & E & X & F). exists u0, ops'. split; [exact E|]. split; [exact X|].
  rewrite F, filter_app. cbn. apply app_nil_r.
Qed.

(** ** Traces *)

Lemma changed_lt : forall tr n s ops, changed tr n s ops -> n < length tr.
Proof. intros tr n s ops H. induction H; cbn; lia. Qed.

Lemma changed_fun : forall tr n s ops, changed tr n s ops -> forall s' ops', changed tr n s' ops' -> s' = s /\ ops' = ops.
Proof.
  intros tr n s ops H. induction H as [tr d s M|tr n s ops pl o r H IH N|tr n s ops d H IH N]; intros s' ops' H'.
  - inversion H'; subst.
    + split; [|reflexivity]. destruct M; inversion H0; reflexivity.
    + match goal with X : changed tr (length tr) _ _ |- _ => apply changed_lt in X; lia end.
    + match goal with X : changed tr (length tr) _ _ |- _ => apply changed_lt in X; lia end.
  - inversion H'; subst.
    + match goal with X : makes_from _ _ |- _ => inversion X end.
    + match goal with X : changed tr n _ _ |- _ => first [ destruct (IH _ _ X) as (-> & ->); auto ] end.
    + match goal with X : forall pl0 o0 r0, _ = _ -> ~ _ |- _ => elim (X pl o r eq_refl N) end.
  - inversion H'; subst.
    + apply changed_lt in H. lia.
    + elim (N _ _ _ eq_refl). assumption.
    + apply IH. assumption.
Qed.

Definition quiet (d : deed * reply) : Prop :=
  match d with (MakeUrn _, Gives _) | (MakeText _ _, Gives _) | (Assign _ _, Done) => False | _ => True end.

Lemma names_quiet : forall d tr pl n, quiet d -> (names (d :: tr) pl n <-> names tr pl n).
Proof.
  intros d tr pl n Q. split.
  - intros H. inversion H; subst; try destruct Q. assumption.
  - intros H. apply names_kept; [exact H|]. intros t g ->. destruct Q.
Qed.

(** ** Worlds and traces *)

Record inv (tr : trace) (w : world) (tm : list nat) : Prop := MkInv {
  i_len : length tm = length (w_urns w);
  i_nodup : NoDup tm;
  i_past : forall n, In n tm -> n < length tr;
  i_place : forall pl i, at_place w pl = Some i -> i < length tm;
  i_names : forall pl n, names tr pl n <-> exists i, at_place w pl = Some i /\ nth_error tm i = Some n;
  i_urns : forall i n u, nth_error tm i = Some n -> nth_error (w_urns w) i = Some u -> exists s ops, changed tr n s ops /\ is_urn s ops u;
  i_named : length (w_named w) = next_urn tr;
  i_texts : length (w_texts w) = next_text tr;
  i_made : forall t x, nth_error (w_texts w) t = Some x ->
    exists tr0 g, made_with tr t (t_passage x) tr0 g /\ (t_passage x = false -> given_text tr0 g (t_id x)) /\ (t_passage x = true -> exists i, t_urn x = Some i);
  i_only : forall t b tr0 g b' tr0' g', made_with tr t b tr0 g -> made_with tr t b' tr0' g' -> b = b' /\ tr0 = tr0' /\ g = g';
  i_all : forall t b tr0 g, made_with tr t b tr0 g -> t < length (w_texts w)
}.

Lemma inv_start : inv [] start [].
Proof.
  constructor; try reflexivity.
  - constructor.
  - intros n [].
  - intros [[|k]|[|t]] i H; discriminate H.
  - intros pl n. split; [intros H; inversion H|]. intros ([|i] & _ & H); discriminate H.
  - intros [|i] n u H; discriminate H.
  - intros [|t] x H; discriminate H.
  - intros t b tr0 g b' tr0' g' ([|a l] & H); discriminate H.
  - intros t b tr0 g ([|a l] & H); discriminate H.
Qed.

(** What is at a place. *)
Lemma place_holds : forall tr w tm pl i, inv tr w tm -> at_place w pl = Some i ->
  exists n u s ops, nth_error tm i = Some n /\ nth_error (w_urns w) i = Some u /\ names tr pl n /\ changed tr n s ops /\ is_urn s ops u.
Proof.
  intros tr w tm pl i I H. pose proof (i_place _ _ _ I pl i H) as L. destruct (nth_error tm i) as [n|] eqn:N; [|apply nth_error_None in N; lia].
  destruct (nth_error (w_urns w) i) as [u|] eqn:U; [|apply nth_error_None in U; rewrite <- (i_len _ _ _ I) in U; lia].
  destruct (i_urns _ _ _ I i n u N U) as (s & ops & C & V). exists n, u, s, ops. split; [reflexivity|]. split; [reflexivity|]. split; [|auto].
  apply (i_names _ _ _ I). exists i. auto.
Qed.
Lemma place_nothing : forall tr w tm pl, inv tr w tm -> at_place w pl = None -> nothing_at tr pl.
Proof. intros tr w tm pl I H n N. apply (i_names _ _ _ I) in N. destruct N as (i & X & _). congruence. Qed.

Lemma made_cons : forall d tr t b tr0 g, text_given d = false -> (made_with (d :: tr) t b tr0 g <-> made_with tr t b tr0 g).
Proof.
  intros d tr t b tr0 g Q. split.
  - intros ([|a l] & H); cbn in H; injection H as -> ->; [discriminate Q|]. exists l. reflexivity.
  - intros (l & ->). exists (d :: l). reflexivity.
Qed.

Lemma made_uncons : forall d tr t b tr0 g, made_with (d :: tr) t b tr0 g -> text_given d = false -> made_with tr t b tr0 g.
Proof. intros d tr t b tr0 g H Q. apply (proj1 (made_cons d tr t b tr0 g Q)). exact H. Qed.

(** A deed that makes nothing, and changes no more than URN objects. *)
Lemma inv_quiet : forall tr w tm d us, inv tr w tm -> quiet d ->
  length us = length (w_urns w) ->
  (forall i n s ops u u', nth_error tm i = Some n -> nth_error (w_urns w) i = Some u -> nth_error us i = Some u' -> changed tr n s ops -> is_urn s ops u ->
     exists s' ops', changed (d :: tr) n s' ops' /\ is_urn s' ops' u') ->
  inv (d :: tr) (with_urns us w) tm.
Proof.
  intros tr w tm d us I Q L H.
  assert (T : text_given d = false) by (destruct d as [[] []]; try reflexivity; destruct Q).
  assert (U : urn_given d = false) by (destruct d as [[] []]; try reflexivity; destruct Q).
  assert (P : forall pl, at_place (with_urns us w) pl = at_place w pl) by (intros []; reflexivity).
  constructor; cbn [with_urns w_urns w_named w_texts].
  - rewrite L. apply (i_len _ _ _ I).
  - apply (i_nodup _ _ _ I).
  - intros n N. pose proof (i_past _ _ _ I n N). cbn. lia.
  - intros pl i. rewrite P. apply (i_place _ _ _ I).
  - intros pl n. rewrite (names_quiet d tr pl n Q), P. apply (i_names _ _ _ I).
  - intros i n u' N X. destruct (nth_error (w_urns w) i) as [u|] eqn:E.
    + destruct (i_urns _ _ _ I i n u N E) as (s & ops & C & V). exact (H i n s ops u u' N E X C V).
    + apply nth_error_None in E. assert (Y : nth_error us i <> None) by congruence. apply nth_error_Some in Y. lia.
  - unfold next_urn. cbn [filter]. rewrite U. apply (i_named _ _ _ I).
  - unfold next_text. cbn [filter]. rewrite T. apply (i_texts _ _ _ I).
  - intros t x X. destruct (i_made _ _ _ I t x X) as (tr0 & g & A & B). exists tr0, g. split; [apply made_cons; assumption|exact B].
  - intros t b tr0 g b' tr0' g' A B. apply (proj1 (made_cons _ _ _ _ _ _ T)) in A. apply (proj1 (made_cons _ _ _ _ _ _ T)) in B. apply (i_only _ _ _ I t); assumption.
  - intros t b tr0 g A. apply (proj1 (made_cons _ _ _ _ _ _ T)) in A. apply (i_all _ _ _ I t b tr0 g A).
Qed.

Lemma inv_same : forall tr w tm d, inv tr w tm -> quiet d -> (forall pl o r, d = (ChangeUrn pl o, r) -> at_place w pl = None) -> inv (d :: tr) w tm.
Proof.
  intros tr w tm d I Q N. replace w with (with_urns (w_urns w) w) by (destruct w; reflexivity). apply inv_quiet; auto.
  intros i n s ops u u' _ E X C V. rewrite E in X. injection X as <-. exists s, ops. split; [|exact V]. apply changed_elsewhere; [exact C|].
  intros pl o r -> Y. exact (place_nothing _ _ _ pl I (N pl o r eq_refl) n Y).
Qed.

(** ... such as [str]. *)
Lemma inv_spelled : forall tr w tm d i, inv tr w tm -> quiet d -> (forall pl o r, d <> (ChangeUrn pl o, r)) -> inv (d :: tr) (fst (spell w i)) tm.
Proof.
  intros tr w tm d i I Q N. unfold spell. destruct (nth_error (w_urns w) i) as [u0|] eqn:U; cbn [fst]; [|apply inv_same; auto; intros pl o r E; elim (N pl o r E)].
  apply inv_quiet; auto; [apply replace_length|]. intros j n s ops u u' _ E X C V. exists s, ops.
  split; [apply changed_elsewhere; [exact C|]; intros pl o r Y; elim (N pl o r Y)|]. destruct (Nat.eq_dec i j) as [->|Nj].
  - rewrite replace_same in X by (apply nth_error_Some; congruence). injection X as <-. rewrite U in E. injection E as ->. apply is_urn_cached. exact V.
  - rewrite replace_other in X by exact Nj. rewrite E in X. injection X as <-. exact V.
Qed.

(** The same with nothing done: [str] within a deed. *)
Lemma inv_cached : forall tr w tm i, inv tr w tm -> inv tr (fst (spell w i)) tm.
Proof.
  intros tr w tm i I. unfold spell. destruct (nth_error (w_urns w) i) as [u0|] eqn:U; cbn [fst]; [|exact I].
  assert (P : forall pl, at_place (with_urns (replace i (snd (urn_str u0)) (w_urns w)) w) pl = at_place w pl) by (intros []; reflexivity).
  destruct I as [I1 I2 I3 I4 I5 I6 I7 I8 I9 I10 I11]. constructor; cbn [with_urns w_urns w_named w_texts]; auto.
  - rewrite replace_length. exact I1.
  - intros j n u N X. destruct (Nat.eq_dec i j) as [->|Nj].
    + rewrite replace_same in X by (apply nth_error_Some; congruence). injection X as <-. destruct (I6 j n u0 N U) as (s & ops & C & V). exists s, ops. split; [exact C|apply is_urn_cached; exact V].
    + rewrite replace_other in X by exact Nj. apply (I6 j); assumption.
Qed.

(** ** Accepting a URN *)

(** What [accept] leaves, before the text has it. *)
Lemma accept_cases : forall tr w tm g, inv tr w tm ->
  (exists e, accept w g = (w, Err e) /\
     ((g = Nothing \/ g = Other) /\ e = TypeError \/ (exists s, g = Word s /\ urn_parse s = Err e) \/ (exists pl, g = From pl /\ nothing_at tr pl /\ at_place w pl = None /\ e = TypeError))) \/
  (exists s u, g = Word s /\ urn_parse s = Ok u /\ accept w g = (with_urns (w_urns w ++ [u]) w, Ok (length (w_urns w)))) \/
  (exists pl i, g = From pl /\ at_place w pl = Some i /\ accept w g = (w, Ok i)).
Proof.
  intros tr w tm g I. destruct g as [|s|pl|]; cbn [accept].
  - left. exists TypeError. auto.
  - destruct (urn_parse s) as [u|e] eqn:E; [right; left; exists s, u; auto|left]. exists e. split; [reflexivity|]. right. left. exists s. auto.
  - destruct (at_place w pl) as [i|] eqn:E; [right; right; exists pl, i; auto|left]. exists TypeError. split; [reflexivity|]. right. right. exists pl.
    split; [reflexivity|]. split; [apply (place_nothing tr w tm); assumption|auto].
  - left. exists TypeError. auto.
Qed.

Lemma nth_lt : forall {A} (l : list A) i x, nth_error l i = Some x -> i < length l.
Proof. intros A l i x H. apply nth_error_Some. congruence. Qed.

(** A text is made, or a URN is named: [w1] is the world with the URN object there, and
    [pl] the place that is new or changed. *)
Lemma inv_new_urn : forall tr w tm d s u, inv tr w tm -> urn_parse s = Ok u -> makes_from d s ->
  forall pl w', w_urns w' = w_urns w ++ [u] -> at_place w' pl = Some (length (w_urns w)) ->
  (forall pl', pl' <> pl -> at_place w' pl' = at_place w pl') ->
  (forall pl' n, names (d :: tr) pl' n <-> (pl' = pl /\ n = length tr) \/ (pl' <> pl /\ names tr pl' n)) ->
  (forall pl o r, d <> (ChangeUrn pl o, r)) ->
  let tm' := tm ++ [length tr] in
  length tm' = length (w_urns w') /\ NoDup tm' /\ (forall n, In n tm' -> n < length (d :: tr)) /\
  (forall pl i, at_place w' pl = Some i -> i < length tm') /\
  (forall pl n, names (d :: tr) pl n <-> exists i, at_place w' pl = Some i /\ nth_error tm' i = Some n) /\
  (forall i n u, nth_error tm' i = Some n -> nth_error (w_urns w') i = Some u -> exists s ops, changed (d :: tr) n s ops /\ is_urn s ops u).
Proof.
  intros tr w tm d s u I E M pl w' U A O N Q tm'. unfold tm'. pose proof (i_len _ _ _ I) as L.
  assert (Place : forall pl' : place, {pl' = pl} + {pl' <> pl}) by (decide equality; apply Nat.eq_dec).
  split; [rewrite U, !app_length, L; reflexivity|]. split; [|split; [|split; [|split]]].
  - pose proof (i_nodup _ _ _ I) as ND. pose proof (i_past _ _ _ I) as PA. clear -ND PA. induction tm as [|a tm IH]; cbn; [repeat constructor; intros []|].
    inversion ND as [|? ? N1 N2]; subst. constructor; [|apply IH; [exact N2|intros n X; apply PA; right; exact X]].
    intros X. apply in_app_or in X. destruct X as [X|[X|[]]]; [contradiction|]. specialize (PA a (or_introl eq_refl)). lia.
  - intros n X. apply in_app_or in X. destruct X as [X|[<-|[]]]; cbn; [pose proof (i_past _ _ _ I n X)|]; lia.
  - intros pl' i X. rewrite app_length. cbn. destruct (Place pl') as [->|P].
    + rewrite A in X. injection X as <-. lia.
    + rewrite (O _ P) in X. pose proof (i_place _ _ _ I _ _ X). lia.
  - intros pl' n. rewrite N. split.
    + intros [(-> & ->)|(P & X)].
      * exists (length (w_urns w)). split; [exact A|]. rewrite nth_snoc, <- L, Nat.eqb_refl. reflexivity.
      * apply (i_names _ _ _ I) in X. destruct X as (i & X1 & X2). exists i. rewrite (O _ P). split; [exact X1|]. rewrite nth_snoc.
        pose proof (i_place _ _ _ I _ _ X1). destruct (Nat.eqb_spec i (length tm)); [lia|exact X2].
    + intros (i & X1 & X2). destruct (Place pl') as [->|P].
      * left. split; [reflexivity|]. rewrite A in X1. injection X1 as <-. rewrite nth_snoc, <- L, Nat.eqb_refl in X2. injection X2 as <-. reflexivity.
      * right. split; [exact P|]. rewrite (O _ P) in X1. apply (i_names _ _ _ I). exists i. split; [exact X1|]. rewrite nth_snoc in X2.
        pose proof (i_place _ _ _ I _ _ X1). destruct (Nat.eqb_spec i (length tm)); [lia|exact X2].
  - intros i n u' X1 X2. rewrite nth_snoc in X1. rewrite U, nth_snoc in X2. rewrite <- L in X2. destruct (Nat.eqb i (length tm)).
    + injection X1 as <-. injection X2 as <-. exists s, []. split; [apply changed_not; exact M|apply is_urn_new; exact E].
    + destruct (i_urns _ _ _ I i n u' X1 X2) as (s' & ops & C & V). exists s', ops. split; [|exact V]. apply changed_elsewhere; [exact C|].
      intros pl' o r Y. elim (Q pl' o r Y).
Qed.

Lemma inv_shared : forall tr w tm d, inv tr w tm ->
  forall pl i w', w_urns w' = w_urns w -> i < length tm -> at_place w' pl = Some i ->
  (forall pl', pl' <> pl -> at_place w' pl' = at_place w pl') ->
  (forall pl' n, names (d :: tr) pl' n <-> (pl' = pl /\ nth_error tm i = Some n) \/ (pl' <> pl /\ names tr pl' n)) ->
  (forall pl o r, d <> (ChangeUrn pl o, r)) ->
  length tm = length (w_urns w') /\ NoDup tm /\ (forall n, In n tm -> n < length (d :: tr)) /\
  (forall pl i, at_place w' pl = Some i -> i < length tm) /\
  (forall pl n, names (d :: tr) pl n <-> exists i, at_place w' pl = Some i /\ nth_error tm i = Some n) /\
  (forall i n u, nth_error tm i = Some n -> nth_error (w_urns w') i = Some u -> exists s ops, changed (d :: tr) n s ops /\ is_urn s ops u).
Proof.
  intros tr w tm d I pl i w' U Li A O N Q.
  assert (Place : forall pl' : place, {pl' = pl} + {pl' <> pl}) by (decide equality; apply Nat.eq_dec).
  split; [rewrite U; apply (i_len _ _ _ I)|]. split; [apply (i_nodup _ _ _ I)|]. split; [|split; [|split]].
  - intros n X. pose proof (i_past _ _ _ I n X). cbn. lia.
  - intros pl' j X. destruct (Place pl') as [->|P]; [rewrite A in X; injection X as <-; exact Li|]. rewrite (O _ P) in X. apply (i_place _ _ _ I _ _ X).
  - intros pl' n. rewrite N. split.
    + intros [(-> & X)|(P & X)]; [exists i; auto|]. rewrite (O _ P). apply (i_names _ _ _ I). exact X.
    + intros (j & X1 & X2). destruct (Place pl') as [->|P].
      * left. rewrite A in X1. injection X1 as <-. auto.
      * right. split; [exact P|]. rewrite (O _ P) in X1. apply (i_names _ _ _ I). exists j. auto.
  - intros j n u X1 X2. rewrite U in X2. destruct (i_urns _ _ _ I j n u X1 X2) as (s & ops & C & V). exists s, ops. split; [|exact V].
    apply changed_elsewhere; [exact C|]. intros pl' o r Y. elim (Q pl' o r Y).
Qed.

(** ** One deed *)

Lemma fresh_text : forall tr w tm n, inv tr w tm -> ~ names tr (UrnOf (length (w_texts w))) n.
Proof.
  intros tr w tm n I H. apply (i_names _ _ _ I) in H. destruct H as (i & H & _). cbn [at_place] in H.
  assert (X : nth_error (w_texts w) (length (w_texts w)) = None) by (apply nth_error_None; lia). rewrite X in H. discriminate.
Qed.
Lemma fresh_urn : forall tr w tm n, inv tr w tm -> ~ names tr (Named (length (w_named w))) n.
Proof.
  intros tr w tm n I H. apply (i_names _ _ _ I) in H. destruct H as (i & H & _). cbn [at_place] in H.
  assert (X : nth_error (w_named w) (length (w_named w)) = None) by (apply nth_error_None; lia). congruence.
Qed.

(** What the texts are known to be after one more was made. *)
Lemma texts_grown : forall tr w tm b g id u, inv tr w tm ->
  (b = false -> given_text tr g id) -> (b = true -> exists i, u = Some i) ->
  let d := (MakeText b g, Gives (length (w_texts w))) in
  let l := w_texts w ++ [MkText b id u] in
  length l = next_text (d :: tr) /\
  (forall t x, nth_error l t = Some x -> exists tr0 g, made_with (d :: tr) t (t_passage x) tr0 g /\ (t_passage x = false -> given_text tr0 g (t_id x)) /\ (t_passage x = true -> exists i, t_urn x = Some i)) /\
  (forall t b tr0 g b' tr0' g', made_with (d :: tr) t b tr0 g -> made_with (d :: tr) t b' tr0' g' -> b = b' /\ tr0 = tr0' /\ g = g') /\
  (forall t b tr0 g, made_with (d :: tr) t b tr0 g -> t < length l).
Proof.
  intros tr w tm b g id u I Hid Hu d l. unfold d, l.
  assert (Inv : forall t b' tr0 g', made_with ((MakeText b g, Gives (length (w_texts w))) :: tr) t b' tr0 g' ->
    (t = length (w_texts w) /\ b' = b /\ tr0 = tr /\ g' = g) \/ made_with tr t b' tr0 g').
  { intros t b' tr0 g' ([|a la] & H); cbn in H; inversion H; subst; [left; auto|]. right. exists la. reflexivity. }
  split; [|split; [|split]].
  - unfold next_text. cbn [filter text_given length]. rewrite app_length. cbn. rewrite (i_texts _ _ _ I). unfold next_text. lia.
  - intros t x X. rewrite nth_snoc in X. destruct (Nat.eqb_spec t (length (w_texts w))) as [->|N].
    + injection X as <-. exists tr, g. cbn [t_passage t_id t_urn]. split; [exists []; reflexivity|]. auto.
    + destruct (i_made _ _ _ I t x X) as (tr0 & g0 & (la & A) & B). exists tr0, g0. split; [|exact B]. exists ((MakeText b g, Gives (length (w_texts w))) :: la). rewrite A. reflexivity.
  - intros t b1 tr1 g1 b2 tr2 g2 A B. apply Inv in A. apply Inv in B. destruct A as [(A1 & -> & -> & ->)|A]; destruct B as [(B1 & -> & -> & ->)|B].
    + auto.
    + apply (i_all _ _ _ I) in B. lia.
    + apply (i_all _ _ _ I) in A. lia.
    + apply (i_only _ _ _ I t); assumption.
  - intros t b1 tr1 g1 A. apply Inv in A. rewrite app_length. cbn. destruct A as [(-> & _)|A]; [lia|]. apply (i_all _ _ _ I) in A. lia.
Qed.

Lemma at_added : forall w us x pl, at_place (MkWorld us (w_named w) (w_texts w ++ [x])) pl =
  match pl with Named k => nth_error (w_named w) k | UrnOf t => if Nat.eqb t (length (w_texts w)) then t_urn x else at_place w (UrnOf t) end.
Proof. intros w us x [k|t]; cbn [at_place w_named w_texts]; [reflexivity|]. rewrite nth_snoc. destruct (Nat.eqb t (length (w_texts w))); reflexivity. Qed.

Lemma at_added_other : forall w us x pl, pl <> UrnOf (length (w_texts w)) -> at_place (MkWorld us (w_named w) (w_texts w ++ [x])) pl = at_place w pl.
Proof. intros w us x [k|t] H; rewrite at_added; [reflexivity|]. destruct (Nat.eqb_spec t (length (w_texts w))) as [->|N]; [elim H; reflexivity|reflexivity]. Qed.
Lemma at_added_new : forall w us x, at_place (MkWorld us (w_named w) (w_texts w ++ [x])) (UrnOf (length (w_texts w))) = t_urn x.
Proof. intros w us x. rewrite at_added, Nat.eqb_refl. reflexivity. Qed.

(** A text is added. *)
Lemma add_word : forall tr w tm b s u id, inv tr w tm -> urn_parse s = Ok u -> (b = false -> id = s) ->
  let d := (MakeText b (Word s), Gives (length (w_texts w))) in
  inv (d :: tr) (MkWorld (w_urns w ++ [u]) (w_named w) (w_texts w ++ [MkText b id (Some (length (w_urns w)))])) (tm ++ [length tr]).
Proof.
  intros tr w tm b s u id I E Hid d.
  destruct (texts_grown tr w tm b (Word s) id (Some (length (w_urns w))) I) as (T1 & T2 & T3 & T4); [exact Hid|eauto|].
  destruct (inv_new_urn tr w tm d s u I E (mf_text b s _) (UrnOf (length (w_texts w))) (MkWorld (w_urns w ++ [u]) (w_named w) (w_texts w ++ [MkText b id (Some (length (w_urns w)))])))
    as (A1 & A2 & A3 & A4 & A5 & A6); [reflexivity|apply at_added_new|intros pl H; apply at_added_other; exact H| |discriminate|].
  - intros pl n. split.
    + intros H. inversion H; subst; [left; auto|]. right. split; [|assumption]. intros ->. apply (fresh_text tr w tm n I). assumption.
    + intros [(-> & ->)|(P & X)]; [apply names_text_new|]. apply names_kept; [exact X|discriminate].
  - constructor; auto. unfold next_urn. cbn [filter urn_given d w_named]. apply (i_named _ _ _ I).
Qed.

Lemma add_shared : forall tr w tm b pl i id, inv tr w tm -> at_place w pl = Some i -> (b = false -> given_text tr (From pl) id) ->
  let d := (MakeText b (From pl), Gives (length (w_texts w))) in
  inv (d :: tr) (MkWorld (w_urns w) (w_named w) (w_texts w ++ [MkText b id (Some i)])) tm.
Proof.
  intros tr w tm b pl i id I H Hid d.
  destruct (texts_grown tr w tm b (From pl) id (Some i) I) as (T1 & T2 & T3 & T4); [exact Hid|eauto|].
  destruct (inv_shared tr w tm d I (UrnOf (length (w_texts w))) i (MkWorld (w_urns w) (w_named w) (w_texts w ++ [MkText b id (Some i)])))
    as (A1 & A2 & A3 & A4 & A5 & A6); [reflexivity|apply (i_place _ _ _ I _ _ H)|apply at_added_new|intros pl' X; apply at_added_other; exact X| |discriminate|].
  - intros pl' n. split.
    + intros X. inversion X; subst.
      * left. split; [reflexivity|]. match goal with Y : names tr pl n |- _ => apply (i_names _ _ _ I) in Y; destruct Y as (j & Y1 & Y2) end. rewrite H in Y1. injection Y1 as <-. exact Y2.
      * right. split; [|assumption]. intros ->. apply (fresh_text tr w tm n I). assumption.
    + intros [(-> & X)|(P & X)]; [apply names_text_shared; apply (i_names _ _ _ I); exists i; auto|]. apply names_kept; [exact X|discriminate].
  - constructor; auto. unfold next_urn. cbn [filter urn_given d w_named]. apply (i_named _ _ _ I).
Qed.

Lemma add_none : forall tr w tm g id, inv tr w tm -> g = Nothing \/ (exists pl, g = From pl /\ nothing_at tr pl) -> given_text tr g id ->
  let d := (MakeText false g, Gives (length (w_texts w))) in
  inv (d :: tr) (MkWorld (w_urns w) (w_named w) (w_texts w ++ [MkText false id None])) tm.
Proof.
  intros tr w tm g id I G Hid d.
  destruct (texts_grown tr w tm false g id None I) as (T1 & T2 & T3 & T4); [auto|discriminate|].
  assert (N : forall pl n, names (d :: tr) pl n <-> names tr pl n).
  { intros pl n. split; [|intros X; apply names_kept; [exact X|discriminate]]. intros X. inversion X; subst; [| |assumption].
    - destruct G as [G|(pl & G & _)]; discriminate G.
    - destruct G as [G|(pl' & G & Z)]; [discriminate G|]. injection G as ->. match goal with Y : names tr pl' n |- _ => elim (Z n Y) end. }
  assert (P : forall pl, at_place (MkWorld (w_urns w) (w_named w) (w_texts w ++ [MkText false id None])) pl = at_place w pl).
  { intros [k|t]; rewrite at_added; [reflexivity|]. destruct (Nat.eqb_spec t (length (w_texts w))) as [->|X]; [|reflexivity]. cbn [t_urn at_place].
    assert (X : nth_error (w_texts w) (length (w_texts w)) = None) by (apply nth_error_None; lia). rewrite X. reflexivity. }
  constructor; auto.
  - apply (i_len _ _ _ I).
  - apply (i_nodup _ _ _ I).
  - intros n X. pose proof (i_past _ _ _ I n X). cbn. lia.
  - intros pl i. rewrite P. apply (i_place _ _ _ I).
  - intros pl n. rewrite N, P. apply (i_names _ _ _ I).
  - intros i n u X1 X2. destruct (i_urns _ _ _ I i n u X1 X2) as (s & ops & C & V). exists s, ops. split; [|exact V]. apply changed_elsewhere; [exact C|discriminate].
  - unfold next_urn. cbn [filter urn_given d w_named]. apply (i_named _ _ _ I).
Qed.

Definition good_step (tr : trace) (d : deed) (w' : world) (r : reply) : Prop := right tr d r /\ exists tm', inv ((d, r) :: tr) w' tm'.

Lemma raised_quiet : forall d e, quiet (d, Raised e).
Proof. intros [] e; exact I. Qed.

Lemma passage_step : forall tr w tm g, inv tr w tm -> let '(w', r) := make_passage w g in good_step tr (MakeText true g) w' r.
Proof.
  intros tr w tm g I. unfold make_passage. destruct (accept_cases tr w tm g I) as [(e & -> & C)|[(s & u & -> & E & ->)|(pl & i & -> & H & ->)]].
  - split; [|exists tm; apply inv_same; [exact I|apply raised_quiet|discriminate]]. cbn [right takes].
    destruct C as [([-> | ->] & ->)|[(s & -> & E)|(pl & -> & N & _ & ->)]]; cbn [right takes]; try rewrite E; auto.
  - cbn [add_text with_urns with_texts w_texts w_urns w_named]. split; [cbn [right takes]; rewrite E, (i_texts _ _ _ I); reflexivity|].
    exists (tm ++ [length tr]). apply (add_word tr w tm true s u _ I E). discriminate.
  - cbn [add_text with_texts]. split.
    + cbn [right takes]. left. split; [|rewrite (i_texts _ _ _ I); reflexivity]. destruct (place_holds tr w tm pl i I H) as (n & u & s & ops & _ & _ & A & B & _). exists s, ops, n. auto.
    + exists tm. apply (add_shared tr w tm true pl i _ I H). discriminate.
Qed.

Lemma spell_at : forall tr w tm pl i, inv tr w tm -> at_place w pl = Some i ->
  exists s ops, holds tr pl s ops /\ snd (spell w i) = spelled s ops.
Proof.
  intros tr w tm pl i I H. destruct (place_holds tr w tm pl i I H) as (n & u & s & ops & _ & U & A & B & V). exists s, ops. split; [exists n; auto|].
  unfold spell. rewrite U. cbn [snd]. apply is_urn_str. exact V.
Qed.

Lemma spell_places : forall w i pl, at_place (fst (spell w i)) pl = at_place w pl.
Proof. intros w i pl. unfold spell. destruct (nth_error (w_urns w) i); [destruct pl; reflexivity|reflexivity]. Qed.
Lemma spell_texts : forall w i, w_texts (fst (spell w i)) = w_texts w.
Proof. intros w i. unfold spell. destruct (nth_error (w_urns w) i); reflexivity. Qed.

Lemma text_step : forall tr w tm g, inv tr w tm -> let '(w', r) := make_text w g in good_step tr (MakeText false g) w' r.
Proof.
  intros tr w tm g I. unfold make_text. destruct g as [|s|pl|]; cbn [spell_given is_none].
  - cbn [add_text with_texts]. split; [cbn [right]; rewrite (i_texts _ _ _ I); reflexivity|]. exists tm. apply (add_none tr w tm Nothing _ I); auto; reflexivity.
  - cbn [accept]. destruct (urn_parse s) as [u|e] eqn:E.
    + cbn [add_text with_urns with_texts w_texts w_urns w_named]. split; [cbn [right takes]; rewrite E, (i_texts _ _ _ I); reflexivity|]. exists (tm ++ [length tr]). apply (add_word tr w tm false s u _ I E). auto.
    + split; [cbn [right takes]; rewrite E; reflexivity|]. exists tm. apply inv_same; [exact I|apply raised_quiet|discriminate].
  - destruct (at_place w pl) as [i|] eqn:H.
    + destruct (spell_at tr w tm pl i I H) as (s & ops & Ho & Sp). pose proof (inv_cached tr w tm i I) as I1. pose proof (spell_places w i) as P1. pose proof (spell_texts w i) as T1.
      pose proof (inv_spelled tr w tm) as I2.
      destruct (spell w i) as [w1 r1] eqn:S1. cbn [fst snd] in *. subst r1. destruct (spelled s ops) as [id|e] eqn:E1.
      * rewrite P1, H. cbn [accept]. rewrite P1, H. cbn [add_text with_texts]. split.
        -- cbn [right]. left. exists s, ops. split; [exact Ho|]. rewrite E1, T1, (i_texts _ _ _ I). reflexivity.
        -- exists tm. apply (add_shared tr w1 tm false pl i _ I1); [rewrite P1; exact H|]. intros _. left. exists s, ops. auto.
      * split; [cbn [right]; left; exists s, ops; split; [exact Ho|rewrite E1; reflexivity]|]. exists tm. specialize (I2 (MakeText false (From pl), Raised e) i I (raised_quiet _ _)). rewrite S1 in I2. apply I2. discriminate.
    + cbn [add_text with_texts]. rewrite H. cbn [add_text with_texts]. pose proof (place_nothing tr w tm pl I H) as N. split; [right; split; [exact N|rewrite (i_texts _ _ _ I); reflexivity]|].
      exists tm. apply (add_none tr w tm (From pl) _ I); [right; exists pl; auto|]. right. auto.
  - cbn [accept]. split; [reflexivity|]. exists tm. apply inv_same; [exact I|apply raised_quiet|discriminate].
Qed.

Lemma at_replaced : forall w us t x pl, t < length (w_texts w) ->
  at_place (MkWorld us (w_named w) (replace t x (w_texts w))) pl =
  match pl with Named k => nth_error (w_named w) k | UrnOf t' => if Nat.eqb t t' then t_urn x else at_place w (UrnOf t') end.
Proof.
  intros w us t x [k|t'] H; cbn [at_place w_named w_texts]; [reflexivity|]. destruct (Nat.eqb_spec t t') as [->|N]; [rewrite replace_same by exact H; reflexivity|].
  rewrite replace_other by exact N. reflexivity.
Qed.

Lemma texts_replaced : forall tr w tm t x i g, inv tr w tm -> nth_error (w_texts w) t = Some x ->
  let d := (Assign t g, Done) in
  let l := replace t (MkText (t_passage x) (t_id x) (Some i)) (w_texts w) in
  length l = next_text (d :: tr) /\
  (forall t x, nth_error l t = Some x -> exists tr0 g, made_with (d :: tr) t (t_passage x) tr0 g /\ (t_passage x = false -> given_text tr0 g (t_id x)) /\ (t_passage x = true -> exists i, t_urn x = Some i)) /\
  (forall t b tr0 g b' tr0' g', made_with (d :: tr) t b tr0 g -> made_with (d :: tr) t b' tr0' g' -> b = b' /\ tr0 = tr0' /\ g = g') /\
  (forall t b tr0 g, made_with (d :: tr) t b tr0 g -> t < length l).
Proof.
  intros tr w tm t x i g I H d l. unfold d, l. rewrite replace_length.
  split; [unfold next_text; cbn [filter text_given]; apply (i_texts _ _ _ I)|]. split; [|split].
  - intros t' x' X. destruct (Nat.eq_dec t t') as [->|N].
    + rewrite replace_same in X by (apply (nth_lt _ _ _ H)). injection X as <-. cbn [t_passage t_id t_urn]. destruct (i_made _ _ _ I t' x H) as (tr0 & g0 & A & B & C).
      exists tr0, g0. split; [apply made_cons; [reflexivity|exact A]|]. split; [exact B|eauto].
    + rewrite replace_other in X by exact N. destruct (i_made _ _ _ I t' x' X) as (tr0 & g0 & A & B). exists tr0, g0. split; [apply made_cons; [reflexivity|exact A]|exact B].
  - intros t' b tr0 g0 b' tr0' g' A B. apply made_uncons in A; [|reflexivity]. apply made_uncons in B; [|reflexivity]. apply (i_only _ _ _ I t'); assumption.
  - intros t' b tr0 g0 A. apply made_uncons in A; [|reflexivity]. apply (i_all _ _ _ I t' b tr0 g0 A).
Qed.

Lemma assign_step : forall tr w tm t g, inv tr w tm -> let '(w', r) := step w (Assign t g) in good_step tr (Assign t g) w' r.
Proof.
  intros tr w tm t g I. cbn [step]. destruct (nth_error (w_texts w) t) as [x|] eqn:X.
  2:{ split; [|exists tm; apply inv_same; [exact I|apply raised_quiet|discriminate]]. intros (b & tr0 & g0 & M). apply (i_all _ _ _ I) in M. apply nth_error_None in X. lia. }
  pose proof (nth_lt _ _ _ X) as L. destruct (accept_cases tr w tm g I) as [(e & -> & C)|[(s & u & -> & E & ->)|(pl & i & -> & H & ->)]].
  - split; [|exists tm; apply inv_same; [exact I|apply raised_quiet|discriminate]]. intros _. cbn [takes].
    destruct C as [([-> | ->] & ->)|[(s & -> & E)|(pl & -> & N & _ & ->)]]; cbn [right takes]; try rewrite E; auto.
  - cbn [with_urns with_texts w_texts w_urns w_named]. split; [intros _; cbn [takes]; rewrite E; reflexivity|].
    destruct (texts_replaced tr w tm t x (length (w_urns w)) (Word s) I X) as (T1 & T2 & T3 & T4). 
    match goal with |- exists tm', inv _ ?w0 tm' => destruct (inv_new_urn tr w tm (Assign t (Word s), Done) s u I E (mf_assign t s) (UrnOf t) w0) as (A1 & A2 & A3 & A4 & A5 & A6) end.
    + reflexivity.
    + etransitivity; [apply (at_replaced w _ t _ (UrnOf t) L)|rewrite Nat.eqb_refl; reflexivity].
    + intros pl' N. etransitivity; [apply (at_replaced w _ t _ pl' L)|]. destruct pl' as [k|t']; [reflexivity|]. destruct (Nat.eqb_spec t t') as [->|]; [elim N; reflexivity|reflexivity].
    + intros pl' n. split.
      * intros Y. inversion Y; subst; [left; auto|]. right. split; [|assumption]. match goal with Z : forall t0 g, _ = _ -> _ <> _ |- _ => apply (Z t (Word s) eq_refl) end.
      * intros [(-> & ->)|(P & Y)]; [apply names_assigned_new|]. apply names_kept; [exact Y|]. intros t0 g0 Z. injection Z as <- _. exact P.
    + discriminate.
    + eexists. constructor; eauto. unfold next_urn. cbn [filter urn_given w_named]. apply (i_named _ _ _ I).
  - cbn [with_texts]. split.
    + intros _. left. split; [|reflexivity]. destruct (place_holds tr w tm pl i I H) as (n & u & s & ops & _ & _ & A & B & _). exists s, ops, n. auto.
    + destruct (texts_replaced tr w tm t x i (From pl) I X) as (T1 & T2 & T3 & T4).
      match goal with |- exists tm', inv _ ?w0 tm' => destruct (inv_shared tr w tm (Assign t (From pl), Done) I (UrnOf t) i w0) as (A1 & A2 & A3 & A4 & A5 & A6) end.
      * reflexivity.
      * apply (i_place _ _ _ I _ _ H).
      * etransitivity; [apply (at_replaced w _ t _ (UrnOf t) L)|rewrite Nat.eqb_refl; reflexivity].
      * intros pl' N. etransitivity; [apply (at_replaced w _ t _ pl' L)|]. destruct pl' as [k|t']; [reflexivity|]. destruct (Nat.eqb_spec t t') as [->|]; [elim N; reflexivity|reflexivity].
      * intros pl' n. split.
        -- intros Y. inversion Y; subst.
           ++ left. split; [reflexivity|]. match goal with Z : names tr pl n |- _ => apply (i_names _ _ _ I) in Z; destruct Z as (j & Y1 & Y2) end. rewrite H in Y1. injection Y1 as <-. exact Y2.
           ++ right. split; [|assumption]. match goal with Z : forall t0 g, _ = _ -> _ <> _ |- _ => apply (Z t (From pl) eq_refl) end.
        -- intros [(-> & Y)|(P & Y)]; [apply names_assigned_shared; apply (i_names _ _ _ I); exists i; auto|]. apply names_kept; [exact Y|]. intros t0 g0 Z. injection Z as <- _. exact P.
      * discriminate.
      * eexists. constructor; eauto. unfold next_urn. cbn [filter urn_given w_named]. apply (i_named _ _ _ I).
Qed.

Lemma make_urn_step : forall tr w tm s, inv tr w tm -> let '(w', r) := step w (MakeUrn s) in good_step tr (MakeUrn s) w' r.
Proof.
  intros tr w tm s I. cbn [step]. destruct (urn_parse s) as [u|e] eqn:E.
  2:{ split; [cbn [right]; rewrite E; reflexivity|]. exists tm. apply inv_same; [exact I|apply raised_quiet|discriminate]. }
  split; [cbn [right]; rewrite E, (i_named _ _ _ I); reflexivity|].
  match goal with |- exists tm', inv _ ?w0 tm' => destruct (inv_new_urn tr w tm (MakeUrn s, Gives (length (w_named w))) s u I E (mf_urn s _) (Named (length (w_named w))) w0) as (A1 & A2 & A3 & A4 & A5 & A6) end.
  - reflexivity.
  - cbn [at_place w_named]. rewrite nth_snoc, Nat.eqb_refl. reflexivity.
  - intros [k|t] N; cbn [at_place w_named w_texts]; [|reflexivity]. rewrite nth_snoc. destruct (Nat.eqb_spec k (length (w_named w))) as [->|]; [elim N; reflexivity|reflexivity].
  - intros pl' n. split.
    + intros Y. inversion Y; subst; [left; auto|]. right. split; [|assumption]. intros ->. apply (fresh_urn tr w tm n I). assumption.
    + intros [(-> & ->)|(P & Y)]; [apply names_made|]. apply names_kept; [exact Y|discriminate].
  - discriminate.
  - eexists. constructor; eauto; cbn [w_named w_texts].
    + unfold next_urn. cbn [filter urn_given length]. rewrite app_length. cbn. rewrite (i_named _ _ _ I). unfold next_urn. lia.
    + unfold next_text. cbn [filter text_given]. apply (i_texts _ _ _ I).
    + intros t x X. destruct (i_made _ _ _ I t x X) as (tr0 & g & A & B). exists tr0, g. split; [apply made_cons; [reflexivity|exact A]|exact B].
    + intros t b tr0 g b' tr0' g' A B. apply made_uncons in A; [|reflexivity]. apply made_uncons in B; [|reflexivity]. apply (i_only _ _ _ I t); assumption.
    + intros t b tr0 g A. apply made_uncons in A; [|reflexivity]. apply (i_all _ _ _ I t b tr0 g A).
Qed.

Lemma change_step : forall tr w tm pl o, inv tr w tm -> let '(w', r) := step w (ChangeUrn pl o) in good_step tr (ChangeUrn pl o) w' r.
Proof.
  intros tr w tm pl o I. cbn [step]. destruct (at_place w pl) as [i|] eqn:H.
  - destruct (place_holds tr w tm pl i I H) as (n & u & s & ops & N & U & A & B & V). rewrite U. split.
    + cbn [right]. left. exists s, ops. split; [exists n; auto|]. destruct o as [v|v|v|v|v|[x|v]|]; try reflexivity.
      * cbn [set_ref snd]. destruct (cts_reference v); reflexivity.
      * rewrite (is_urn_str _ _ _ V). destruct (spelled s ops); reflexivity.
    + exists tm. apply inv_quiet; auto; [exact Logic.I|apply replace_length|]. intros j m s' ops' u' u'' Nj Uj X C V'.
      destruct (Nat.eq_dec i j) as [->|D].
      * rewrite replace_same in X by (apply (nth_lt _ _ _ U)). injection X as <-. rewrite N in Nj. injection Nj as <-. exists s, (ops ++ [o]).
        split; [apply changed_here; assumption|apply is_urn_step; exact V].
      * rewrite replace_other in X by exact D. rewrite Uj in X. injection X as <-. exists s', ops'. split; [|exact V']. apply changed_elsewhere; [exact C|].
        intros pl' o' r' Y Nm. injection Y as <- _ _. apply (i_names _ _ _ I) in Nm. destruct Nm as (k & K1 & K2). rewrite H in K1. injection K1 as <-.
        apply D. apply (proj1 (NoDup_nth_error tm) (i_nodup _ _ _ I)); [apply (nth_lt _ _ _ N)|]. rewrite K2, Nj. reflexivity.
  - split; [right; split; [apply (place_nothing tr w tm); assumption|reflexivity]|]. exists tm. apply inv_same; [exact I|exact Logic.I|]. intros pl' o' r' Y. injection Y as <- _ _. exact H.
Qed.

Lemma step_right : forall tr w tm d, inv tr w tm -> let '(w', r) := step w d in good_step tr d w' r.
Proof.
  intros tr w tm d I. destruct d as [s|pl o|b g|t g|t|t|t|t x].
  - apply (make_urn_step tr w tm s I).
  - apply (change_step tr w tm pl o I).
  - cbn [step]. destruct b; [apply (passage_step tr w tm g I)|apply (text_step tr w tm g I)].
  - apply (assign_step tr w tm t g I).
  - cbn [step]. unfold on_urn. destruct (at_place w (UrnOf t)) as [i|] eqn:H.
    + destruct (place_holds tr w tm _ i I H) as (n & u & s & ops & _ & U & _). rewrite U. destruct (spell_at tr w tm _ i I H) as (s' & ops' & Ho & Sp).
      pose proof (fun r => inv_spelled tr w tm (AskUrn t, r) i I Logic.I) as J. destruct (spell w i) as [w1 r1]. cbn [fst snd] in *. subst r1.
      split; [left; exists s', ops'; split; [exact Ho|reflexivity]|]. exists tm. apply J. discriminate.
    + split; [right; split; [apply (place_nothing tr w tm); assumption|reflexivity]|]. exists tm. apply inv_same; [exact I|exact Logic.I|discriminate].
  - cbn [step]. unfold on_urn. destruct (nth_error (w_texts w) t) as [x|] eqn:X.
    2:{ split; [|exists tm; apply inv_same; [exact I|exact Logic.I|discriminate]]. apply nth_error_None in X. split; intros tr0 g M; apply (i_all _ _ _ I) in M; lia. }
    destruct (i_made _ _ _ I t x X) as (tr0 & g & M & G0 & G1). destruct (t_passage x) eqn:P.
    + destruct (G1 eq_refl) as (i & Ui). assert (H : at_place w (UrnOf t) = Some i) by (cbn [at_place]; rewrite X; exact Ui). rewrite H.
      destruct (place_holds tr w tm _ i I H) as (n & u & s & ops & _ & U & A & B & V). rewrite U. split; [|exists tm; apply inv_same; [exact I|exact Logic.I|discriminate]].
      split; [intros tr1 g1 M1; destruct (i_only _ _ _ I _ _ _ _ _ _ _ M M1) as (Z & _); discriminate Z|]. intros tr1 g1 _. exists s, ops. split; [exists n; auto|].
      rewrite (is_urn_ref _ _ _ V). reflexivity.
    + split; [|exists tm; apply inv_same; [exact I|exact Logic.I|discriminate]]. split.
      * intros tr1 g1 M1. destruct (i_only _ _ _ I _ _ _ _ _ _ _ M M1) as (_ & <- & <-). exists (t_id x). auto.
      * intros tr1 g1 M1. destruct (i_only _ _ _ I _ _ _ _ _ _ _ M M1) as (Z & _). discriminate Z.
  - cbn [step]. unfold on_urn. destruct (at_place w (UrnOf t)) as [i|] eqn:H.
    + destruct (place_holds tr w tm _ i I H) as (n & u & s & ops & _ & U & A & B & V). rewrite U. split.
      * left. exists s, ops. split; [exists n; auto|]. rewrite (is_urn_ref _ _ _ V). reflexivity.
      * exists tm. apply inv_same; [exact I|exact Logic.I|discriminate].
    + split; [right; split; [apply (place_nothing tr w tm); assumption|reflexivity]|]. exists tm. apply inv_same; [exact I|exact Logic.I|discriminate].
  - cbn [step]. unfold on_urn. destruct (at_place w (UrnOf t)) as [i|] eqn:H.
    + destruct (place_holds tr w tm _ i I H) as (n & u & s & ops & _ & U & _). rewrite U. destruct (spell_at tr w tm _ i I H) as (s' & ops' & Ho & Sp).
      pose proof (fun r => inv_spelled tr w tm (AskPassage t x, r) i I Logic.I) as J. destruct (spell w i) as [w1 r1]. cbn [fst snd] in *. subst r1.
      split; [left; exists s', ops'; split; [exact Ho|]; destruct (spelled s' ops'); reflexivity|]. exists tm. apply J. discriminate.
    + split; [right; split; [apply (place_nothing tr w tm); assumption|reflexivity]|]. exists tm. apply inv_same; [exact I|exact Logic.I|discriminate].
Qed.

Lemma run_right : forall h tr w tm, inv tr w tm -> all_right tr (combine h (snd (run w h))).
Proof.
  induction h as [|d h IH]; intros tr w tm I; [constructor|]. cbn [run]. pose proof (step_right tr w tm d I) as G. destruct (step w d) as [w1 r]. destruct G as (R & tm' & I1).
  pose proof (IH _ _ _ I1) as A. destruct (run w1 h) as [w2 rs]. cbn [snd combine] in *. constructor; assumption.
Qed.

Lemma run_inv : forall h tr w tm, inv tr w tm -> exists tm', inv (rev (combine h (snd (run w h))) ++ tr) (fst (run w h)) tm'.
Proof.
  induction h as [|d h IH]; intros tr w tm I; [exists tm; exact I|]. cbn [run]. pose proof (step_right tr w tm d I) as G. destruct (step w d) as [w1 r]. destruct G as (R & tm' & I1).
  destruct (IH _ _ _ I1) as (tm2 & A). destruct (run w1 h) as [w2 rs]. cbn [snd fst combine rev] in *. exists tm2. rewrite <- app_assoc. exact A.
Qed.

Lemma run_length : forall h w, length (snd (run w h)) = length h.
Proof. induction h as [|d h IH]; intros w; [reflexivity|]. cbn [run]. destruct (step w d) as [w1 r]. pose proof (IH w1). destruct (run w1 h). cbn in *. congruence. Qed.
