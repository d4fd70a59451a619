(** Lemmas about export dispatch. *)

From Coq Require Import List NArith Arith Bool Lia.
From Verif Require Import PyStr PyStrFacts UtilModel UtilSpec.
Import ListNotations.

Lemma first_some_iff : forall A (f : nat -> option A) l x,
  first_some f l = Some x <->
  exists pre d post, l = pre ++ d :: post /\ (forall c, In c pre -> f c = None) /\ f d = Some x.
Proof.
  intros A f. induction l as [|c l IH]; intros x; cbn.
  - split; [ discriminate | intros [pre [d [post [E _]]]]; destruct pre; discriminate ].
  - destruct (f c) as [y|] eqn:F.
    + split.
      * intros H. injection H as ->. exists [], c, l. repeat split; [ intros ? [] | exact F ].
      * intros [pre [d [post [E [N S]]]]]. destruct pre as [|b pre].
        -- injection E as -> ->. congruence.
        -- injection E as -> ->. rewrite (N b) in F by (left; reflexivity). discriminate.
    + rewrite IH. split.
      * intros [pre [d [post [-> [N S]]]]]. exists (c :: pre), d, post. repeat split; [ | exact S ].
        intros b [<-|I]; [ exact F | apply N; exact I ].
      * intros [pre [d [post [E [N S]]]]]. destruct pre as [|b pre].
        -- injection E as -> ->. congruence.
        -- injection E as -> ->. exists pre, d, post. repeat split; [ | exact S ].
           intros b' I. apply N. right. exact I.
Qed.

Lemma str_in_iff : forall s l, str_in s l = true <-> In s l.
Proof.
  intros s l. unfold str_in. rewrite existsb_exists. split.
  - intros [x [I E]]. apply str_eqb_eq in E. subst. exact I.
  - intros I. exists s. split; [ exact I | apply str_eqb_refl ].
Qed.

Section Export.
Variable Impl : Type.
Variable mro : nat -> list nat.
Variable own_exports : nat -> option (list str).
Variable own_export : nat -> option Impl.

Notation exports_of := (exports_of mro own_exports).
Notation export_of := (export_of Impl mro own_export).
Notation export_capacities := (export_capacities mro own_exports).
Notation pick := (pick Impl mro own_exports own_export).
Notation export := (export Impl mro own_exports own_export).

Lemma exports_of_iff : forall k l, exports_of k = Some l <-> inherits mro own_exports k l.
Proof. intros. apply first_some_iff. Qed.
Lemma export_of_iff : forall k i, export_of k = Some i <-> inherits mro own_export k i.
Proof. intros. apply first_some_iff. Qed.

Notation linear := (linear mro).
Notation offers := (offers mro own_exports).
Notation chain := (chain mro).
Notation declares := (declares own_exports).

Lemma capacities_iff : forall c m, linear c ->
  (In m (export_capacities c) <->
   exists k l, In k (mro c) /\ own_exports k = Some l /\ In m l).
Proof.
  intros c m W. unfold UtilModel.export_capacities. rewrite in_flat_map. split.
  - intros [k [I H]]. destruct (exports_of k) as [l|] eqn:E; [ | contradiction ].
    apply exports_of_iff in E as [pre [d [post [E [_ S]]]]]. exists d, l. split; [ | auto ].
    destruct (W k I) as [_ J]. apply J. rewrite E. apply in_or_app. right; left; reflexivity.
  - intros [k [l [I [S H]]]]. exists k. split; [ exact I | ].
    assert (E : exports_of k = Some l).
    { destruct (W k I) as [X _]. unfold UtilModel.exports_of. destruct (mro k) as [|k' r]; [ discriminate | ].
      injection X as ->. cbn. rewrite S. reflexivity. }
    rewrite E. exact H.
Qed.


Lemma offers_dec : forall k m, (exists l, exports_of k = Some l /\ str_in m l = true) <-> offers k m.
Proof.
  intros k m. split; intros [l [A B]]; exists l.
  - split; [ apply exports_of_iff; exact A | apply str_in_iff; exact B ].
  - split; [ apply exports_of_iff; exact A | apply str_in_iff; exact B ].
Qed.

Lemma pick_iff : forall m l i, pick m l = Some i <->
  exists pre k post, l = pre ++ k :: post /\ (forall j, In j pre -> ~ offers j m) /\ offers k m /\ export_of k = i.
Proof.
  intros m. induction l as [|c l IH]; intros i; cbn.
  - split; [ discriminate | intros [pre [k [post [E _]]]]; destruct pre; discriminate ].
  - assert (D : offers c m \/ ~ offers c m).
    { destruct (exports_of c) as [es|] eqn:E.
      - destruct (str_in m es) eqn:S; [ left; apply offers_dec; eauto | right ].
        intros O. apply offers_dec in O as [l' [A B]]. congruence.
      - right. intros O. apply offers_dec in O as [l' [A B]]. congruence. }
    assert (Step : (match exports_of c with
                    | Some es => if str_in m es then Some (export_of c) else pick m l
                    | None => pick m l end)
                   = if (match exports_of c with Some es => str_in m es | None => false end)
                     then Some (export_of c) else pick m l).
    { destruct (exports_of c) as [es|]; reflexivity. }
    rewrite Step. destruct D as [D|D].
    + assert (X : (match exports_of c with Some es => str_in m es | None => false end) = true).
      { apply offers_dec in D as [es [A B]]. rewrite A. exact B. }
      rewrite X. split.
      * intros H. injection H as <-. exists [], c, l. repeat split; [ intros ? [] | exact D ].
      * intros [pre [k [post [E [N [O S]]]]]]. destruct pre as [|b pre]; injection E as -> ->; [ congruence | ].
        exfalso. apply (N b); [ left; reflexivity | exact D ].
    + assert (X : (match exports_of c with Some es => str_in m es | None => false end) = false).
      { destruct (exports_of c) as [es|] eqn:A; [ | reflexivity ].
        destruct (str_in m es) eqn:B; [ | reflexivity ]. exfalso. apply D. apply offers_dec. eauto. }
      rewrite X, IH. split.
      * intros [pre [k [post [-> [N [O S]]]]]]. exists (c :: pre), k, post. repeat split; auto.
        intros j [<-|I]; [ exact D | apply N; exact I ].
      * intros [pre [k [post [E [N [O S]]]]]]. destruct pre as [|b pre]; injection E as -> ->; [ contradiction | ].
        exists pre, k, post. repeat split; auto. intros j I. apply N. right; exact I.
Qed.


Lemma export_ok : forall c default output i,
  export c default output = Ok i <->
  exists m pre k post, requested default output m /\ mro c = pre ++ k :: post
    /\ (forall j, In j pre -> ~ offers j m) /\ offers k m /\ inherits mro own_export k i.
Proof.
  intros c default output i. unfold UtilModel.export.
  assert (M : forall m, (match output with Some o => Some o | None => default end) = Some m <-> requested default output m).
  { intros m. unfold requested. destruct output as [o|]; split; intros H; auto.
    - destruct H as [H|[H _]]; [ exact H | discriminate ].
    - destruct H as [H|[_ H]]; [ discriminate | exact H ]. }
  destruct (match output with Some o => Some o | None => default end) as [m|] eqn:E.
  - assert (R : forall m', requested default output m' <-> m' = m).
    { intros m'. rewrite <- M. split; congruence. }
    split.
    + intros H. destruct (str_in m (export_capacities c)); [ | discriminate ].
      destruct (pick m (mro c)) as [[j|]|] eqn:P; try discriminate. injection H as ->.
      apply pick_iff in P as [pre [k [post [E1 [N [O S]]]]]]. exists m, pre, k, post.
      repeat split; auto; [ apply R; reflexivity | apply export_of_iff; exact S ].
    + intros [m' [pre [k [post [Q [E1 [N [O S]]]]]]]]. apply R in Q. subst m'.
      assert (P : pick m (mro c) = Some (Some i)).
      { apply pick_iff. exists pre, k, post. repeat split; auto. apply export_of_iff. exact S. }
      rewrite P.
      assert (C : str_in m (export_capacities c) = true).
      { apply str_in_iff. unfold UtilModel.export_capacities. apply in_flat_map. exists k.
        split; [ rewrite E1; apply in_or_app; right; left; reflexivity | ].
        destruct O as [l [A B]]. apply exports_of_iff in A. rewrite A. exact B. }
      rewrite C. reflexivity.
  - split; [ discriminate | ]. intros [m [pre [k [post [Q _]]]]]. apply M in Q. discriminate.
Qed.

Lemma export_refused : forall c default output, linear c ->
  (forall k, In k (mro c) -> exists i, inherits mro own_export k i) ->
  (export c default output = Err NotImplementedError <->
   forall m, requested default output m ->
     forall k l, In k (mro c) -> own_exports k = Some l -> ~ In m l).
Proof.
  intros c default output W I. split.
  - intros H m Q k l Ik S Hm.
    assert (C : In m (export_capacities c)) by (apply capacities_iff; eauto).
    unfold UtilModel.export in H.
    assert (E : (match output with Some o => Some o | None => default end) = Some m).
    { destruct Q as [->|[-> ->]]; reflexivity. }
    rewrite E in H. apply str_in_iff in C. rewrite C in H.
    destruct (pick m (mro c)) as [[j|]|] eqn:P; try discriminate.
    apply str_in_iff in C. unfold UtilModel.export_capacities in C. apply in_flat_map in C as [k' [Ik' C]].
    assert (O : offers k' m).
    { destruct (exports_of k') as [l'|] eqn:X; [ | contradiction ]. exists l'. split; [ apply exports_of_iff; exact X | exact C ]. }
    clear - P Ik' O. revert P. revert Ik'. generalize (mro c) as L. induction L as [|b L IH]; intros Ik' P; [ contradiction | ].
    cbn in P. destruct Ik' as [->|Ik'].
    + apply offers_dec in O as [l [A B]]. rewrite A, B in P. discriminate.
    + destruct (exports_of b) as [es|]; [ destruct (str_in m es); [ discriminate | ] | ]; auto.
  - intros H. unfold UtilModel.export.
    destruct (match output with Some o => Some o | None => default end) as [m|] eqn:E; [ | reflexivity ].
    assert (Q : requested default output m).
    { destruct output as [o|]; [ left; exact E | right; split; [ reflexivity | exact E ] ]. }
    destruct (str_in m (export_capacities c)) eqn:C; [ exfalso | reflexivity ].
    apply str_in_iff in C. apply capacities_iff in C as [k [l [A [B D]]]]; [ | exact W ].
    exact (H m Q k l A B D).
Qed.

(** In a chain, the implementation is the nearest one found from the end of
    the last class that lists other mimetypes only. *)
Lemma chain_export : forall c m i, chain c ->
  (export c None (Some m) = Ok i <->
   exists pre mid d post, mro c = pre ++ mid ++ d :: post
     /\ declares d m
     /\ (forall j, In j (pre ++ mid) -> ~ declares j m)
     /\ (forall j, In j mid -> own_exports j = None)
     /\ (pre = [] \/ exists b j l, pre = b ++ [j] /\ own_exports j = Some l)
     /\ exists a e z, mid ++ d :: post = a ++ e :: z /\ (forall j, In j a -> own_export j = None) /\ own_export e = Some i).
Proof.
  intros c m i CH. rewrite export_ok. split.
  - intros [m' [pre [k [post [Q [E [N [O I]]]]]]]].
    assert (m' = m) as -> by (destruct Q as [Q|[Q _]]; congruence).
    destruct O as [l [[a [d [z [E1 [Na Sd]]]]] Hm]].
    pose proof (CH pre k post E) as Mk. rewrite Mk in E1.
    exists pre, a, d, z. split; [ rewrite <- E1; exact E | ]. split; [ exists l; auto | ]. split; [ | split; [ exact Na | split ] ].
    + intros j J [l' [Sj Hj]]. apply in_app_or in J as [J|J]; [ | rewrite (Na j J) in Sj; discriminate ].
      apply (N j J). apply in_split in J as [p1 [p2 ->]]. exists l'. split; [ | exact Hj ].
      exists [], j, (p2 ++ k :: post). split; [ apply (CH p1); rewrite E, <- app_assoc; reflexivity | ].
      split; [ intros ? [] | exact Sj ].
    + destruct pre as [|x pre _] using rev_ind; [ left; reflexivity | right ]. exists pre, x.
      destruct (own_exports x) as [lx|] eqn:Sx; [ exists lx; auto | exfalso ].
      apply (N x); [ apply in_or_app; right; left; reflexivity | ]. exists l. split; [ | exact Hm ].
      exists (x :: a), d, z. split; [ | split; [ intros j [<-|J]; [ exact Sx | auto ] | exact Sd ] ].
      cbn. rewrite <- E1. apply (CH pre). rewrite E, <- app_assoc. reflexivity.
    + destruct I as [a' [e [z' [E2 R]]]]. rewrite Mk, E1 in E2. exists a', e, z'. split; [ exact E2 | exact R ].
  - intros [pre [mid [d [post [E [[l [Sd Hm]] [N [Nm [P [a [e [z [E2 [Na Se]]]]]]]]]]]]]].
    assert (X : exists k r, mid ++ d :: post = k :: r).
    { destruct mid; cbn; eauto. }
    destruct X as [k [r X]]. exists m, pre, k, r. rewrite X in E. pose proof (CH pre k r E) as Mk.
    split; [ left; reflexivity | ]. split; [ exact E | ]. split; [ | split ].
    + intros j J [l' [[a' [d' [z' [E3 [Na' Sd']]]]] Hl']].
      apply in_split in J as [p1 [p2 Ep]].
      assert (Mj : mro j = j :: p2 ++ k :: r) by (apply (CH p1); rewrite E, Ep, <- app_assoc; reflexivity).
      assert (D : In d' (j :: p2) \/ exists y, own_exports y <> None /\ In y (j :: p2) /\ ~ In d' (j :: p2) ).
      { destruct P as [->|[b [y [ly [Ey Sy]]]]]; [ destruct p1; discriminate | ].
        destruct (in_dec Nat.eq_dec d' (j :: p2)) as [I|I]; [ left; exact I | right ]. exists y.
        split; [ congruence | ]. split; [ | exact I ].
        rewrite Ey in Ep. destruct p2 as [|q p2 _] using rev_ind.
        - apply app_inj_tail in Ep as [_ ->]. left; reflexivity.
        - rewrite app_comm_cons, app_assoc in Ep. apply app_inj_tail in Ep as [_ ->]. right.
          apply in_or_app. right; left; reflexivity. }
      destruct D as [D|[y [Sy [Iy Nd]]]].
      * apply (N d'); [ | exists l'; auto ]. apply in_or_app. left. rewrite Ep. apply in_or_app. right. exact D.
      * apply Sy. apply Na'. rewrite Mj in E3. change (j :: p2 ++ k :: r) with ((j :: p2) ++ k :: r) in E3.
        clear - E3 Iy Nd. revert a' E3 Iy Nd. generalize (j :: p2) as L. induction L as [|q L IH]; intros a' E3 Iy Nd; [ contradiction | ].
        destruct a' as [|u a']; cbn in E3; injection E3 as -> E3.
        -- exfalso. apply Nd. left; reflexivity.
        -- destruct Iy as [->|Iy]; [ left; reflexivity | right ]. apply (IH a' E3 Iy). intros I. apply Nd. right; exact I.
    + exists l. split; [ | exact Hm ]. exists mid, d, post. rewrite Mk, X. auto.
    + exists a, e, z. rewrite Mk, <- X. auto.
Qed.
End Export.
