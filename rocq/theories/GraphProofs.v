(** Lemmas about the extraction of subgraphs. *)

From Coq Require Import List NArith ZArith Arith Bool Lia Permutation.
From Verif Require Import PyStr PyStrFacts MetaModel MetaSpec MetaProofs GraphModel GraphSpec.
Import ListNotations.

Lemma marked_iff : forall n l, marked n l = true <-> In n l.
Proof.
  intros n l. unfold marked. rewrite existsb_exists. split.
  - intros [x [I E]]. apply str_eqb_eq in E. subst. exact I.
  - intros I. exists n. split; [ exact I | apply str_eqb_refl ].
Qed.
Lemma marked_not : forall n l, marked n l = false <-> ~ In n l.
Proof. intros. rewrite <- marked_iff. destruct (marked n l); split; congruence. Qed.

(** ** A search with marks and a depth *)
Section Search.
Variable name : term -> str.
Variable adj : Z -> term -> list (triple * term).

Fixpoint search (fuel : nat) (d : Z) (t : term) (st : graph * list str) : result (graph * list str) :=
  match fuel with
  | 0 => Err RecursionError
  | S fuel' =>
      if negb (Z.eqb d 0) && negb (marked (name t) (snd st)) then
        loop (fun x st =>
                let st' := (g_add (fst x) (fst st), snd st) in
                if negb (Z.eqb (d - 1) 0) && negb (marked (name (snd x)) (snd st'))
                then search fuel' (d - 1) (snd x) st'
                else Ok st')
             (adj (d - 1)%Z t) (fst st, name t :: snd st)
      else Ok st
  end.

Definition visit (fuel : nat) (d : Z) (x : triple * term) (st : graph * list str) : result (graph * list str) :=
  let st' := (g_add (fst x) (fst st), snd st) in
  if negb (Z.eqb d 0) && negb (marked (name (snd x)) (snd st'))
  then search fuel d (snd x) st' else Ok st'.

Lemma search_S : forall fuel d t st, search (S fuel) d t st =
  if negb (Z.eqb d 0) && negb (marked (name t) (snd st)) then
    loop (visit fuel (d - 1)) (adj (d - 1)%Z t) (fst st, name t :: snd st)
  else Ok st.
Proof. reflexivity. Qed.

(** *** Marks and statements are only added *)
Definition grows (a b : graph * list str) : Prop := incl (fst a) (fst b) /\ incl (snd a) (snd b).

Lemma grows_refl : forall a, grows a a.
Proof. intros a. split; apply incl_refl. Qed.
Lemma grows_trans : forall a b c, grows a b -> grows b c -> grows a c.
Proof. intros a b c [A B] [C D]. split; eapply incl_tran; eassumption. Qed.
Lemma grows_add : forall tr st, grows st (g_add tr (fst st), snd st).
Proof. intros tr st. split; cbn; [ intros x I; apply In_add; auto | apply incl_refl ]. Qed.

Lemma loop_grows : forall (f : triple * term -> graph * list str -> result (graph * list str)),
  (forall x a b, f x a = Ok b -> grows a b) ->
  forall l a b, loop f l a = Ok b -> grows a b.
Proof.
  intros f H. induction l as [|x l IH]; intros a b E; cbn in E.
  - injection E as <-. apply grows_refl.
  - destruct (f x a) as [c|] eqn:F; [ cbn in E | discriminate ]. eapply grows_trans; eauto.
Qed.

Lemma visit_grows_ : forall fuel, (forall d t a b, search fuel d t a = Ok b -> grows a b) ->
  forall d x a b, visit fuel d x a = Ok b -> grows a b.
Proof.
  intros fuel H d x a b E. unfold visit in E. eapply grows_trans; [ apply grows_add | ].
  destruct (_ && _); [ eapply H; exact E | injection E as <-; apply grows_refl ].
Qed.

Lemma search_grows : forall fuel d t a b, search fuel d t a = Ok b -> grows a b.
Proof.
  induction fuel as [|fuel IH]; intros d t a b E; [ discriminate | ]. rewrite search_S in E.
  destruct (_ && _); [ | injection E as <-; apply grows_refl ].
  apply (loop_grows _ (visit_grows_ fuel IH (d - 1))) in E. eapply grows_trans; [ | exact E ].
  split; cbn; [ apply incl_refl | apply incl_tl, incl_refl ].
Qed.

Lemma visit_grows : forall fuel d x a b, visit fuel d x a = Ok b -> grows a b.
Proof. intros fuel. apply visit_grows_. intros. eapply search_grows; eassumption. Qed.

(** *** Only what is found is added *)
Inductive walk (d : Z) (t : term) : Z -> term -> Prop :=
| walk_here : walk d t d t
| walk_step : forall e u tr o, walk d t e u -> e <> 0%Z -> (e - 1 <> 0)%Z -> In (tr, o) (adj (e - 1)%Z u) ->
    walk d t (e - 1)%Z o.

Lemma walk_trans : forall d t e u f v, walk d t e u -> walk e u f v -> walk d t f v.
Proof. intros d t e u f v A B. induction B; [ exact A | ]. eapply walk_step; eassumption. Qed.

Definition found (d : Z) (t : term) (tr : triple) : Prop :=
  exists e u o, walk d t e u /\ e <> 0%Z /\ In (tr, o) (adj (e - 1)%Z u).

Lemma search_sound : forall fuel d t a b, search fuel d t a = Ok b ->
  forall tr, In tr (fst b) -> In tr (fst a) \/ found d t tr.
Proof.
  induction fuel as [|fuel IH]; intros d t a b E tr I; [ discriminate | ]. rewrite search_S in E.
  destruct (negb (Z.eqb d 0) && _) eqn:C; [ | injection E as <-; auto ].
  apply andb_true_iff in C as [C _]. apply negb_true_iff, Z.eqb_neq in C.
  assert (G : forall l a b, incl l (adj (d - 1)%Z t) -> loop (visit fuel (d - 1)) l a = Ok b ->
    In tr (fst b) -> In tr (fst a) \/ found d t tr).
  { clear a b E I. induction l as [|x l IHl]; intros a b L E I; cbn in E; [ injection E as <-; auto | ].
    destruct (visit fuel (d - 1) x a) as [c|] eqn:V; [ cbn in E | discriminate ].
    destruct (IHl c b (fun y H => L y (or_intror H)) E I) as [H|H]; [ | auto ].
    assert (X : In x (adj (d - 1)%Z t)) by (apply L; left; reflexivity).
    unfold visit in V.
    assert (A : In tr (fst (g_add (fst x) (fst a), snd a)) -> In tr (fst a) \/ found d t tr).
    { cbn. rewrite In_add. intros [->|K]; [ right | left; exact K ].
      exists d, t, (snd x). split; [ constructor | ]. split; [ exact C | destruct x; exact X ]. }
    destruct (negb (Z.eqb (d - 1) 0) && _) eqn:D; [ | injection V as <-; auto ].
    apply andb_true_iff in D as [D _]. apply negb_true_iff, Z.eqb_neq in D.
    destruct (IH _ _ _ _ V tr H) as [K|[e [u [o [W [N K]]]]]]; [ auto | right ].
    exists e, u, o. split; [ | auto ]. eapply walk_trans; [ | exact W ].
    apply (walk_step d t d t (fst x)); [ constructor | exact C | exact D | destruct x; exact X ]. }
  destruct (G _ _ _ (incl_refl _) E I) as [H|H]; auto.
Qed.

(** *** Without a limit everything is found *)
Section Unlimited.
Variable next : term -> list (triple * term).
Hypothesis next_adj : forall d t, (d < 0)%Z -> adj d t = next t.

Inductive onwards (t : term) : term -> Prop :=
| on_here : onwards t t
| on_step : forall u tr o, onwards t u -> In (tr, o) (next u) -> onwards t o.

Lemma onwards_trans : forall t u v, onwards t u -> onwards u v -> onwards t v.
Proof. intros t u v A B. induction B; [ exact A | ]. eapply on_step; eassumption. Qed.

(** [u] is done: its statements are in and its successors marked. *)
Definition done (st : graph * list str) (u : term) : Prop :=
  forall tr o, In (tr, o) (next u) -> In tr (fst st) /\ In (name o) (snd st).

Lemma done_grows : forall a b u, grows a b -> done a u -> done b u.
Proof. intros a b u [A B] D tr o I. destruct (D tr o I). split; auto. Qed.

Definition completes (t : term) (a b : graph * list str) : Prop :=
  forall n, In n (snd b) -> In n (snd a) \/ exists u, name u = n /\ onwards t u /\ done b u.

Lemma search_completes : forall fuel d t a b, (d < 0)%Z -> search fuel d t a = Ok b ->
  In (name t) (snd b) /\ completes t a b.
Proof.
  induction fuel as [|fuel IH]; intros d t a b D E; [ discriminate | ]. rewrite search_S in E.
  replace (Z.eqb d 0) with false in E by (symmetry; apply Z.eqb_neq; lia). cbn [negb andb] in E.
  destruct (marked (name t) (snd a)) eqn:M; cbn [negb] in E.
  - injection E as <-. split; [ apply marked_iff; exact M | intros n I; left; exact I ].
  - rewrite next_adj in E by lia.
    assert (G : forall l x y, incl l (next t) -> loop (visit fuel (d - 1)) l x = Ok y ->
      grows x y /\ (forall tr o, In (tr, o) l -> In tr (fst y) /\ In (name o) (snd y)) /\ completes t x y).
    { clear a b M E. induction l as [|[tr0 o0] l IHl]; intros x y L E; cbn in E.
      - injection E as <-. split; [ apply grows_refl | split; [ intros ? ? [] | intros n I; left; exact I ] ].
      - destruct (visit fuel (d - 1) (tr0, o0) x) as [z|] eqn:V; [ cbn in E | discriminate ].
        destruct (IHl z y (fun k H => L k (or_intror H)) E) as [Gzy [Lzy Czy]].
        pose proof (visit_grows _ _ _ _ _ V) as Gxz. split; [ eapply grows_trans; eassumption | ].
        assert (Z : In tr0 (fst z) /\ In (name o0) (snd z) /\ completes t x z).
        { unfold visit in V. cbn [fst snd] in V.
          replace (Z.eqb (d - 1) 0) with false in V by (symmetry; apply Z.eqb_neq; lia). cbn [negb andb] in V.
          destruct (marked (name o0) (snd x)) eqn:M; cbn [negb] in V.
          - injection V as <-. cbn. split; [ apply In_add; auto | ]. split; [ apply marked_iff; exact M | ].
            intros n I. left. exact I.
          - pose proof (search_grows _ _ _ _ _ V) as [Gg _].
            destruct (IH (d - 1)%Z _ _ _ ltac:(lia) V) as [N C]. split; [ apply Gg; apply In_add; auto | ]. split; [ exact N | ].
            intros n I. destruct (C n I) as [H|[u [U [O Du]]]]; [ left; exact H | right ].
            exists u. split; [ exact U | ]. split; [ | exact Du ]. eapply onwards_trans; [ | exact O ].
            eapply on_step; [ constructor | apply L; left; reflexivity ]. }
        destruct Z as [Z1 [Z2 Z3]]. destruct Gzy as [Ga Gb]. split.
        + intros tr o [I|I]; [ injection I as <- <-; split; auto | apply Lzy; exact I ].
        + intros n I. destruct (Czy n I) as [H|H]; [ | right; exact H ].
          destruct (Z3 n H) as [K|[u [U [O Du]]]]; [ left; exact K | right ].
          exists u. split; [ exact U | ]. split; [ exact O | ]. eapply done_grows; [ split; eassumption | exact Du ]. }
    destruct (G _ _ _ (incl_refl _) E) as [[_ Gb] [Lb Cb]]. split.
    + apply Gb. left. reflexivity.
    + intros n I. destruct (Cb n I) as [H|H]; [ | right; exact H ]. cbn in H. destruct H as [<-|H]; [ right | left; exact H ].
      exists t. split; [ reflexivity | ]. split; [ constructor | exact Lb ].
Qed.

Lemma search_all : forall fuel d t G b, (d < 0)%Z -> search fuel d t (G, []) = Ok b ->
  (forall a c, next a <> [] -> onwards t c -> name a = name c -> a = c) ->
  forall u tr o, onwards t u -> In (tr, o) (next u) -> In tr (fst b).
Proof.
  intros fuel d t G b D E J. destruct (search_completes _ _ _ _ _ D E) as [T C].
  assert (X : forall u, onwards t u -> In (name u) (snd b) -> done b u).
  { intros u U N tr o I. destruct (C _ N) as [[]|[v [V [O Dv]]]].
    assert (u = v) as <-.
    { apply J; [ intros K; rewrite K in I; contradiction | exact O | congruence ]. }
    exact (Dv tr o I). }
  assert (Y : forall u, onwards t u -> In (name u) (snd b)).
  { induction 1 as [|u tr o U IH I]; [ exact T | ]. exact (proj2 (X u U IH tr o I)). }
  intros u tr o U I. exact (proj1 (X u U (Y u U) tr o I)).
Qed.
End Unlimited.

(** *** Recursion is no deeper than there are names *)
Definition unmarked (L m : list str) : nat := length (filter (fun n => negb (marked n m)) L).

Lemma unmarked_le : forall L m m', incl m m' -> unmarked L m' <= unmarked L m.
Proof.
  intros L m m' I. unfold unmarked. induction L as [|n L IH]; [ cbn; lia | ]. cbn.
  destruct (marked n m) eqn:A, (marked n m') eqn:B; cbn; try lia.
  apply marked_iff in A. apply I in A. apply marked_not in B. contradiction.
Qed.

Lemma unmarked_lt : forall L m n, In n L -> ~ In n m -> unmarked L (n :: m) < unmarked L m.
Proof.
  intros L m n. unfold unmarked. induction L as [|k L IH]; intros I N; [ contradiction | ].
  pose proof (unmarked_le L m (n :: m) (incl_tl _ (incl_refl _))) as W. unfold unmarked in W.
  cbn [filter]. destruct (str_eq_dec k n) as [->|K].
  - replace (marked n (n :: m)) with true by (symmetry; apply marked_iff; left; reflexivity).
    apply marked_not in N. rewrite N. cbn [negb length]. lia.
  - destruct I as [I|I]; [ congruence | ]. specialize (IH I N).
    replace (marked k (n :: m)) with (marked k m).
    + destruct (marked k m); cbn [negb length]; lia.
    + unfold marked. cbn. destruct (str_eqb k n) eqn:E; [ apply str_eqb_eq in E; contradiction | reflexivity ].
Qed.

Lemma search_ends : forall (L : list str) fuel d t st,
  (forall d t tr o, In (tr, o) (adj d t) -> In (name o) L) ->
  In (name t) L -> unmarked L (snd st) <= fuel -> 1 <= fuel ->
  exists st', search fuel d t st = Ok st'.
Proof.
  intros L. induction fuel as [|fuel IH]; intros d t st A T U P; [ lia | ]. rewrite search_S.
  destruct (negb (Z.eqb d 0) && _) eqn:C; [ | eexists; reflexivity ].
  apply andb_true_iff in C as [_ C]. apply negb_true_iff, marked_not in C.
  pose proof (unmarked_lt L (snd st) (name t) T C) as K.
  assert (G : forall l a, incl l (adj (d - 1)%Z t) -> unmarked L (snd a) <= fuel ->
    exists b, loop (visit fuel (d - 1)) l a = Ok b).
  { induction l as [|x l IHl]; intros a I B; [ eexists; reflexivity | ]. cbn.
    assert (V : exists z, visit fuel (d - 1) x a = Ok z).
    { unfold visit. destruct (negb (Z.eqb (d - 1) 0) && _) eqn:Q; [ | eexists; reflexivity ].
      apply andb_true_iff in Q as [_ Q]. apply negb_true_iff, marked_not in Q. cbn [snd] in Q.
      assert (N : In (name (snd x)) L).
      { apply (A (d - 1)%Z t (fst x)). apply I. left. destruct x; reflexivity. }
      apply IH; auto. pose proof (unmarked_lt L _ _ N Q). lia. }
    destruct V as [z V]. rewrite V. cbn. apply IHl.
    - intros y Y. apply I. right; exact Y.
    - pose proof (visit_grows _ _ _ _ _ V) as [_ W]. pose proof (unmarked_le L _ _ W). lia. }
  apply G; [ apply incl_refl | ]. cbn [snd]. lia.
Qed.

(** *** One and two levels *)
Lemma search_zero : forall fuel t st b, search fuel 0 t st = Ok b -> b = st.
Proof. intros [|fuel] t st b H; [ discriminate | ]. cbn in H. congruence. Qed.

Lemma loop_one : forall fuel l st, loop (visit fuel 0) l st
  = Ok (fold_left (fun G x => g_add (fst x) G) l (fst st), snd st).
Proof.
  intros fuel. induction l as [|x l IH]; intros [G M]; [ reflexivity | ].
  cbn [loop]. replace (visit fuel 0 x (G, M)) with (Ok (g_add (fst x) G, M)) by reflexivity. cbn [bind].
  rewrite IH. reflexivity.
Qed.

Lemma In_fold_add : forall (l : list (triple * term)) G tr,
  In tr (fold_left (fun G x => g_add (fst x) G) l G) <-> In tr G \/ exists o, In (tr, o) l.
Proof.
  induction l as [|[x y] l IH]; intros G tr; cbn [fold_left].
  - split; [ auto | intros [H|[o []]]; exact H ].
  - rewrite IH, In_add. cbn [fst]. split.
    + intros [[->|H]|[o H]]; [ right; exists y; left; reflexivity | left; exact H | right; exists o; right; exact H ].
    + intros [H|[o [H|H]]]; [ auto | injection H as -> ->; auto | right; exists o; exact H ].
Qed.

Lemma search_one : forall fuel t G M b, ~ In (name t) M -> search fuel 1 t (G, M) = Ok b ->
  snd b = name t :: M /\ forall tr, In tr (fst b) <-> In tr G \/ exists o, In (tr, o) (adj 0%Z t).
Proof.
  intros [|fuel] t G M b N H; [ discriminate | ]. rewrite search_S in H. cbn [snd fst] in H.
  apply marked_not in N. rewrite N in H. change (negb (1 =? 0)%Z && negb false) with true in H. cbn [negb andb] in H.
  change (1 - 1)%Z with 0%Z in H. rewrite loop_one in H. injection H as <-. cbn [fst snd].
  split; [ reflexivity | ]. intros tr. apply In_fold_add.
Qed.

Lemma search_two : forall fuel t G b, search fuel 2 t (G, []) = Ok b ->
  (forall tr o, In (tr, o) (adj 1%Z t) -> In tr (fst b)) /\
  (forall tr0 o, In (tr0, o) (adj 1%Z t) -> exists u, name u = name o /\
     (u = t \/ (exists tr1, In (tr1, u) (adj 1%Z t)) /\ forall tr v, In (tr, v) (adj 0%Z u) -> In tr (fst b))).
Proof.
  intros [|fuel] t G b H; [ discriminate | ]. rewrite search_S in H. cbn [snd fst] in H.
  change (marked (name t) []) with false in H. change (negb (2 =? 0)%Z && negb false) with true in H.
  change (2 - 1)%Z with 1%Z in H.
  assert (X : forall l x y, incl l (adj 1%Z t) -> loop (visit fuel 1) l x = Ok y ->
    (forall n, In n (snd x) -> exists u, name u = n /\
       (u = t \/ (exists tr1, In (tr1, u) (adj 1%Z t)) /\ forall tr v, In (tr, v) (adj 0%Z u) -> In tr (fst x))) ->
    (forall tr o, In (tr, o) l -> In tr (fst y) /\ In (name o) (snd y)) /\
    (forall n, In n (snd y) -> exists u, name u = n /\
       (u = t \/ (exists tr1, In (tr1, u) (adj 1%Z t)) /\ forall tr v, In (tr, v) (adj 0%Z u) -> In tr (fst y)))).
  { induction l as [|[tr0 o0] l IH]; intros x y I E P; cbn in E.
    - injection E as <-. split; [ intros ? ? [] | exact P ].
    - destruct (visit fuel 1 (tr0, o0) x) as [z|] eqn:V; [ cbn in E | discriminate ].
      assert (Q : In tr0 (fst z) /\ In (name o0) (snd z) /\ forall n, In n (snd z) -> exists u, name u = n /\
         (u = t \/ (exists tr1, In (tr1, u) (adj 1%Z t)) /\ forall tr v, In (tr, v) (adj 0%Z u) -> In tr (fst z))).
      { unfold visit in V. cbn [fst snd] in V. change (1 =? 0)%Z with false in V. cbn [negb andb] in V.
        destruct (marked (name o0) (snd x)) eqn:M; cbn [negb] in V.
        - injection V as <-. cbn [fst snd]. split; [ apply In_add; auto | ]. split; [ apply marked_iff; exact M | ].
          intros n K. destruct (P n K) as [u [U [T|[A B]]]]; exists u; (split; [ exact U | ]); [ left; exact T | right ].
          split; [ exact A | ]. intros tr v W. apply In_add. right. eapply B. exact W.
        - apply marked_not in M. destruct (search_one _ _ _ _ _ M V) as [S1 S2].
          split; [ apply S2; left; apply In_add; auto | ]. rewrite S1. split; [ left; reflexivity | ].
          intros n [<-|K].
          + exists o0. split; [ reflexivity | right ]. split; [ exists tr0; apply I; left; reflexivity | ].
            intros tr v W. apply S2. right. exists v. exact W.
          + destruct (P n K) as [u [U [T|[A B]]]]; exists u; (split; [ exact U | ]); [ left; exact T | right ].
            split; [ exact A | ]. intros tr v W. apply S2. left. apply In_add. right. eapply B. exact W. }
      destruct Q as [Q1 [Q2 Q3]]. destruct (IH z y (fun k K => I k (or_intror K)) E Q3) as [R1 R2].
      split; [ | exact R2 ]. intros tr o [K|K]; [ injection K as <- <- | apply R1; exact K ].
      destruct (loop_grows _ (visit_grows fuel 1) _ _ _ E) as [Ga Gb]. split; auto. }
  destruct (X _ _ _ (incl_refl _) H) as [Y1 Y2].
  { cbn. intros n [<-|[]]. exists t. split; [ reflexivity | left; reflexivity ]. }
  split; [ intros tr o I; exact (proj1 (Y1 tr o I)) | ].
  intros tr0 o I. apply Y2. exact (proj2 (Y1 tr0 o I)).
Qed.
End Search.

(** ** The extraction as two searches *)
Section Extract.
Variable name : term -> str.
Variable order : graph -> graph.
Hypothesis order_ok : arranges order.
Variable g : graph.

Definition out_of (u : term) : graph := order (filter (matches (Some u) None None) g).
Definition into (u : term) : graph := order (filter (matches None None (Some u)) g).
Definition subj (tr : triple) : term := fst (fst tr).

Definition adj_down (d : Z) (u : term) : list (triple * term) :=
  map (fun tr => (tr, snd tr)) (filter (fun tr => negb (Z.eqb d 0 && is_bnode (snd tr))) (out_of u)).
Definition adj_up (d : Z) (u : term) : list (triple * term) :=
  map (fun tr => (tr, subj tr)) (filter (fun tr => negb (is_bnode (subj tr))) (into u)).
Definition adj_free (b : bool) (t : term) (d : Z) (u : term) : list (triple * term) :=
  map (fun tr => (tr, subj tr))
    (filter (fun tr => negb ((b || negb (term_eqb u t)) && is_bnode (subj tr))) (into u)).

Lemma In_order : forall l x, In x (order l) <-> In x l.
Proof.
  intros l x. split; intros H.
  - eapply Permutation_in; [ apply Permutation_sym, order_ok | exact H ].
  - eapply Permutation_in; [ apply order_ok | exact H ].
Qed.

Lemma In_out_of : forall u s p o, In (s, p, o) (out_of u) <-> s = u /\ In (s, p, o) g.
Proof.
  intros u s p o. unfold out_of. rewrite In_order, filter_In. cbn. rewrite !andb_true_r, term_eqb_eq.
  split; intros [A B]; auto.
Qed.
Lemma In_into : forall u s p o, In (s, p, o) (into u) <-> o = u /\ In (s, p, o) g.
Proof.
  intros u s p o. unfold into. rewrite In_order, filter_In. cbn. rewrite term_eqb_eq.
  split; intros [A B]; auto.
Qed.

Lemma is_bnode_iff : forall t, is_bnode t = true <-> blank t.
Proof.
  intros t. unfold blank. destruct t; cbn; split; intros H; try discriminate; try (destruct H; discriminate); eauto.
Qed.

Lemma In_adj_down : forall d u tr o, In (tr, o) (adj_down d u) <->
  exists p, tr = (u, p, o) /\ In (u, p, o) g /\ (d = 0%Z -> ~ blank o).
Proof.
  intros d u tr o. unfold adj_down. rewrite in_map_iff. split.
  - intros [[[s p] o'] [E I]]. injection E as <- <-. apply filter_In in I as [I N]. apply In_out_of in I as [-> I].
    exists p. split; [ reflexivity | ]. split; [ exact I | ]. intros ->. cbn in N. rewrite <- is_bnode_iff.
    apply negb_true_iff in N. congruence.
  - intros [p [-> [I N]]]. exists (u, p, o). split; [ reflexivity | ]. apply filter_In.
    split; [ apply In_out_of; auto | ]. cbn. destruct (Z.eqb_spec d 0) as [->|D]; [ | reflexivity ]. cbn.
    specialize (N eq_refl). rewrite <- is_bnode_iff in N. destruct (is_bnode o); [ congruence | reflexivity ].
Qed.

Lemma In_adj_up : forall d u tr s, In (tr, s) (adj_up d u) <->
  exists p, tr = (s, p, u) /\ In (s, p, u) g /\ ~ blank s.
Proof.
  intros d u tr s. unfold adj_up. rewrite in_map_iff. split.
  - intros [[[s' p] o] [E I]]. injection E as <- <-. apply filter_In in I as [I N]. apply In_into in I as [-> I].
    exists p. split; [ reflexivity | ]. split; [ exact I | ]. cbn in *. rewrite <- is_bnode_iff.
    apply negb_true_iff in N. congruence.
  - intros [p [-> [I N]]]. exists (s, p, u). split; [ reflexivity | ]. apply filter_In.
    split; [ apply In_into; auto | ]. cbn. rewrite <- is_bnode_iff in N. destruct (is_bnode s); [ congruence | reflexivity ].
Qed.

Lemma In_adj_free : forall b t d u tr s, In (tr, s) (adj_free b t d u) <->
  exists p, tr = (s, p, u) /\ In (s, p, u) g /\ (blank s -> b = false /\ u = t).
Proof.
  intros b t d u tr s. unfold adj_free. rewrite in_map_iff. split.
  - intros [[[s' p] o] [E I]]. injection E as <- <-. apply filter_In in I as [I N]. apply In_into in I as [-> I].
    exists p. split; [ reflexivity | ]. split; [ exact I | ]. cbn in *. rewrite <- is_bnode_iff. intros B. rewrite B in N.
    rewrite andb_true_r in N. apply negb_true_iff, orb_false_iff in N as [N1 N2]. apply negb_false_iff, term_eqb_eq in N2.
    auto.
  - intros [p [-> [I N]]]. exists (s, p, u). split; [ reflexivity | ]. apply filter_In.
    split; [ apply In_into; auto | ]. cbn. rewrite <- is_bnode_iff in N. destruct (is_bnode s).
    + destruct (N eq_refl) as [-> ->]. rewrite term_eqb_refl. reflexivity.
    + rewrite andb_false_r. reflexivity.
Qed.

Definition lift_down (U : list str) (r : result (graph * list str)) : result subgraph :=
  match r with Ok (G, D) => Ok (Sub G D U) | Err e => Err e end.
Definition lift_up (D : list str) (r : result (graph * list str)) : result subgraph :=
  match r with Ok (G, U) => Ok (Sub G D U) | Err e => Err e end.

Lemma loop_lift : forall (lift : result (graph * list str) -> result subgraph) (mk : graph * list str -> subgraph)
    (skip : triple -> bool) (h : triple -> term) F V,
  (forall r, lift r = match r with Ok x => Ok (mk x) | Err e => Err e end) ->
  (forall tr x, skip tr = true -> F tr (mk x) = Ok (mk x)) ->
  (forall tr x, skip tr = false -> F tr (mk x) = lift (V (tr, h tr) x)) ->
  forall l x, loop F l (mk x) = lift (loop V (map (fun tr => (tr, h tr)) (filter (fun tr => negb (skip tr)) l)) x).
Proof.
  intros lift mk skip h F V L A B. induction l as [|tr l IH]; intros x; cbn [loop map filter].
  - rewrite L. reflexivity.
  - destruct (skip tr) eqn:S; cbn [negb].
    + rewrite A by exact S. cbn [bind]. apply IH.
    + rewrite B by exact S. cbn [loop map]. destruct (V (tr, h tr) x) as [y|e]; rewrite !L; cbn [bind]; [ | reflexivity ].
      rewrite IH, L. reflexivity.
Qed.

Lemma bind_ok : forall A (r : result A), (x <- r ;; Ok x) = r.
Proof. intros A [x|e]; reflexivity. Qed.

Lemma down_eq : forall fuel t d G D U,
  graphiter name order fuel g t 0 d (Sub G D U) = lift_down U (search name adj_down fuel d t (G, D)).
Proof.
  induction fuel as [|fuel IH]; intros t d G D U; [ reflexivity | ].
  rewrite search_S. cbn [graphiter]. change (0 =? 0)%Z with true. cbn [negb andb]. rewrite bind_ok.
  cbn [s_down s_up s_graph fst snd].
  destruct (Z.eqb_spec d 0) as [->|N]; cbn [negb andb]; [ reflexivity | ].
  destruct (marked (name t) D); cbn [negb]; [ reflexivity | ].
  refine (loop_lift (lift_down U) (fun x => Sub (fst x) (snd x) U)
             (fun tr => Z.eqb (d - 1) 0 && is_bnode (snd tr)) (fun tr => snd tr) _ (visit name adj_down fuel (d - 1))
             _ _ _ _ (G, name t :: D)).
  - intros [[? ?]|]; reflexivity.
  - intros [[s p] o] x S. cbn [snd] in S. rewrite S. reflexivity.
  - intros [[s p] o] [G' D'] S. cbn [snd fst] in *. rewrite S. cbn [s_down s_up s_graph]. unfold visit. cbn [fst snd].
    destruct (negb (Z.eqb (d - 1) 0) && negb (marked (name o) D')); [ apply IH | reflexivity ].
Qed.

Lemma up_eq : forall fuel t a G D U,
  graphiter name order fuel g t a 0 (Sub G D U) = lift_up D (search name adj_up fuel a t (G, U)).
Proof.
  induction fuel as [|fuel IH]; intros t a G D U; [ reflexivity | ].
  rewrite search_S. cbn [graphiter]. change (0 =? 0)%Z with true. cbn [negb andb bind].
  cbn [s_down s_up s_graph fst snd].
  destruct (Z.eqb_spec a 0) as [->|N]; cbn [negb andb]; [ reflexivity | ].
  destruct (marked (name t) U); cbn [negb]; [ reflexivity | ].
  refine (loop_lift (lift_up D) (fun x => Sub (fst x) D (snd x))
             (fun tr => is_bnode (subj tr)) subj _ (visit name adj_up fuel (a - 1))
             _ _ _ _ (G, name t :: U)).
  - intros [[? ?]|]; reflexivity.
  - intros [[s p] o] x S. cbn [subj fst] in S. rewrite S. reflexivity.
  - intros [[s p] o] [G' D'] S. cbn [snd fst subj] in *. rewrite S. cbn [s_down s_up s_graph]. unfold visit. cbn [fst snd].
    destruct (negb (Z.eqb (a - 1) 0) && negb (marked (name s) D')); [ apply IH | reflexivity ].
Qed.

Lemma loop_ext : forall A S (f h : A -> S -> result S) (P : S -> Prop),
  (forall x s, P s -> f x s = h x s) -> (forall x s s', P s -> f x s = Ok s' -> P s') ->
  forall l s, P s -> loop f l s = loop h l s.
Proof.
  intros A S f h P E I. induction l as [|x l IH]; intros s H; [ reflexivity | ]. cbn. rewrite <- E by exact H.
  destruct (f x s) as [s'|] eqn:F; cbn; [ apply IH; eapply I; eassumption | reflexivity ].
Qed.

Lemma free_eq : forall b t fuel d u st, In (name t) (snd st) ->
  search name (adj_free b t) fuel d u st = search name adj_up fuel d u st.
Proof.
  intros b t. induction fuel as [|fuel IH]; intros d u st M; [ reflexivity | ]. rewrite !search_S.
  destruct (negb (Z.eqb d 0) && _) eqn:C; [ | reflexivity ].
  apply andb_true_iff in C as [_ C]. apply negb_true_iff, marked_not in C.
  assert (U : adj_free b t (d - 1)%Z u = adj_up (d - 1)%Z u).
  { unfold adj_free, adj_up. f_equal. apply filter_ext. intros tr.
    replace (term_eqb u t) with false; [ cbn; rewrite orb_true_r; reflexivity | ].
    symmetry. destruct (term_eqb u t) eqn:E; [ apply term_eqb_eq in E; subst; contradiction | reflexivity ]. }
  rewrite U. apply (loop_ext _ _ _ _ (fun st => In (name t) (snd st))).
  - intros x s I. unfold visit. destruct (_ && _); [ apply IH; exact I | reflexivity ].
  - intros x s s' I V. apply visit_grows in V as [_ V]. apply V. exact I.
  - right. exact M.
Qed.

Definition desc_of (d : Z) : Z := if Z.eqb d 0 then 0%Z else (d - 1)%Z.

Lemma top_eq : forall fuel t a d G,
  graphiter name order (S fuel) g t a d (Sub G [] []) =
  ('(G1, D1) <- search name adj_down (S fuel) d t (G, []) ;;
   lift_up D1 (search name (adj_free (Z.eqb (desc_of d) 0) t) (S fuel) a t (G1, []))).
Proof.
  intros fuel t a d G. pose proof (down_eq (S fuel) t d G [] []) as E. cbn [graphiter] in E |- *.
  change (0 =? 0)%Z with true in E. cbn [negb andb] in E. rewrite bind_ok in E. rewrite E. clear E.
  destruct (search name adj_down (S fuel) d t (G, [])) as [[G1 D1]|e]; cbn [lift_down bind]; [ | reflexivity ].
  rewrite search_S. cbn [s_down s_up s_graph fst snd].
  destruct (Z.eqb_spec a 0) as [->|N]; cbn [negb andb]; [ reflexivity | ].
  change (marked (name t) []) with false. cbn [negb].
  fold (desc_of d). set (b := Z.eqb (desc_of d) 0).
  transitivity (lift_up D1 (loop (visit name adj_up fuel (a - 1)) (adj_free b t (a - 1)%Z t) (G1, [name t]))).
  - unfold adj_free. rewrite term_eqb_refl. cbn [negb]. rewrite orb_false_r.
    refine (loop_lift (lift_up D1) (fun x => Sub (fst x) D1 (snd x))
             (fun tr => b && is_bnode (subj tr)) subj _ (visit name adj_up fuel (a - 1))
             _ _ _ _ (G1, [name t])).
    + intros [[? ?]|]; reflexivity.
    + intros [[s p] o] x S. cbn [subj fst] in S. rewrite S. reflexivity.
    + intros [[s p] o] [G' D'] S. cbn [snd fst subj] in *. rewrite S. cbn [s_down s_up s_graph]. unfold visit. cbn [fst snd].
      destruct (negb (Z.eqb (a - 1) 0) && negb (marked (name s) D')); [ apply up_eq | reflexivity ].
  - f_equal. symmetry. apply (loop_ext _ _ _ _ (fun st => In (name t) (snd st))).
    + intros x s I. unfold visit. destruct (_ && _); [ apply free_eq; exact I | reflexivity ].
    + intros x s s' I V. apply visit_grows in V as [_ V]. apply V. exact I.
    + left. reflexivity.
Qed.

(** *** Exactness *)
Section Target.
Variable t : term.

Lemma down_next : forall d u, (d < 0)%Z -> adj_down d u = adj_down (-1) u.
Proof.
  intros d u H. unfold adj_down. replace (Z.eqb d 0) with false by (symmetry; apply Z.eqb_neq; lia). reflexivity.
Qed.

Lemma down_onwards : forall u, onwards (adj_down (-1)) t u <-> reaches g t u.
Proof.
  intros u. split.
  - induction 1 as [|u tr o U IH I]; [ constructor | ]. apply In_adj_down in I as [p [_ [I _]]].
    eapply reach_step; eassumption.
  - induction 1 as [|s p o R IH I]; [ constructor | ]. eapply (on_step _ _ s (s, p, o)); [ exact IH | ].
    apply In_adj_down. exists p. split; [ reflexivity | ]. split; [ exact I | discriminate ].
Qed.

Lemma walk_down_neg : forall d e u, (d < 0)%Z -> walk adj_down d t e u -> (e < 0)%Z /\ reaches g t u.
Proof.
  intros d e u D W. induction W as [|e u tr o W IH N1 N2 I]; [ split; [ exact D | constructor ] | ].
  destruct IH as [E R]. apply In_adj_down in I as [p [_ [I _]]]. split; [ lia | ]. eapply reach_step; eassumption.
Qed.

Lemma walk_down_pos : forall d e u, (0 < d)%Z -> walk adj_down d t e u ->
  (0 < e)%Z /\ exists k, steps g t k u /\ (Z.of_nat k + e = d)%Z.
Proof.
  intros d e u D W. induction W as [|e u tr o W IH N1 N2 I].
  - split; [ exact D | ]. exists 0. split; [ constructor | lia ].
  - destruct IH as [E [k [P Q]]]. apply In_adj_down in I as [p [_ [I _]]]. split; [ lia | ].
    exists (S k). split; [ eapply steps_more; eassumption | lia ].
Qed.

(** Soundness for every depth. *)
Lemma down_sound : forall fuel d G1 D1, search name adj_down fuel d t ([], []) = Ok (G1, D1) ->
  forall s p o, In (s, p, o) G1 -> In (s, p, o) g /\
    (((d < 0)%Z /\ reaches g t s)
     \/ exists k, (Z.of_nat k < d)%Z /\ steps g t k s /\ (Z.of_nat (S k) = d -> ~ blank o)).
Proof.
  intros fuel d G1 D1 E s p o I. destruct (search_sound _ _ _ _ _ _ _ E _ I) as [[]|[e [u [x [W [N K]]]]]].
  apply In_adj_down in K as [q [Q [J B]]]. injection Q as <- <- <-. split; [ exact J | ].
  destruct (Z.lt_trichotomy d 0) as [D|[D|D]].
  - left. split; [ exact D | ]. exact (proj2 (walk_down_neg d e s D W)).
  - subst d. exfalso. apply search_zero in E. injection E as -> _. contradiction.
  - right. destruct (walk_down_pos d e s D W) as [E' [k [P Q]]]. exists k. split; [ lia | ]. split; [ exact P | ].
    intros R. apply B. lia.
Qed.

Lemma up_onwards : forall b u, onwards (adj_free b t 0) t u <-> climbs g (b = false) t u.
Proof.
  intros b u. split.
  - induction 1 as [|u tr o U IH I]; [ constructor | ]. apply In_adj_free in I as [p [_ [I B]]].
    eapply climb_step; eassumption.
  - induction 1 as [|s p o R IH I B]; [ constructor | ]. eapply (on_step _ _ o (s, p, o)); [ exact IH | ].
    apply In_adj_free. exists p. auto.
Qed.

Lemma walk_up : forall b d e u, walk (adj_free b t) d t e u -> climbs g (b = false) t u.
Proof.
  intros b d e u W. induction W as [|e u tr o W IH N1 N2 I]; [ constructor | ].
  apply In_adj_free in I as [p [_ [I B]]]. eapply climb_step; eassumption.
Qed.

Lemma up_sound : forall b fuel a G1 G2 U2, search name (adj_free b t) fuel a t (G1, []) = Ok (G2, U2) ->
  forall s p o, In (s, p, o) G2 -> In (s, p, o) G1 \/
    (a <> 0%Z /\ In (s, p, o) g /\ climbs g (b = false) t o /\ (blank s -> b = false /\ o = t)).
Proof.
  intros b fuel a G1 G2 U2 E s p o I. destruct (search_sound _ _ _ _ _ _ _ E _ I) as [H|[e [u [x [W [N K]]]]]]; [ auto | right ].
  apply In_adj_free in K as [q [Q [J B]]]. injection Q as -> -> <-. split.
  - intros ->. apply search_zero in E. injection E as -> ->.
    inversion W as [|? ? ? ? W' N1 N2 _]; subst; [ contradiction | ].
    assert (X : forall d e u, walk (adj_free b t) d t e u -> d = 0%Z -> e = 0%Z).
    { induction 1; intros Z; [ exact Z | ]. specialize (IHwalk Z). contradiction. }
    apply N1. eapply X; [ exact W' | reflexivity ].
  - split; [ exact J | ]. split; [ exact (walk_up _ _ _ _ W) | exact B ].
Qed.

Hypothesis differ : names_differ name g t.

Lemma onwards_object : forall c, reaches g t c -> c = t \/ exists s p, In (s, p, c) g.
Proof. destruct 1 as [|s p o R I]; [ left; reflexivity | right; eauto ]. Qed.

Lemma down_exact : forall fuel d G1 D1, search name adj_down fuel d t ([], []) = Ok (G1, D1) ->
  ((d < 0)%Z \/ d = 0%Z \/ d = 1%Z \/ d = 2%Z) ->
  forall s p o, In (s, p, o) G1 <-> In (s, p, o) g /\ below g t d s o.
Proof.
  intros fuel d G1 D1 E [D|[->|[->| ->]]] s p o.
  - split.
    + intros I. destruct (down_sound _ _ _ _ E _ _ _ I) as [J [[_ R]|[k [K _]]]]; [ | lia ].
      split; [ exact J | left; auto ].
    + intros [J [[_ R]|[[? _]|[? _]]]]; [ | lia | lia ].
      apply (search_all name adj_down (adj_down (-1)) down_next _ _ _ _ _ D E) with (u := s) (o := o).
      * intros a c A C NA. apply differ; [ | apply onwards_object, down_onwards; exact C | exact NA ].
        right. destruct (adj_down (-1) a) as [|[tr x] l] eqn:Q; [ congruence | ].
        assert (X : In (tr, x) (adj_down (-1) a)) by (rewrite Q; left; reflexivity).
        apply In_adj_down in X as [q [_ [X _]]]. eauto.
      * apply down_onwards. exact R.
      * apply In_adj_down. exists p. split; [ reflexivity | ]. split; [ exact J | discriminate ].
  - apply search_zero in E. injection E as -> _. split; [ contradiction | ]. intros [_ [[? _]|[[? _]|[? _]]]]; lia.
  - destruct (search_one name adj_down _ _ _ _ _ (@in_nil _ _) E) as [_ X]. cbn [fst] in X. rewrite X. split.
    + intros [[]|[x I]]. apply In_adj_down in I as [q [Q [J B]]]. injection Q as -> -> ->.
      split; [ exact J | ]. right; left. auto.
    + intros [J [[? _]|[[_ [-> B]]|[? _]]]]; [ lia | | lia ]. right. exists o. apply In_adj_down. eauto.
  - split.
    + intros I. destruct (down_sound _ _ _ _ E _ _ _ I) as [J [[? _]|[k [K [P B]]]]]; [ lia | ].
      split; [ exact J | ]. right; right. split; [ reflexivity | ]. inversion P as [|k' s' p' o' P' I']; subst; [ left; reflexivity | ].
      assert (k' = 0) by lia. subst k'. inversion P'; subst. right. split; [ eauto | ]. apply B. lia.
    + intros [J [[? _]|[[? _]|[_ R]]]]; [ lia | lia | ].
      destruct (search_two name adj_down _ _ _ _ E) as [X Y]. cbn [fst] in X, Y.
      assert (T : forall q x, In (t, q, x) g -> In (t, q, x) G1).
      { intros q x K. apply (X _ x). apply In_adj_down. exists q. split; [ reflexivity | ]. split; [ exact K | discriminate ]. }
      destruct R as [->|[[q Q] B]]; [ apply T; exact J | ].
      destruct (Y (t, q, s) s) as [u [U [->|[[tr1 A] Z]]]].
      { apply In_adj_down. exists q. split; [ reflexivity | ]. split; [ exact Q | discriminate ]. }
      * assert (s = t) as -> by (apply differ; eauto). apply T. exact J.
      * apply In_adj_down in A as [q' [_ [A _]]].
        assert (s = u) as <- by (apply differ; eauto). apply (Z _ o). apply In_adj_down. eauto.
Qed.

Lemma up_exact : forall b fuel a G1 G2 U2, search name (adj_free b t) fuel a t (G1, []) = Ok (G2, U2) ->
  ((a < 0)%Z \/ a = 0%Z \/ a = 1%Z) ->
  forall s p o, In (s, p, o) G2 <-> In (s, p, o) G1 \/ (In (s, p, o) g /\
    (((a < 0)%Z /\ climbs g (b = false) t o /\ (blank s -> b = false /\ o = t))
     \/ (a = 1%Z /\ o = t /\ (blank s -> b = false)))).
Proof.
  intros b fuel a G1 G2 U2 E [A|[->| ->]] s p o.
  - split.
    + intros I. destruct (up_sound _ _ _ _ _ _ E _ _ _ I) as [H|[_ [J [C B]]]]; [ auto | right ].
      split; [ exact J | left; auto ].
    + intros [H|[J [[_ [C B]]|[? _]]]]; [ | | lia ].
      * apply (search_grows _ _ _ _ _ _ _ E). exact H.
      * apply (search_all name (adj_free b t) (adj_free b t 0) (fun _ _ _ => eq_refl) _ _ _ _ _ A E) with (u := o) (o := s).
        -- intros x c X C' NA. symmetry. apply differ; [ | | congruence ].
           ++ apply up_onwards in C'. destruct C' as [|s' p' o' R I B']; [ left; reflexivity | right; eauto ].
           ++ right. destruct (adj_free b t 0 x) as [|[tr y] l] eqn:Q; [ congruence | ].
              assert (Y : In (tr, y) (adj_free b t 0 x)) by (rewrite Q; left; reflexivity).
              apply In_adj_free in Y as [q [_ [Y _]]]. eauto.
        -- apply up_onwards. exact C.
        -- apply In_adj_free. eauto.
  - apply search_zero in E. injection E as -> _. split; [ auto | ].
    intros [H|[_ [[? _]|[? _]]]]; [ exact H | lia | lia ].
  - destruct (search_one name (adj_free b t) _ _ _ _ _ (@in_nil _ _) E) as [_ X]. cbn [fst] in X. rewrite X. split.
    + intros [H|[x I]]; [ auto | right ]. apply In_adj_free in I as [q [Q [J B]]]. injection Q as -> -> ->.
      split; [ exact J | right ]. split; [ reflexivity | ]. split; [ reflexivity | ]. intros K. apply B. exact K.
    + intros [H|[J [[? _]|[_ [-> B]]]]]; [ auto | lia | ]. right. exists s. apply In_adj_free. exists p. auto.
Qed.
End Target.

Lemma free_depth : forall d, Z.eqb (desc_of d) 0 = false <-> (d <> 0 /\ d <> 1)%Z.
Proof.
  intros d. unfold desc_of. destruct (Z.eqb_spec d 0) as [->|N]; [ split; [ discriminate | lia ] | ].
  destruct (Z.eqb_spec (d - 1) 0); split; intros; try discriminate; try lia.
Qed.

Lemma climbs_iff : forall (P Q : Prop) t u, (P <-> Q) -> (climbs g P t u <-> climbs g Q t u).
Proof.
  intros P Q t u E. split; induction 1 as [|s p o C IH I B]; try constructor; eapply climb_step; try eassumption; tauto.
Qed.

Lemma extract_split : forall fuel l t a d out, extract name order fuel (Prefixes l) g t a d = Ok out ->
  exists G1 D1 U2, search name adj_down fuel d t ([], []) = Ok (G1, D1)
    /\ search name (adj_free (Z.eqb (desc_of d) 0) t) fuel a t (G1, []) = Ok (out, U2).
Proof.
  intros fuel l t a d out E. unfold extract in E. cbn [new_subgraph bind] in E. destruct fuel as [|fuel]; [ discriminate | ].
  rewrite top_eq in E.
  match type of E with context [search name adj_down ?f ?d ?u ?s] => destruct (search name adj_down f d u s) as [[G1 D1]|e] eqn:S1 end;
    [ cbn [bind] in E | discriminate ].
  match type of E with context [search name ?r ?f ?d ?u ?s] => destruct (search name r f d u s) as [[G2 U2]|e] eqn:S2 end;
    [ cbn [bind lift_up] in E | discriminate ].
  injection E as <-. exists G1, D1, U2. split; [ exact S1 | exact S2 ].
Qed.

Theorem extract_exact : forall fuel l t a d out, names_differ name g t ->
  ((d < 0)%Z \/ d = 0%Z \/ d = 1%Z \/ d = 2%Z) -> ((a < 0)%Z \/ a = 0%Z \/ a = 1%Z) ->
  extract name order fuel (Prefixes l) g t a d = Ok out ->
  forall s p o, In (s, p, o) out <-> In (s, p, o) g /\ (below g t d s o \/ above g t a d s o).
Proof.
  intros fuel l t a d out N Hd Ha E s p o. destruct (extract_split _ _ _ _ _ _ E) as [G1 [D1 [U2 [S1 S2]]]].
  rewrite (up_exact t N _ _ _ _ _ _ S2 Ha s p o), (down_exact t N _ _ _ _ S1 Hd s p o).
  unfold above. rewrite (climbs_iff _ _ t o (free_depth d)), free_depth. tauto.
Qed.

Theorem extract_sound : forall fuel l t a d out,
  extract name order fuel (Prefixes l) g t a d = Ok out ->
  forall s p o, In (s, p, o) out -> In (s, p, o) g /\
    (((d < 0)%Z /\ reaches g t s)
     \/ (exists k, (Z.of_nat k < d)%Z /\ steps g t k s /\ (Z.of_nat (S k) = d -> ~ blank o))
     \/ (a <> 0%Z /\ climbs g (d <> 0 /\ d <> 1)%Z t o /\ (blank s -> (d <> 0 /\ d <> 1)%Z /\ o = t))).
Proof.
  intros fuel l t a d out E s p o I. destruct (extract_split _ _ _ _ _ _ E) as [G1 [D1 [U2 [S1 S2]]]].
  destruct (up_sound t _ _ _ _ _ _ S2 _ _ _ I) as [H|[A [J [C B]]]].
  - destruct (down_sound t _ _ _ _ S1 _ _ _ H) as [J K]. split; [ exact J | tauto ].
  - split; [ exact J | ]. right; right. split; [ exact A | ].
    rewrite free_depth in B. split; [ apply (climbs_iff _ _ t o (free_depth d)); exact C | exact B ].
Qed.

Theorem extract_ends : forall fuel l t a d, length g < fuel ->
  exists out, extract name order fuel (Prefixes l) g t a d = Ok out.
Proof.
  intros fuel l t a d H. unfold extract. cbn [new_subgraph bind]. destruct fuel as [|fuel]; [ lia | ].
  rewrite top_eq.
  assert (U : forall A (f : A -> str) L x, unmarked (x :: map f L) [] <= S (length L)).
  { intros A f L x. unfold unmarked.
    assert (F : forall (q : str -> bool) K, length (filter q K) <= length K).
    { intros q K. induction K as [|k K IHK]; cbn; [ lia | ]. destruct (q k); cbn; lia. }
    etransitivity; [ apply F | ]. cbn. rewrite map_length. lia. }
  destruct (search_ends name adj_down (name t :: map (fun tr => name (snd tr)) g) (S fuel) d t ([], [])) as [[G1 D1] E1].
  - intros d' u tr o I. apply In_adj_down in I as [p [_ [I _]]]. right. apply in_map_iff. exists (u, p, o). auto.
  - left. reflexivity.
  - cbn [snd]. exact (Nat.le_trans _ _ _ (U _ _ g _) H).
  - lia.
  - match goal with |- context [search name adj_down ?f ?d ?u ?s] => replace (search name adj_down f d u s) with (Ok (G1, D1)) by (symmetry; exact E1) end.
    cbn [bind].
    destruct (search_ends name (adj_free (Z.eqb (desc_of d) 0) t) (name t :: map (fun tr => name (subj tr)) g) (S fuel) a t (G1, [])) as [[G2 U2] E2].
    + intros d' u tr o I. apply In_adj_free in I as [p [_ [I _]]]. right. apply in_map_iff. exists (o, p, u). auto.
    + left. reflexivity.
    + cbn [snd]. exact (Nat.le_trans _ _ _ (U _ _ g _) H).
    + lia.
    + match goal with |- context [search name ?r ?f ?d ?u ?s] => replace (search name r f d u s) with (Ok (G2, U2)) by (symmetry; exact E2) end.
      eexists. reflexivity.
Qed.
End Extract.

(** ** A chain longer than the recursion limit *)
Section Chain.
Variable name : term -> str.
Definition link (i : nat) : term := URI (repeat 97%N i).
Definition chain_graph (n : nat) : graph := map (fun i => (link i, link 0, link (S i))) (seq 0 n).

Lemma link_inj : forall i j, link i = link j -> i = j.
Proof. intros i j H. injection H as H. rewrite <- (repeat_length 97%N i), <- (repeat_length 97%N j), H. reflexivity. Qed.

Lemma out_of_chain : forall n i, i < n ->
  filter (matches (Some (link i)) None None) (chain_graph n) = [(link i, link 0, link (S i))].
Proof.
  intros n i. unfold chain_graph.
  assert (G : forall m k, filter (matches (Some (link i)) None None) (map (fun j => (link j, link 0, link (S j))) (seq k m))
    = if (k <=? i) && (i <? k + m) then [(link i, link 0, link (S i))] else []).
  { induction m as [|m IH]; intros k.
    - cbn [seq map filter]. destruct (Nat.leb_spec k i), (Nat.ltb_spec i (k + 0)); cbn; try reflexivity; lia.
    - cbn [seq map filter]. rewrite IH. unfold matches. cbn [pos_matches]. rewrite !andb_true_r.
      destruct (term_eqb (link i) (link k)) eqn:E.
      + apply term_eqb_eq, link_inj in E. subst k.
        destruct (Nat.leb_spec (S i) i); [ lia | ]. destruct (Nat.leb_spec i i); [ | lia ].
        destruct (Nat.ltb_spec i (i + S m)); [ reflexivity | lia ].
      + assert (i <> k). { intros ->. rewrite term_eqb_refl in E. discriminate. }
        destruct (Nat.leb_spec (S k) i), (Nat.leb_spec k i); try lia;
          destruct (Nat.ltb_spec i (S k + m)), (Nat.ltb_spec i (k + S m)); try lia; reflexivity. }
  intros H. rewrite G. cbn [Nat.leb]. destruct (Nat.ltb_spec i (0 + n)); [ reflexivity | lia ].
Qed.

Hypothesis name_inj : forall i j, name (link i) = name (link j) -> i = j.

Lemma chain_search : forall n fuel i G M, fuel <= n - i ->
  (forall x, In x M -> exists j, j < i /\ x = name (link j)) ->
  search name (adj_down (fun l => l) (chain_graph n)) fuel (-1 - Z.of_nat i) (link i) (G, M) = Err RecursionError.
Proof.
  intros n. induction fuel as [|fuel IH]; intros i G M L H; [ reflexivity | ]. rewrite search_S.
  replace (Z.eqb (-1 - Z.of_nat i) 0) with false by (symmetry; apply Z.eqb_neq; lia). cbn [snd fst negb andb].
  assert (X : forall k, i <= k -> marked (name (link k)) M = false).
  { intros k K. apply marked_not. intros I. destruct (H _ I) as [j [J E]]. apply name_inj in E. lia. }
  rewrite (X i) by lia. cbn [negb]. unfold adj_down, out_of. rewrite out_of_chain by lia.
  cbn [filter map fst snd]. replace (Z.eqb (-1 - Z.of_nat i - 1) 0) with false by (symmetry; apply Z.eqb_neq; lia).
  cbn [negb andb map loop]. unfold visit. cbn [fst snd].
  replace (Z.eqb (-1 - Z.of_nat i - 1) 0) with false by (symmetry; apply Z.eqb_neq; lia). cbn [negb andb].
  assert (Y : marked (name (link (S i))) (name (link i) :: M) = false).
  { apply marked_not. intros [E|I]; [ apply name_inj in E; lia | ]. destruct (H _ I) as [j [J E]]. apply name_inj in E. lia. }
  rewrite Y. cbn [negb]. replace (-1 - Z.of_nat i - 1)%Z with (-1 - Z.of_nat (S i))%Z by lia.
  fold (adj_down (fun l => l) (chain_graph n)).
  match goal with |- context [search ?a ?b ?c ?d ?e ?f] => replace (search a b c d e f) with (@Err (graph * list str) RecursionError) end;
    [ reflexivity | ].
  symmetry. apply IH; [ lia | ]. intros x [<-|I]; [ exists i; split; [ lia | reflexivity ] | ].
  destruct (H x I) as [j [J E]]. exists j. split; [ lia | exact E ].
Qed.
End Chain.
