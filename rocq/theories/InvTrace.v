(** Loops of parsing actions, and what they leave alone. *)

From Coq Require Import List NArith ZArith Arith Bool Lia.
From Verif Require Import PyStr PyStrFacts XmlModel UrnModel MetaModel MetaSpec MetaProofs
  CollModel CollSpec CollProofs CollHist CollLang InvModel InvSpec InvProofs.
Import ListNotations.

(** ** Runs of a loop *)
Inductive trace {A B} (P : A -> store -> store -> B -> Prop) : list A -> store -> store -> list B -> Prop :=
| trace_nil : forall s, trace P [] s s []
| trace_cons : forall a l s s1 s' b bs,
    P a s s1 b -> trace P l s1 s' bs -> trace P (a :: l) s s' (b :: bs).

Lemma collect_trace : forall {A B} (f : A -> act B) (wf : A -> Prop) (P : A -> store -> store -> B -> Prop)
    (Pre : store -> Prop) (l : list A),
  (forall a s, In a l -> Pre s -> yields (f a) s (wf a) (fun s' b => P a s s' b)) ->
  (forall a s s' b, In a l -> Pre s -> P a s s' b -> Pre s') ->
  forall s, Pre s ->
  yields (collect l f) s (forall a, In a l -> wf a) (fun s' bs => trace P l s s' bs /\ Pre s').
Proof.
  intros A B f wf P Pre l. induction l as [|a l IH]; intros Hf Hp s Hs; cbn [collect].
  - apply yields_ret; [ intros ? [] | split; [ constructor | exact Hs ] ].
  - eapply yields_weaken.
    + eapply yields_bind; [ apply (Hf a s (or_introl eq_refl) Hs) | ].
      intros s1 b Hb. cbn beta in Hb.
      eapply yields_bind.
      * apply IH; [ intros; apply Hf; [ right; assumption | assumption ]
                  | intros a' s2 s2' b' Ha'; apply Hp; right; exact Ha' | ].
        eapply Hp; [ left; reflexivity | exact Hs | exact Hb ].
      * intros s2 bs [Hbs Hpre]. apply (yields_ret (b :: bs) s2 True); [ exact I | ].
        instantiate (1 := fun s' bs => trace P (a :: l) s s' bs /\ Pre s'). cbn beta.
        split; [ econstructor; eassumption | exact Hpre ].
    + split.
      * intros (W1 & W2 & _) x [<-|Hx]; auto.
      * intros W. split; [ apply W; left; reflexivity | ]. split; [ | exact I ].
        intros x Hx. apply W. right. exact Hx.
    + cbn beta. auto.
Qed.

Lemma trace_app : forall {A B} (P : A -> store -> store -> B -> Prop) l1 s s1 b1,
  trace P l1 s s1 b1 -> forall l2 s2 b2, trace P l2 s1 s2 b2 -> trace P (l1 ++ l2) s s2 (b1 ++ b2).
Proof.
  intros A B P l1 s s1 b1 H. induction H; intros l2 s2 b2 H2; cbn [app]; [ exact H2 | ].
  econstructor; [ eassumption | ]. apply IHtrace. exact H2.
Qed.

Lemma trace_map : forall {A A' B} (h : A -> A') (P : A' -> store -> store -> B -> Prop) l s s' bs,
  trace (fun a => P (h a)) l s s' bs -> trace P (map h l) s s' bs.
Proof. intros A A' B h P l s s' bs H. induction H; cbn [map]; econstructor; eassumption. Qed.

(** ** What stays *)
Definition add_all (es : list (str * nat)) (d : list (str * nat)) : list (str * nat) :=
  fold_left (fun d e => add_first (fst e) (snd e) d) es d.

Definition extends (p : option nat) (es : list (str * nat)) (s s' : store) : Prop :=
  length (objs (s_state s)) <= length (objs (s_state s')) /\
  (forall j, j < length (objs (s_state s)) ->
     (p <> Some j -> obj (s_state s') j = obj (s_state s) j) /\
     (p = Some j -> obj (s_state s') j
        = put_children (add_all es (c_children (obj (s_state s) j))) (obj (s_state s) j)) /\
     citation_of s' j = citation_of s j).

Lemma extends_refl : forall p s, extends p [] s s.
Proof.
  intros p s. split; [ lia | ]. intros j Hj. split; [ reflexivity | ]. split; [ | reflexivity ].
  intros _. symmetry. apply put_children_same.
Qed.

Lemma extends_trans : forall p e1 e2 s s1 s2, extends p e1 s s1 -> extends p e2 s1 s2 ->
  extends p (e1 ++ e2) s s2.
Proof.
  intros p e1 e2 s s1 s2 [L1 H1] [L2 H2]. split; [ lia | ]. intros j Hj.
  destruct (H1 j Hj) as (A1 & B1 & C1). destruct (H2 j ltac:(lia)) as (A2 & B2 & C2).
  split; [ | split; [ | congruence ] ].
  - intros N. rewrite A2, A1 by exact N. reflexivity.
  - intros E. rewrite B2, B1 by exact E. unfold add_all. rewrite fold_left_app. reflexivity.
Qed.

(** Nothing at all changes for the objects below a bound. *)
Definition frame (lo hi : nat) (s s' : store) : Prop :=
  length (objs (s_state s)) <= length (objs (s_state s')) /\
  forall j, lo <= j < hi -> obj (s_state s') j = obj (s_state s) j /\ citation_of s' j = citation_of s j.

Lemma extends_frame : forall q es s s' lo, extends (Some q) es s s' -> q < lo ->
  frame lo (length (objs (s_state s))) s s'.
Proof.
  intros q es s s' lo [L H] Hq. split; [ exact L | ]. intros j Hj.
  destruct (H j ltac:(lia)) as (A & _ & C). split; [ apply A; intros E; injection E as E; lia | exact C ].
Qed.

Section Loop.
Context {A B : Type}.
Variable P : A -> store -> store -> B -> Prop.
Variable q : nat.
Variable Pre : store -> Prop.
Variable elem : A -> XmlModel.node.
Variable idx : B -> nat.
Variable shows : store -> A -> B -> Prop.
Variable told : A -> triple -> Prop.
Variable ids : A -> list str.
Hypothesis keeps : forall a s s' b, Pre s -> P a s s' b -> Pre s'.
Hypothesis inside : forall s, Pre s -> q < length (objs (s_state s)).
Hypothesis step : forall a s s' b, Pre s -> P a s s' b ->
  exists u, urn_of (elem a) = Some u /\ extends (Some q) [(u, idx b)] s s' /\
    idx b = length (objs (s_state s)) /\ shows s' a b /\
    grows (told a) (ids a) (graphs (s_state s)) (graphs (s_state s')).
Hypothesis stable : forall s s' a b, shows s a b ->
  frame (idx b) (length (objs (s_state s))) s s' -> shows s' a b.

Lemma loop_structure : forall l s s' bs, trace P l s s' bs -> Pre s ->
  extends (Some q) (combine (urn_list (map elem l)) (map idx bs)) s s' /\
  Forall2 (shows s') l bs /\ (forall b, In b bs -> length (objs (s_state s)) <= idx b) /\
  grows (fun t => exists a, In a l /\ told a t) (flat_map ids l) (graphs (s_state s)) (graphs (s_state s')).
Proof using keeps inside step stable.
  intros l s s' bs T. induction T as [s|a l s s1 s' b bs Ha T IH]; intros Hs.
  - split; [ apply extends_refl | ]. split; [ constructor | ]. split; [ intros ? [] | ].
    eapply grows_ext; [ apply grows_refl | | apply incl_refl ]. intros; split; [ tauto | intros (? & [] & _) ].
  - destruct (step a s s1 b Hs Ha) as (u & Hu & E1 & Hb & S1 & G1).
    destruct (IH (keeps _ _ _ _ Hs Ha)) as (E2 & S2 & I2 & G2).
    pose proof (inside s Hs) as Hq.
    split; [ | split; [ | split ] ].
    + cbn [map urn_list combine]. rewrite Hu.
      change ((u, idx b) :: combine (map (fun e => match urn_of e with Some u0 => u0 | None => [] end) (map elem l)) (map idx bs))
        with ([(u, idx b)] ++ combine (urn_list (map elem l)) (map idx bs)).
      eapply extends_trans; eassumption.
    + constructor; [ | exact S2 ]. eapply stable; [ exact S1 | ].
      eapply extends_frame; [ exact E2 | lia ].
    + intros b' [<-|Hb']; [ lia | ]. specialize (I2 b' Hb'). destruct E1 as [L1 _]. lia.
    + cbn [flat_map]. eapply grows_ext; [ eapply grows_trans; eassumption | | apply incl_refl ].
      intros t p o _. split.
      * intros [X|(c & Hc & X)]; [ exists a; split; [ left; reflexivity | exact X ] | exists c; split; [ right; exact Hc | exact X ] ].
      * intros (c & [<-|Hc] & X); [ left; exact X | right; exists c; auto ].
Qed.

(** Languages: what a step establishes about its own identifiers stays, the
    identifiers of the others being different. *)
Variable facts : store -> A -> Prop.
Variable fresh : store -> list str -> Prop.
Variable may : store -> Prop.
Hypothesis facts_stable : forall s s' a told' ids', facts s a ->
  grows told' ids' (graphs (s_state s)) (graphs (s_state s')) ->
  (forall u, In u (ids a) -> ~ In u ids') -> facts s' a.
Hypothesis fresh_stable : forall s s' us told' ids', fresh s us ->
  grows told' ids' (graphs (s_state s)) (graphs (s_state s')) ->
  (forall u, In u us -> ~ In u ids') -> fresh s' us.
Hypothesis fresh_app : forall s us vs, fresh s (us ++ vs) -> fresh s us /\ fresh s vs.
Hypothesis may_keeps : forall a s s' b, Pre s -> may s -> P a s s' b -> may s'.
Hypothesis facts_made : forall a s s' b, Pre s -> may s -> P a s s' b -> fresh s (ids a) ->
  NoDup (ids a) -> facts s' a.

Lemma NoDup_app_parts : forall {X} (a b : list X), NoDup (a ++ b) ->
  NoDup a /\ NoDup b /\ forall x, In x a -> ~ In x b.
Proof.
  intros X a b. induction a as [|x a IH]; cbn [app]; intros H.
  - split; [ constructor | split; [ exact H | intros ? [] ] ].
  - inversion H as [|? ? N D]; subst. destruct (IH D) as (I1 & I2 & I3).
    split; [ constructor; [ rewrite in_app_iff in N; tauto | exact I1 ] | ]. split; [ exact I2 | ].
    intros y [<-|Hy]; [ rewrite in_app_iff in N; tauto | apply I3; exact Hy ].
Qed.

Lemma loop_facts : forall l s s' bs, trace P l s s' bs -> Pre s -> may s ->
  fresh s (flat_map ids l) -> NoDup (flat_map ids l) -> forall a, In a l -> facts s' a.
Proof using keeps inside step stable facts_stable fresh_stable fresh_app may_keeps facts_made.
  intros l s s' bs T. induction T as [s|a l s s1 s' b bs Ha T IH]; intros Hs Hm F N c Hc; [ destruct Hc | ].
  cbn [flat_map] in F, N. apply fresh_app in F as [F1 F2].
  apply NoDup_app_parts in N as (N1 & N2 & N3).
  destruct (step a s s1 b Hs Ha) as (u & Hu & E1 & Hb & S1 & G1).
  pose proof (keeps _ _ _ _ Hs Ha) as Hs1. pose proof (may_keeps _ _ _ _ Hs Hm Ha) as Hm1.
  destruct (loop_structure l s1 s' bs T Hs1) as (_ & _ & _ & G2).
  destruct Hc as [<-|Hc].
  - eapply facts_stable; [ apply (facts_made a s s1 b); assumption | exact G2 | exact N3 ].
  - apply IH; [ exact Hs1 | exact Hm1 | | exact N2 | exact Hc ].
    eapply fresh_stable; [ exact F2 | exact G1 | ]. intros v Hv Hv'. exact (N3 v Hv' Hv).
Qed.
End Loop.

(** ** Members registered one after the other *)
Lemma dget_app : forall {X} k (a b : list (str * X)),
  dget k (a ++ b) = match dget k a with Some x => Some x | None => dget k b end.
Proof.
  intros X k a b. induction a as [|[k' x] a IH]; cbn; [ reflexivity | ].
  destruct (str_eqb k' k); [ reflexivity | exact IH ].
Qed.

Lemma add_all_firsts : forall es d,
  add_all es d = d ++ filter (fun e => match dget (fst e) d with Some _ => false | None => true end) (first_of_each es).
Proof.
  induction es as [|[k v] es IH]; intros d; cbn [first_of_each].
  - cbn. rewrite app_nil_r. reflexivity.
  - change (add_all ((k, v) :: es) d) with (add_all es (add_first k v d)). rewrite IH.
    unfold add_first. cbn [filter fst]. destruct (dget k d) as [x|] eqn:D.
    + f_equal. clear IH. induction (first_of_each es) as [|[k' v'] l IHl]; [ reflexivity | ]. cbn [filter fst].
      destruct (str_eqb k' k) eqn:E; cbn [negb].
      * apply str_eqb_eq in E. subst k'. rewrite D. exact IHl.
      * cbn [filter fst]. destruct (dget k' d); [ exact IHl | f_equal; exact IHl ].
    + rewrite <- app_assoc. cbn [app]. do 2 f_equal. clear IH.
      induction (first_of_each es) as [|[k' v'] l IHl]; [ reflexivity | ]. cbn [filter fst].
      rewrite dget_app. cbn [dget].
      assert (E : str_eqb k k' = str_eqb k' k).
      { destruct (str_eqb k' k) eqn:E; [ apply str_eqb_eq in E; subst; apply str_eqb_refl | ].
        apply not_true_iff_false. intros X. apply str_eqb_eq in X. subst. rewrite str_eqb_refl in E. discriminate. }
      rewrite E. destruct (str_eqb k' k); cbn [negb].
      * destruct (dget k' d); exact IHl.
      * cbn [filter fst]. destruct (dget k' d); [ exact IHl | f_equal; exact IHl ].
Qed.

Lemma add_all_empty : forall es, add_all es [] = first_of_each es.
Proof.
  intros es. rewrite add_all_firsts. cbn [app]. apply filter_all. intros a _. reflexivity.
Qed.
