(** C44: the order of the classes of the library is Python's.

    Python's method resolution order, C3, stated as a relation: the orders of the bases
    and the list of the bases are merged, taking each time the head of the first list
    whose head stands behind the head of none. *)

From Coq Require Import List NArith Arith Bool Lia.
From Verif Require Import PyStr UtilModel ExportModel.
Import ListNotations.

Definition behind (c : nat) (ls : list (list nat)) : Prop := exists x l, In (x :: l) ls /\ In c l.

(** The lists that are left when [c] is taken. *)
Inductive without (c : nat) : list nat -> list nat -> Prop :=
| without_head : forall l, without c (c :: l) l
| without_none : without c [] []
| without_other : forall x l, x <> c -> without c (x :: l) (x :: l).

Inductive merged : list (list nat) -> list nat -> Prop :=
| merged_end : forall ls, Forall (eq []) ls -> merged ls []
| merged_take : forall before c l later ls out,
    (forall x k, In (x :: k) before -> behind x (before ++ (c :: l) :: later)) ->
    ~ behind c (before ++ (c :: l) :: later) ->
    Forall2 (without c) (before ++ (c :: l) :: later) ls -> merged ls out ->
    merged (before ++ (c :: l) :: later) (c :: out).

(** [supers] are the direct bases of each class. *)
Inductive resolves (supers : nat -> list nat) : nat -> list nat -> Prop :=
| resolves_class : forall c orders l, Forall2 (resolves supers) (supers c) orders -> merged (orders ++ [supers c]) l -> resolves supers c (c :: l).

Lemma in_tails_iff : forall c ls, in_tails c ls = true <-> behind c ls.
Proof.
  intros c ls. unfold in_tails, behind. rewrite existsb_exists. split.
  - intros ([|x l] & I & H); cbn in H; [discriminate|]. apply existsb_exists in H. destruct H as (y & J & E). apply Nat.eqb_eq in E. subst y. exists x, l. auto.
  - intros (x & l & I & J). exists (x :: l). split; [exact I|]. cbn. apply existsb_exists. exists c. split; [exact J|apply Nat.eqb_refl].
Qed.

Lemma find_split : forall {A} (f : A -> bool) l x, find f l = Some x -> exists a b, l = a ++ x :: b /\ f x = true /\ forall y, In y a -> f y = false.
Proof.
  intros A f l x. induction l as [|y l IH]; cbn; [discriminate|]. destruct (f y) eqn:E; intros H.
  - injection H as ->. exists [], l. repeat split; auto. intros z [].
  - destruct (IH H) as (a & b & -> & F & N). exists (y :: a), b. repeat split; auto. intros z [<-|I]; auto.
Qed.

Lemma without_drop : forall c l, without c l (drop_head c l).
Proof. intros c [|x l]; cbn; [constructor|]. destruct (Nat.eqb_spec x c) as [->|N]; constructor. exact N. Qed.

Lemma merge_sound : forall fuel ls l, merge fuel ls = Some l -> merged ls l.
Proof.
  induction fuel as [|fuel IH]; intros ls l; cbn [merge]; [discriminate|].
  destruct (forallb (fun l => match l with [] => true | _ => false end) ls) eqn:E.
  - intros H. injection H as <-. constructor. rewrite forallb_forall in E. apply Forall_forall. intros x I. specialize (E x I). destruct x; [reflexivity|discriminate].
  - unfold candidate. destruct (find _ ls) as [[|c k]|] eqn:F; try discriminate. destruct (merge fuel (map (drop_head c) ls)) as [out|] eqn:M; [|discriminate]. intros H. injection H as <-.
    apply find_split in F. destruct F as (a & b & -> & F & N). apply IH in M. apply (merged_take a c k b (map (drop_head c) (a ++ (c :: k) :: b)) out).
    + intros x l I. specialize (N _ I). cbn in N. apply negb_false_iff in N. apply in_tails_iff. exact N.
    + intros B. apply in_tails_iff in B. rewrite B in F. discriminate.
    + generalize (a ++ (c :: k) :: b). intros ls. induction ls as [|y ls IHl]; cbn; constructor; [apply without_drop|exact IHl].
    + exact M.
Qed.

Lemma linearise_sound : forall fuel c l, linearise fuel c = Some l -> resolves bases c l.
Proof.
  induction fuel as [|fuel IH]; intros c l; cbn [linearise]; [discriminate|].
  destruct (fold_right _ (Some []) (bases c)) as [ls|] eqn:F; [|discriminate]. destruct (merge 50 (ls ++ [bases c])) as [out|] eqn:M; [|discriminate]. intros H. injection H as <-.
  apply resolves_class with (orders := ls); [|apply (merge_sound 50); exact M]. clear M. revert ls F. induction (bases c) as [|b bs IHb]; cbn; intros ls F; [injection F as <-; constructor|].
  destruct (linearise fuel b) as [k|] eqn:L; [|discriminate]. destruct (fold_right _ (Some []) bs) as [ks|]; [|discriminate]. injection F as <-. constructor; [apply IH; exact L|apply IHb; reflexivity].
Qed.

(** There is one such order at most. *)
Lemma without_fun : forall c l a b, without c l a -> without c l b -> a = b.
Proof. intros c l a b A B. inversion A; subst; inversion B; subst; congruence. Qed.
Lemma withouts_fun : forall c l a b, Forall2 (without c) l a -> Forall2 (without c) l b -> a = b.
Proof.
  intros c l. induction l as [|x l IH]; intros a b A B; inversion A; subst; inversion B; subst; [reflexivity|]. f_equal; [eapply without_fun; eassumption|apply IH; assumption].
Qed.

Lemma take_same : forall ls a c l b a' c' l' b', ls = a ++ (c :: l) :: b -> ls = a' ++ (c' :: l') :: b' ->
  (forall x k, In (x :: k) a -> behind x ls) -> ~ behind c ls -> (forall x k, In (x :: k) a' -> behind x ls) -> ~ behind c' ls -> c = c'.
Proof.
  intros ls a c l b a' c' l' b' E E' A N A' N'.
  assert (X : forall (a : list (list nat)) c l b a' c' l' b', a ++ (c :: l) :: b = a' ++ (c' :: l') :: b' -> length a < length a' -> In (c :: l) a').
  { clear. induction a as [|y a IH]; intros c l b [|y' a'] c' l' b' H L; cbn in *; try lia; injection H as H1 H2; [left; congruence|]. right. apply (IH _ _ b _ c' l' b'); [exact H2|lia]. }
  destruct (lt_eq_lt_dec (length a) (length a')) as [[L|L]|L].
  - elim N. apply (A' c l). apply (X a c l b a' c' l' b'); congruence.
  - assert (Y : forall (a : list (list nat)) c l b a' c' l' b', a ++ (c :: l) :: b = a' ++ (c' :: l') :: b' -> length a = length a' -> c = c').
    { clear. induction a as [|y a IH]; intros c l b [|y' a'] c' l' b' H L; cbn in *; try lia; injection H as H1 H2; [congruence|]. apply (IH _ l b a' _ l' b'); [exact H2|lia]. }
    apply (Y a c l b a' c' l' b'); congruence.
  - elim N'. apply (A c' l'). apply (X a' c' l' b' a c l b); congruence.
Qed.

Lemma merged_fun : forall ls l, merged ls l -> forall l', merged ls l' -> l = l'.
Proof.
  intros ls l H. induction H as [ls E|a c l b ls out A N W M IH]; intros l' H'.
  - inversion H' as [|a c l b ls0 out]; subst; [reflexivity|]. rewrite Forall_forall in E. specialize (E (c :: l)). rewrite in_app_iff in E. discriminate E. right. left. reflexivity.
  - inversion H' as [? E|a' c' l2 b' ls' out' A' N' W' M' Eq]; subst.
    + rewrite Forall_forall in E. specialize (E (c :: l)). rewrite in_app_iff in E. discriminate E. right. left. reflexivity.
    + assert (C : c = c') by (apply (take_same (a ++ (c :: l) :: b) a c l b a' c' l2 b'); try assumption; try reflexivity; try (symmetry; assumption); rewrite <- Eq; assumption).
      subst c'. f_equal. apply IH. rewrite Eq in W'. rewrite (withouts_fun _ _ _ _ W W'). exact M'.
Qed.

Lemma linearise_only : forall fuel c k, linearise fuel c = Some k -> forall l, resolves bases c l -> l = k.
Proof.
  induction fuel as [|fuel IH]; intros c k; cbn [linearise]; [discriminate|].
  destruct (fold_right _ (Some []) (bases c)) as [ls|] eqn:F; [|discriminate]. destruct (merge 50 (ls ++ [bases c])) as [out|] eqn:M; [|discriminate]. intros H. injection H as <-.
  intros l R. inversion R as [c' orders out' F2 M2]; subst. f_equal. symmetry. apply (merged_fun (ls ++ [bases c])); [apply (merge_sound 50); exact M|].
  replace ls with orders; [exact M2|]. clear M M2 R. revert ls F orders F2. induction (bases c) as [|b bs IHb]; cbn; intros ls F orders F2.
  - injection F as <-. inversion F2. reflexivity.
  - destruct (linearise fuel b) as [kb|] eqn:Lb; [|discriminate]. destruct (fold_right _ (Some []) bs) as [ks|]; [|discriminate]. injection F as <-. inversion F2; subst.
    f_equal; [apply (IH b); assumption|apply IHb; auto].
Qed.

(** The order of each class of the library is the one that Python gives it. *)
Theorem C44_library_mro : forall c, c < length table ->
  resolves (fun k => r_bases (nth k table (Row [] [] None None))) c (table_mro c) /\
  forall l, resolves (fun k => r_bases (nth k table (Row [] [] None None))) c l -> l = table_mro c.
Proof.
  intros c L.
  assert (X : forallb (fun c => match linearise 12 c with Some _ => true | None => false end) (seq 0 (length table)) = true) by (vm_compute; reflexivity).
  rewrite forallb_forall in X. specialize (X c). unfold table_mro. destruct (linearise 12 c) as [k|] eqn:E; [|discriminate X; apply in_seq; lia].
  split; [apply (linearise_sound 12); exact E|apply (linearise_only 12); exact E].
Qed.
Print Assumptions C44_library_mro.

(** A class with three bases. *)
Example C44_mro_sample : r_bases (nth 22 table (Row [] [] None None)) = [20; 13; 15] /\ table_mro 22 = [22; 20; 13; 12; 15; 11; 10; 9; 8; 0; 1].
Proof. vm_compute. auto. Qed.
