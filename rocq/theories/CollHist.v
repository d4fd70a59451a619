(** Proofs about histories of collections and deletions. *)

From Coq Require Import List NArith Arith Bool Lia.
From Verif Require Import PyStr PyStrFacts MetaModel MetaSpec MetaProofs
  CollModel CollSpec CollProofs.
Import ListNotations.

(** ** First occurrences *)

Lemma existsb_str : forall k l, existsb (str_eqb k) l = true <-> In k l.
Proof.
  intros k l. rewrite existsb_exists. split.
  - intros [x [H E]]. apply str_eqb_eq in E. subst. exact H.
  - intros H. exists k. split; [ exact H | apply str_eqb_refl ].
Qed.

Lemma existsb_str_false : forall k l, existsb (str_eqb k) l = false <-> ~ In k l.
Proof. intros. rewrite <- existsb_str. symmetry. apply not_true_iff_false. Qed.

Lemma firsts_snoc : forall id l seen c,
  firsts id seen (l ++ [c])
  = firsts id seen l
    ++ (if existsb (str_eqb (id c)) (seen ++ map id l) then [] else [c]).
Proof.
  intros id l. induction l as [|a l IH]; intros seen c; cbn.
  - rewrite app_nil_r. destruct (existsb (str_eqb (id c)) seen); reflexivity.
  - destruct (existsb (str_eqb (id a)) seen) eqn:E.
    + rewrite IH. f_equal. apply existsb_str in E.
      assert (X : existsb (str_eqb (id c)) (seen ++ map id l)
                  = existsb (str_eqb (id c)) (seen ++ id a :: map id l)).
      { apply eq_true_iff_eq. rewrite !existsb_str, !in_app_iff. cbn. split; [ tauto | ].
        intros [H|[H|H]]; auto. rewrite <- H. auto. }
      rewrite X. reflexivity.
    + cbn. rewrite IH. do 2 f_equal.
      assert (X : existsb (str_eqb (id c)) ((id a :: seen) ++ map id l)
                  = existsb (str_eqb (id c)) (seen ++ id a :: map id l)).
      { apply eq_true_iff_eq. rewrite !existsb_str. cbn. rewrite !in_app_iff. cbn. tauto. }
      rewrite X. reflexivity.
Qed.

Lemma firsts_ids : forall id l seen k,
  In k (map id (firsts id seen l)) <-> In k (map id l) /\ ~ In k seen.
Proof.
  intros id l. induction l as [|a l IH]; intros seen k; cbn; [ tauto | ].
  destruct (existsb (str_eqb (id a)) seen) eqn:E.
  - apply existsb_str in E. rewrite IH. split; [ tauto | ].
    intros [[<-|H] N]; [ contradiction | auto ].
  - apply existsb_str_false in E. cbn. rewrite IH. cbn. split.
    + intros [<-|[H N]]; [ auto | ]. split; [ auto | tauto ].
    + intros [[<-|H] N]; [ auto | ].
      destruct (list_eq_dec N.eq_dec (id a) k) as [->|Hne]; [ auto | ].
      right. split; [ exact H | ]. intros [X|X]; congruence.
Qed.

Lemma firsts_ext : forall id id' l seen,
  (forall c, In c l -> id c = id' c) -> firsts id seen l = firsts id' seen l.
Proof.
  intros id id' l. induction l as [|a l IH]; intros seen H; cbn; [ reflexivity | ].
  rewrite (H a (or_introl eq_refl)).
  destruct (existsb (str_eqb (id' a)) seen); rewrite IH; auto;
    intros; apply H; right; assumption.
Qed.

Lemma dget_none : forall {A} k (d : list (str * A)), dget k d = None <-> ~ In k (keys d).
Proof.
  intros A k d. rewrite <- dget_keys. destruct (dget k d); split; intros H; try congruence.
  exfalso. apply H. congruence.
Qed.

Lemma dset_new : forall {A} k (v : A) d, dget k d = None -> dset k v d = d ++ [(k, v)].
Proof.
  intros A k v d. induction d as [|[x y] d IH]; cbn; [ reflexivity | ].
  destruct (str_eqb x k); [ discriminate | ]. intros H. rewrite IH by exact H. reflexivity.
Qed.

(** ** Histories *)

Lemma history_snoc : forall h e, history (h ++ [e]) = happen (history h) e.
Proof. intros. unfold history. rewrite fold_left_app. reflexivity. Qed.

Lemma creations_app : forall a b, creations (a ++ b) = creations a ++ creations b.
Proof. intros. unfold creations. apply flat_map_app. Qed.

Lemma given_app : forall a b p, given (a ++ b) p = given a p ++ given b p.
Proof. intros. unfold given. apply flat_map_app. Qed.

Lemma length_add_member : forall st p c, length (objs (add_member st p c)) = length (objs st).
Proof.
  intros st p c. unfold add_member.
  destruct (dget (c_id (obj st c)) (c_children (obj st p))); [ reflexivity | ].
  apply length_upd.
Qed.

Lemma length_set_parent : forall st c p, length (objs (set_parent st c p)) = length (objs st).
Proof. intros. unfold set_parent. rewrite length_add_member. apply length_upd. Qed.

(** An object after a parent assignment. *)
Lemma obj_set_parent : forall st c p x,
  c < length (objs st) -> p < length (objs st) ->
  obj (set_parent st c p) x
  = let y := obj st x in
    MkColl (c_kind y) (c_id y) (c_urn y)
      (if Nat.eqb c x then Some p else c_parent y)
      (if Nat.eqb p x && negb (existsb (str_eqb (c_id (obj st c))) (keys (c_children y)))
       then c_children y ++ [(c_id (obj st c), c)] else c_children y)
      (c_graph y).
Proof.
  intros st c p x Hc Hp. unfold set_parent.
  set (st1 := with_obj st c (put_parent (Some p))).
  set (st2 := with_graph st1 _ _).
  assert (O : forall y, obj st2 y = if Nat.eqb c y then put_parent (Some p) (obj st y) else obj st y).
  { intros y. unfold st2, st1. rewrite obj_with_graph, obj_with.
    apply Nat.ltb_lt in Hc. rewrite Hc, andb_true_r. reflexivity. }
  assert (Lp : Nat.ltb p (length (objs st2)) = true).
  { apply Nat.ltb_lt. unfold st2, st1. cbn. rewrite length_upd. exact Hp. }
  assert (Ci : forall y, c_id (obj st2 y) = c_id (obj st y)).
  { intros y. rewrite O. destruct (Nat.eqb c y); reflexivity. }
  assert (Cc : forall y, c_children (obj st2 y) = c_children (obj st y)).
  { intros y. rewrite O. destruct (Nat.eqb c y); reflexivity. }
  unfold add_member. rewrite Ci, Cc.
  destruct (dget (c_id (obj st c)) (c_children (obj st p))) eqn:D.
  - rewrite O. destruct (Nat.eqb p x) eqn:E.
    + apply Nat.eqb_eq in E. subst x.
      assert (X : existsb (str_eqb (c_id (obj st c))) (keys (c_children (obj st p))) = true).
      { apply existsb_str. apply dget_keys. congruence. }
      rewrite X. cbn. destruct (Nat.eqb c p); [ reflexivity | ].
      destruct (obj st p); reflexivity.
    + cbn. destruct (Nat.eqb c x); [ reflexivity | ]. destruct (obj st x); reflexivity.
  - rewrite obj_with, Lp, andb_true_r. destruct (Nat.eqb p x) eqn:E.
    + apply Nat.eqb_eq in E. subst x.
      assert (X : existsb (str_eqb (c_id (obj st c))) (keys (c_children (obj st p))) = false).
      { apply existsb_str_false. apply dget_none. exact D. }
      rewrite X. cbn [negb andb]. rewrite O. rewrite dset_new.
      * destruct (Nat.eqb c p); reflexivity.
      * destruct (Nat.eqb c p); exact D.
    + rewrite O. cbn. destruct (Nat.eqb c x); [ reflexivity | ]. destruct (obj st x); reflexivity.
Qed.

Lemma obj_new : forall st k id urn x,
  obj (fst (new_object st k id urn)) x
  = if Nat.eqb x (length (objs st)) then MkColl k id urn None [] 0 else obj st x.
Proof.
  intros. unfold obj. cbn. destruct (Nat.eqb x (length (objs st))) eqn:E.
  - apply Nat.eqb_eq in E. subst. rewrite app_nth2, Nat.sub_diag by lia. reflexivity.
  - apply Nat.eqb_neq in E. destruct (Nat.lt_ge_cases x (length (objs st))).
    + rewrite app_nth1 by assumption. reflexivity.
    + rewrite (nth_overflow (objs st)) by assumption.
      apply nth_overflow. rewrite app_length. cbn. lia.
Qed.

Lemma history_length : forall h, length (objs (history h)) = length (creations h).
Proof.
  intros h. induction h as [|e h IH] using rev_ind; [ reflexivity | ].
  rewrite history_snoc, creations_app, app_length, <- IH.
  destruct e as [k id urn|c p|c]; cbn.
  - rewrite app_length. reflexivity.
  - rewrite length_set_parent. lia.
  - rewrite length_upd. lia.
Qed.

Lemma given_bound : forall h, valid h -> forall p c, In c (given h p) ->
  c < length (creations h) /\ p < length (creations h).
Proof.
  intros h H. induction H; intros q d Hd.
  - destruct Hd.
  - rewrite creations_app, app_length. rewrite given_app, in_app_iff in Hd.
    destruct Hd as [Hd|[]]. apply IHvalid in Hd. lia.
  - rewrite creations_app, app_length. rewrite given_app, in_app_iff in Hd. cbn in Hd.
    destruct Hd as [Hd|Hd]; [ apply IHvalid in Hd; lia | ].
    destruct (Nat.eqb p q) eqn:E; [ | destruct Hd ]. apply Nat.eqb_eq in E. subst q.
    destruct Hd as [->|[]]. lia.
  - rewrite creations_app, app_length. rewrite given_app, in_app_iff in Hd.
    destruct Hd as [Hd|[]]. apply IHvalid in Hd. lia.
Qed.

Lemma last_parent_snoc : forall h e c, last_parent (h ++ [e]) c
  = match e with
    | Parent d p => if Nat.eqb d c then Some p else last_parent h c
    | NoParent d => if Nat.eqb d c then None else last_parent h c
    | New _ _ _ => last_parent h c
    end.
Proof. intros. unfold last_parent. rewrite fold_left_app. reflexivity. Qed.

Lemma last_parent_bound : forall h, valid h -> forall c p, last_parent h c = Some p ->
  c < length (creations h) /\ p < length (creations h).
Proof.
  intros h H. induction H; intros d q Hd; rewrite ?last_parent_snoc in Hd;
    rewrite ?creations_app, ?app_length.
  - discriminate.
  - apply IHvalid in Hd. lia.
  - destruct (Nat.eqb c d) eqn:E; [ | apply IHvalid in Hd; lia ].
    apply Nat.eqb_eq in E. injection Hd as ->. lia.
  - destruct (Nat.eqb c d) eqn:E; [ discriminate | ]. apply IHvalid in Hd. lia.
Qed.

Definition reg (st : state) (c : nat) : str * nat := (c_id (obj st c), c).
Definition ids (st : state) (c : nat) : str := c_id (obj st c).

Lemma map_reg_keys : forall st l, keys (map (reg st) l) = map (ids st) l.
Proof. intros. unfold keys. rewrite map_map. reflexivity. Qed.

(** What a history leaves. *)
Theorem history_objects : forall h, valid h -> forall c,
  let st := history h in
  c_parent (obj st c) = last_parent h c
  /\ c_children (obj st c) = map (reg st) (firsts (ids st) [] (given h c))
  /\ c_graph (obj st c) = 0
  /\ (forall x, nth_error (creations h) c = Some x ->
        (c_kind (obj st c), c_id (obj st c), c_urn (obj st c)) = x).
Proof.
  intros h H. cbn. induction H as [|h k id urn H IH|h c p H IH Hc Hp|h c H IH Hc]; intros x.
  - unfold history, start. cbn. unfold obj. cbn. destruct x; cbn; repeat split; intros ? X; discriminate.
  - rewrite history_snoc. cbn [happen].
    assert (Hl := history_length h).
    destruct (Nat.eqb x (length (objs (history h)))) eqn:E.
    + apply Nat.eqb_eq in E. subst x. rewrite obj_new, Nat.eqb_refl. cbn.
      rewrite last_parent_snoc, given_app, app_nil_r. repeat split.
      * destruct (last_parent h (length (objs (history h)))) eqn:L; [ | reflexivity ].
        apply last_parent_bound in L; [ | exact H ]. lia.
      * destruct (given h (length (objs (history h)))) as [|d l] eqn:G; [ reflexivity | ].
        assert (X : In d (given h (length (objs (history h))))) by (rewrite G; left; reflexivity).
        apply given_bound in X; [ | exact H ]. lia.
      * intros y Hy. rewrite creations_app, Hl, nth_error_app2, Nat.sub_diag in Hy by lia.
        cbn in Hy. congruence.
    + assert (Ox : forall y, y <> length (objs (history h)) ->
        obj (fst (new_object (history h) k id urn)) y = obj (history h) y).
      { intros y Hy. rewrite obj_new. apply Nat.eqb_neq in Hy. rewrite Hy. reflexivity. }
      apply Nat.eqb_neq in E. rewrite !(Ox x) by exact E. destruct (IH x) as (A & B & C & D).
      rewrite last_parent_snoc, given_app, app_nil_r. repeat split; [ exact A | | exact C | ].
      * rewrite B.
        assert (Q : forall d, In d (given h x) ->
          ids (fst (new_object (history h) k id urn)) d = ids (history h) d).
        { intros d Hd. unfold ids. rewrite Ox; [ reflexivity | ].
          apply given_bound in Hd; [ | exact H ]. lia. }
        rewrite (firsts_ext _ (ids (history h)) _ [] Q).
        apply map_ext_in. intros d Hd.
        assert (Hd' : In d (given h x)).
        { clear - Hd. revert Hd. generalize (@nil str). induction (given h x) as [|a l IHl]; cbn; intros s Hd; [ exact Hd | ].
          destruct (existsb (str_eqb (ids (history h) a)) s); [ right; eapply IHl; exact Hd | ].
          destruct Hd as [->|Hd]; [ left; reflexivity | right; eapply IHl; exact Hd ]. }
        unfold reg. specialize (Q d Hd'). unfold ids in Q. rewrite Q. reflexivity.
      * intros y Hy. apply D. rewrite creations_app in Hy.
        destruct (Nat.lt_ge_cases x (length (creations h))).
        -- rewrite nth_error_app1 in Hy by assumption. exact Hy.
        -- exfalso. assert (X : nth_error (creations h ++ creations [New k id urn]) x = None).
           { apply nth_error_None. rewrite app_length. cbn. lia. }
           congruence.
  - rewrite history_snoc. cbn [happen]. rewrite <- history_length in Hc, Hp.
    assert (Q : forall y, ids (set_parent (history h) c p) y = ids (history h) y).
    { intros y. unfold ids. rewrite obj_set_parent by assumption. reflexivity. }
    assert (Qr : forall y, reg (set_parent (history h) c p) y = reg (history h) y).
    { intros y. unfold reg. specialize (Q y). unfold ids in Q. rewrite Q. reflexivity. }
    rewrite !(obj_set_parent (history h) c p x) by assumption. cbn [c_parent c_children c_graph c_kind c_id c_urn].
    destruct (IH x) as (A & B & C & D).
    rewrite last_parent_snoc, given_app, creations_app, app_nil_r. cbn [given flat_map app].
    repeat split.
    + rewrite A. reflexivity.
    + rewrite (firsts_ext _ (ids (history h))) by (intros; apply Q).
      rewrite (map_ext _ _ Qr). rewrite B. destruct (Nat.eqb p x) eqn:E.
      * cbn [app]. rewrite firsts_snoc, map_app. cbn [app].
        assert (X : existsb (str_eqb (c_id (obj (history h) c)))
                      (keys (map (reg (history h)) (firsts (ids (history h)) [] (given h x))))
                    = existsb (str_eqb (ids (history h) c)) (map (ids (history h)) (given h x))).
        { apply eq_true_iff_eq. rewrite !existsb_str, map_reg_keys, firsts_ids. cbn. tauto. }
        rewrite X. cbn [andb].
        destruct (existsb (str_eqb (ids (history h) c)) (map (ids (history h)) (given h x)));
          cbn; [ rewrite app_nil_r; reflexivity | reflexivity ].
      * cbn. rewrite app_nil_r. reflexivity.
    + exact C.
    + exact D.
  - rewrite history_snoc. cbn [happen]. unfold set_parent_none. cbn [fst].
    rewrite <- history_length in Hc. apply Nat.ltb_lt in Hc.
    assert (Q : forall y, obj (with_obj (history h) c (put_parent None)) y
      = if Nat.eqb c y then put_parent None (obj (history h) y) else obj (history h) y).
    { intros y. rewrite obj_with, Hc, andb_true_r. reflexivity. }
    assert (Qi : forall y, ids (with_obj (history h) c (put_parent None)) y = ids (history h) y).
    { intros y. unfold ids. rewrite Q. destruct (Nat.eqb c y); reflexivity. }
    assert (Qr : forall y, reg (with_obj (history h) c (put_parent None)) y = reg (history h) y).
    { intros y. unfold reg. rewrite Q. destruct (Nat.eqb c y); reflexivity. }
    destruct (IH x) as (A & B & C & D).
    rewrite last_parent_snoc, given_app, creations_app, !app_nil_r.
    rewrite (firsts_ext _ (ids (history h))) by (intros; apply Qi).
    rewrite (map_ext _ _ Qr). rewrite Q.
    destruct (Nat.eqb c x); cbn; auto.
Qed.

(** The identifier of an object never changes. *)
Lemma history_id : forall h, valid h -> forall c x,
  nth_error (creations h) c = Some x -> c_id (obj (history h) c) = snd (fst x).
Proof.
  intros h H c x Hx. destruct (history_objects h H c) as (_ & _ & _ & D).
  rewrite <- (D x Hx). reflexivity.
Qed.

Lemma firsts_In : forall id l seen c, In c (firsts id seen l) -> In c l.
Proof.
  intros id l. induction l as [|a l IH]; intros seen c; cbn; [ tauto | ].
  destruct (existsb (str_eqb (id a)) seen); [ eauto | ]. intros [->|H]; eauto.
Qed.

Lemma last_parent_given : forall h c p, last_parent h c = Some p -> In c (given h p).
Proof.
  intros h c p. induction h as [|e h IH] using rev_ind; [ discriminate | ].
  rewrite last_parent_snoc, given_app, in_app_iff. destruct e as [k id urn|d q|d]; cbn.
  - auto.
  - destruct (Nat.eqb d c) eqn:E; [ | auto ]. intros H. injection H as ->.
    apply Nat.eqb_eq in E. subst d. rewrite Nat.eqb_refl. right. left. reflexivity.
  - destruct (Nat.eqb d c); [ discriminate | auto ].
Qed.

(** A collection is registered with its parent, or another one holds its
    identifier there. *)
Theorem history_registered : forall h, valid h -> forall c p,
  c_parent (obj (history h) c) = Some p ->
  exists m, In (c_id (obj (history h) c), m) (c_children (obj (history h) p))
    /\ c_id (obj (history h) m) = c_id (obj (history h) c).
Proof.
  intros h H c p Hp. destruct (history_objects h H c) as (A & _ & _ & _).
  rewrite A in Hp. apply last_parent_given in Hp.
  destruct (history_objects h H p) as (_ & B & _ & _).
  assert (X : In (ids (history h) c) (map (ids (history h)) (firsts (ids (history h)) [] (given h p)))).
  { apply firsts_ids. split; [ | tauto ]. apply in_map. exact Hp. }
  apply in_map_iff in X as [m [E Hm]]. exists m. split; [ | exact E ].
  rewrite B. apply in_map_iff. exists m. split; [ | exact Hm ].
  unfold reg. unfold ids in E. rewrite E. reflexivity.
Qed.

(** Registered members stay, in the same order. *)
Lemma valid_prefix : forall h h', valid (h ++ h') -> valid h.
Proof.
  intros h h'. induction h' as [|e h' IH] using rev_ind; intros H.
  - rewrite app_nil_r in H. exact H.
  - apply IH. rewrite app_assoc in H. inversion H as [E|g k id urn Hg E|g c p Hg Hc Hp E|g c Hg Hc E].
    + destruct (h ++ h'); discriminate.
    + apply app_inj_tail in E as [-> _]. exact Hg.
    + apply app_inj_tail in E as [-> _]. exact Hg.
    + apply app_inj_tail in E as [-> _]. exact Hg.
Qed.

Lemma firsts_app : forall id l l' seen,
  exists r, firsts id seen (l ++ l') = firsts id seen l ++ r.
Proof.
  intros id l. induction l as [|a l IH]; intros l' seen; cbn; [ eauto | ].
  destruct (existsb (str_eqb (id a)) seen).
  - apply IH.
  - destruct (IH l' (id a :: seen)) as [r E]. exists r. rewrite E. reflexivity.
Qed.

Theorem history_keeps : forall h h', valid (h ++ h') -> forall p,
  p < length (creations h) ->
  exists more, c_children (obj (history (h ++ h')) p)
    = c_children (obj (history h) p) ++ more.
Proof.
  intros h h' H p Hp. pose proof (valid_prefix _ _ H) as Hh.
  destruct (history_objects _ H p) as (_ & B & _ & _).
  destruct (history_objects _ Hh p) as (_ & B' & _ & _).
  rewrite B, B', given_app.
  assert (Q : forall c, c < length (creations h) ->
    ids (history (h ++ h')) c = ids (history h) c).
  { intros c Hc. destruct (nth_error (creations h) c) as [x|] eqn:E.
    - unfold ids. rewrite (history_id _ Hh c x E). apply history_id; [ exact H | ].
      rewrite creations_app, nth_error_app1 by exact Hc. exact E.
    - apply nth_error_None in E. lia. }
  destruct (firsts_app (ids (history (h ++ h'))) (given h p) (given h' p) []) as [r E].
  rewrite E, map_app.
  assert (Qf : firsts (ids (history (h ++ h'))) [] (given h p)
               = firsts (ids (history h)) [] (given h p)).
  { apply firsts_ext. intros c Hc. apply Q. apply given_bound in Hc; [ lia | exact Hh ]. }
  rewrite Qf. exists (map (reg (history (h ++ h'))) r). f_equal.
  apply map_ext_in. intros c Hc. apply firsts_In in Hc. apply given_bound in Hc; [ | exact Hh ].
  unfold reg. specialize (Q c ltac:(lia)). unfold ids in Q. rewrite Q. reflexivity.
Qed.

(** ** The graph after a history *)

Lemma graphs_length : forall h, length (graphs (history h)) = 1.
Proof.
  intros h. induction h as [|e h IH] using rev_ind; [ reflexivity | ].
  rewrite history_snoc. destruct e as [k id urn|c p|c]; cbn.
  - rewrite length_upd. exact IH.
  - unfold set_parent, add_member.
    destruct (dget _ _); cbn; rewrite length_upd; exact IH.
  - exact IH.
Qed.

Lemma graphs_set_parent : forall st c p,
  c < length (objs st) ->
  graphs (set_parent st c p)
  = upd (graphs st) (c_graph (obj st c))
      (g_add (node (obj st c), cap_parent, node (obj st p))).
Proof.
  intros st c p Hc. unfold set_parent.
  set (st1 := with_obj st c (put_parent (Some p))).
  assert (O : forall y, obj st1 y = if Nat.eqb c y then put_parent (Some p) (obj st y) else obj st y).
  { intros y. unfold st1. rewrite obj_with. apply Nat.ltb_lt in Hc. rewrite Hc, andb_true_r. reflexivity. }
  assert (G1 : c_graph (obj st1 c) = c_graph (obj st c)).
  { rewrite O, Nat.eqb_refl. reflexivity. }
  assert (N : forall y, node (obj st1 y) = node (obj st y)).
  { intros y. rewrite O. destruct (Nat.eqb c y); reflexivity. }
  rewrite G1, !N. unfold add_member.
  destruct (dget _ _); reflexivity.
Qed.

Lemma In_g_set : forall s p o n k v g,
  In (n, k, v) (g_set (s, p, o) g)
  <-> (n, k, v) = (s, p, o) \/ (In (n, k, v) g /\ ~ (n = s /\ k = p)).
Proof.
  intros. unfold g_set. rewrite In_add, In_remove, !covers_some.
  split.
  - intros [H|[H N]]; [ auto | ]. right. split; [ exact H | ]. intros [-> ->].
    apply N. auto using covers_none.
  - intros [H|[H N]]; [ auto | ]. right. split; [ exact H | ]. intros [-> [-> _]]. auto.
Qed.

Lemma graph0_upd : forall gs f, length gs = 1 ->
  nth 0 (upd gs 0 f) [] = f (nth 0 gs [] : graph).
Proof. intros [|g [|? ?]] f H; cbn in H; try discriminate. reflexivity. Qed.

Lemma graph0_new : forall h k id urn,
  nth 0 (graphs (fst (new_object (history h) k id urn))) []
  = g_set (URI id, dts_model, model_uri k)
      (g_set (URI id, rdf_type, type_uri k) (nth 0 (graphs (history h)) [])).
Proof.
  intros. cbn [new_object fst graphs with_graph].
  rewrite graph0_upd by apply graphs_length. reflexivity.
Qed.

Theorem history_parent_triples : forall h, valid h -> forall s o,
  In (s, cap_parent, o) (nth 0 (graphs (history h)) [])
  <-> exists c p, In (Parent c p) h
      /\ s = node (obj (history h) c) /\ o = node (obj (history h) p).
Proof.
  intros h H. induction H as [|h k id urn H IH|h c p H IH Hc Hp|h c H IH Hc]; intros s o.
  - cbn. split; [ tauto | ]. intros (c & p & [] & _).
  - rewrite history_snoc. cbn [happen]. rewrite graph0_new, !In_g_set.
    assert (N1 : cap_parent <> dts_model) by (vm_compute; discriminate).
    assert (N2 : cap_parent <> rdf_type) by (vm_compute; discriminate).
    assert (Q : forall c p, In (Parent c p) h ->
      obj (fst (new_object (history h) k id urn)) c = obj (history h) c
      /\ obj (fst (new_object (history h) k id urn)) p = obj (history h) p).
    { intros c p Hin.
      assert (X : In c (given h p)).
      { unfold given. apply in_flat_map. exists (Parent c p). split; [ exact Hin | ].
        rewrite Nat.eqb_refl. left. reflexivity. }
      apply given_bound in X; [ | exact H ]. rewrite <- history_length in X.
      rewrite !obj_new. destruct X as [X Y].
      assert (Nat.eqb c (length (objs (history h))) = false) by (apply Nat.eqb_neq; lia).
      assert (Nat.eqb p (length (objs (history h))) = false) by (apply Nat.eqb_neq; lia).
      rewrite H0, H1. auto. }
    split.
    + intros [E|[[E|[E _]] _]]; [ congruence | congruence | ].
      apply IH in E as (c & p & Hin & -> & ->). exists c, p.
      split; [ apply in_app_iff; auto | ]. destruct (Q _ _ Hin) as [Q1 Q2].
      rewrite Q1, Q2. auto.
    + intros (c & p & Hin & -> & ->). apply in_app_iff in Hin as [Hin|[Hin|[]]]; [ | discriminate ].
      destruct (Q _ _ Hin) as [Q1 Q2]. rewrite Q1, Q2.
      right. split; [ right; split | ].
      * apply IH. exists c, p. auto.
      * intros [_ X]. contradiction.
      * intros [_ X]. contradiction.
  - rewrite history_snoc. cbn [happen]. rewrite <- history_length in Hc, Hp.
    rewrite graphs_set_parent by exact Hc.
    destruct (history_objects h H c) as (_ & _ & G0 & _). rewrite G0.
    rewrite graph0_upd by apply graphs_length. rewrite In_add, IH.
    assert (N : forall y, node (obj (set_parent (history h) c p) y) = node (obj (history h) y)).
    { intros y. rewrite obj_set_parent by assumption. reflexivity. }
    split.
    + intros [E|(c' & p' & Hin & -> & ->)].
      * injection E as -> ->. exists c, p. rewrite !N. split; [ | auto ].
        apply in_app_iff. right. left. reflexivity.
      * exists c', p'. rewrite !N. split; [ | auto ]. apply in_app_iff. auto.
    + intros (c' & p' & Hin & -> & ->). rewrite !N.
      apply in_app_iff in Hin as [Hin|[Hin|[]]].
      * right. exists c', p'. auto.
      * injection Hin as -> ->. left. reflexivity.
  - rewrite history_snoc. cbn [happen set_parent_none fst with_obj graphs]. rewrite IH.
    assert (N : forall y, node (obj (with_obj (history h) c (put_parent None)) y) = node (obj (history h) y)).
    { intros y. rewrite obj_with. destruct (Nat.eqb c y && _); reflexivity. }
    split; intros (c' & p' & Hin & -> & ->); exists c', p'.
    + unfold with_obj in N. rewrite !N. split; [ apply in_app_iff; auto | auto ].
    + unfold with_obj in N. rewrite !N. split; [ | auto ].
      apply in_app_iff in Hin as [Hin|[Hin|[]]]; [ exact Hin | discriminate ].
Qed.

Theorem history_type : forall h, valid h -> forall id t,
  In (URI id, rdf_type, t) (nth 0 (graphs (history h)) [])
  <-> last_type h id = Some t.
Proof.
  intros h H.
  assert (S : forall h e id, last_type (h ++ [e]) id
    = match e with
      | New k id' _ => if str_eqb id' id then Some (type_uri k) else last_type h id
      | _ => last_type h id
      end).
  { intros. unfold last_type. rewrite fold_left_app. reflexivity. }
  induction H as [|h k id' urn H IH|h c p H IH Hc Hp|h c H IH Hc]; intros id t.
  - cbn. split; [ tauto | discriminate ].
  - rewrite history_snoc, S. cbn [happen]. rewrite graph0_new, !In_g_set.
    assert (N1 : rdf_type <> dts_model) by (vm_compute; discriminate).
    destruct (str_eqb id' id) eqn:E.
    + apply str_eqb_eq in E. subst id'. split.
      * intros [X|[[X|[_ X]] _]]; [ congruence | congruence | ]. exfalso. apply X. auto.
      * intros X. injection X as <-. right. split; [ auto | ]. intros [_ X]. contradiction.
    + rewrite <- IH. split.
      * intros [X|[[X|[X _]] _]]; [ congruence | | exact X ].
        injection X as -> _. rewrite str_eqb_refl in E. discriminate.
      * intros X. right. split; [ | intros [_ Y]; contradiction ]. right. split; [ exact X | ].
        intros [Y _]. injection Y as ->. rewrite str_eqb_refl in E. discriminate.
  - rewrite history_snoc, S. cbn [happen]. rewrite <- history_length in Hc.
    rewrite graphs_set_parent by exact Hc.
    destruct (history_objects h H c) as (_ & _ & G0 & _). rewrite G0.
    rewrite graph0_upd by apply graphs_length. rewrite In_add, IH.
    assert (N : rdf_type <> cap_parent) by (vm_compute; discriminate).
    split; [ intros [X|X]; [ congruence | exact X ] | auto ].
  - rewrite history_snoc, S. apply IH.
Qed.
