(** Properties C29 to C33 and C54: collections. *)

From Coq Require Import List NArith ZArith Bool Lia Permutation Sorting.Sorted.
From Verif Require Import PyStr PyStrFacts MetaModel MetaSpec MetaProofs UrnModel
  CollModel CollSpec CollProofs CollHist CollDelete CollMerge CollLang.
Import ListNotations.

(** An inventory to try the statements on: one textgroup, two works, an
    edition and a translation. *)
Definition sample_history : list event :=
  [ New KInventory #"inv" []; New KTextgroup #"tg" #"tg"; New KWork #"tg.w" #"tg.w";
    New (KText Edition) #"tg.w.e" #"tg.w.e"; New (KText Translation) #"tg.w.t" #"tg.w.t";
    New KWork #"tg.v" #"tg.v";
    Parent 1 0; Parent 2 1; Parent 3 2; Parent 4 2; Parent 5 1 ].
Definition sample : state := history sample_history.

Lemma valid_check : forall h,
  forallb (fun i => match nth_error h i with
                    | Some (Parent c p) => Nat.ltb c (length (creations (firstn i h)))
                                           && Nat.ltb p (length (creations (firstn i h)))
                    | Some (NoParent c) => Nat.ltb c (length (creations (firstn i h)))
                    | _ => true
                    end) (seq 0 (length h)) = true -> valid h.
Proof.
  intros h. induction h as [|e h IH] using rev_ind; intros H; [ constructor | ].
  rewrite forallb_forall in H.
  assert (V : valid h).
  { apply IH. apply forallb_forall. intros i Hi.
    apply in_seq in Hi. specialize (H i). rewrite in_seq, app_length in H.
    assert (X : 0 <= i < 0 + (length h + length [e])) by (cbn in *; lia). specialize (H X).
    rewrite nth_error_app1 in H by lia. rewrite firstn_app in H.
    replace (i - length h) with 0 in H by lia. cbn [firstn] in H. rewrite app_nil_r in H. exact H. }
  specialize (H (length h)). rewrite in_seq, app_length in H.
  assert (X : 0 <= length h < 0 + (length h + length [e])) by (cbn; lia). specialize (H X).
  rewrite nth_error_app2, Nat.sub_diag in H by lia. cbn [nth_error] in H.
  rewrite firstn_app, Nat.sub_diag, firstn_all, app_nil_r in H.
  destruct e as [k id urn|c p|c]; [ constructor; exact V | | ].
  - apply andb_true_iff in H as [A B]. apply Nat.ltb_lt in A, B. constructor; assumption.
  - apply Nat.ltb_lt in H. constructor; assumption.
Qed.

Fixpoint distinct (l : list str) : bool :=
  match l with
  | [] => true
  | x :: l' => negb (existsb (str_eqb x) l') && distinct l'
  end.

Lemma distinct_NoDup : forall l, distinct l = true -> NoDup l.
Proof.
  induction l as [|x l IH]; intros H; constructor; cbn in H; apply andb_true_iff in H as [A B].
  - apply negb_true_iff in A. apply existsb_str_false in A. exact A.
  - auto.
Qed.

Definition tree_ok (st : state) (l : list nat) : bool :=
  distinct (map (fun x => c_id (obj st x)) l)
  && forallb (fun x => distinct (keys (c_children (obj st x)))
       && (is_text (c_kind (obj st x))
           || forallb (fun e => str_eqb (fst e) (c_id (obj st (snd e)))
                && match c_parent (obj st (snd e)) with
                   | Some p => Nat.eqb p x | None => false end)
              (c_children (obj st x)))) l.

Lemma tree_check : forall limit st c l,
  descendants limit st c = Ok l -> tree_ok st (c :: l) = true -> tree st c.
Proof.
  intros limit st c l D H. apply andb_true_iff in H as [H1 H2].
  rewrite forallb_forall in H2.
  assert (I : forall x, x = c \/ below st c x -> In x (c :: l)).
  { intros x [->|B]; [ left; reflexivity | right ]. apply (descendants_below _ _ _ _ D). exact B. }
  assert (K : forall x k m, x = c \/ below st c x -> ~ text st x ->
    In (k, m) (c_children (obj st x)) -> k = c_id (obj st m) /\ c_parent (obj st m) = Some x).
  { intros x k m Hx Ht Hm. specialize (H2 x (I x Hx)). apply andb_true_iff in H2 as [_ H2].
    apply orb_true_iff in H2 as [H2|H2]; [ apply is_text_spec in H2; contradiction | ].
    rewrite forallb_forall in H2. specialize (H2 (k, m) Hm). cbn in H2.
    apply andb_true_iff in H2 as [A B]. apply str_eqb_eq in A. split; [ exact A | ].
    destruct (c_parent (obj st m)); [ | discriminate ]. apply Nat.eqb_eq in B. congruence. }
  constructor.
  - intros x Hx. specialize (H2 x (I x Hx)). apply andb_true_iff in H2 as [H2 _].
    apply distinct_NoDup. exact H2.
  - intros x k m Hx Ht Hm. apply (K x k m Hx Ht Hm).
  - intros x m Hx [Ht [k Hm]]. apply (K x k m Hx Ht Hm).
  - intros x y Hx Hy E. apply I in Hx, Hy. apply distinct_NoDup in H1.
    clear - H1 Hx Hy E. revert H1 Hx Hy. generalize (c :: l). clear c l. intros l.
    induction l as [|a l IH]; intros Hn Hx Hy; [ destruct Hx | ]. cbn in Hn.
    inversion Hn as [|? ? A B]; subst. destruct Hx as [->|Hx], Hy as [->|Hy].
    + reflexivity.
    + exfalso. apply A. rewrite E. apply in_map_iff. eauto.
    + exfalso. apply A. rewrite <- E. apply in_map_iff. eauto.
    + auto.
Qed.

Example sample_valid : valid sample_history.
Proof. apply valid_check. reflexivity. Qed.
Example sample_descendants : descendants 10 sample 0 = Ok [1; 2; 5; 3; 4].
Proof. reflexivity. Qed.
Example sample_tree : tree sample 0.
Proof. apply (tree_check 10 _ _ _ sample_descendants). reflexivity. Qed.

(** ** C29: membership and lookup agree *)

(** [key in collection] answers exactly whether the collection itself or one
    strictly below has the identifier. *)
Theorem C29_contains : forall limit st c key b,
  contains limit st c key = Ok b ->
  (b = true <-> exists x, (x = c \/ below st c x) /\ c_id (obj st x) = key).
Proof. exact contains_spec. Qed.
Print Assumptions C29_contains.

(** [collection[key]] gives a collection of the tree that has the identifier. *)
Theorem C29_getitem : forall limit st c key x,
  getitem limit st c key = Ok x ->
  (x = c \/ below st c x) /\ c_id (obj st x) = key.
Proof. exact getitem_ok. Qed.
Print Assumptions C29_getitem.

(** The two agree. *)
Theorem C29_agree : forall limit st c key b,
  contains limit st c key = Ok b ->
  if b then exists x, getitem limit st c key = Ok x
  else getitem limit st c key = Err UnknownCollection.
Proof. exact getitem_contains. Qed.
Print Assumptions C29_agree.

(** Lookup fails with [UnknownCollection] exactly when nothing has the
    identifier, and otherwise only on a tree deeper than the interpreter's
    recursion limit. *)
Theorem C29_getitem_error : forall limit st c key e,
  getitem limit st c key = Err e ->
  (e = UnknownCollection
   /\ forall x, x = c \/ below st c x -> c_id (obj st x) <> key)
  \/ (e = RecursionError /\ exists p d, at_path st c p d /\ limit <= length p).
Proof. exact getitem_err. Qed.
Print Assumptions C29_getitem_error.

(** Membership itself fails on such a tree only. *)
Theorem C29_contains_error : forall limit st c key e,
  contains limit st c key = Err e ->
  e = RecursionError /\ exists p d, at_path st c p d /\ limit <= length p.
Proof. exact contains_err. Qed.
Print Assumptions C29_contains_error.

Example C29_sample : getitem 10 sample 0 #"tg.w.t" = Ok 4
  /\ contains 10 sample 0 #"tg.w.t" = Ok true /\ contains 10 sample 0 #"x" = Ok false.
Proof. vm_compute. auto. Qed.

(** On a tree too deep the member is found but not said to be there. *)
Theorem C29_deep_refuted : exists limit st c key x,
  getitem limit st c key = Ok x /\ contains limit st c key = Err RecursionError.
Proof. exists 2, sample, 0, #"tg", 1. vm_compute. auto. Qed.
Print Assumptions C29_deep_refuted.

(** ** C30: parents and members under any history *)

(** After any history of creations and assignments, the parent of a collection
    is the last one assigned... *)
Theorem C30_parent : forall h, valid h -> forall c,
  c_parent (obj (history h) c) = last_parent h c.
Proof. intros h H c. apply (history_objects h H c). Qed.
Print Assumptions C30_parent.

(** ... and its dictionary holds, in order, the first collection with each
    identifier among those that were given it as a parent. *)
Theorem C30_members : forall h, valid h -> forall p,
  c_children (obj (history h) p)
  = map (fun c => (c_id (obj (history h) c), c))
      (firsts (fun c => c_id (obj (history h) c)) [] (given h p)).
Proof. intros h H p. apply (history_objects h H p). Qed.
Print Assumptions C30_members.

(** So a collection is listed by its parent unless another one with the same
    identifier came first. *)
Theorem C30_registered : forall h, valid h -> forall c p,
  c_parent (obj (history h) c) = Some p ->
  exists m, In (c_id (obj (history h) c), m) (c_children (obj (history h) p))
    /\ c_id (obj (history h) m) = c_id (obj (history h) c).
Proof. exact history_registered. Qed.
Print Assumptions C30_registered.

(** Members are never displaced: whatever comes later only adds some. *)
Theorem C30_kept : forall h h', valid (h ++ h') -> forall p,
  p < length (creations h) ->
  exists more, c_children (obj (history (h ++ h')) p)
    = c_children (obj (history h) p) ++ more.
Proof. exact history_keeps. Qed.
Print Assumptions C30_kept.

(** [parents] is the chain up to the root, however long... *)
Theorem C30_parents : forall st c l, chain st c l ->
  forall fuel, length l <= fuel -> parents fuel st c = Ok l.
Proof. exact chain_parents. Qed.
Print Assumptions C30_parents.

(** ... and answers only when there is one. *)
Theorem C30_parents_only : forall fuel st c l, parents fuel st c = Ok l -> chain st c l.
Proof. exact parents_chain. Qed.
Print Assumptions C30_parents_only.

(** The graph says of a collection every parent ever assigned to it (or to one
    with the same identifier)... *)
Theorem C30_statements : forall h, valid h -> forall s o,
  In (s, cap_parent, o) (nth 0 (graphs (history h)) [])
  <-> exists c p, In (Parent c p) h
      /\ s = node (obj (history h) c) /\ o = node (obj (history h) p).
Proof. exact history_parent_triples. Qed.
Print Assumptions C30_statements.

(** ... and the type given by the last creation that used the identifier. *)
Theorem C30_type : forall h, valid h -> forall id t,
  In (URI id, rdf_type, t) (nth 0 (graphs (history h)) [])
  <-> last_type h id = Some t.
Proof. exact history_type. Qed.
Print Assumptions C30_type.

Example C30_sample : c_parent (obj sample 4) = Some 2
  /\ c_children (obj sample 1) = [(#"tg.w", 2); (#"tg.v", 5)]
  /\ parents 3 sample 4 = Ok [2; 1; 0].
Proof. vm_compute. auto. Qed.

(** Moving a collection does not take it away from its former parent, and the
    graph then says it has two. *)
Theorem C30_move_refuted : exists h c p q, valid h /\ p <> q
  /\ c_parent (obj (history h) c) = Some q
  /\ In c (members (history h) p) /\ In c (members (history h) q)
  /\ In (node (obj (history h) c), cap_parent, node (obj (history h) p))
       (nth 0 (graphs (history h)) [])
  /\ In (node (obj (history h) c), cap_parent, node (obj (history h) q))
       (nth 0 (graphs (history h)) []).
Proof.
  exists (sample_history ++ [Parent 3 5]), 3, 2, 5.
  assert (V : valid (sample_history ++ [Parent 3 5])) by (apply valid_check; reflexivity).
  split; [ exact V | ]. split; [ discriminate | ].
  split; [ reflexivity | ]. split; [ vm_compute; auto | ]. split; [ vm_compute; auto | ].
  split; apply (proj2 (C30_statements _ V _ _)).
  - exists 3, 2. split; [ vm_compute; auto 20 | ]. split; reflexivity.
  - exists 3, 5. split; [ vm_compute; auto 20 | ]. split; reflexivity.
Qed.
Print Assumptions C30_move_refuted.

(** Assigning [None] fails, but only after the parent was cleared. *)
Theorem C30_none_refuted : forall st c, c < length (objs st) ->
  let '(st', r) := set_parent_none st c in
  r = Err AttributeError /\ c_parent (obj st' c) = None.
Proof.
  intros st c H. unfold set_parent_none. split; [ reflexivity | ].
  rewrite obj_with, Nat.eqb_refl. apply Nat.ltb_lt in H. rewrite H. reflexivity.
Qed.
Print Assumptions C30_none_refuted.

(** A second collection with the same identifier never becomes a member, though
    it says it has that parent; and it changes the type of the first. *)
Theorem C30_same_id_refuted : exists h c d p, valid h /\ c <> d
  /\ c_parent (obj (history h) d) = Some p
  /\ ~ member (history h) p d
  /\ c_kind (obj (history h) c) = KWork
  /\ ~ In (node (obj (history h) c), rdf_type, type_uri KWork)
        (nth 0 (graphs (history h)) []).
Proof.
  exists (sample_history ++ [New KTextgroup #"tg.w" #"tg.w"; Parent 6 1]), 2, 6, 1.
  assert (V : valid (sample_history ++ [New KTextgroup #"tg.w" #"tg.w"; Parent 6 1]))
    by (apply valid_check; reflexivity).
  split; [ exact V | ]. split; [ discriminate | ]. split; [ reflexivity | ]. split.
  - intros H. apply In_members in H. vm_compute in H.
    repeat (destruct H as [H|H]; [ discriminate | ]). destruct H.
  - split; [ reflexivity | ]. intros H.
    change (node _) with (URI #"tg.w") in H. apply (proj1 (C30_type _ V _ _)) in H.
    vm_compute in H. discriminate.
Qed.
Print Assumptions C30_same_id_refuted.

(** Two collections made parents of each other: [parents] never returns. *)
Theorem C30_cycle_refuted : exists h, valid h /\ forall fuel,
  parents fuel (history h) 0 = Err OutOfFuel.
Proof.
  exists [New KCollection #"a" []; New KCollection #"b" []; Parent 0 1; Parent 1 0].
  split; [ apply valid_check; reflexivity | ].
  set (st := history _). intros fuel. unfold parents.
  assert (G : forall fuel p, p = 0 \/ p = 1 -> parents_from fuel st (Some p) = Err OutOfFuel).
  { clear fuel. induction fuel as [|fuel IH]; intros p Hp; [ reflexivity | ]. cbn [parents_from].
    destruct Hp as [->| ->].
    - change (c_parent (obj st 0)) with (Some 1). rewrite IH by auto. reflexivity.
    - change (c_parent (obj st 1)) with (Some 0). rewrite IH by auto. reflexivity. }
  change (c_parent (obj st 0)) with (Some 1). apply G. auto.
Qed.
Print Assumptions C30_cycle_refuted.

(** ** C31: deletion *)

(** Deleting something strictly below a well-kept tree removes it, with all
    that is below it, and nothing else; the rest is still found, the deleted
    is not. *)
Theorem C31_delete : forall limit st c key l0 up,
  tree st c -> descendants limit st c = Ok l0 -> chain st c up ->
  forall i, below st c i -> c_id (obj st i) = key ->
  exists fuel0, forall fuel, fuel0 <= fuel ->
  exists st', delitem limit fuel st c key = (st', Ok tt)
    /\ tree st' c
    /\ (forall x, (x = c \/ below st' c x)
          <-> (x = c \/ below st c x) /\ ~ (x = i \/ below st i x))
    /\ (forall x, c_kind (obj st' x) = c_kind (obj st x)
                  /\ c_id (obj st' x) = c_id (obj st x)
                  /\ c_parent (obj st' x) = c_parent (obj st x))
    /\ (forall key', exists b, contains limit st' c key' = Ok b
          /\ (b = true <-> exists x, (x = c \/ below st c x)
                /\ ~ (x = i \/ below st i x) /\ c_id (obj st x) = key')).
Proof. exact delete_below. Qed.
Print Assumptions C31_delete.

Example C31_sample : let '(st', r) := delitem 10 10 sample 0 #"tg.w" in
  r = Ok tt /\ descendants 10 st' 0 = Ok [1; 5]
  /\ contains 10 st' 0 #"tg.w" = Ok false /\ contains 10 st' 0 #"tg.w.e" = Ok false
  /\ contains 10 st' 0 #"tg.v" = Ok true.
Proof. vm_compute. auto. Qed.

(** The statements of the shared graph: those about the deleted one go, and
    with them those about the container, in either position. *)
Theorem C31_statements : forall limit fuel st c key st',
  delitem limit fuel st c key = (st', Ok tt) ->
  c_graph (obj st c) < length (graphs st) ->
  exists i, getitem limit st c key = Ok i
    /\ (forall s p o, In (s, p, o) (nth (c_graph (obj st c)) (graphs st') [])
          <-> In (s, p, o) (nth (c_graph (obj st c)) (graphs st) [])
              /\ s <> node (obj st i) /\ o <> node (obj st i)
              /\ s <> node (obj st c) /\ o <> node (obj st c))
    /\ (forall g, g <> c_graph (obj st c) -> nth g (graphs st') [] = nth g (graphs st) []).
Proof. exact delete_graph. Qed.
Print Assumptions C31_statements.

(** An unknown key changes nothing. *)
Theorem C31_unknown : forall limit fuel st c key e,
  getitem limit st c key = Err e -> delitem limit fuel st c key = (st, Err e).
Proof. exact delete_unknown. Qed.
Print Assumptions C31_unknown.

Definition sample_deleted : state :=
  Eval vm_compute in fst (delitem 10 10 sample 0 #"tg.w").
Example sample_delete : delitem 10 10 sample 0 #"tg.w" = (sample_deleted, Ok tt).
Proof. vm_compute. reflexivity. Qed.

(** The container loses its own metadata: here its type. *)
Theorem C31_container_refuted : exists st c key st', tree st c
  /\ delitem 10 10 st c key = (st', Ok tt)
  /\ c_id (obj st c) <> key
  /\ In (node (obj st c), rdf_type, type_uri (c_kind (obj st c))) (nth 0 (graphs st) [])
  /\ ~ exists t, In (node (obj st c), rdf_type, t) (nth 0 (graphs st') []).
Proof.
  exists sample, 0, #"tg.w", sample_deleted.
  split; [ exact sample_tree | ]. split; [ exact sample_delete | ].
  split; [ vm_compute; discriminate | ]. split.
  - apply (proj2 (C30_type _ sample_valid #"inv" (type_uri KInventory))). reflexivity.
  - intros [t H].
    destruct (C31_statements _ _ _ _ _ _ sample_delete) as (i & _ & G & _); [ vm_compute; auto | ].
    destruct (proj1 (G _ _ _) H) as (_ & _ & _ & X & _). apply X. reflexivity.
Qed.
Print Assumptions C31_container_refuted.

(** What was below the deleted one keeps its statements. *)
Theorem C31_below_refuted : exists st c key st' x, tree st c
  /\ delitem 10 10 st c key = (st', Ok tt)
  /\ contains 10 st' c (c_id (obj st x)) = Ok false
  /\ In (node (obj st x), rdf_type, type_uri (c_kind (obj st x))) (nth 0 (graphs st') []).
Proof.
  exists sample, 0, #"tg.w", sample_deleted, 3.
  split; [ exact sample_tree | ]. split; [ exact sample_delete | ].
  split; [ vm_compute; reflexivity | ].
  destruct (C31_statements _ _ _ _ _ _ sample_delete) as (i & I & G & _); [ vm_compute; auto | ].
  assert (i = 2) by (vm_compute in I; congruence). subst i. apply (proj2 (G _ _ _)). split.
  - apply (proj2 (C30_type _ sample_valid #"tg.w.e" (type_uri (KText Edition)))). reflexivity.
  - repeat split; vm_compute; discriminate.
Qed.
Print Assumptions C31_below_refuted.

(** Deleting a collection by its own key removes it from its parent only: the
    key is still found. *)
Theorem C31_itself_refuted : exists st c st', tree st c
  /\ delitem 10 10 st c (c_id (obj st c)) = (st', Ok tt)
  /\ contains 10 st' c (c_id (obj st c)) = Ok true.
Proof.
  exists sample, 1, (fst (delitem 10 10 sample 1 #"tg")). split.
  - apply (tree_check 10 _ _ [2; 5; 3; 4]); reflexivity.
  - vm_compute. auto.
Qed.
Print Assumptions C31_itself_refuted.

(** ** C32: descendants and counts *)

(** [descendants] lists every place strictly below, each once, members first
    and then what is below each member in turn. *)
Theorem C32_descendants : forall limit st c l,
  descendants limit st c = Ok l ->
  exists places, Forall2 (at_path st c) places l
    /\ StronglySorted listed_before places
    /\ forall p, In p places <-> p <> [] /\ exists d, at_path st c p d.
Proof. exact descendants_listing. Qed.
Print Assumptions C32_descendants.

Theorem C32_below : forall limit st c l, descendants limit st c = Ok l ->
  forall d, In d l <-> below st c d.
Proof. exact descendants_below. Qed.
Print Assumptions C32_below.

(** It answers exactly on trees less deep than the recursion limit. *)
Theorem C32_answers : forall limit st c,
  (exists l, descendants limit st c = Ok l)
  <-> forall p d, at_path st c p d -> length p < limit.
Proof. exact descendants_ok. Qed.
Print Assumptions C32_answers.

(** [readableDescendants] lists the texts among them, in the same order. *)
Theorem C32_readable : forall limit st c l, descendants limit st c = Ok l ->
  exists r f, readable_descendants limit st c = Ok r
    /\ r = filter f l
    /\ (forall d, f d = true <-> text st d)
    /\ forall d, In d r <-> below st c d /\ text st d.
Proof.
  intros limit st c l H. destruct (readable_spec limit st c l H) as (r & A & B & C).
  exists r, (readable st). split; [ exact A | ]. split; [ exact B | ].
  split; [ intros d; apply is_text_spec | exact C ].
Qed.
Print Assumptions C32_readable.

(** The length of a work, a textgroup, an inventory or a collection of
    inventories is the number of texts below. *)
Theorem C32_len : forall limit st c,
  work_layer st c \/ textgroup_layer st c \/ inventory_layer st c \/ collection_layer st c ->
  exists d, readable_descendants (5 + limit) st c = Ok d
    /\ coll_len st c = Ok (length d).
Proof. exact len_counts. Qed.
Print Assumptions C32_len.

Ltac each_child :=
  let H := fresh "H" in
  intros ? ? H; vm_compute in H;
  repeat (destruct H as [H|H]; [ injection H as ? ?; subst | ]); try destruct H.

Example C32_sample : descendants 10 sample 0 = Ok [1; 2; 5; 3; 4]
  /\ readable_descendants 10 sample 0 = Ok [3; 4] /\ coll_len sample 0 = Ok 2
  /\ inventory_layer sample 0.
Proof.
  split; [ reflexivity | ]. split; [ reflexivity | ]. split; [ reflexivity | ].
  split; [ reflexivity | each_child ].
  split; [ reflexivity | each_child ]; (split; [ reflexivity | each_child ]).
  - exists Edition. reflexivity.
  - exists Translation. reflexivity.
Qed.

(** A collection reached twice is listed twice. *)
Theorem C32_repeated_refuted : exists h c l, valid h
  /\ descendants 10 (history h) c = Ok l /\ ~ NoDup l.
Proof.
  exists (sample_history ++ [Parent 3 5]), 0, [1; 2; 5; 3; 4; 3].
  split; [ apply valid_check; reflexivity | ]. split; [ reflexivity | ].
  intros H. apply NoDup_remove_2 with (l := [1; 2; 5; 3; 4]) in H. apply H. cbn. auto.
Qed.
Print Assumptions C32_repeated_refuted.

(** ** C33: merging *)

(** A work that receives another of the same URN has its texts and the other's,
    the other's winning; the received texts have it as a parent; nothing else
    changes. *)
Theorem C33_work : forall st s o,
  s < length (objs st) ->
  c_kind (obj st o) = KWork -> c_urn (obj st s) = c_urn (obj st o) ->
  NoDup (keys (c_children (obj st o))) ->
  (forall k t, In (k, t) (c_children (obj st o)) ->
     t < length (objs st) /\ c_id (obj st t) = k
     /\ c_graph (obj st t) < length (graphs st)) ->
  exists st', work_update st s o = (st', Ok tt)
    /\ keys (c_children (obj st' s))
       = keys (c_children (obj st s))
         ++ new_keys (c_children (obj st s)) (c_children (obj st o))
    /\ (forall k, dget k (c_children (obj st' s))
          = match dget k (c_children (obj st o)) with
            | Some t => Some t
            | None => dget k (c_children (obj st s))
            end)
    /\ (forall x, x <> s -> c_children (obj st' x) = c_children (obj st x))
    /\ (forall x, (exists k, In (k, x) (c_children (obj st o))) ->
          c_parent (obj st' x) = Some s)
    /\ (forall x, (forall k, ~ In (k, x) (c_children (obj st o))) ->
          c_parent (obj st' x) = c_parent (obj st x))
    /\ (forall x, same_but_place (obj st x) (obj st' x))
    /\ (forall g x, In x (nth g (graphs st') [])
          <-> In x (nth g (graphs st) [])
              \/ exists k t, In (k, t) (c_children (obj st o)) /\ c_graph (obj st t) = g
                   /\ x = (node (obj st t), cap_parent, node (obj st s))).
Proof. exact work_update_ok. Qed.
Print Assumptions C33_work.

(** Anything else is refused and changes nothing. *)
Theorem C33_work_errors : forall st s o,
  (c_kind (obj st o) <> KWork -> work_update st s o = (st, Err TypeError))
  /\ (c_kind (obj st o) = KWork -> c_urn (obj st s) <> c_urn (obj st o) ->
      work_update st s o = (st, Err InvalidURN)).
Proof. exact work_update_errors. Qed.
Print Assumptions C33_work_errors.

(** A textgroup that receives another: see [merged]. *)
Theorem C33_textgroup : forall st s o,
  textgroup_tree st s -> textgroup_tree st o -> s <> o ->
  (forall k w wo, In (k, w) (c_children (obj st s)) ->
     In (k, wo) (c_children (obj st o)) -> c_urn (obj st w) = c_urn (obj st wo)) ->
  c_urn (obj st s) = c_urn (obj st o) ->
  exists st', textgroup_update st s o = (st', Ok tt) /\ merged st s o st'.
Proof. exact textgroup_update_merged. Qed.
Print Assumptions C33_textgroup.

Theorem C33_textgroup_errors : forall st s o,
  (c_kind (obj st o) <> KTextgroup -> textgroup_update st s o = (st, Err TypeError))
  /\ (c_kind (obj st o) = KTextgroup -> c_urn (obj st s) <> c_urn (obj st o) ->
      textgroup_update st s o = (st, Err InvalidURN)).
Proof. exact textgroup_update_errors. Qed.
Print Assumptions C33_textgroup_errors.

(** Merging the same textgroup again shows nothing new. *)
Theorem C33_twice : forall st s o st1,
  textgroup_tree st s -> textgroup_tree st o -> s <> o ->
  (forall k w wo, In (k, w) (c_children (obj st s)) ->
     In (k, wo) (c_children (obj st o)) -> c_urn (obj st w) = c_urn (obj st wo)) ->
  textgroup_update st s o = (st1, Ok tt) ->
  exists st2, textgroup_update st1 s o = (st2, Ok tt)
    /\ outline st2 s = outline st1 s.
Proof. exact textgroup_update_twice. Qed.
Print Assumptions C33_twice.

(** Two textgroups to merge. *)
Definition two : state := history
  [ New KTextgroup #"tg" #"tg"; New KWork #"tg.w" #"tg.w"; New (KText Edition) #"tg.w.e" #"tg.w.e";
    New KTextgroup #"tg" #"tg"; New KWork #"tg.w" #"tg.w"; New (KText Translation) #"tg.w.t" #"tg.w.t";
    New KWork #"tg.v" #"tg.v"; New (KText Edition) #"tg.v.e" #"tg.v.e";
    Parent 1 0; Parent 2 1; Parent 4 3; Parent 5 4; Parent 6 3; Parent 7 6 ].

Example C33_sample :
  let '(st', r) := textgroup_update two 0 3 in
  r = Ok tt
  /\ outline st' 0 = [(#"tg.w", [#"tg.w.e"; #"tg.w.t"]); (#"tg.v", [#"tg.v.e"])]
  /\ outline st' 3 = outline two 3.
Proof. vm_compute. auto. Qed.

Lemma textgroup_check : forall limit st c l, descendants limit st c = Ok l -> tree_ok st (c :: l) = true ->
    c < length (objs st) -> c_kind (obj st c) = KTextgroup ->
    forallb (fun x => match c_kind (obj st x) with KWork => true | _ => false end
       && forallb (fun t => is_text (c_kind (obj st t)) && Nat.ltb t (length (objs st)))
            (map snd (c_children (obj st x)))
       && Nat.ltb x (length (objs st)))
      (map snd (c_children (obj st c))) = true ->
    textgroup_tree st c.
Proof.
  intros limit st c l D O L K F. pose proof (tree_check _ _ _ _ D O) as T. rewrite forallb_forall in F.
    assert (Nc : ~ text st c) by (intros [s E]; congruence).
    assert (W : forall k w, In (k, w) (c_children (obj st c)) -> c_kind (obj st w) = KWork
      /\ w < length (objs st) /\ forall k2 t, In (k2, t) (c_children (obj st w)) -> text st t /\ t < length (objs st)).
    { intros k w H. assert (X : In w (map snd (c_children (obj st c)))) by (apply in_map_iff; exists (k, w); auto).
      specialize (F w X). apply andb_true_iff in F as [F F3]. apply andb_true_iff in F as [F1 F2].
      split; [ destruct (c_kind (obj st w)); congruence | ]. split; [ apply Nat.ltb_lt; exact F3 | ].
      intros k2 t H2. rewrite forallb_forall in F2.
      assert (Y : In t (map snd (c_children (obj st w)))) by (apply in_map_iff; exists (k2, t); auto).
      specialize (F2 t Y). apply andb_true_iff in F2 as [F2 F4].
      split; [ apply is_text_spec; exact F2 | apply Nat.ltb_lt; exact F4 ]. }
    assert (B : forall k w, In (k, w) (c_children (obj st c)) -> member st c w)
      by (intros k w H; split; [ exact Nc | eauto ]).
    constructor.
    - exact L.
    - exact K.
    - apply (tree_dict _ _ T). auto.
    - intros k w H. destruct (W k w H) as (W1 & W2 & _). repeat split.
      + exact W2.
      + exact W1.
      + symmetry. apply (tree_key _ _ T c); auto.
      + apply (tree_parent _ _ T c); [ auto | eapply B; exact H ].
      + apply (tree_dict _ _ T). right. apply below_one. eapply B. exact H.
    - intros k w k2 t H H2. destruct (W k w H) as (W1 & W2 & W3). destruct (W3 k2 t H2) as [W4 W5].
      assert (Bw : w = c \/ below st c w) by (right; apply below_one; eapply B; exact H).
      assert (Nw : ~ text st w) by (intros [s E]; congruence).
      repeat split.
      + exact W5.
      + exact W4.
      + symmetry. apply (tree_key _ _ T w); assumption.
      + apply (tree_parent _ _ T w); [ exact Bw | split; [ exact Nw | eauto ] ].
Qed.

Example C33_sample_hyps : textgroup_tree two 0 /\ textgroup_tree two 3
  /\ (forall k w wo, In (k, w) (c_children (obj two 0)) ->
     In (k, wo) (c_children (obj two 3)) -> c_urn (obj two w) = c_urn (obj two wo)).
Proof.
  split; [ apply (textgroup_check 10 two 0 [1; 2]); try reflexivity; vm_compute; auto 20 | ].
  split; [ apply (textgroup_check 10 two 3 [4; 6; 5; 7]); try reflexivity; vm_compute; auto 20 | ].
  intros k w wo H H'. vm_compute in H, H'.
  repeat (destruct H as [H|H]; [ injection H as <- <- | ]); try destruct H.
  repeat (destruct H' as [H'|H']; [ try discriminate; injection H' as <- | ]); try destruct H'.
  reflexivity.
Qed.

(** The received copies do not share the graph of the rest: what is said of
    them later is not seen from it. *)
Theorem C33_graph_refuted : exists st s o st' x,
  textgroup_update st s o = (st', Ok tt) /\ below st' s x
  /\ c_graph (obj st' x) <> c_graph (obj st' s).
Proof.
  exists two, 0, 3, (fst (textgroup_update two 0 3)), 13.
  split; [ vm_compute; reflexivity | ]. split.
  - apply (descendants_below 10 _ _ [1; 22; 2; 13; 23]); vm_compute; auto 10.
  - vm_compute. discriminate.
Qed.
Print Assumptions C33_graph_refuted.

(** ** C54: languages, siblings and equality *)

(** A text created with a language has it, wherever it is put. *)
Theorem C54_given_language : forall order, arranges order ->
  forall st sub urn parent l st' c, graphs st <> [] ->
  (forall p, parent = Some p -> p < length (objs st)) ->
  new_cts order st (KText sub) urn parent (Some l) = (st', Ok c) ->
  get_lang order st' c = Ok l.
Proof. exact created_with_language. Qed.
Print Assumptions C54_given_language.

(** Without one it takes the language of its parent. *)
Theorem C54_inherited_language : forall order, arranges order ->
  forall st sub urn p st' c, graphs st <> [] -> p < length (objs st) ->
  new_cts order st (KText sub) urn (Some p) None = (st', Ok c) ->
  get_lang order st' c = get_lang order st p.
Proof. exact created_without_language. Qed.
Print Assumptions C54_inherited_language.

(** Nothing but a text or a work has one to give. *)
Theorem C54_no_language_error : forall order,
  forall st sub urn p u t, graphs st <> [] -> p < length (objs st) ->
  urn_parse urn = Ok u -> to_str u = Ok t ->
  ~ text st p -> c_kind (obj st p) <> KWork ->
  snd (new_cts order st (KText sub) urn (Some p) None) = Err AttributeError.
Proof.
  intros order st sub urn p u t A B C D E F. apply (created_without_language_error order st sub urn p u t A B C D).
  destruct (c_kind (obj st p)) eqn:K; try reflexivity; [ | congruence ].
  exfalso. apply E. exists sub0. exact K.
Qed.
Print Assumptions C54_no_language_error.

(** [get_translation_in] of a work: its translations, in order, in the
    language asked if one is asked. *)
Theorem C54_translations : forall order st w key,
  exists f, get_translation_in order st w key = Ok (filter f (map snd (c_children (obj st w))))
    /\ forall t, f t = true
       <-> c_kind (obj st t) = KText Translation
           /\ (forall l, key = Some l -> get_lang order st t = Ok l).
Proof. exact translations_of_work. Qed.
Print Assumptions C54_translations.

(** [translations] and [editions] of a text are those of its work. *)
Theorem C54_siblings : forall order st t w, c_parent (obj st t) = Some w ->
  c_kind (obj st w) = KWork ->
  (forall key, text_translations order st t key = get_translation_in order st w key)
  /\ exists f, text_editions st t = Ok (filter f (map snd (c_children (obj st w))))
       /\ forall e, f e = true <-> c_kind (obj st e) = KText Edition.
Proof. exact siblings. Qed.
Print Assumptions C54_siblings.

(** [==] between collections: the same object, or the same class and the same
    URN. *)
Theorem C54_equality : forall st a b,
  coll_eq st a b = true
  <-> a = b \/ (c_kind (obj st a) = c_kind (obj st b)
               /\ c_kind (obj st a) <> KCollection
               /\ c_urn (obj st a) = c_urn (obj st b)).
Proof. exact coll_eq_spec. Qed.
Print Assumptions C54_equality.

Definition work_urn : str := #"urn:cts:latinLit:phi1294.phi002".
Definition text_urn : str := #"urn:cts:latinLit:phi1294.phi002.perseus-eng2".

Definition with_work : state :=
  set_lang (fst (new_cts (fun l => l) start KWork work_urn None None)) 0 #"lat".

Example C54_sample :
  let '(st1, r1) := new_cts (fun l => l) with_work (KText Translation) text_urn (Some 0) (Some #"eng") in
  r1 = Ok 1 /\ get_lang (fun l => l) st1 1 = Ok #"eng"
  /\ get_translation_in (fun l => l) st1 0 (Some #"eng") = Ok [1]
  /\ get_translation_in (fun l => l) st1 0 (Some #"lat") = Ok [].
Proof. vm_compute. auto. Qed.

Example C54_sample_inherited :
  let '(st1, r1) := new_cts (fun l => l) with_work (KText Edition) text_urn (Some 0) None in
  r1 = Ok 1 /\ get_lang (fun l => l) st1 1 = Ok #"lat" /\ text_editions st1 1 = Ok [1].
Proof. vm_compute. auto. Qed.

(** Under a work that has no language the text is said to be in the language
    called None. *)
Theorem C54_none_refuted : exists st st' c,
  new_cts (fun l => l) st (KText Edition) text_urn (Some 0) None = (st', Ok c)
  /\ In (node (obj st' c), dc_language, Literal #"None" None None) (nth 0 (graphs st') []).
Proof.
  exists (fst (new_cts (fun l => l) start KWork work_urn None None)).
  eexists. exists 1. split; [ vm_compute; reflexivity | vm_compute; auto 10 ].
Qed.
Print Assumptions C54_none_refuted.

(** All inventories are equal, whatever their names and contents: they share
    the empty URN. *)
Theorem C54_inventories_refuted : exists h, valid h
  /\ c_id (obj (history h) 0) <> c_id (obj (history h) 1)
  /\ coll_eq (history h) 0 1 = true.
Proof.
  exists [New KInventory #"a" []; New KInventory #"b" []].
  split; [ apply valid_check; reflexivity | ]. split; [ vm_compute; discriminate | reflexivity ].
Qed.
Print Assumptions C54_inventories_refuted.
