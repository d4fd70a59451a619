(** The export of a collection of inventories is the export of one inventory. *)

From Coq Require Import List NArith Arith Bool Lia.
From Verif Require Import PyStr PyStrFacts CiteSpec MetaModel MetaSpec CollModel UtilModel UtilSpec InvModel InvSpec InvExport InvExportSpec InvsSpec.
Import ListNotations.

Lemma mapM_ext_in : forall {A B} (f g : A -> result B) l, (forall x, In x l -> f x = g x) -> mapM f l = mapM g l.
Proof.
  intros A B f g l. induction l as [|x l IH]; intros H; [ reflexivity | ].
  cbn [mapM]. rewrite (H x (or_introl eq_refl)), IH; [ reflexivity | ]. intros y Hy. apply H. right. exact Hy.
Qed.

Section Joined.
Variable s : store.
Variable i : nat.
Hypothesis P : portable_collection s i.

Definition adopt (j : nat) (x : coll) : coll :=
  if Nat.eqb j i then MkColl KInventory (c_id x) (c_urn x) (c_parent x) (groups_of s i) (c_graph x)
  else match c_kind x with
       | KTextgroup => MkColl KTextgroup (c_id x) (c_urn x) (Some i) (c_children x) (c_graph x)
       | _ => x
       end.
Definition joined : store :=
  MkStore (MkState (map (fun j => adopt j (obj (s_state s) j)) (seq 0 (length (objs (s_state s))))) (graphs (s_state s)))
    (s_cites s) (s_paths s).

Lemma inside : i < length (objs (s_state s)).
Proof using P.
  destruct (le_lt_dec (length (objs (s_state s))) i) as [L|L]; [ | exact L ].
  destruct P as (K & _). unfold obj in K. rewrite (nth_overflow _ _ L) in K. discriminate K.
Qed.

Lemma obj_joined : forall j, obj (s_state joined) j = adopt j (obj (s_state s) j).
Proof using P.
  intros j. unfold joined. cbn [s_state]. unfold obj at 1. cbn [objs].
  destruct (le_lt_dec (length (objs (s_state s))) j) as [L|L].
  - rewrite nth_overflow by (rewrite map_length, seq_length; exact L).
    unfold obj. rewrite (nth_overflow _ _ L). unfold adopt.
    destruct (Nat.eqb_spec j i) as [->|N]; [ | reflexivity ]. pose proof inside. lia.
  - rewrite (nth_indep _ nowhere (adopt 0 (obj (s_state s) 0))) by (rewrite map_length, seq_length; exact L).
    rewrite (map_nth (fun j => adopt j (obj (s_state s) j)) _ 0 j). rewrite seq_nth by exact L. reflexivity.
Qed.

Lemma adopt_id : forall j x, c_id (adopt j x) = c_id x.
Proof using. intros j x. unfold adopt. destruct (Nat.eqb j i); [ reflexivity | ]. destruct (c_kind x); reflexivity. Qed.
Lemma adopt_urn : forall j x, c_urn (adopt j x) = c_urn x.
Proof using. intros j x. unfold adopt. destruct (Nat.eqb j i); [ reflexivity | ]. destruct (c_kind x); reflexivity. Qed.
Lemma adopt_graph : forall j x, c_graph (adopt j x) = c_graph x.
Proof using. intros j x. unfold adopt. destruct (Nat.eqb j i); [ reflexivity | ]. destruct (c_kind x); reflexivity. Qed.
Lemma adopt_kind : forall j x, j <> i -> c_kind (adopt j x) = c_kind x.
Proof using. intros j x N. unfold adopt. apply Nat.eqb_neq in N. rewrite N. destruct (c_kind x) eqn:K; cbn; congruence. Qed.
Lemma adopt_children : forall j x, j <> i -> c_children (adopt j x) = c_children x.
Proof using. intros j x N. unfold adopt. apply Nat.eqb_neq in N. rewrite N. destruct (c_kind x) eqn:K; reflexivity. Qed.
Lemma adopt_parent : forall j x, j <> i -> c_kind x <> KTextgroup -> c_parent (adopt j x) = c_parent x.
Proof using. intros j x N K. unfold adopt. apply Nat.eqb_neq in N. rewrite N. destruct (c_kind x); reflexivity || congruence. Qed.

Lemma other : forall j k, c_kind (obj (s_state s) j) = k -> k <> KInventoryCollection -> j <> i.
Proof using P. intros j k K N ->. destruct P as (K' & _). congruence. Qed.

Lemma children_joined : forall j, j <> i -> children joined j = children s j.
Proof using P. intros j N. unfold children. rewrite obj_joined. apply adopt_children, N. Qed.
Lemma children_root : children joined i = groups_of s i.
Proof using P. unfold children. rewrite obj_joined. unfold adopt. rewrite Nat.eqb_refl. reflexivity. Qed.
Lemma main_joined : main_graph joined = main_graph s.
Proof using. reflexivity. Qed.
Lemma node_joined : forall j, CollModel.node (obj (s_state joined) j) = CollModel.node (obj (s_state s) j).
Proof using P. intros j. rewrite obj_joined. unfold CollModel.node. rewrite adopt_id. reflexivity. Qed.
Lemma graph_joined : forall j, nth (c_graph (obj (s_state joined) j)) (graphs (s_state joined)) [] =
  nth (c_graph (obj (s_state s) j)) (graphs (s_state s)) [].
Proof using P. intros j. rewrite obj_joined, adopt_graph. reflexivity. Qed.
Lemma lang_joined : forall order j, j <> i -> get_lang order (s_state joined) j = get_lang order (s_state s) j.
Proof using P.
  intros order j N. unfold get_lang. rewrite node_joined, graph_joined, obj_joined, (adopt_kind j _ N). reflexivity.
Qed.
Lemma language_joined : forall j l, j <> i -> language_is joined j l <-> language_is s j l.
Proof using P.
  intros j l N. unfold language_is. split; intros H order Ho; [ rewrite <- (lang_joined order j N) | rewrite (lang_joined order j N) ]; apply H, Ho.
Qed.

(** *** Portable *)
Lemma member_joined : forall q k u j, k <> KTextgroup -> k <> KInventoryCollection -> member_of s q k u j -> member_of joined q k u j.
Proof using P.
  intros q k u j K K' (A & B & C & D & E & F). assert (N : j <> i) by (eapply other; eassumption).
  unfold member_of. rewrite obj_joined, adopt_id, adopt_urn, adopt_graph, (adopt_kind j _ N), (adopt_parent j _ N) by congruence.
  exact (conj A (conj B (conj C (conj D (conj E F))))).
Qed.
Lemma group_joined : forall q u j, member_of s q KTextgroup u j -> member_of joined i KTextgroup u j.
Proof using P.
  intros q u j (A & B & C & D & E & F). assert (N : j <> i) by (eapply other; [ eassumption | discriminate ]).
  unfold member_of. rewrite obj_joined, adopt_id, adopt_urn, adopt_graph, (adopt_kind j _ N).
  split; [ exact A | ]. split; [ exact B | ]. split; [ | auto ].
  unfold adopt. apply Nat.eqb_neq in N. rewrite N, A. reflexivity.
Qed.

Lemma text_joined : forall w u t, w <> i -> portable_text s w u t -> portable_text joined w u t.
Proof using P.
  intros w u t Nw (k & lang & wlang & A & B & C & D & E & F & G & H).
  assert (N : t <> i) by (destruct B as (B & _); eapply other; [ exact B | discriminate ]).
  exists k, lang, wlang. split; [ exact A | ]. split; [ apply member_joined; [ discriminate | discriminate | exact B ] | ].
  split; [ exact C | ]. split; [ apply language_joined; assumption | ]. split; [ exact E | ].
  split; [ apply language_joined; assumption | ]. split; [ exact G | exact H ].
Qed.
Lemma work_joined : forall g u w, portable_work s g u w -> portable_work joined g u w.
Proof using P.
  intros g u w (A & B & (l & C & C') & D).
  assert (N : w <> i) by (destruct A as (A & _); eapply other; [ exact A | discriminate ]).
  split; [ apply member_joined; [ discriminate | discriminate | exact A ] | ]. split; [ exact B | ].
  split; [ exists l; split; [ apply language_joined; assumption | exact C' ] | ].
  intros v t H. rewrite (children_joined w N) in H. apply text_joined; [ exact N | apply D, H ].
Qed.
Lemma groups_joined : forall q u g, portable_group s q u g -> portable_group joined i u g.
Proof using P.
  intros q u g (A & B & D).
  assert (N : g <> i) by (destruct A as (A & _); eapply other; [ exact A | discriminate ]).
  split; [ eapply group_joined, A | ]. split; [ exact B | ].
  intros v w H. rewrite (children_joined g N) in H. apply work_joined, D, H.
Qed.

Lemma below : forall u g, In (u, g) (groups_of s i) -> exists q, portable_group s q u g.
Proof using P.
  intros u g H. apply in_flat_map in H as ([n v] & H1 & H2). cbn [snd] in H2.
  destruct P as (_ & _ & _ & Q & _). exists v. eapply Q; eassumption.
Qed.
Lemma below_other : forall u g, In (u, g) (groups_of s i) -> g <> i.
Proof using P. intros u g H. destruct (below u g H) as (q & (A & _) & _). eapply other; [ exact A | discriminate ]. Qed.
Lemma works_below : forall u g v w, In (u, g) (groups_of s i) -> In (v, w) (children s g) -> portable_work s g v w.
Proof using P. intros u g v w H H'. destruct (below u g H) as (q & _ & _ & W). apply W, H'. Qed.

Lemma text_ids_joined : forall w, w <> i -> text_ids joined w = text_ids s w.
Proof using P. intros w N. unfold text_ids. rewrite (children_joined w N). reflexivity. Qed.
Lemma flat_map_ext_in : forall {A B} (f g : A -> list B) l, (forall x, In x l -> f x = g x) -> flat_map f l = flat_map g l.
Proof using.
  intros A B f g l. induction l as [|x l IH]; intros H; [ reflexivity | ].
  cbn [flat_map]. rewrite (H x (or_introl eq_refl)), IH; [ reflexivity | ]. intros y Hy. apply H. right. exact Hy.
Qed.
Lemma work_ids_joined : forall u g, In (u, g) (groups_of s i) -> work_ids joined g = work_ids s g.
Proof using P.
  intros u g H. unfold work_ids. rewrite (children_joined g (below_other u g H)).
  apply flat_map_ext_in. intros [v w] H'. cbn [fst snd]. f_equal. apply text_ids_joined.
  destruct (works_below u g v w H H') as ((A & _) & _). eapply other; [ exact A | discriminate ].
Qed.
Lemma ids_joined : inventory_ids joined i = collection_ids s i.
Proof using P.
  unfold inventory_ids at 1. rewrite children_root. unfold collection_ids.
  transitivity (flat_map (fun e => fst e :: work_ids s (snd e)) (groups_of s i)).
  - apply flat_map_ext_in. intros [u g] H. cbn [fst snd]. f_equal. eapply work_ids_joined, H.
  - unfold groups_of. induction (children s i) as [|[n v] l IH]; [ reflexivity | ].
    cbn [flat_map snd]. rewrite flat_map_app, IH. reflexivity.
Qed.

Lemma portable_joined : portable joined i.
Proof using P.
  pose proof P as (A & B & C & D & E). unfold portable. rewrite ids_joined, children_root, obj_joined, adopt_id, adopt_graph.
  split; [ unfold adopt; rewrite Nat.eqb_refl; reflexivity | ]. split; [ exact B | ]. split; [ exact C | ].
  split; [ | exact E ]. intros u g H. destruct (below u g H) as (q & G). eapply groups_joined, G.
Qed.

(** *** Written the same *)
Section Written.
Variable pairs : list (term * term) -> list (term * term).
Variable order : list term -> list term.
Variable qname : term -> str * str.
Let old := export false pairs order qname s.
Let new := export false pairs order qname joined.

Lemma values_joined : forall j name, values_of order joined j name = values_of order s j name.
Proof using P. intros j name. unfold values_of. rewrite node_joined, graph_joined. reflexivity. Qed.
Lemma properties_joined : forall j, j <> i -> property_nodes order joined j = property_nodes order s j.
Proof using P.
  intros j N. unfold property_nodes. rewrite obj_joined, (adopt_kind j _ N). f_equal. apply mapM_ext_in. intros name _.
  rewrite values_joined. reflexivity.
Qed.
Lemma header_joined : forall ns j, header false order qname joined ns j = header false order qname s ns j.
Proof using P. intros ns j. unfold header. rewrite graph_joined. reflexivity. Qed.
Lemma parent_joined : forall j name, j <> i -> c_kind (obj (s_state s) j) <> KTextgroup -> parent_attr joined j name = parent_attr s j name.
Proof using P.
  intros j name N K. unfold parent_attr. rewrite (obj_joined j), (adopt_parent j _ N K).
  destruct (c_parent (obj (s_state s) j)) as [p|]; [ | reflexivity ]. rewrite obj_joined, adopt_id. reflexivity.
Qed.
Lemma links_joined : forall j, link_nodes order joined j = link_nodes order s j.
Proof using P. intros j. unfold link_nodes. rewrite values_joined. reflexivity. Qed.

Lemma text_written : forall fuel ns t k, c_kind (obj (s_state s) t) = KText k -> new fuel ns t = old fuel ns t.
Proof using P.
  intros fuel ns t k K. assert (N : t <> i) by (eapply other; [ exact K | discriminate ]).
  destruct fuel as [|fuel]; [ reflexivity | ]. unfold new, old. cbn [export].
  replace (c_kind (obj (s_state joined) t)) with (c_kind (obj (s_state s) t)) by (rewrite obj_joined, (adopt_kind t _ N); reflexivity).
  rewrite K. unfold export_text.
  replace (c_kind (obj (s_state joined) t)) with (c_kind (obj (s_state s) t)) by (rewrite obj_joined, (adopt_kind t _ N); reflexivity).
  rewrite (lang_joined order t N), (properties_joined t N), header_joined, (parent_joined t) by congruence.
  rewrite links_joined. rewrite (obj_joined t), adopt_id. reflexivity.
Qed.
Lemma work_written : forall fuel ns g u w, portable_work s g u w -> new fuel ns w = old fuel ns w.
Proof using P.
  intros fuel ns g u w ((K & _) & _ & _ & Ts). assert (N : w <> i) by (eapply other; [ exact K | discriminate ]).
  destruct fuel as [|fuel]; [ reflexivity | ]. unfold new, old. cbn [export].
  replace (c_kind (obj (s_state joined) w)) with (c_kind (obj (s_state s) w)) by (rewrite obj_joined, (adopt_kind w _ N); reflexivity).
  rewrite K.
  assert (Ea : attrs_of order joined w = attrs_of order s w).
  { unfold attrs_of. rewrite (lang_joined order w N), (parent_joined w) by congruence. rewrite (obj_joined w), (adopt_kind w _ N), adopt_id. reflexivity. }
  rewrite Ea, (properties_joined w N), header_joined.
  replace (members joined w) with (members s w)
    by (unfold members; rewrite obj_joined, (adopt_children w _ N); reflexivity).
  rewrite (mapM_ext_in (new fuel false) (old fuel false)); [ reflexivity | ].
  intros t H. unfold members in H. apply in_map_iff in H as ([v t'] & <- & H). cbn [snd].
  destruct (Ts v t' H) as (k & _ & _ & _ & (K' & _) & _). eapply text_written, K'.
Qed.
Lemma group_written : forall fuel ns q u g, portable_group s q u g -> new fuel ns g = old fuel ns g.
Proof using P.
  intros fuel ns q u g ((K & _) & _ & Ws). assert (N : g <> i) by (eapply other; [ exact K | discriminate ]).
  destruct fuel as [|fuel]; [ reflexivity | ]. unfold new, old. cbn [export].
  replace (c_kind (obj (s_state joined) g)) with (c_kind (obj (s_state s) g)) by (rewrite obj_joined, (adopt_kind g _ N); reflexivity).
  rewrite K.
  assert (Ea : attrs_of order joined g = attrs_of order s g).
  { unfold attrs_of. rewrite (obj_joined g), (adopt_kind g _ N), K, adopt_id. reflexivity. }
  rewrite Ea, (properties_joined g N), header_joined.
  replace (members joined g) with (members s g)
    by (unfold members; rewrite obj_joined, (adopt_children g _ N); reflexivity).
  rewrite (mapM_ext_in (new fuel false) (old fuel false)); [ reflexivity | ].
  intros w H. unfold members in H. apply in_map_iff in H as ([v w'] & <- & H). cbn [snd]. eapply work_written, Ws, H.
Qed.

Lemma root_written : forall fuel ns, new fuel ns i = old fuel ns i.
Proof using P.
  intros fuel ns. pose proof P as (K & _).
  destruct fuel as [|fuel]; [ reflexivity | ]. unfold new, old. cbn [export].
  assert (K' : c_kind (obj (s_state joined) i) = KInventory) by (rewrite obj_joined; unfold adopt; rewrite Nat.eqb_refl; reflexivity).
  rewrite K, K'.
  assert (Ea : attrs_of order joined i = attrs_of order s i).
  { unfold attrs_of. rewrite K, K', (obj_joined i), adopt_id. reflexivity. }
  assert (Ep : property_nodes order joined i = property_nodes order s i) by (unfold property_nodes; rewrite K, K'; reflexivity).
  rewrite Ea, Ep, header_joined.
  replace (members joined i) with (flat_map (members s) (members s i)).
  - rewrite (mapM_ext_in (new fuel false) (old fuel false)); [ reflexivity | ].
    intros g H. apply in_flat_map in H as (v & H1 & H2). unfold members in H1, H2.
    apply in_map_iff in H1 as ([n v'] & <- & H1). apply in_map_iff in H2 as ([u g'] & <- & H2). cbn [snd] in *.
    destruct P as (_ & _ & _ & Q & _). eapply group_written, Q; eassumption.
  - unfold members at 3. change (c_children (obj (s_state joined) i)) with (children joined i). rewrite children_root. unfold groups_of.
    change (members s i) with (map snd (children s i)).
    induction (children s i) as [|[n v] l IH]; [ reflexivity | ]. cbn [map flat_map snd]. rewrite map_app, IH. reflexivity.
Qed.
End Written.

(** *** Copies *)
Lemma item_joined : forall j s' j', j <> i -> same_item joined j s' j' -> same_item s j s' j'.
Proof using P.
  intros j s' j' N H. unfold same_item in *. rewrite obj_joined, adopt_id, adopt_urn, (adopt_kind j _ N), main_joined in H. exact H.
Qed.
Lemma lang_copied : forall j s' j', j <> i -> same_language joined j s' j' -> same_language s j s' j'.
Proof using P. intros j s' j' N H l L. apply H. apply language_joined; assumption. Qed.

Lemma Forall2_strong : forall {A B} (Q R : A -> B -> Prop) l l', (forall a b, In a l -> Q a b -> R a b) -> Forall2 Q l l' -> Forall2 R l l'.
Proof using.
  intros A B Q R l l' H F. induction F as [|a b l l' h F IH]; constructor.
  - apply H; [ left; reflexivity | exact h ].
  - apply IH. intros x y Hx. apply H. right. exact Hx.
Qed.

Lemma sorted_joined : forall w, w <> i -> (forall v t, In (v, t) (children s w) -> t <> i) -> sorted_texts joined w = sorted_texts s w.
Proof using P.
  intros w N H. unfold sorted_texts. rewrite (children_joined w N).
  assert (E : forall k, of_kind joined k (children s w) = of_kind s k (children s w)).
  { intros k. unfold of_kind. apply filter_ext_in. intros [v t] Ht. cbn [snd]. rewrite obj_joined, (adopt_kind t _ (H v t Ht)). reflexivity. }
  rewrite !E. reflexivity.
Qed.
Lemma sorted_in : forall w e, In e (sorted_texts s w) -> In e (children s w).
Proof using.
  intros w e H. unfold sorted_texts in H. rewrite !in_app_iff in H. unfold of_kind in H. rewrite !filter_In in H. tauto.
Qed.

Lemma work_copied : forall g u w s' g' w', portable_work s g u w -> copy_work joined w s' g' w' -> copy_work s w s' g' w'.
Proof using P.
  intros g u w s' g' w' ((K & _) & _ & _ & Ts) (A & B & C & D). assert (N : w <> i) by (eapply other; [ exact K | discriminate ]).
  assert (Nt : forall v t, In (v, t) (children s w) -> t <> i).
  { intros v t H. destruct (Ts v t H) as (k & _ & _ & _ & (K' & _) & _). eapply other; [ exact K' | discriminate ]. }
  split; [ apply item_joined; assumption | ]. split; [ exact B | ]. split; [ apply lang_copied; assumption | ].
  rewrite (sorted_joined w N Nt) in D. eapply Forall2_strong; [ | exact D ].
  intros [v t] [v' t'] H (E & X1 & X2 & X3 & X4). cbn [fst snd] in *. split; [ exact E | ].
  apply sorted_in in H. pose proof (Nt v t H) as N'.
  split; [ apply item_joined; assumption | ]. split; [ exact X2 | ]. split; [ apply lang_copied; assumption | exact X4 ].
Qed.
Lemma group_copied : forall q u g s' i' g', portable_group s q u g -> copy_group joined g s' i' g' -> copy_group s g s' i' g'.
Proof using P.
  intros q u g s' i' g' ((K & _) & _ & Ws) (A & B & D). assert (N : g <> i) by (eapply other; [ exact K | discriminate ]).
  split; [ apply item_joined; assumption | ]. split; [ exact B | ].
  rewrite (children_joined g N) in D. eapply Forall2_strong; [ | exact D ].
  intros [v w] [v' w'] H (E & X). cbn [fst snd] in *. split; [ exact E | ]. eapply work_copied; [ apply Ws, H | exact X ].
Qed.
Lemma all_copied : forall s' i', copy_inventory joined i s' i' -> copy_collection s i s' i'.
Proof using P.
  intros s' i' (A & B & C & D). rewrite obj_joined, adopt_id in B. rewrite children_root in D.
  split; [ exact A | ]. split; [ exact B | ]. split; [ exact C | ]. eapply Forall2_strong; [ | exact D ].
  intros [u g] [u' g'] H (E & X). cbn [fst snd] in *. split; [ exact E | ].
  destruct (below u g H) as (q & G). eapply group_copied; [ exact G | exact X ].
Qed.
Lemma received : forall s0, receives_collection s i s0 -> receives joined i s0.
Proof using P. intros s0 (A & B). split; [ exact A | ]. rewrite ids_joined, main_joined. exact B. Qed.
End Joined.
