(** Proofs about reading inventories. *)

From Coq Require Import List NArith ZArith Arith Bool Lia Permutation.
From Verif Require Import PyStr PyStrFacts CiteModel XmlModel UrnModel MetaModel MetaSpec MetaProofs
  CollModel CollSpec CollProofs CollHist CollLang UtilModel InvModel InvSpec.
Import ListNotations.

(** ** Actions *)
Definition yields {A} (m : act A) (s : store) (wf : Prop) (Q : store -> A -> Prop) : Prop :=
  match m s with
  | (s', Ok a) => wf /\ Q s' a
  | (_, Err _) => ~ wf
  end.

Lemma yields_ret : forall {A} (a : A) s (wf : Prop) (Q : store -> A -> Prop), wf -> Q s a -> yields (ret a) s wf Q.
Proof. intros. split; assumption. Qed.

Lemma yields_bind : forall {A B} (m : act A) (k : A -> act B) s w1 w2 Q1 Q2,
  yields m s w1 Q1 -> (forall s1 a, Q1 s1 a -> yields (k a) s1 w2 Q2) ->
  yields (andthen m k) s (w1 /\ w2) Q2.
Proof.
  intros A B m k s w1 w2 Q1 Q2 H K. unfold yields, andthen in *.
  destruct (m s) as [s1 [a|e]].
  - destruct H as [H1 H2]. specialize (K s1 a H2). destruct (k a s1) as [s2 [b|e]]; tauto.
  - tauto.
Qed.

Lemma yields_weaken : forall {A} (m : act A) s (w w' : Prop) (Q Q' : store -> A -> Prop),
  yields m s w Q -> (w <-> w') -> (forall s' a, Q s' a -> Q' s' a) -> yields m s w' Q'.
Proof.
  intros A m s w w' Q Q' H Hw HQ. unfold yields in *.
  destruct (m s) as [s1 [a|e]]; [ destruct H; split; [ tauto | auto ] | tauto ].
Qed.

(** ** Effects on a graph *)
Definition effect (told : triple -> Prop) (ids : list str) (g g' : graph) : Prop :=
  (forall s p o, ~ single_valued p -> (In (s, p, o) g' <-> In (s, p, o) g \/ told (s, p, o))) /\
  (forall order s p, ~ In s (map URI ids) -> g_objects order s p g' = g_objects order s p g).

Lemma effect_refl : forall ids g, effect (fun _ => False) ids g g.
Proof. split; intros; [ tauto | reflexivity ]. Qed.

Lemma effect_trans : forall S1 S2 i1 i2 g g1 g2,
  effect S1 i1 g g1 -> effect S2 i2 g1 g2 -> effect (fun t => S1 t \/ S2 t) (i1 ++ i2) g g2.
Proof.
  intros S1 S2 i1 i2 g g1 g2 [A1 B1] [A2 B2]. split.
  - intros s p o H. rewrite A2, A1 by exact H. tauto.
  - intros order s p H. rewrite map_app, in_app_iff in H. rewrite B2, B1 by tauto. reflexivity.
Qed.

Lemma effect_ext : forall (S1 S2 : triple -> Prop) i1 i2 g g', effect S1 i1 g g' ->
  (forall s p o, ~ single_valued p -> (S1 (s, p, o) <-> S2 (s, p, o))) -> incl i1 i2 -> effect S2 i2 g g'.
Proof.
  intros S1 S2 i1 i2 g g' [A B] HS Hi. split.
  - intros s p o H. rewrite A, HS by exact H. tauto.
  - intros order s p H. apply B. intros H'. apply H.
    apply in_map_iff in H' as [x [E Hx]]. apply in_map_iff. exists x. auto.
Qed.

Lemma effect_add : forall id p o g, effect (eq (URI id, p, o)) [id] g (g_add (URI id, p, o) g).
Proof.
  intros id p o g. split.
  - intros s q v _. rewrite In_add. split; intros [H|H]; auto.
  - intros order s q H. apply objects_add_other. intros E. injection E as E1 E2. apply H. left. auto.
Qed.

Lemma effect_set : forall id p o g, single_valued p -> effect (fun _ => False) [id] g (g_set (URI id, p, o) g).
Proof.
  intros id p o g Hp. split.
  - intros s q v Hq. unfold g_set. rewrite In_add, In_remove.
    assert (Hqp : q <> p) by (intros ->; tauto).
    rewrite !covers_some. split.
    + intros [E|[H _]]; [ injection E as -> -> ->; congruence | left; exact H ].
    + intros [H|[]]. right. split; [ exact H | ]. intros (_ & E & _). congruence.
  - intros order s q H. apply objects_set_other. intros E. injection E as E1 E2. apply H. left. auto.
Qed.

(** An effect on the objects of a state that leaves them all as they are, on the
    graph 0. *)
Definition grows (told : triple -> Prop) (ids : list str) (gs gs' : list graph) : Prop :=
  match gs with
  | [] => gs' = []
  | g :: r => exists g', gs' = g' :: r /\ effect told ids g g'
  end.

Lemma grows_refl : forall ids gs, grows (fun _ => False) ids gs gs.
Proof. intros ids [|g r]; cbn; [ reflexivity | ]. exists g. split; [ reflexivity | apply effect_refl ]. Qed.

Lemma grows_trans : forall S1 S2 i1 i2 g g1 g2,
  grows S1 i1 g g1 -> grows S2 i2 g1 g2 -> grows (fun t => S1 t \/ S2 t) (i1 ++ i2) g g2.
Proof.
  intros S1 S2 i1 i2 [|g r] g1 g2; cbn.
  - intros ->. cbn. auto.
  - intros [g' [-> E]]. cbn. intros [g'' [-> E']]. exists g''. split; [ reflexivity | ].
    eapply effect_trans; eassumption.
Qed.

Lemma grows_ext : forall (S1 S2 : triple -> Prop) i1 i2 g g', grows S1 i1 g g' ->
  (forall s p o, ~ single_valued p -> (S1 (s, p, o) <-> S2 (s, p, o))) -> incl i1 i2 -> grows S2 i2 g g'.
Proof.
  intros S1 S2 i1 i2 [|g r] g' H HS Hi; cbn in *; [ exact H | ].
  destruct H as [x [-> E]]. exists x. split; [ reflexivity | ]. eapply effect_ext; eassumption.
Qed.

Lemma grows_upd : forall told ids gs f, (forall g, effect told ids g (f g)) -> grows told ids gs (upd gs 0 f).
Proof. intros told ids [|g r] f H; cbn; [ reflexivity | ]. exists (f g). auto. Qed.

(** The objects of the graph 0 for a node and a predicate. *)
Definition objects0 (order : list term -> list term) (s p : term) (st : state) : list term :=
  g_objects order s p (nth 0 (graphs st) []).

Lemma grows_other : forall told ids st st' order s p, grows told ids (graphs st) (graphs st') ->
  ~ In s (map URI ids) -> objects0 order s p st' = objects0 order s p st.
Proof.
  intros told ids st st' order s p H N. unfold objects0. destruct (graphs st) as [|g r]; cbn in H.
  - rewrite H. reflexivity.
  - destruct H as [g' [-> [_ B]]]. cbn. apply B. exact N.
Qed.

(** ** Changes that leave the objects as they are *)
Definition quiet (told : triple -> Prop) (u : str) (s s' : store) : Prop :=
  objs (s_state s') = objs (s_state s) /\ s_cites s' = s_cites s /\
  grows told [u] (graphs (s_state s)) (graphs (s_state s')).

(** Leaves the language of every node as it is. *)
Definition mute (s s' : store) : Prop :=
  forall order n, objects0 order n dc_language (s_state s') = objects0 order n dc_language (s_state s).

Definition lang_is (s : store) (u : str) (l : list term) : Prop :=
  forall o, arranges o -> objects0 o (URI u) dc_language (s_state s) = l.

Definition at0 (i : nat) (u : str) (s : store) : Prop :=
  c_id (obj (s_state s) i) = u /\ c_graph (obj (s_state s) i) = 0.

Lemma at0_objs : forall i u s s', objs (s_state s') = objs (s_state s) -> at0 i u s -> at0 i u s'.
Proof. intros i u s s' E H. unfold at0, obj in *. rewrite E. exact H. Qed.

Lemma quiet_refl : forall u s, quiet (fun _ => False) u s s.
Proof. intros. split; [ reflexivity | split; [ reflexivity | apply grows_refl ] ]. Qed.

Lemma quiet_ext : forall S1 S2 u s s', quiet S1 u s s' ->
  (forall t p o, ~ single_valued p -> (S1 (t, p, o) <-> S2 (t, p, o))) -> quiet S2 u s s'.
Proof.
  intros S1 S2 u s s' (A & B & C) H. split; [ exact A | split; [ exact B | ] ].
  eapply grows_ext; [ exact C | exact H | apply incl_refl ].
Qed.

Lemma quiet_trans : forall S1 S2 u s s1 s2,
  quiet S1 u s s1 -> quiet S2 u s1 s2 -> quiet (fun t => S1 t \/ S2 t) u s s2.
Proof.
  intros S1 S2 u s s1 s2 (A1 & B1 & C1) (A2 & B2 & C2).
  split; [ congruence | split; [ congruence | ] ].
  eapply grows_ext; [ eapply grows_trans; eassumption | intros; reflexivity | ].
  intros x Hx. cbn in *. tauto.
Qed.

Lemma mute_refl : forall s, mute s s. Proof. intros s order n. reflexivity. Qed.
Lemma mute_trans : forall a b c, mute a b -> mute b c -> mute a c.
Proof. intros a b c H K order n. rewrite K, H. reflexivity. Qed.

Lemma on_graph_add : forall i u p o s, at0 i u s ->
  yields (on_graph i (fun n g => g_add (n, p, o) g)) s True
    (fun s' _ => quiet (eq (URI u, p, o)) u s s' /\ (p <> dc_language -> mute s s')).
Proof.
  intros i u p o s [H1 H2]. unfold yields, on_graph. split; [ exact I | ].
  unfold CollModel.node. rewrite H1, H2. split.
  - split; [ reflexivity | split; [ reflexivity | ] ]. cbn [s_state graphs with_graph].
    apply grows_upd. intros g. apply effect_add.
  - intros Hp order n. unfold objects0. cbn [s_state graphs with_graph].
    destruct (graphs (s_state s)) as [|g r]; [ reflexivity | ]. cbn [upd nth].
    apply objects_add_other. congruence.
Qed.

(** A loop of such changes. *)
Lemma for_each_quiet : forall {A} (l : list A) (f : A -> act unit) (wf : A -> Prop)
    (told : A -> triple -> Prop) (calm : A -> Prop) i u,
  (forall a s, In a l -> at0 i u s ->
     yields (f a) s (wf a) (fun s' _ => quiet (told a) u s s' /\ (calm a -> mute s s'))) ->
  forall s, at0 i u s ->
  yields (for_each l f) s (forall a, In a l -> wf a)
    (fun s' _ => quiet (fun t => exists a, In a l /\ told a t) u s s'
                 /\ ((forall a, In a l -> calm a) -> mute s s')).
Proof.
  intros A l f wf told calm i u. induction l as [|a l IH]; intros H s Hs; cbn [for_each].
  - apply yields_ret; [ intros ? [] | ]. split; [ | intros _; apply mute_refl ].
    eapply quiet_ext; [ apply quiet_refl | ].
    intros. split; [ tauto | intros [? [[] _]] ].
  - eapply yields_weaken.
    + eapply yields_bind.
      * apply (H a s (or_introl eq_refl) Hs).
      * intros s1 _ [Q1 M1].
        eapply yields_weaken; [ apply IH; [ intros b s2 Hb; apply H; right; exact Hb | ] | reflexivity | ].
        { eapply at0_objs; [ apply Q1 | exact Hs ]. }
        intros s2 b [Q2 M2].
        instantiate (1 := fun s' _ => quiet (fun t => told a t \/ exists b, In b l /\ told b t) u s s'
                     /\ (calm a /\ (forall b, In b l -> calm b) -> mute s s')).
        split; [ eapply quiet_trans; eassumption | ].
        intros [C1 C2]. eapply mute_trans; [ apply M1; exact C1 | apply M2; exact C2 ].
    + split.
      * intros [W1 W2] b [<-|Hb]; auto.
      * intros W. split; [ apply W; left; reflexivity | intros b Hb; apply W; right; exact Hb ].
    + intros s' b [Q M]. split.
      * eapply quiet_ext; [ exact Q | ]. intros t p o _. split.
        -- intros [T|[c [Hc T]]]; [ exists a | exists c ]; cbn; auto.
        -- intros [c [[<-|Hc] T]]; [ left; exact T | right; exists c; auto ].
      * intros C. apply M. split; [ apply C; left; reflexivity | intros; apply C; right; assumption ].
Qed.

(** A loop that keeps something. *)
Lemma for_each_keeps : forall {A} (K : store -> Prop) (f : A -> act unit) (l : list A),
  (forall a s, In a l -> K s -> match f a s with (s', Ok _) => K s' | (_, Err _) => True end) ->
  forall s, K s -> match for_each l f s with (s', Ok _) => K s' | (_, Err _) => True end.
Proof.
  intros A K f l. induction l as [|a l IH]; intros H s Hs; cbn [for_each]; [ exact Hs | ].
  unfold andthen. pose proof (H a s (or_introl eq_refl) Hs) as X. destruct (f a s) as [s1 [b|e]]; [ | exact I ].
  apply IH; [ intros c s0 Hc; apply H; right; exact Hc | exact X ].
Qed.

(** A language named again. *)
Lemma add_language : forall i u p o ls s, at0 i u s -> lang_is s u ls -> (p = dc_language -> In o ls) ->
  match on_graph i (fun n g => g_add (n, p, o) g) s with (s', Ok _) => lang_is s' u ls | (_, Err _) => True end.
Proof.
  intros i u p o ls s [H1 H2] H K. unfold on_graph. unfold CollModel.node. rewrite H1, H2.
  intros ord Ho. rewrite <- (H ord Ho). unfold objects0. cbn [s_state graphs with_graph].
  destruct (graphs (s_state s)) as [|g r] eqn:Eg; [ reflexivity | ]. cbn [upd nth].
  destruct (term_eqb p dc_language) eqn:Ep; [ apply term_eqb_eq in Ep; subst p | ].
  - unfold g_add. replace (existsb (triple_eqb (URI u, dc_language, o)) g) with true; [ reflexivity | ].
    symmetry. apply existsb_exists. exists (URI u, dc_language, o). split; [ | apply triple_eqb_eq; reflexivity ].
    specialize (K eq_refl). rewrite <- (H ord Ho) in K. unfold objects0 in K. rewrite Eg in K. cbn [nth] in K.
    apply (In_objects ord Ho) in K. exact K.
  - apply objects_add_other. intros X. injection X as X1. subst p. rewrite term_eqb_refl in Ep. discriminate.
Qed.

Lemma on_graph_quiet : forall i u f told s, at0 i u s ->
  (forall g, effect told [u] g (f (URI u) g)) ->
  yields (on_graph i f) s True
    (fun s' _ => quiet told u s s'
       /\ ((forall order n g, g_objects order n dc_language (f (URI u) g) = g_objects order n dc_language g) ->
           mute s s')).
Proof.
  intros i u f told s [H1 H2] H. unfold yields, on_graph. split; [ exact I | ].
  unfold CollModel.node. rewrite H1, H2. split.
  - split; [ reflexivity | split; [ reflexivity | ] ]. cbn [s_state graphs with_graph].
    apply grows_upd. exact H.
  - intros M order n. unfold objects0. cbn [s_state graphs with_graph].
    destruct (graphs (s_state s)) as [|g r]; [ reflexivity | ]. cbn [upd nth]. apply M.
Qed.

(** ** Labels *)
Definition label_preds (k : kind) (name : str) : list term :=
  cts name :: match title_key k with
              | Some t => if term_eqb (cts name) t then [rdfs_label; skos_prefLabel] else []
              | None => []
              end.

Definition labels_told (k : kind) (name u : str) (e : XmlModel.node) (t : triple) : Prop :=
  exists c l p, In c (named name e) /\ lang_of c = Some l /\ In p (label_preds k name)
    /\ t = (URI u, p, Literal (shown c) (language_tag l) None).

Lemma md_add_literal : forall g n p s l d,
  md_add g n p (PTerm (Literal s l d)) None = g_add (n, p, Literal s l d) g.
Proof. reflexivity. Qed.

Lemma set_property_shape : forall g n k name s lg,
  set_cts_property g n k (cts_term name) (PStr s) (Some lg)
  = let o := Literal s (language_tag lg) None in
    g_add (n, cts name, o)
      (match k with
       | Some t => if term_eqb (cts name) t
                   then g_add (n, rdfs_label, o) (g_add (n, skos_prefLabel, o) g) else g
       | None => g
       end).
Proof.
  intros. unfold set_cts_property, mk_literal, lang_tag.
  change (cts_term name) with (cts name).
  destruct lg as [|c lg]; cbn [language_tag]; destruct k as [t|];
    try (destruct (term_eqb (cts name) t)); reflexivity.
Qed.

Lemma cts_not_single : forall name, name <> [] -> cts name <> dc_language.
Proof. intros name H E. inversion E. Qed.

Lemma parse_labels_yields : forall i u k name e s, name <> [] -> at0 i u s ->
  yields (parse_labels i k name e) s True
    (fun s' _ => quiet (labels_told k name u e) u s s' /\ mute s s').
Proof.
  intros i u k name e s Hn Hs. unfold parse_labels.
  eapply yields_weaken.
  - apply (for_each_quiet (kids_named (ti name) e) _ (fun _ => True)
      (fun c t => exists l p, lang_of c = Some l /\ In p (label_preds k name)
         /\ t = (URI u, p, Literal (shown c) (language_tag l) None)) (fun _ => True) i u); [ | exact Hs ].
    intros c s0 Hc Hs0. unfold lang_of, xml_lang.
    destruct (get_attr _ (n_attrs c)) as [lg|] eqn:E.
    + eapply yields_weaken; [ | reflexivity | ].
      * apply (on_graph_quiet i u _ (fun t => exists p, In p (label_preds k name)
          /\ t = (URI u, p, Literal (shown c) (language_tag lg) None))); [ exact Hs0 | ].
        intros g. rewrite set_property_shape. cbv zeta. change (text_or_none c) with (shown c).
        set (o := Literal (shown c) (language_tag lg) None).
        unfold label_preds. destruct (title_key k) as [t|]; [ destruct (term_eqb (cts name) t) | ].
        -- eapply effect_ext; [ eapply effect_trans; [ eapply effect_trans | ]; apply effect_add | | ].
           ++ intros s' p v _. split.
              ** intros [[X|X]|X]; rewrite <- X; eexists; (split; [ | reflexivity ]); cbn; auto.
              ** intros [q [[<-|[<-|[<-|[]]]] X]]; rewrite X; auto.
           ++ intros y. cbn. tauto.
        -- eapply effect_ext; [ apply effect_add | | apply incl_refl ].
           intros s' p v _. split; [ intros X; rewrite <- X; eexists; split; [ | reflexivity ]; cbn; auto | ].
           intros [q [[<-|[]] X]]; rewrite X; reflexivity.
        -- eapply effect_ext; [ apply effect_add | | apply incl_refl ].
           intros s' p v _. split; [ intros X; rewrite <- X; eexists; split; [ | reflexivity ]; cbn; auto | ].
           intros [q [[<-|[]] X]]; rewrite X; reflexivity.
      * intros s1 [] [Q M]. split.
        -- eapply quiet_ext; [ exact Q | ]. intros t p o _. split.
           ++ intros [q [Hq X]]. exists lg, q. auto.
           ++ intros (l & q & X1 & Hq & X). injection X1 as <-. exists q. auto.
        -- intros _. apply M. intros order n g. rewrite set_property_shape. cbv zeta.
           destruct (title_key k) as [t|]; [ destruct (term_eqb (cts name) t) | ];
             rewrite !objects_add_other by (intros X; inversion X); reflexivity.
    + apply yields_ret; [ exact I | ]. split; [ | intros _; apply mute_refl ].
      eapply quiet_ext; [ apply quiet_refl | ]. intros t p o _. split; [ tauto | ].
      intros (l & q & X & _). discriminate X.
  - split; [ exact (fun _ => I) | auto ].
  - intros s' [] [Q M]. split; [ | apply M; auto ].
    eapply quiet_ext; [ exact Q | ]. intros t p o _. unfold labels_told. split.
    + intros (c & Hc & l & q & X). exists c, l, q. split; [ exact Hc | exact X ].
    + intros (c & l & q & Hc & X). exists c. split; [ exact Hc | ]. exists l, q. exact X.
Qed.

(** ** Links *)
Definition about_told (u : str) (e : XmlModel.node) (t : triple) : Prop :=
  exists c v, In c (named #"about" e) /\ urn_of c = Some v /\ t = (URI u, cts #"about", URI v).

Lemma parse_about_yields : forall i u e s, at0 i u s ->
  yields (parse_about i e) s (forall a, In a (named #"about" e) -> urn_of a <> None)
    (fun s' _ => quiet (about_told u e) u s s' /\ mute s s').
Proof.
  intros i u e s Hs. unfold parse_about.
  eapply yields_weaken.
  - apply (for_each_quiet (kids_named (ti #"about") e) _ (fun c => urn_of c <> None)
      (fun c t => exists v, urn_of c = Some v /\ t = (URI u, cts #"about", URI v)) (fun _ => True) i u);
      [ | exact Hs ].
    intros c s0 Hc Hs0. unfold urn_of. destruct (get_attr #"urn" (n_attrs c)) as [v|] eqn:E.
    + eapply yields_weaken; [ apply (on_graph_add i u (cts #"about") (URI v)); exact Hs0 | | ].
      * split; [ discriminate | auto ].
      * intros s' [] [Q M]. split.
        -- eapply quiet_ext; [ exact Q | ]. intros t p o _. split.
           ++ intros <-. exists v. auto.
           ++ intros [w [X ->]]. injection X as <-. reflexivity.
        -- intros _. apply M. discriminate.
    + unfold yields, raise. auto.
  - reflexivity.
  - intros s' [] [Q M]. split; [ | apply M; auto ].
    eapply quiet_ext; [ exact Q | ]. intros t p o _. unfold about_told. split.
    + intros (c & Hc & v & X). exists c, v. split; [ exact Hc | exact X ].
    + intros (c & v & Hc & X). exists c. split; [ exact Hc | ]. exists v. exact X.
Qed.

(** ** Structured metadata *)
Section Structured.
Variable leaf : XmlModel.node -> guess.
Variable nsmap : XmlModel.node -> list (str * str).

Definition clark (e : XmlModel.node) : Prop :=
  ~ In 123%N (n_tag e) \/ exists ns name, qualified e ns name.

Definition structured_told (u : str) (e : XmlModel.node) (t : triple) : Prop :=
  exists m ns name o, In m (structured_in e) /\ qualified m ns name
    /\ value_says leaf nsmap m (guess_text (leaf m)) o /\ t = (URI u, URI (ns ++ name), o).

Lemma mem_false : forall c s, ~ In c s -> mem c s = false.
Proof. intros c s H. apply not_true_iff_false. rewrite mem_In. exact H. Qed.

Lemma is_address_spec : forall s, is_address s = true <-> address s.
Proof.
  intros s. unfold is_address, address. rewrite !orb_true_iff, !startswith_spec. split.
  - intros [[[[t E]|[t E]]|[t E]]|[t E]]; eexists _, t; (split; [ | exact E ]); cbn; auto 6.
  - intros (p & r & H & E). destruct H as [<-|[<-|[<-|[<-|[]]]]]; eauto 8.
Qed.

Lemma is_address_false : forall s, is_address s = false <-> ~ address s.
Proof. intros s. rewrite <- is_address_spec. symmetry. apply not_true_iff_false. Qed.

Lemma qualified_unique : forall e ns name ns' name', qualified e ns name -> qualified e ns' name' ->
  ns = ns' /\ name = name'.
Proof.
  intros e ns name ns' name' (E & A & _) (E' & A' & _). rewrite E in E'. cbn [app] in E'.
  injection E' as E'. clear E. revert ns' A A' E'. induction ns as [|c ns IH]; intros [|c' ns'] A A' X; cbn in X.
  - injection X as X. auto.
  - injection X as X1 X2. exfalso. apply A'. left. auto.
  - injection X as X1 X2. exfalso. apply A. left. auto.
  - injection X as -> X. destruct (IH ns') as [-> ->]; auto.
    + intros H. apply A. right. exact H.
    + intros H. apply A'. right. exact H.
Qed.

(** What is stored for an element with a qualified name. *)
Lemma structured_value_spec : forall e ns name, qualified e ns name ->
  exists v l, structured_value leaf nsmap e = Ok (Some (URI (ns ++ name), v, l))
    /\ forall o, value_says leaf nsmap e (guess_text (leaf e)) o <-> o = as_object v l.
Proof.
  intros e ns name (E & A & B). unfold structured_value.
  assert (M : mem 123%N (n_tag e) = true). { rewrite E. reflexivity. }
  assert (P : split 125%N (n_tag e) = [123%N :: ns; name]).
  { rewrite E. cbn [app]. change (123%N :: ns ++ 125%N :: name) with ((123%N :: ns) ++ 125%N :: name).
    rewrite split_app_sep, split_no_sep; [ reflexivity | | ].
    - apply mem_false. exact B.
    - apply mem_false. intros [H|H]; [ discriminate H | tauto ]. }
  rewrite M, P. cbn [tl].
  destruct (is_address (guess_text (leaf e))) eqn:Ea.
  { apply is_address_spec in Ea. eexists _, _. split; [ reflexivity | ]. intros o. split.
    - intros H. inversion H; subst; tauto.
    - intros ->. constructor. exact Ea. }
  apply is_address_false in Ea.
  unfold xml_lang. destruct (get_attr #"{http://www.w3.org/XML/1998/namespace}lang" (n_attrs e)) as [l|] eqn:El.
  { eexists _, _. split; [ reflexivity | ]. intros o. unfold as_object, mk_literal, lang_tag.
    assert (T : (match Some l with Some [] => None | _ => Some l end) = language_tag l) by (destruct l; reflexivity).
    rewrite T. split.
    - intros H. inversion H; subst; unfold lang_of in *; try tauto; try congruence.
    - intros ->. apply vs_lang; assumption. }
  change rdf_datatype with datatype_attr.
  destruct (get_attr datatype_attr (n_attrs e)) as [d|] eqn:Ed.
  { assert (W : negb (startswith d #"http") && mem c_colon d = false <-> written_out d).
    { unfold written_out. rewrite <- startswith_spec, <- (mem_In 58%N d).
      change c_colon with 58%N.
      destruct (startswith d _), (mem 58%N d); cbn; intuition (auto; discriminate). }
    destruct (negb (startswith d #"http") && mem c_colon d) eqn:Ec.
    - assert (~ written_out d) by (rewrite <- W; discriminate).
      eexists _, _. split; [ reflexivity | ]. intros o. split.
      + intros H0. inversion H0; subst; unfold lang_of in *; try tauto; try congruence;
          match goal with X : get_attr datatype_attr _ = Some ?x |- _ =>
            assert (x = d) by congruence; subst x end; first [ reflexivity | tauto ].
      + intros ->. apply vs_prefixed; assumption.
    - assert (written_out d) by (apply W; reflexivity).
      eexists _, _. split; [ reflexivity | ]. intros o. split.
      + intros H0. inversion H0; subst; unfold lang_of in *; try tauto; try congruence;
          match goal with X : get_attr datatype_attr _ = Some ?x |- _ =>
            assert (x = d) by congruence; subst x end; first [ reflexivity | tauto ].
      + intros ->. apply vs_type; assumption. }
  pose proof (fun E => vs_guess leaf nsmap e (guess_text (leaf e)) Ea E Ed) as G.
  specialize (G El).
  assert (U : forall o o', value_says leaf nsmap e (guess_text (leaf e)) o' -> 
    o' = o -> (forall v, value_says leaf nsmap e (guess_text (leaf e)) v -> v = o') ->
    forall v, value_says leaf nsmap e (guess_text (leaf e)) v <-> v = o).
  { intros o o' Ho <- Hu v. split; [ apply Hu | intros ->; exact Ho ]. }
  assert (V : forall v, value_says leaf nsmap e (guess_text (leaf e)) v ->
    v = Literal (guess_text (leaf e)) None
      (match leaf e with
       | GInt _ => Some #"http://www.w3.org/2001/XMLSchema#integer"
       | GFloat _ => Some #"http://www.w3.org/2001/XMLSchema#float"
       | GText _ => None
       end)).
  { intros v H. inversion H; subst; unfold lang_of in *; try tauto; try congruence. }
  destruct (leaf e) as [x|z|x] eqn:Eg; eexists _, _; (split; [ reflexivity | ]);
    apply (U _ _ G eq_refl V).
Qed.

Lemma structured_value_none : forall e, ~ In 123%N (n_tag e) -> structured_value leaf nsmap e = Ok None.
Proof. intros e H. unfold structured_value. rewrite mem_false by exact H. reflexivity. Qed.

(** The languages an element names among its structured fields are these. *)
Definition calm (e : XmlModel.node) (ls : list term) : Prop :=
  forall m ns name o, In m (structured_in e) -> qualified m ns name -> URI (ns ++ name) = dc_language ->
    value_says leaf nsmap m (guess_text (leaf m)) o -> In o ls.

Lemma parse_structured_language : forall i u e ls s, (forall m, In m (structured_in e) -> clark m) -> calm e ls ->
  at0 i u s -> lang_is s u ls ->
  match parse_structured leaf nsmap i e s with (s', Ok _) => lang_is s' u ls | (_, Err _) => True end.
Proof.
  intros i u e ls s Hc Hl H1 H2. unfold parse_structured.
  match goal with |- match ?m with _ => _ end => assert (Y : match m with (s', Ok _) => at0 i u s' /\ lang_is s' u ls | (_, Err _) => True end) end.
  { apply (for_each_keeps (fun s => at0 i u s /\ lang_is s u ls)); [ | split; assumption ]. clear s H1 H2. intros m s Hm [H1 H2].
    destruct (Hc m Hm) as [N|(ns & name & Q)].
    - rewrite structured_value_none by exact N. split; assumption.
    - destruct (structured_value_spec m ns name Q) as (v & l & E & V). rewrite E.
      pose proof (add_language i u (URI (ns ++ name)) (as_object v l) ls s H1 H2) as Z.
      unfold on_graph in *. split; [ exact H1 | ]. apply Z. intros Ep.
      eapply Hl; [ exact Hm | exact Q | exact Ep | apply V; reflexivity ]. }
  match goal with |- match ?m with _ => _ end => destruct m as [s' [b|ex]] end; [ apply Y | exact I ].
Qed.

Lemma parse_structured_yields : forall i u e s,
  (forall m, In m (structured_in e) -> clark m) -> at0 i u s ->
  yields (parse_structured leaf nsmap i e) s True
    (fun s' _ => quiet (structured_told u e) u s s'
       /\ (forall ls, calm e ls -> lang_is s u ls -> lang_is s' u ls)).
Proof.
  intros i u e s Hc Hs.
  assert (G : yields (parse_structured leaf nsmap i e) s True (fun s' _ => quiet (structured_told u e) u s s')).
  2:{ unfold yields in *. pose proof (parse_structured_language i u e) as K.
      specialize (fun ls A B => K ls s Hc A Hs B).
      destruct (parse_structured leaf nsmap i e s) as [s' [b|ex]]; [ | exact G ].
      destruct G as [_ G]. split; [ exact I | ]. split; [ exact G | exact K ]. }
  unfold parse_structured.
  eapply yields_weaken.
  - apply (for_each_quiet (structured e) _ (fun _ => True)
      (fun m t => exists ns name o, qualified m ns name
         /\ value_says leaf nsmap m (guess_text (leaf m)) o /\ t = (URI u, URI (ns ++ name), o))
      (fun m => forall ns name, qualified m ns name -> URI (ns ++ name) <> dc_language) i u); [ | exact Hs ].
    intros m s0 Hm Hs0. destruct (Hc m Hm) as [N|(ns & name & Q)].
    + rewrite structured_value_none by exact N. apply yields_ret; [ exact I | ].
      split; [ | intros _; apply mute_refl ].
      eapply quiet_ext; [ apply quiet_refl | ]. intros t p o _. split; [ tauto | ].
      intros (ns & name & v & (E & _) & _). exfalso. apply N. rewrite E. left. reflexivity.
    + destruct (structured_value_spec m ns name Q) as (v & l & E & V). rewrite E.
      eapply yields_weaken; [ apply (on_graph_add i u (URI (ns ++ name)) (as_object v l)); exact Hs0 | reflexivity | ].
      intros s' [] [Hq M]. split.
      * eapply quiet_ext; [ exact Hq | ]. intros t p o _. split.
        -- intros <-. exists ns, name, (as_object v l). split; [ exact Q | ]. split; [ apply V; reflexivity | reflexivity ].
        -- intros (ns' & name' & o' & Q' & V' & ->).
           destruct (qualified_unique _ _ _ _ _ Q Q') as [-> ->]. apply V in V'. rewrite V'. reflexivity.
      * intros C. apply M. apply C. exact Q.
  - split; auto.
  - intros s' [] [Q M].
    eapply quiet_ext; [ exact Q | ]. intros t p o _. unfold structured_told. split.
    + intros (m & Hm & ns & name & v & X). exists m, ns, name, v. split; [ exact Hm | exact X ].
    + intros (m & ns & name & v & Hm & X). exists m. split; [ exact Hm | ]. exists ns, name, v. exact X.
Qed.
End Structured.

(** ** New objects *)
Definition add_first (u : str) (n : nat) (d : list (str * nat)) : list (str * nat) :=
  match dget u d with Some _ => d | None => d ++ [(u, n)] end.

Definition hook (p : option nat) (u : str) (n : nat) (os : list coll) : list coll :=
  match p with
  | None => os
  | Some q => upd os q (fun x => put_children (add_first u n (c_children x)) x)
  end.

Lemma upd_app_last : forall {A} (l : list A) x f, upd (l ++ [x]) (length l) f = l ++ [f x].
Proof. intros A l x f. induction l as [|y l IH]; cbn; [ reflexivity | rewrite IH; reflexivity ]. Qed.

Lemma upd_app_before : forall {A} (l l' : list A) q f, q < length l -> upd (l ++ l') q f = upd l q f ++ l'.
Proof.
  intros A l. induction l as [|y l IH]; intros l' [|q] f H; cbn in *; try lia; [ reflexivity | ].
  rewrite IH by lia. reflexivity.
Qed.

Lemma upd_same : forall {A} (l : list A) q f d, q < length l -> f (nth q l d) = nth q l d -> upd l q f = l.
Proof.
  intros A l. induction l as [|y l IH]; intros [|q] f d H E; cbn in *; try lia.
  - rewrite E. reflexivity.
  - rewrite (IH q f d) by (assumption || lia). reflexivity.
Qed.

Lemma dset_absent : forall {A} k (v : A) d, dget k d = None -> dset k v d = d ++ [(k, v)].
Proof.
  intros A k v d. induction d as [|[k' v'] d IH]; cbn; [ reflexivity | ].
  destruct (str_eqb k' k) eqn:E; [ discriminate | ]. intros H. rewrite IH by exact H. reflexivity.
Qed.

Lemma upd_ext : forall {A} (l : list A) q f g d, f (nth q l d) = g (nth q l d) -> upd l q f = upd l q g.
Proof.
  intros A l. induction l as [|y l IH]; intros [|q] f g d E; cbn in *; try reflexivity.
  - rewrite E. reflexivity.
  - rewrite (IH q f g d E). reflexivity.
Qed.

Lemma put_children_same : forall x, put_children (c_children x) x = x.
Proof. intros []. reflexivity. Qed.

Lemma nth_app_last : forall {A} (l : list A) x d, nth (length l) (l ++ [x]) d = x.
Proof. intros. rewrite app_nth2, Nat.sub_diag by lia. reflexivity. Qed.

Lemma length_hook : forall p u n os, length (hook p u n os) = length os.
Proof. intros [q|] u n os; cbn; [ apply length_upd | reflexivity ]. Qed.

(** Objects after [set_parent] on the last one. *)
Lemma set_parent_last : forall os x gs q, q < length os ->
  let st := MkState (os ++ [x]) gs in
  let x' := put_parent (Some q) x in
  set_parent st (length os) q
  = MkState (hook (Some q) (c_id x) (length os) os ++ [x'])
      (upd gs (c_graph x) (g_add (CollModel.node x, cap_parent, CollModel.node (nth q os nowhere)))).
Proof.
  intros os x gs q Hq st x'. unfold set_parent.
  assert (E1 : with_obj st (length os) (put_parent (Some q)) = MkState (os ++ [x']) gs).
  { unfold with_obj, st. cbn [objs graphs]. rewrite upd_app_last. reflexivity. }
  rewrite E1. clear E1 st.
  assert (Ec : obj (MkState (os ++ [x']) gs) (length os) = x') by apply nth_app_last.
  assert (Eq : obj (MkState (os ++ [x']) gs) q = nth q os nowhere).
  { unfold obj. cbn [objs]. apply app_nth1. exact Hq. }
  rewrite Ec, Eq.
  change (c_graph x') with (c_graph x). change (CollModel.node x') with (CollModel.node x).
  unfold with_graph. cbn [objs graphs].
  set (gs' := upd gs _ _). unfold add_member.
  change (obj (MkState (os ++ [x']) gs') (length os)) with (nth (length os) (os ++ [x']) nowhere).
  rewrite nth_app_last.
  change (obj (MkState (os ++ [x']) gs') q) with (nth q (os ++ [x']) nowhere).
  rewrite app_nth1 by exact Hq.
  change (c_id x') with (c_id x).
  destruct (dget (c_id x) (c_children (nth q os nowhere))) as [j|] eqn:D.
  - f_equal. f_equal. cbn [hook]. symmetry. apply (upd_same _ _ _ nowhere Hq).
    unfold add_first. rewrite D. apply put_children_same.
  - unfold with_obj. cbn [objs graphs]. f_equal. rewrite upd_app_before by exact Hq.
    f_equal. cbn [hook]. apply (upd_ext _ _ _ _ nowhere).
    unfold add_first. rewrite D, dset_absent by exact D. reflexivity.
Qed.

Lemma urn_text : forall u t, (x <- urn_parse u ;; to_str x) = Ok t <-> reads_urn u t.
Proof.
  intros u t. unfold reads_urn. destruct (urn_parse u) as [x|e]; cbn [bind].
  - split; [ intros H; exists x; auto | intros (y & E & H); injection E as <-; exact H ].
  - split; [ discriminate | intros (y & E & _); discriminate ].
Qed.

Definition parent_told (u : str) (up : option str) (t : triple) : Prop :=
  match up with
  | Some v => t = (URI u, URI #"http://purl.org/capitains/ns/1.0#parent", URI v)
  | None => False
  end.

(** The identifier of the parent. *)
Definition id_up (s : store) (p : option nat) : option str :=
  option_map (fun q => c_id (obj (s_state s) q)) p.

Definition inherited (order : list term -> list term) (s : store) (q : nat) : str :=
  match hd_error (objects0 order (URI (c_id (obj (s_state s) q))) dc_language (s_state s)) with
  | Some t => text_of t
  | None => #"None"
  end.

Lemma effect_types : forall u k g,
  effect (fun _ => False) [u] g (g_set (URI u, dts_model, model_uri k) (g_set (URI u, rdf_type, type_uri k) g)).
Proof.
  intros u k g. eapply effect_ext.
  - eapply effect_trans; apply effect_set; unfold single_valued; cbn; auto.
  - intros; tauto.
  - intros x. cbn. tauto.
Qed.

Lemma types_mute : forall order n u k g,
  g_objects order n dc_language (g_set (URI u, dts_model, model_uri k) (g_set (URI u, rdf_type, type_uri k) g))
  = g_objects order n dc_language g.
Proof. intros. rewrite !objects_set_other by (intros X; inversion X). reflexivity. Qed.

Section Make.
Variable order : list term -> list term.
Hypothesis Ho : arranges order.

Definition parent_fits (k : kind) (p : option nat) (s : store) : Prop :=
  match p with
  | None => True
  | Some q => q < length (objs (s_state s)) /\
      match k with
      | KText _ => carries_lang (c_kind (obj (s_state s) q)) = true /\ c_graph (obj (s_state s) q) = 0
      | _ => True
      end
  end.

Definition made (k : kind) (e : XmlModel.node) (p : option nat) (s s' : store) (i : nat) : Prop :=
  i = length (objs (s_state s)) /\
  exists u t, urn_of e = Some u /\ reads_urn u t /\
    objs (s_state s') = hook p u i (objs (s_state s)) ++ [MkColl k u t p [] 0] /\
    s_cites s' = s_cites s /\
    grows (parent_told u (id_up s p)) [u] (graphs (s_state s)) (graphs (s_state s')) /\
    match k, p with
    | KText _, Some q => graphs (s_state s) <> [] ->
        forall o, arranges o -> objects0 o (URI u) dc_language (s_state s') = [Literal (inherited order s q) None None]
    | _, _ => mute s s'
    end.

Lemma hd_upd : forall (gs : list graph) f, gs <> [] -> nth 0 (upd gs 0 f) [] = f (nth 0 gs []).
Proof. intros [|g r] f H; [ congruence | reflexivity ]. Qed.

Lemma new_object_eq : forall st k id urn,
  new_object st k id urn
  = (MkState (objs st ++ [MkColl k id urn None [] 0])
       (upd (graphs st) 0 (fun gr => g_set (URI id, dts_model, model_uri k) (g_set (URI id, rdf_type, type_uri k) gr))),
     length (objs st)).
Proof. reflexivity. Qed.

Lemma upd_upd : forall {A} (l : list A) i f g, upd (upd l i f) i g = upd l i (fun x => g (f x)).
Proof. intros A l. induction l as [|y l IH]; intros [|i] f g; cbn; try reflexivity. rewrite IH. reflexivity. Qed.

Lemma parent_effect : forall u v g,
  effect (parent_told u (Some v)) [u] g (g_add (URI u, cap_parent, URI v) g).
Proof.
  intros. eapply effect_ext; [ apply effect_add | | apply incl_refl ].
  intros s p o _. cbn. split; [ intros <-; reflexivity | intros ->; reflexivity ].
Qed.

Lemma make_yields : forall k e p s, parent_fits k p s ->
  yields (make order k e p) s (good_urn e) (fun s' i => made k e p s s' i).
Proof using Ho.
  intros k e p s Hp. unfold yields, make, good_urn, made. unfold urn_of.
  destruct (get_attr #"urn" (n_attrs e)) as [u|]; [ | intros (u & t & E & _); discriminate ].
  unfold new_cts.
  destruct (x <- urn_parse u ;; to_str x) as [t|x] eqn:Et; rewrite new_object_eq.
  2:{ cbn. intros (u' & t & E & H). injection E as <-. apply urn_text in H. congruence. }
  apply urn_text in Et.
  set (F := fun gr => g_set (URI u, dts_model, model_uri k) (g_set (URI u, rdf_type, type_uri k) gr)).
  set (os := objs (s_state s)). set (gs := graphs (s_state s)).
  assert (EF : forall g, effect (fun _ => False) [u] g (F g)) by (intros; apply effect_types).
  assert (MF : forall o n g, g_objects o n dc_language (F g) = g_objects o n dc_language g)
    by (intros; apply types_mute).
  clearbody F.
  assert (E2 : match k, (None : option str) with
               | KText _, Some l => set_lang (MkState (os ++ [MkColl k u t None [] 0]) (upd gs 0 F)) (length os) l
               | _, _ => MkState (os ++ [MkColl k u t None [] 0]) (upd gs 0 F)
               end = MkState (os ++ [MkColl k u t None [] 0]) (upd gs 0 F)) by (destruct k; reflexivity).
  cbv zeta. rewrite E2. clear E2.
  destruct p as [q|].
  - destruct Hp as [Hq Hk]. fold os in Hq.
    rewrite (set_parent_last os (MkColl k u t None [] 0) (upd gs 0 F) q Hq).
    cbn [c_id c_graph]. change (put_parent (Some q) (MkColl k u t None [] 0)) with (MkColl k u t (Some q) [] 0).
    rewrite upd_upd.
    set (v := c_id (nth q os nowhere)).
    change (CollModel.node (nth q os nowhere)) with (URI v).
    change (CollModel.node (MkColl k u t None [] 0)) with (URI u).
    set (os' := hook (Some q) u (length os) os ++ [MkColl k u t (Some q) [] 0]).
    set (gs' := upd gs 0 (fun x => g_add (URI u, cap_parent, URI v) (F x))).
    assert (G1 : grows (parent_told u (Some v)) [u] gs gs').
    { apply grows_upd. intros g. eapply effect_ext.
      - eapply effect_trans; [ apply EF | apply parent_effect ].
      - intros; cbn; tauto.
      - intros y. cbn. tauto. }
    assert (M1 : forall o n, g_objects o n dc_language (nth 0 gs' []) = g_objects o n dc_language (nth 0 gs [])).
    { intros o n. unfold gs'. destruct gs as [|g r]; [ reflexivity | ]. cbn [upd nth].
      rewrite objects_add_other by (intros X; inversion X). apply MF. }
    destruct k as [|sub| | | |].
    2:{ (* texts *)
      assert (Oq : obj (MkState os' gs') q
        = put_children (add_first u (length os) (c_children (nth q os nowhere))) (nth q os nowhere)).
      { unfold obj. cbn [objs]. unfold os'. rewrite app_nth1 by (rewrite length_hook; exact Hq).
        cbn [hook]. rewrite nth_upd, Nat.eqb_refl. apply Nat.ltb_lt in Hq. rewrite Hq. reflexivity. }
      assert (GL : get_lang order (MkState os' gs') q = Ok (inherited order s q)).
      { destruct Hk as [Hk1 Hk2]. unfold get_lang. rewrite Oq. cbn [c_kind put_children c_graph].
        change (c_kind (nth q os nowhere)) with (c_kind (obj (s_state s) q)).
        change (c_graph (nth q os nowhere)) with (c_graph (obj (s_state s) q)). rewrite Hk2.
        cbn [graphs]. change (CollModel.node (put_children _ _)) with (URI v).
        rewrite M1. unfold inherited, objects0. fold v. unfold gs.
        destruct (c_kind (obj (s_state s) q)); try discriminate Hk1; reflexivity. }
      rewrite GL. cbn beta iota.
      split; [ exists u, t; auto | ]. split; [ reflexivity | ]. exists u, t.
      assert (On : obj (MkState os' gs') (length os) = MkColl (KText sub) u t (Some q) [] 0).
      { unfold obj. cbn [objs]. unfold os'. rewrite <- (length_hook (Some q) u (length os) os) at 1.
        apply nth_app_last. }
      unfold set_lang. rewrite On. cbn [c_graph]. change (CollModel.node (MkColl _ _ _ _ _ _)) with (URI u).
      cbn [s_state s_cites objs graphs with_graph].
      repeat (split; [ first [ reflexivity | assumption ] | ]). split.
      - eapply grows_ext; [ eapply grows_trans; [ exact G1 | ] | | ].
        + apply grows_upd. intros g. apply effect_set. unfold single_valued. cbn. auto.
        + intros; cbn; tauto.
        + intros y. cbn. tauto.
      - intros Hg o Hoo. unfold objects0. cbn [graphs with_graph].
        rewrite hd_upd.
        + apply objects_set. exact Hoo.
        + intros X. apply Hg. unfold gs' in X. destruct gs; [ reflexivity | discriminate X ]. }
    all: split; [ exists u, t; auto | ]; split; [ reflexivity | ]; exists u, t;
      cbn [s_state s_cites objs graphs];
      repeat (split; [ first [ reflexivity | assumption ] | ]);
      intros o n; unfold objects0; cbn [s_state graphs]; apply M1.
  - split; [ exists u, t; auto | ]. split; [ reflexivity | ]. exists u, t.
    cbn [s_state s_cites objs graphs hook].
    repeat (split; [ first [ reflexivity | assumption ] | ]). split.
    + cbn [id_up option_map]. eapply grows_ext; [ apply (grows_upd (fun _ => False) [u]); exact EF | | apply incl_refl ].
      intros; cbn; tauto.
    + assert (mute s (MkStore (MkState (os ++ [MkColl k u t None [] 0]) (upd gs 0 F)) (s_cites s) (s_paths s))).
      { intros o n. unfold objects0. cbn [s_state graphs]. unfold gs.
        destruct (graphs (s_state s)) as [|g r]; [ reflexivity | ]. cbn [upd nth]. apply MF. }
      destruct k; exact H.
Qed.
End Make.
