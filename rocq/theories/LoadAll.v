(** Loading folders. *)

From Coq Require Import List NArith ZArith Arith Bool Lia.
From Verif Require Import PyStr PyStrFacts UrnModel UrnSpec UrnProofs XmlModel MetaModel MetaSpec CollModel CollSpec CollProofs CollMerge
  InvModel InvSpec InvProofs InvTrace InvTree InvDone Props_Inv LocalModel LocalSpec LocalProofs LoadModel LoadSpec LoadDict LoadTree LoadEnter
  LoadFold LoadBridge LoadCite LoadRead.
Import ListNotations.

(** ** Firsts *)
Lemma firsts_same : forall l : list (str * nat), first_of_each l = firsts_of l.
Proof. induction l as [|[k v] l IH]; [reflexivity|]. cbn [first_of_each firsts_of]. rewrite IH. reflexivity. Qed.

Lemma In_firsts : forall {A} (l : list (str * A)) e, In e (firsts_of l) -> In e l.
Proof.
  intros A l e. induction l as [|[k v] l IH]; [intros []|]. cbn [firsts_of]. intros [<-|H]; [left; reflexivity|].
  apply filter_In in H. right. apply IH, H.
Qed.

Lemma NoDup_firsts : forall {A} (l : list (str * A)), NoDup (keys (firsts_of l)).
Proof.
  intros A l. induction l as [|[k v] l IH]; [constructor|]. cbn [firsts_of]. change (NoDup (k :: keys (filter (fun e => negb (str_eqb (fst e) k)) (firsts_of l)))).
  constructor.
  - intros H. apply in_map_iff in H. destruct H as ([k' v'] & E & H). cbn in E. subst k'. apply filter_In in H. destruct H as [_ H].
    cbn [fst] in H. rewrite str_eqb_refl in H. discriminate.
  - clear -IH. induction (firsts_of l) as [|[k' v'] m IHm]; [constructor|]. 
    change (keys ((k', v') :: m)) with (k' :: keys m) in IH. apply NoDup_cons_iff in IH. destruct IH as [NI N]. cbn [filter fst].
    destruct (negb (str_eqb k' k)); [|apply IHm; exact N].
    change (NoDup (k' :: keys (filter (fun e => negb (str_eqb (fst e) k)) m))). constructor; [|apply IHm; exact N].
    intros H. apply NI. apply in_map_iff in H. destruct H as (e & E & H). apply filter_In in H. apply in_map_iff. exists e. split; [exact E|apply H].
Qed.

Lemma drel_filter : forall {A B} (R : A -> B -> Prop) (p : str -> bool) l l', drel R l l' ->
  drel R (filter (fun e => p (fst e)) l) (filter (fun e => p (fst e)) l').
Proof.
  intros A B R p l l' H. induction H as [|[k a] [k' b] l l' [E F] H IH]; [constructor|]. cbn in E. subst k'. cbn [filter fst].
  destruct (p k); [constructor; [split; [reflexivity|exact F]|exact IH]|exact IH].
Qed.

Lemma drel_firsts : forall {A B} (R : A -> B -> Prop) l l', drel R l l' -> drel R (firsts_of l) (firsts_of l').
Proof.
  intros A B R l l' H. induction H as [|[k a] [k' b] l l' [E F] H IH]; [constructor|]. cbn in E. subst k'. cbn [firsts_of].
  constructor; [split; [reflexivity|exact F]|]. apply (drel_filter R (fun x => negb (str_eqb x k))). exact IH.
Qed.

Lemma In_pair : forall {X Y} (P : X -> Y -> Prop) (g : X -> str) (h : Y -> nat) l l' k i, Forall2 P l l' ->
  In (k, i) (combine (map g l) (map h l')) -> exists x y, In (x, y) (combine l l') /\ P x y /\ k = g x /\ i = h y.
Proof.
  intros X Y P g h l l' k i H. induction H as [|x y l l' Hxy H IH]; [intros []|]. cbn [map combine].
  intros [E|I]; [injection E as <- <-; exists x, y; split; [left; reflexivity|auto]|].
  destruct (IH I) as (x' & y' & A & B). exists x', y'. split; [right; exact A|exact B].
Qed.

Lemma F2_combine : forall {X Y} (P Q : X -> Y -> Prop) l l', Forall2 P l l' ->
  (forall x y, In (x, y) (combine l l') -> P x y -> Q x y) -> Forall2 Q l l'.
Proof.
  intros X Y P Q l l' H. induction H as [|x y l l' Hxy H IH]; intros F; constructor.
  - apply F; [left; reflexivity|exact Hxy].
  - apply IH. intros a b I. apply F. right. exact I.
Qed.

Lemma drel_pairs : forall {X Y B} (R : nat -> B -> Prop) (g : X -> str) (h : Y -> nat) (f : X -> str * B) l l',
  Forall2 (fun x y => g x = fst (f x) /\ R (h y) (snd (f x))) l l' -> drel R (combine (map g l) (map h l')) (map f l).
Proof.
  intros X Y B R g h f l l' H. induction H as [|x y l l' Hxy H IH]; cbn [map combine]; constructor; [exact Hxy|exact IH].
Qed.

Lemma combine_once : forall {A B C} (f : B -> list C) (l : list A) (m : list B) a x b y z, NoDup (flat_map f m) ->
  In (a, x) (combine l m) -> In (b, y) (combine l m) -> In z (f x) -> In z (f y) -> a = b /\ x = y.
Proof.
  intros A B C f l. induction l as [|a0 l IH]; intros [|x0 m] a x b y z N I J X Y; try contradiction.
  cbn [flat_map] in N. cbn [combine] in I, J.
  assert (D : forall c v, In (c, v) (combine l m) -> In z (f v) -> In z (f x0) -> False).
  { intros c v Hc Hz Hz0. clear -N Hc Hz Hz0. apply in_combine_r in Hc.
    induction (f x0) as [|w ws IHw]; [destruct Hz0|]. cbn [app] in N. apply NoDup_cons_iff in N. destruct N as [N1 N2].
    destruct Hz0 as [->|Hz0]; [|auto]. apply N1. apply in_or_app. right. apply in_flat_map. eauto. }
  destruct I as [I|I], J as [J|J].
  - injection I as -> ->. injection J as -> ->. auto.
  - injection I as <- <-. exfalso. eapply D; eassumption.
  - injection J as <- <-. exfalso. eapply D; eassumption.
  - eapply IH; try eassumption. eapply NoDup_app_r. exact N.
Qed.

(** ** URNs as written *)
Lemma reads_written : forall ns cts p t, plain_ns ns -> plain_ns cts -> plain_part p ->
  reads_urn (write_urn ns cts p None) t -> t = write_urn ns cts p None.
Proof.
  intros ns cts p t P1 P2 P3 (u & U & T). rewrite (urn_parse_str _ _ U), not_hash_split in T.
  - congruence.
  - apply write_urn_no_hash; try assumption. exact I.
Qed.

Lemma good_written : forall ns cts p e, plain_ns ns -> plain_ns cts -> plain_part p -> urn_of e = Some (write_urn ns cts p None) -> good_urn e.
Proof.
  intros ns cts p e P1 P2 P3 E. exists (write_urn ns cts p None), (write_urn ns cts p None). split; [exact E|].
  exists (parsed_urn ns cts p None None). 
  assert (U : urn_parse (write_urn ns cts p None) = Ok (parsed_urn ns cts p None None)) by (apply urn_parse_written; auto).
  split; [exact U|]. rewrite (urn_parse_str _ _ U), not_hash_split; [reflexivity|]. apply write_urn_no_hash; try assumption. exact I.
Qed.

Lemma named_good : forall ns cts tg w, plain_ns ns -> plain_ns cts -> named_work ns cts tg w -> good_work w.
Proof.
  intros ns cts tg w P1 P2 (wk & P & U & T). split; [exact (good_written ns cts _ w P1 P2 P U)|].
  intros k e H. destruct (T k e H) as ((vs & V & E) & A). split; [exact (good_written ns cts _ e P1 P2 V E)|exact A].
Qed.

(** ** Old objects *)
Lemma shelved_grown : forall st st' root, shelved st root -> length (objs st) <= length (objs st') ->
  (forall j, j < length (objs st) -> obj st' j = obj st j) -> shelved st' root /\ view st' root = view st root.
Proof.
  intros st st' root [S1 S2 S3 S4 S5] L H.
  assert (ER : obj st' root = obj st root) by (apply H; exact S1).
  assert (EI : forall n i, In (n, i) (kids st root) -> obj st' i = obj st i) by (intros n i X; apply H; apply (S3 n i X)).
  assert (EG : forall n i k g, In (n, i) (kids st root) -> In (k, g) (kids st i) -> good st' (Some i) k g /\ view_group st' g = view_group st g).
  { intros n i k g X Y. pose proof (S4 _ _ _ _ X Y) as G. apply good_frame; [exact G|exact L|].
    intros x Z. apply like_eq. apply H. eapply inside_in; eassumption. }
  assert (V : view st' root = view st root).
  { unfold view. rewrite ER. apply map_ext_in. intros [n i] X. cbn [fst snd]. f_equal. unfold view_shelf. rewrite (EI _ _ X).
    apply map_ext_in. intros [k g] Y. cbn [fst snd]. f_equal. eapply EG; eassumption. }
  split; [|exact V]. constructor.
  - lia.
  - rewrite ER. exact S2.
  - intros n i X. rewrite ER in X. rewrite (EI _ _ X). destruct (S3 n i X) as (A & B). split; [lia|exact B].
  - intros n i k g X Y. rewrite ER in X. rewrite (EI _ _ X) in Y. eapply EG; eassumption.
  - rewrite V, ER. exact S5.
Qed.

(** ** One group, once everything is read *)
Lemma own_urn_is : forall e u, urn_of e = Some u -> own_urn e = u.
Proof. intros e u E. unfold own_urn. rewrite E. reflexivity. Qed.

Lemma works_in_nodes : forall f, map snd (works_in f) = nested f ++ map snd (snd f).
Proof. intros f. unfold works_in. rewrite map_app, !map_map. cbn [snd]. rewrite map_id. reflexivity. Qed.

Lemma texts_kinds : forall w k e, In (k, e) (texts_in w) -> k <> Unknown.
Proof.
  intros w k e H. unfold texts_in in H.
  apply in_app_iff in H. destruct H as [H|H]; [|apply in_app_iff in H; destruct H as [H|H]];
    apply in_map_iff in H; destruct H as (c & E & _); injection E as <- _; discriminate.
Qed.

Section Group.
Variable texts : disk.
Variables (s : store) (f : described_group) (o : nat) (rs : list (nat * list nat)).
Hypothesis NF : named_file f.
Let st := s_state s.
Let ws := works_in f.
Hypothesis M : made_for s KTextgroup (fst f) None o.
Hypothesis C : kids st o = first_of_each (combine (urn_list (map snd ws)) (map fst rs)).
Hypothesis W : Forall2 (fun fw r => made_for s KWork (snd fw) (Some o) (fst r) /\
  members_are s (fst r) (map snd (texts_in (snd fw))) (snd r) /\
  Forall2 (fun ke t => made_for s (KText (fst ke)) (snd ke) (Some (fst r)) t /\ kids st t = [] /\
    (exists c, citation_of s t = Some c /\ citation_from texts (snd ke) (fst fw) c) /\
    kept_at s t (MkSource (fst ke) (snd ke) (fst fw))) (texts_in (snd fw)) (snd r)) ws rs.

Lemma urns_works : urn_list (map snd ws) = map (fun fw => own_urn (snd fw)) ws.
Proof using Type. unfold urn_list. rewrite map_map. reflexivity. Qed.

Lemma group_key : own_urn (fst f) = c_id (obj st o).
Proof using M. apply own_urn_is. apply M. Qed.

Lemma group_rel : rel_group (leaf_ok texts s) (view_group st o) (snd (group_says f)).
Proof using C W.
  unfold view_group. rewrite C, firsts_same. cbn [group_says snd].
  enough (X : drel (fun i l => rel_work (leaf_ok texts s) (kids st i) l)
    (combine (urn_list (map snd ws)) (map fst rs)) (map (fun fw => work_says (fst fw) (snd fw)) ws)).
  { apply drel_firsts in X. unfold rel_group, drel. apply Forall2_map_l. cbn [fst snd]. exact X. }
  rewrite urns_works. apply (drel_pairs (fun i l => rel_work (leaf_ok texts s) (kids st i) l)
    (fun fw => own_urn (snd fw)) fst (fun fw => work_says (fst fw) (snd fw))).
  eapply F2_with; [exact W|]. cbn beta. intros [d w] [i ts] _ _ (_ & (_ & K) & T). cbn [fst snd] in *.
  split; [reflexivity|]. unfold work_says. cbn [snd]. change (obj (s_state s) i) with (obj st i) in K. rewrite K, firsts_same.
  unfold rel_work. apply drel_firsts. rewrite map_map. rewrite <- (map_id ts).
  apply (drel_pairs (leaf_ok texts s) (fun ke => own_urn (snd ke)) (fun t => t)
    (fun ke => (own_urn (snd ke), MkSource (fst ke) (snd ke) d))).
  eapply F2_with; [exact T|]. cbn beta. intros [k e] t _ _ (TM & _ & (c & Cc & F) & KP). cbn [fst snd] in *. split; [reflexivity|].
  destruct TM as (_ & T2 & T3 & _). split; [exact T2|]. split; [exact T3|]. split; [exists c; auto|exact KP].
Qed.

Lemma group_fits : fits (c_id (obj st o)) (view_group st o).
Proof using NF M C W.
  destruct NF as (_ & _ & ns & cts & tg & P1 & P2 & P3 & U & H).
  exists ns, cts, tg. split; [exact P1|]. split; [exact P2|]. split; [exact P3|]. split; [rewrite <- group_key; apply own_urn_is; exact U|].
  apply (rel_names_fit _ _ _ _ _ _ group_rel). cbn [group_says snd]. split; [apply NoDup_firsts|].
  intros k ts I. apply In_firsts in I. apply in_map_iff in I. destruct I as ([d w] & E & I). cbn [fst snd] in E.
  destruct (H _ I) as (wk & PW & UW & T). cbn [snd] in *. unfold work_says in E. injection E as <- <-.
  exists wk. split; [exact PW|]. split; [apply own_urn_is; exact UW|]. split; [apply NoDup_firsts|].
  intros k2 t J. apply In_firsts in J. apply in_map_iff in J. destruct J as ([kd e] & E & J). cbn [fst snd] in E. injection E as <- _.
  destruct (T kd e J) as ((vs & V & UE) & _). exists vs. split; [exact V|]. apply own_urn_is. exact UE.
Qed.

Lemma at_work : forall k w, In (k, w) (kids st o) -> exists fw r, In fw ws /\ k = own_urn (snd fw) /\ w = fst r /\
  made_for s KWork (snd fw) (Some o) (fst r) /\ members_are s (fst r) (map snd (texts_in (snd fw))) (snd r) /\
  Forall2 (fun ke t => made_for s (KText (fst ke)) (snd ke) (Some (fst r)) t /\ kids st t = [] /\
    (exists c, citation_of s t = Some c /\ citation_from texts (snd ke) (fst fw) c) /\
    kept_at s t (MkSource (fst ke) (snd ke) (fst fw))) (texts_in (snd fw)) (snd r).
Proof using C W.
  intros k w I. rewrite C, firsts_same in I. apply In_firsts in I. rewrite urns_works in I.
  destruct (In_pair _ _ _ _ _ _ _ W I) as (fw & r & J & (A & B & D) & E1 & E2). apply in_combine_l in J. exists fw, r. auto 10.
Qed.

Lemma at_text : forall k w k2 t, In (k, w) (kids st o) -> In (k2, t) (kids st w) -> exists fw kd e, In fw ws /\ In (kd, e) (texts_in (snd fw)) /\
  k2 = own_urn e /\ made_for s (KText kd) e (Some w) t /\ kids st t = [].
Proof using C W.
  intros k w k2 t I J. destruct (at_work k w I) as (fw & r & I1 & _ & -> & _ & (_ & K) & T).
  change (obj (s_state s) (fst r)) with (obj st (fst r)) in K. rewrite K, firsts_same in J. apply In_firsts in J.
  rewrite map_map in J. rewrite <- (map_id (snd r)) in J.
  destruct (In_pair _ (fun ke => match urn_of (snd ke) with Some u => u | None => [] end) (fun t => t) _ _ _ _ T J) as ([kd e] & t' & J1 & (A & B & _) & E1 & ->).
  apply in_combine_l in J1. exists fw, kd, e. auto.
Qed.

Lemma group_good : good st None (c_id (obj st o)) o.
Proof using NF M C W.
  destruct NF as (_ & _ & ns & cts & tg & P1 & P2 & P3 & U & H).
  assert (RU : forall k e p i pt, made_for s k e p i -> urn_of e = Some (write_urn ns cts pt None) -> plain_part pt ->
    c_urn (obj st i) = c_id (obj st i) /\ c_id (obj st i) = own_urn e).
  { intros k e p i pt (_ & _ & A & B & _) E PP. fold st in A, B. assert (X : c_id (obj st i) = write_urn ns cts pt None) by congruence.
    split; [rewrite X in *; eapply reads_written; eassumption|]. symmetry. apply own_urn_is. exact A. }
  pose proof M as (M1 & M2 & M3 & M4 & M5 & M6). fold st in M1, M2, M3, M4, M5.
  assert (ND : NoDup (keys (kids st o))) by (rewrite C, firsts_same; apply NoDup_firsts).
  constructor; [constructor|..].
  - exact M1.
  - exact M2.
  - exact ND.
  - intros k w I. destruct (at_work k w I) as (fw & r & I1 & -> & -> & A & (_ & K) & T). destruct (H _ I1) as (wk & PW & UW & _).
    destruct (RU _ _ _ _ _ A UW PW) as [_ X]. destruct A as (A1 & A2 & A3 & A4 & A5 & A6). fold st in A1, A2, A3, A5, K.
    split; [exact A1|]. split; [exact A2|]. split; [exact X|]. split; [exact A5|]. rewrite K, firsts_same. apply NoDup_firsts.
  - intros k w k2 t I J. destruct (at_text _ _ _ _ I J) as (fw & kd & e & I1 & I2 & -> & A & _).
    destruct (H _ I1) as (wk & PW & UW & T). destruct (T _ _ I2) as ((vs & V & UE) & _).
    destruct (RU _ _ _ _ _ A UE V) as [_ X]. destruct A as (A1 & A2 & A3 & A4 & A5 & A6).
    split; [exact A1|]. split; [exists kd; exact A2|]. split; [exact X|exact A5].
  - reflexivity.
  - destruct (RU _ _ _ _ _ M U P3) as [X _]. exact X.
  - exact M5.
  - intros k w I. destruct (at_work k w I) as (fw & r & I1 & -> & -> & A & _). destruct (H _ I1) as (wk & PW & UW & _).
    destruct (RU _ _ _ _ _ A UW PW) as [X Y]. congruence.
  - intros k w k2 t I J. destruct (at_text _ _ _ _ I J) as (fw & kd & e & I1 & I2 & -> & A & B).
    destruct (H _ I1) as (wk & PW & UW & T). destruct (T _ _ I2) as ((vs & V & UE) & _).
    destruct (RU _ _ _ _ _ A UE V) as [X Y]. split; [congruence|]. split; [|exact B].
    destruct A as (_ & A2 & _). fold st in A2. rewrite A2. intros Z. injection Z as Z. eapply texts_kinds; eassumption.
Qed.
End Group.

(** ** Everything *)
Section Load.
Variable order : list term -> list term.
Hypothesis Ho : arranges order.
Variable leaf : XmlModel.node -> guess.
Variable nsmap : XmlModel.node -> list (str * str).
Variables raise_parsing raise_undispatched : bool.
Variable texts : disk.
Hypothesis ST : sound_texts texts.

Lemma app_inj_len : forall {A} (a b c d : list A), a ++ b = c ++ d -> length a = length c -> a = c /\ b = d.
Proof using Type.
  intros A a. induction a as [|x a IH]; intros b [|y c] d E N; try discriminate; [auto|].
  cbn [app] in E. injection E as -> E. injection N as N. destruct (IH b c d E N) as [-> ->]. auto.
Qed.

Lemma F2_app_split : forall {A B} (P : A -> B -> Prop) a b c d, Forall2 P (a ++ b) (c ++ d) -> length a = length c -> Forall2 P a c /\ Forall2 P b d.
Proof using Type.
  intros A B P a b c d H N. apply Forall2_app_inv_l in H. destruct H as (l1 & l2 & H1 & H2 & E).
  apply app_inj_len in E; [destruct E as [-> ->]; auto|]. rewrite <- N. eapply F2_length. exact H1.
Qed.

Lemma F2_nth : forall {A B} (P : A -> B -> Prop) l m a b, Forall2 P l m -> In (a, b) (combine l m) -> P a b.
Proof using Type.
  intros A B P l m a b H. induction H as [|x y l m Hxy H IH]; [intros []|]. intros [E|I]; [injection E as <- <-; exact Hxy|auto].
Qed.

Lemma in_combine_map : forall {A A' B} (f : A -> A') (l : list A) (m : list B) a' b, In (a', b) (combine (map f l) m) ->
  exists a, In (a, b) (combine l m) /\ a' = f a.
Proof using Type.
  intros A A' B f l. induction l as [|x l IH]; intros [|y m] a' b I; try contradiction. cbn [map combine] in I.
  destruct I as [I|I]; [injection I as <- <-; exists x; split; [left; reflexivity|reflexivity]|].
  destruct (IH _ _ _ I) as (a & J & E). exists a. split; [right; exact J|exact E].
Qed.
Lemma in_combine_app : forall {A B} (a b : list A) (c d : list B) x, length a = length c -> In x (combine (a ++ b) (c ++ d)) ->
  In x (combine a c) \/ In x (combine b d).
Proof using Type.
  intros A B a. induction a as [|y a IH]; intros b [|z c] d x N I; try discriminate; [auto|]. cbn [app combine] in I.
  destruct I as [I|I]; [left; left; exact I|]. injection N as N. destruct (IH _ _ _ _ N I) as [H|H]; [left; right; exact H|right; exact H].
Qed.

(** The state before dispatching. *)
Lemma read_all : forall files s root L, (forall f, In f files -> named_file (snd f)) -> resolver_shows texts s root L ->
  exists s3 gs, 
    (forall k : list (nat * group_file) -> act unit,
     (groups <-- read_groups order leaf nsmap raise_parsing (map as_file files) ;;
      ts <-- read_works order leaf nsmap raise_parsing groups ;;
      _ <-- for_each ts (fun td => _ <-- read_text texts (fst td) (snd td) ;; ret tt) ;; k groups) s
     = k (map (fun g => (the_group g, as_file (the_place g))) gs) s3) /\
    map the_place gs = files /\ NoDup (map the_group gs) /\
    shelved (s_state s3) root /\ rel_all (leaf_ok texts s3) (view (s_state s3) root) L /\
    (forall t path, In (t, path) (s_paths s3) -> t < size s3) /\
    forall g, In g gs -> c_id (obj (s_state s3) (the_group g)) = own_urn (fst (the_file g)) /\
      good (s_state s3) None (c_id (obj (s_state s3) (the_group g))) (the_group g) /\
      fits (c_id (obj (s_state s3) (the_group g))) (view_group (s_state s3) (the_group g)) /\
      rel_group (leaf_ok texts s3) (view_group (s_state s3) (the_group g)) (snd (group_says (the_file g))).
Proof using Ho ST.
  intros files s root L NF RS.
  destruct (read_groups_ok order Ho leaf nsmap raise_parsing files s) as (s1 & gs & E1 & M1 & N1 & L1 & O1 & W1).
  { intros f I. destruct (NF f I) as (CL & _ & ns & cts & tg & P1 & P2 & P3 & U & H). split.
    - split; [exact (good_written ns cts _ _ P1 P2 P3 U)|]. intros w Hw. eapply named_good; [exact P1|exact P2|].
      apply (H (None, w)). unfold works_in. apply in_or_app. left. apply in_map_iff. exists w. auto.
    - eapply clark_group; [exact CL|apply order_refl]. }
  assert (FI : forall g, In g gs -> named_file (the_file g)).
  { intros g I. apply (NF (the_place g)). rewrite <- M1. apply in_map. exact I. }
  destruct (read_works_ok order Ho leaf nsmap raise_parsing gs s1) as (s2 & v & fs & E2 & F2 & N2 & L2 & O2 & C2 & V2).
  { intros g I. split; [apply W1; exact I|]. intros [d w] J. destruct (FI g I) as (_ & CL & ns & cts & tg & P1 & P2 & P3 & U & H). split.
    - eapply named_good; [exact P1|exact P2|]. apply (H (Some d, w)). unfold works_in. apply in_or_app. right.
      apply in_map_iff. exists (d, w). auto.
    - eapply clark_work; [exact (CL _ J)|apply order_refl]. }
  { exact N1. }
  assert (LEN : forall g, In g gs -> length (nested (the_file g)) = length (snd g)).
  { intros g I. destruct (W1 g I) as (_ & _ & _ & D). eapply F2_length. exact D. }
  assert (R2 : forall g rs', In (g, rs') (combine gs fs) ->
    works_read s2 (the_group g) (fst (the_file g)) (nested (the_file g) ++ map snd (snd (the_file g))) (snd g ++ rs') /\
    forall r, In r rs' -> size s1 <= fst r < size s2).
  { intros g rs' I. exact (F2_nth _ _ _ _ _ F2 I). }
  assert (FW : forall g rs' d w r, In (g, rs') (combine gs fs) -> In ((d, w), r) (combine (snd (the_file g)) rs') ->
    shows_work s2 w (Some (the_group g)) (fst r) (snd r)).
  { intros g rs' d w r I J. destruct (R2 _ _ I) as ((_ & _ & X) & _). pose proof (in_combine_l _ _ _ _ I) as G.
    apply F2_app_split in X; [|apply LEN; exact G]. destruct X as [_ X]. apply (F2_nth _ _ _ _ _ X).
    revert J. generalize (snd (the_file g)) rs'. clear. induction l as [|x l IH]; intros [|y m] J; try contradiction.
    cbn [map combine] in *. destruct J as [J|J]; [injection J as -> ->; left; reflexivity|right; apply IH; exact J]. }
  assert (PT : forall w g r t, shows_work s2 w (Some g) (fst r) (snd r) -> In t (snd r) ->
    c_parent (obj (s_state s2) t) = Some (fst r) /\ fst r < t /\ exists k e, In (k, e) (texts_in w) /\ made_for s2 (KText k) e (Some (fst r)) t).
  { intros w g r t (_ & (A & _) & D) I. destruct (F2_in_r _ _ _ _ D I) as ([k e] & J & (X & _)). cbn [fst snd] in X.
    split; [apply X|]. split; [apply A; exact I|]. exists k, e. auto. }
  assert (TU : forall t dir, In (t, dir) v -> exists u, urn_parse (c_urn (obj (s_state s2) t)) = Ok u).
  { intros t dir I. apply V2 in I. destruct I as (g & rs' & w & r & A & B & D). pose proof (FW _ _ _ _ _ A B) as S.
    destruct (PT _ _ _ _ S D) as (_ & _ & k & e & J & (_ & _ & U & R & _)).
    pose proof (in_combine_l _ _ _ _ A) as G. destruct (FI g G) as (_ & _ & ns & cts & tg & P1 & P2 & P3 & _ & H).
    assert (IW : In (Some dir, w) (works_in (the_file g))).
    { unfold works_in. apply in_or_app. right. apply in_map_iff. exists (dir, w). split; [reflexivity|]. eapply in_combine_l. exact B. }
    destruct (H _ IW) as (wk & _ & _ & T). destruct (T k e J) as ((vs & V & UE) & _).
    rewrite UE in U. injection U as U. rewrite <- U in R. apply reads_written in R; try assumption. rewrite R.
    eexists. apply urn_parse_written; auto. }
  destruct (read_texts_ok texts v s2 TU) as (s3 & E3 & S3 & O3 & C3).
  destruct (read_texts_paths texts v s2 s3 E3) as (PO & PN & PI).
  assert (PS : s_paths s2 = s_paths s).
  { pose proof (keeps_groups order leaf nsmap raise_parsing (map as_file files) s) as X. rewrite E1 in X.
    pose proof (keeps_works order leaf nsmap raise_parsing (map (fun g => (the_group g, as_file (the_place g))) gs) s1) as Y.
    rewrite E2 in Y. cbn [fst] in *. congruence. }
  assert (NV : forall t dir, In (t, dir) v -> size s <= t < size s2).
  { intros t dir X. apply V2 in X. destruct X as (g & rs' & w & r & X1 & X2 & X3).
    destruct (PT _ _ _ _ (FW _ _ _ _ _ X1 X2) X3) as (_ & Y & k & e & _ & (Y2 & _)). destruct (R2 _ _ X1) as [_ Z].
    apply in_combine_r in X2. apply Z in X2. lia. }
  exists s3, gs. split; [|split; [exact M1|split; [exact N1|]]].
  { intros k. unfold andthen at 1. rewrite E1. unfold andthen at 1. rewrite E2. unfold andthen at 1. rewrite E3. reflexivity. }
  (* objects that were there before *)
  assert (OLD : forall j, j < size s -> obj (s_state s3) j = obj (s_state s) j /\ citation_of s3 j = citation_of s j /\ path_of s3 j = path_of s j).
  { intros j J. rewrite S3. destruct (O1 j J) as [A B]. split; [|split].
    - rewrite O2; [exact A|lia|]. intros X. apply in_map_iff in X. destruct X as (g & E & G). apply W1 in G. lia.
    - rewrite O3; [rewrite C2 by lia; exact B|]. intros dir X. apply NV in X. lia.
    - rewrite PO; [unfold path_of; rewrite PS; reflexivity|]. intros dir X. apply NV in X. lia. }
  assert (LL : size s <= size s3) by (rewrite S3; lia).
  destruct (shows_shelved _ _ _ _ RS) as [SH RV].
  destruct (shelved_grown _ (s_state s3) _ SH LL (fun j J => proj1 (OLD j J))) as [SH3 VE].
  split; [exact SH3|]. split; [|split].
  { rewrite VE. eapply rel_all_kept; [exact RV|]. intros n l k g k2 ts k3 t I1 I2 I3 I4.
    apply in_view in I1. destruct I1 as (i & I1 & ->). apply in_view in I2. destruct I2 as (g' & I2 & ->).
    apply in_view_group' in I3. destruct I3 as (w & I3 & ->).
    destruct (tg_text _ _ (gd_tree _ _ _ _ (sv_group _ _ SH _ _ _ _ I1 I2)) _ _ _ _ I3 I4) as (T & _).
    destruct (OLD t T) as (A & B). split; [unfold alike; rewrite A; auto|exact B]. }
  { intros t path I. destruct (PI t path I) as [J|(dir & J)]; [|rewrite S3; apply NV in J; lia].
    rewrite PS in J. apply (rs_paths _ _ _ _ RS) in J. lia. }
  (* the groups that were read *)
  intros g G.
  assert (GF : exists rs', In (g, rs') (combine gs fs)).
  { clear -F2 G. induction F2 as [|a b l l' Hab F2 IH]; [destruct G|]. destruct G as [->|G]; [exists b; left; reflexivity|].
    destruct (IH G) as (rs' & X). exists rs'. right. exact X. }
  destruct GF as (rs' & GF). destruct (R2 _ _ GF) as ((MG & CG & DG) & RG). set (f := the_file g) in *.
  assert (MG3 : made_for s3 KTextgroup (fst f) None (the_group g)) by (unfold made_for; rewrite S3; exact MG).
  assert (CG3 : kids (s_state s3) (the_group g) = first_of_each (combine (urn_list (map snd (works_in f))) (map fst (snd g ++ rs')))).
  { rewrite S3, works_in_nodes. exact CG. }
  assert (DG3 : Forall2 (fun fw r => made_for s3 KWork (snd fw) (Some (the_group g)) (fst r) /\
    members_are s3 (fst r) (map snd (texts_in (snd fw))) (snd r) /\
    Forall2 (fun ke t => made_for s3 (KText (fst ke)) (snd ke) (Some (fst r)) t /\ kids (s_state s3) t = [] /\
      (exists c, citation_of s3 t = Some c /\ citation_from texts (snd ke) (fst fw) c) /\
      kept_at s3 t (MkSource (fst ke) (snd ke) (fst fw))) (texts_in (snd fw)) (snd r)) (works_in f) (snd g ++ rs')).
  { assert (X : Forall2 (fun fw r => shows_work s2 (snd fw) (Some (the_group g)) (fst r) (snd r)) (works_in f) (snd g ++ rs')).
    { apply F2_unmap_l with (f := snd) (R := fun w r => shows_work s2 w (Some (the_group g)) (fst r) (snd r)).
      rewrite works_in_nodes. exact DG. }
    eapply F2_combine; [exact X|]. cbn beta. intros [d w] r I SW. cbn [fst snd] in *.
    pose proof SW as (A1 & A2 & A3). split; [unfold made_for; rewrite S3; exact A1|]. split; [unfold members_are; rewrite S3; exact A2|].
    eapply F2_with; [exact A3|]. cbn beta. intros [k e] t J1 J2 (B1 & B2 & c0 & B3 & B4). cbn [fst snd] in *.
    split; [unfold made_for; rewrite S3; exact B1|]. split; [rewrite S3; exact B2|].
    destruct (PT _ _ _ _ SW J2) as (PA & _).
    unfold works_in in I. apply in_combine_app in I; [|rewrite map_length; apply LEN; exact G].
    destruct I as [I|I]; apply in_combine_map in I; destruct I as (x & I & E); injection E as -> ->.
    - (* described in the textgroup file: no file is read for it *)
      assert (NI : forall dir, ~ In (t, dir) v).
      { intros dir Y. apply V2 in Y.
      destruct Y as (g2 & rs2 & w2 & r2 & Y1 & Y2 & Y3). destruct (PT _ _ _ _ (FW _ _ _ _ _ Y1 Y2) Y3) as (PA2 & _).
      assert (ER : fst r = fst r2) by congruence. destruct (R2 _ _ Y1) as [_ Z]. apply in_combine_r in Y2. apply Z in Y2.
      destruct (W1 g G) as (_ & _ & _ & D1). pose proof (F2_nth _ _ _ _ _ D1 I) as ((Q & _) & _). lia. }
      split; [exists c0; split; [rewrite O3; [exact B3|exact NI]|apply from_metadata; exact B4]|].
      unfold kept_at. cbn [src_folder]. rewrite (PO t NI). unfold path_of. rewrite PS.
      destruct (find (fun e0 => Nat.eqb (fst e0) t) (s_paths s)) as [[t' p]|] eqn:Q; [|reflexivity].
      apply find_some in Q. destruct Q as [Q1 Q2]. apply Nat.eqb_eq in Q2. cbn [fst] in Q2. subst t'.
      apply (rs_paths _ _ _ _ RS) in Q1. destruct (W1 g G) as ((WG & WR) & _).
      pose proof (WR r (in_combine_r _ _ _ _ I)). destruct A2 as (A2 & _). apply A2 in J2. lia.
    - (* described in a subfolder *)
      destruct x as [dir w]. cbn [fst snd] in *.
      assert (TV : In (t, dir) v) by (apply V2; exists g, rs', w, r; auto).
      destruct (TU _ _ TV) as (u & U).
      assert (ONE : forall dir', In (t, dir') v -> dir' = dir).
      { intros dir' Y. apply V2 in Y. destruct Y as (g2 & rs2 & w2 & r2 & Y1 & Y2 & Y3).
        destruct (PT _ _ _ _ (FW _ _ _ _ _ Y1 Y2) Y3) as (PA2 & _). assert (ER : fst r2 = fst r) by congruence.
        assert (ND : NoDup (flat_map (map fst) fs)) by (rewrite flat_map_concat_map, concat_map in *; exact N2).
        destruct (combine_once (map fst) gs fs g rs' g2 rs2 (fst r) ND GF Y1) as [-> ->].
        - apply in_map. eapply in_combine_r. exact I.
        - rewrite <- ER. apply in_map. eapply in_combine_r. exact Y2.
        - assert (ND2 : NoDup (flat_map (fun r : nat * list nat => [fst r]) rs2)).
          { rewrite flat_map_concat_map. clear -ND Y1. apply in_combine_r in Y1. induction fs as [|x fs IH]; [destruct Y1|].
            cbn [flat_map] in ND. destruct Y1 as [->|Y1]; [|apply IH; [exact Y1|eapply NoDup_app_r; exact ND]].
            apply NoDup_app_l in ND. clear -ND. induction rs2 as [|y rs2 IH]; [constructor|]. cbn [map concat app] in *.
            apply NoDup_cons_iff in ND. destruct ND as [A B]. constructor; [|apply IH; exact B]. intros X. apply A. clear -X.
            induction rs2 as [|z rs2 IH]; [destruct X|]. cbn [map concat app] in *. destruct X as [X|X]; [left; exact X|right; apply IH; exact X]. }
          destruct (combine_once _ _ _ _ _ _ _ (fst r) ND2 I Y2) as [EQD _]; [left; reflexivity|left; exact ER|]. congruence. }
      rewrite (C3 t dir u TV ONE U), B3.
      enough (XA : expected_at dir e (text_path dir u)).
      { split; [|exists (text_path dir u); split; [exact XA|apply PN; assumption]].
        exists (match file_citation texts (text_path dir u) with Some c => c | None => c0 end).
        split; [destruct (file_citation _ _); reflexivity|]. apply citation_read; [exact ST|exact XA|exact B4]. }
      destruct (FI g G) as (_ & _ & ns & cts & tg & P1 & P2 & P3 & _ & H).
      assert (IW : In (Some dir, w) (works_in f)).
      { unfold works_in. apply in_or_app. right. apply in_map_iff. exists (dir, w). split; [reflexivity|]. eapply in_combine_l. exact I. }
      destruct (H _ IW) as (wk & _ & _ & T). destruct (T k e J1) as ((vs & V & UE) & _).
      exists ns, cts, tg, wk, vs. split; [exact P1|]. split; [exact P2|]. split; [exact V|]. split; [exact UE|].
      eapply text_path_written; [exact P1|exact P2|exact V|]. destruct B1 as (_ & _ & X1 & X2 & _). rewrite UE in X1. injection X1 as X1.
      rewrite <- X1 in X2. apply reads_written in X2; try assumption. rewrite <- X2. exact U. }
  split; [symmetry; exact (group_key s3 f (the_group g) MG3)|].
  split; [exact (group_good texts s3 f (the_group g) _ (FI g G) MG3 CG3 DG3)|].
  split; [exact (group_fits texts s3 f (the_group g) _ (FI g G) MG3 CG3 DG3)|].
  exact (group_rel texts s3 f (the_group g) _ CG3 DG3).
Qed.

Section Dispatch.
Variables (limit : nat) (d : dispatcher) (root : nat) (tests : tests_of).
Hypothesis (Hd : d_root d = root) (Hf : filters_by_name d tests).
Variables (files : list located_group) (s : store) (L : inventories source).
Hypothesis NF : forall f, In f files -> named_file (snd f).
Hypothesis RS : resolver_shows texts s root L.
Hypothesis DEST : forall f n, In f files -> choice_of tests (fst f) (own_urn (fst (snd f))) = Some n -> In n (keys L).

Lemma cites_same : forall st s j, citation_of (MkStore st (s_cites s) (s_paths s)) j = citation_of s j /\
  path_of (MkStore st (s_cites s) (s_paths s)) j = path_of s j.
Proof using Type. split; reflexivity. Qed.

Lemma view_texts : forall st r L' n l k g k2 ts k3 t, shelved st r -> view st r = L' -> In (n, l) L' -> In (k, g) l -> In (k2, ts) g -> In (k3, t) ts ->
  t < length (objs st).
Proof using Type.
  intros st r L' n l k g k2 ts k3 t SH <- I1 I2 I3 I4.
  apply in_view in I1. destruct I1 as (i & I1 & ->). apply in_view in I2. destruct I2 as (g' & I2 & ->).
  apply in_view_group' in I3. destruct I3 as (w & I3 & ->).
  destruct (tg_text _ _ (gd_tree _ _ _ _ (sv_group _ _ SH _ _ _ _ I1 I2)) _ _ _ _ I3 I4) as (T & _). exact T.
Qed.

Definition entered (g : group_read) : nat * group_file := (the_group g, as_file (the_place g)).

(** What is waiting, and what is shelved, is all older than the shelving. *)
Lemma shelved_after : forall s3 st' gs, shelved (s_state s3) root -> rel_all (leaf_ok texts s3) (view (s_state s3) root) L ->
  (forall g, In g gs -> c_id (obj (s_state s3) (the_group g)) = own_urn (fst (the_file g)) /\
      good (s_state s3) None (c_id (obj (s_state s3) (the_group g))) (the_group g) /\
      rel_group (leaf_ok texts s3) (view_group (s_state s3) (the_group g)) (snd (group_says (the_file g)))) ->
  shelved st' root -> (forall t path, In (t, path) (s_paths s3) -> t < length (objs st')) ->
  view st' root = fold_left (shelve_at tests) (waiting (s_state s3) (map entered gs)) (view (s_state s3) root) ->
  (forall x, x < length (objs (s_state s3)) -> alike (s_state s3) x st' x) ->
  resolver_shows texts (MkStore st' (s_cites s3) (s_paths s3)) root (shelved_by tests (map the_place gs) L).
Proof using Type.
  intros s3 st' gs SH RV G SH' PB V A. apply shelved_shows; [exact SH'| |exact PB]. cbn [s_state]. rewrite V.
  apply rel_shelves.
  - eapply rel_all_kept; [exact RV|]. intros. split; [apply A|apply cites_same]. eapply view_texts; [exact SH|reflexivity|eassumption..].
  - unfold waiting. rewrite !map_map. clear V. induction gs as [|g gs IH]; [constructor|]. cbn [map].
    destruct (G g (or_introl eq_refl)) as (G1 & G2 & G3). constructor; [|apply IH; intros; apply G; right; assumption].
    cbn [fst snd entered file_says]. split; [reflexivity|]. split; [exact G1|]. eapply rel_group_kept; [exact G3|]. intros k ts k2 t I1 I2. split; [|apply cites_same]. apply A.
    apply in_view_group' in I1. destruct I1 as (w & I1 & ->). destruct (tg_text _ _ (gd_tree _ _ _ _ G2) _ _ _ _ I1 I2) as (T & _). exact T.
Qed.

(** The places of what is waiting are those of the files. *)
Lemma room_is : forall s3 pre g, rel_all (leaf_ok texts s3) (view (s_state s3) root) L ->
  (forall x, In x (g :: pre) -> c_id (obj (s_state s3) (the_group x)) = own_urn (fst (the_file x)) /\
      rel_group (leaf_ok texts s3) (view_group (s_state s3) (the_group x)) (snd (group_says (the_file x)))) ->
  room root tests (s_state s3) (map entered pre) (entered g) =
    place (choice_of tests (fst (the_place g))) (shelved_by tests (map the_place pre) L) (own_urn (fst (snd (the_place g)))).
Proof using Type.
  intros s3 pre g RV G. unfold room, at_of. cbn [fst snd entered as_file gf_path].
  rewrite (proj1 (G g (or_introl eq_refl))). apply rel_place with (R := leaf_ok texts s3). apply rel_shelves; [exact RV|].
  unfold waiting. rewrite !map_map. assert (G' : forall x, In x pre -> In x (g :: pre)) by (intros x X; right; exact X).
  induction pre as [|x pre IH]; [constructor|]. cbn [map].
  destruct (G x (G' x (or_introl eq_refl))) as (G1 & G2). constructor; [|apply IH].
  - cbn [fst snd entered file_says]. split; [reflexivity|]. split; [exact G1|exact G2].
  - intros y [<-|Y]; [apply G; left; reflexivity|]. apply G. right. right. exact Y.
  - intros y Y. right. exact Y.
Qed.

Lemma load_is : forall k s', (groups <-- read_groups order leaf nsmap raise_parsing (map as_file files) ;;
      ts <-- read_works order leaf nsmap raise_parsing groups ;;
      _ <-- for_each ts (fun td => _ <-- read_text texts (fst td) (snd td) ;; ret tt) ;;
      for_each groups (fun g => dispatch_container raise_undispatched (5 + limit) d (fst g) (gf_path (snd g)))) s = (s', k) ->
  load order leaf nsmap raise_parsing raise_undispatched (5 + limit) d (map as_file files) texts s = (s', k).
Proof using Type. intros k s' E. exact E. Qed.

Lemma all_pending : forall s3 gs, NoDup (map the_group gs) -> (forall g, In g gs -> In (the_place g) files) ->
  rel_all (leaf_ok texts s3) (view (s_state s3) root) L ->
  (forall g, In g gs -> c_id (obj (s_state s3) (the_group g)) = own_urn (fst (the_file g)) /\
      good (s_state s3) None (c_id (obj (s_state s3) (the_group g))) (the_group g) /\
      fits (c_id (obj (s_state s3) (the_group g))) (view_group (s_state s3) (the_group g))) ->
  pending root tests (s_state s3) (map entered gs).
Proof using DEST.
  intros s3 gs N F RV G. split; [rewrite map_map; exact N|]. intros o I. apply in_map_iff in I. destruct I as (g & <- & I).
  destruct (G g I) as (G1 & G2 & G3). cbn [fst entered]. cbv zeta. split; [exact G2|]. split; [exact G3|]. intros n E. rewrite G1 in E.
  apply (DEST (the_place g)) in E; [|apply F; exact I]. rewrite <- (drel_keys _ _ _ RV) in E. unfold view in E. rewrite keys_view in E. exact E.
Qed.

Lemma split_map : forall {A B} (f : A -> B) l pre x post, map f l = pre ++ x :: post ->
  exists l1 a l2, l = l1 ++ a :: l2 /\ map f l1 = pre /\ f a = x /\ map f l2 = post.
Proof using Type.
  intros A B f l pre x post E. destruct (map_eq_app _ _ _ _ E) as (l1 & l2 & -> & E1 & E2). destruct l2 as [|a l2]; [discriminate|].
  cbn [map] in E2. injection E2 as E2 E3. exists l1, a, l2. auto.
Qed.

Theorem load_ok : (raise_undispatched = true -> placed tests files L) ->
  exists s', load order leaf nsmap raise_parsing raise_undispatched (5 + limit) d (map as_file files) texts s = (s', Ok tt) /\
    resolver_shows texts s' root (shelved_by tests files L).
Proof using Ho ST Hd Hf NF RS DEST.
  intros HR. destruct (read_all files s root L NF RS) as (s3 & gs & E & FS & ND & SH & RV & PB & G).
  change (map (fun g => (the_group g, as_file (the_place g))) gs) with (map entered gs) in E.
  assert (INF : forall g, In g gs -> In (the_place g) files) by (intros g I; rewrite <- FS; apply in_map; exact I).
  destruct (dispatch_all raise_undispatched limit d root tests Hd Hf (map entered gs) s3 SH) as (st' & ED & SH' & V & LN & A & _).
  - apply all_pending; [exact ND|exact INF|exact RV|]. intros g I. destruct (G g I) as (A & B & C & _). auto.
  - intros R pre o post X. destruct (split_map _ _ _ _ _ X) as (l1 & g & l2 & EG & <- & <- & _).
    rewrite room_is; [|exact RV|].
    + apply (HR R (map the_place l1) (the_place g) (map the_place l2)). rewrite <- FS, EG, map_app. reflexivity.
    + intros x I. destruct (G x) as (A & _ & _ & B); [rewrite EG; apply in_or_app; destruct I as [<-|I]; [right; left; reflexivity|left; exact I]|auto].
  - exists (MkStore st' (s_cites s3) (s_paths s3)). split; [apply load_is; rewrite E; exact ED|].
    rewrite <- FS. apply shelved_after; try assumption; [intros g I; destruct (G g I) as (A1 & B1 & _ & D1); auto|].
    intros t p I. apply PB in I. lia.
Qed.

Theorem load_stops : forall pre f post, raise_undispatched = true -> files = pre ++ f :: post ->
  placed tests pre L -> ~ has_place tests (shelved_by tests pre L) f ->
  exists s', load order leaf nsmap raise_parsing raise_undispatched (5 + limit) d (map as_file files) texts s = (s', Err UndispatchedTextError) /\
    resolver_shows texts s' root (shelved_by tests pre L).
Proof using Ho ST Hd Hf NF RS DEST.
  intros pre f post HR FE HP HN. destruct (read_all files s root L NF RS) as (s3 & gs & E & FS & ND & SH & RV & PB & G).
  change (map (fun g => (the_group g, as_file (the_place g))) gs) with (map entered gs) in E.
  rewrite FE in FS. destruct (split_map _ _ _ _ _ FS) as (gs1 & g & gs2 & -> & P1 & P2 & P3). rewrite <- FE in FS.
  assert (INF : forall g', In g' (gs1 ++ g :: gs2) -> In (the_place g') files) by (intros g' I; rewrite <- FS; apply in_map; exact I).
  assert (IG : forall x, In x gs1 -> In x (gs1 ++ g :: gs2)) by (intros x I; apply in_or_app; auto).
  assert (IG2 : In g (gs1 ++ g :: gs2)) by (apply in_or_app; right; left; reflexivity).
  destruct (dispatch_stops raise_undispatched limit d root tests Hd Hf (map entered gs1) (entered g) (map entered gs2) s3 HR SH) as (st' & ED & SH' & V & LN & A).
  - rewrite <- (map_cons entered g gs2), <- map_app. apply all_pending; [exact ND|exact INF|exact RV|].
    intros g' I. destruct (G g' I) as (A & B & C & _). auto.
  - intros a x b X. destruct (split_map _ _ _ _ _ X) as (l1 & g' & l2 & EG & <- & <- & _).
    rewrite room_is; [|exact RV|].
    + apply (HP (map the_place l1) (the_place g') (map the_place l2)). rewrite <- P1, EG, map_app. reflexivity.
    + intros y I. destruct (G y) as (A & _ & _ & B); [apply IG; rewrite EG; apply in_or_app; destruct I as [<-|I]; [right; left; reflexivity|left; exact I]|auto].
  - rewrite room_is; [|exact RV|].
    + rewrite P1, P2. unfold has_place in HN. destruct (place _ _ _); [exfalso; apply HN; discriminate|reflexivity].
    + intros y I. destruct (G y) as (A & _ & _ & B); [destruct I as [<-|I]; [exact IG2|apply IG; exact I]|auto].
  - exists (MkStore st' (s_cites s3) (s_paths s3)). split.
    + apply load_is. rewrite E, map_app. exact ED.
    + rewrite <- P1. apply shelved_after; try assumption; [intros g' I; destruct (G g' (IG _ I)) as (A1 & B1 & _ & D1); auto|].
      intros t p I. apply PB in I. lia.
Qed.
End Dispatch.
End Load.
