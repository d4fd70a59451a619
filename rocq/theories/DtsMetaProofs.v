(** Proofs about what DTS collections keep of the replies they were read from. *)

From Coq Require Import List NArith ZArith Arith Bool Lia Permutation.
From Verif Require Import PyStr Json TreeModel HttpModel HttpSpec HttpProofs DtsModel MetaModel MetaSpec MetaProofs DtsMetaModel DtsMetaSpec.
Import ListNotations.

Definition ok {A} (r : result A) : Prop := match r with Ok _ => True | Err _ => False end.

(** ** Growing by statements about one node *)

Definition grows (i : str) (w w' : world) (P : term -> term -> Prop) (done : Prop) : Prop :=
  w_objs w' = w_objs w /\ w_sent w' = w_sent w /\
  (forall t, In t (w_graph w) -> In t (w_graph w')) /\
  (forall n p o, In (n, p, o) (w_graph w') -> In (n, p, o) (w_graph w) \/ (n = URI i /\ P p o)) /\
  (done -> forall p o, P p o -> In (URI i, p, o) (w_graph w')).

Lemma grows_none : forall i w (P : term -> term -> Prop) (d : Prop), (d -> forall p o, ~ P p o) -> grows i w w P d.
Proof. intros i w P d H. repeat split; auto. intros D p o X. elim (H D p o X). Qed.

Lemma grows_seq : forall i w w1 w2 (P Q R : term -> term -> Prop) (d1 d2 : Prop), grows i w w1 P d1 -> d1 -> grows i w1 w2 Q d2 ->
  (forall p o, R p o <-> P p o \/ Q p o) -> grows i w w2 R d2.
Proof.
  intros i w w1 w2 P Q R d1 d2 (A1 & A2 & A3 & A4 & A5) D1 (B1 & B2 & B3 & B4 & B5) E.
  split; [congruence|]. split; [congruence|]. split; [auto|]. split.
  - intros n p o X. destruct (B4 n p o X) as [Y|[-> Y]].
    + destruct (A4 n p o Y) as [Z|[-> Z]]; [auto|right]. split; [reflexivity|]. apply E; auto.
    + right. split; [reflexivity|]. apply E; auto.
  - intros D2 p o X. apply E in X. destruct X as [X|X]; auto.
Qed.

Lemma grows_stop : forall i w w1 (P R : term -> term -> Prop) (d d' : Prop), grows i w w1 P d -> ~ d' ->
  (forall p o, P p o -> R p o) -> grows i w w1 R d'.
Proof.
  intros i w w1 P R d d' (A1 & A2 & A3 & A4 & A5) D E. repeat split; auto.
  - intros n p o X. destruct (A4 n p o X) as [Y|[-> Y]]; auto.
  - intros Y. elim (D Y).
Qed.

Lemma grows_iff : forall i w w1 (P R : term -> term -> Prop) d, grows i w w1 P d -> (forall p o, P p o <-> R p o) -> grows i w w1 R d.
Proof.
  intros i w w1 P R d (A1 & A2 & A3 & A4 & A5) E. repeat split; auto.
  - intros n p o X. destruct (A4 n p o X) as [Y|[-> Y]]; auto. right. split; [reflexivity|]. apply E; auto.
  - intros D p o X. apply A5; [auto|]. apply E; auto.
Qed.

Lemma grows_loop : forall {A} (f : A -> act unit) (i : str) (h : nat) (P : A -> term -> term -> Prop) l,
  (forall a w w' r, In a l -> d_id (obj w h) = i -> f a w = (w', r) -> grows i w w' (P a) (ok r)) ->
  forall w w' r, d_id (obj w h) = i -> for_each l f w = (w', r) ->
  grows i w w' (fun p o => exists a, In a l /\ P a p o) (ok r).
Proof.
  intros A f i h P l. induction l as [|a l IH]; intros F w w' r I E; cbn in E.
  - injection E as <- <-. apply grows_none. intros _ p o (x & [] & _).
  - unfold andthen in E. destruct (f a w) as [w1 r1] eqn:E1.
    pose proof (F a w w1 r1 (or_introl eq_refl) I E1) as G1.
    destruct r1 as [u|e].
    + assert (I1 : d_id (obj w1 h) = i) by (destruct G1 as (O & _); unfold obj in *; rewrite O; exact I).
      eapply grows_seq; [exact G1|exact Logic.I| |].
      * eapply IH; [|exact I1|exact E]. intros b v v' r' Hb. apply F. right; exact Hb.
      * cbn. intros p o. split.
        { intros (x & [<-|X] & Y); [left; exact Y|right; eauto]. }
        { intros [X|(x & X & Y)]; [exists a|exists x]; auto. }
    + injection E as <- <-. eapply grows_stop; [exact G1|cbn; auto|]. intros p o X. exists a. split; [left; reflexivity|exact X].
Qed.

(** ** Values *)

Lemma written_value : forall v pv l o, as_value v = Ok pv ->
  forall jl, as_lang l = Ok jl -> (jl = None -> l = JNull) ->
  (written v (Some l) o <-> o = as_object pv jl).
Proof.
  intros v pv l o E jl L _. destruct v as [|b|z|s| |]; try discriminate; injection E as <-;
    destruct l as [| | |t| |]; try discriminate; injection L as <-.
  - destruct b; split; intros X; [inversion X; reflexivity|subst; constructor|inversion X; reflexivity|subst; constructor].
  - destruct b; split; intros X; [inversion X; reflexivity|subst; constructor|inversion X; reflexivity|subst; constructor].
  - split; intros X; [inversion X; subst; destruct z; reflexivity|]. subst. unfold as_object, mk_literal. apply written_number; [apply numeral_str|destruct z; reflexivity].
  - split; intros X; [inversion X; subst; destruct z; reflexivity|]. subst. unfold as_object, mk_literal. apply written_number; [apply numeral_str|destruct z; reflexivity].
  - split; intros X; [inversion X; reflexivity|subst; constructor].
  - destruct t as [|c t]; split; intros X.
    + inversion X; subst; [reflexivity|congruence].
    + subst. apply written_blank.
    + inversion X; reflexivity.
    + subst. apply written_in. discriminate.
Qed.

Lemma written_plain : forall v o, written v None o <-> written v (Some JNull) o.
Proof. intros v o. split; intros X; inversion X; subst; constructor; auto. Qed.

Lemma written_known : forall v l o, written v l o -> exists pv, as_value v = Ok pv.
Proof. intros v l o X; inversion X; subst; cbn; eauto. Qed.

Lemma add_statement_grows : forall h i key v l w w' r, d_id (obj w h) = i -> add_statement h key v l w = (w', r) ->
  grows i w w' (fun p o => p = key /\ written v (Some l) o) (ok r).
Proof.
  intros h i key v l w w' r I E. unfold add_statement, andthen, node_of, lift in E.
  destruct (as_value v) as [pv|e] eqn:V.
  2:{ injection E as <- <-. apply grows_none. intros []. }
  destruct (as_lang l) as [jl|e] eqn:L.
  2:{ injection E as <- <-. apply grows_none. intros []. }
  unfold write in E. injection E as <- <-.
  assert (J : jl = None -> l = JNull) by (destruct l; cbn in L; congruence).
  split; [reflexivity|]. split; [reflexivity|]. cbn. unfold md_add. rewrite I. split; [|split].
  - intros t X. apply In_add. right; exact X.
  - intros n p o X. apply In_add in X. destruct X as [X|X]; [right|left; exact X].
    injection X as -> -> ->. split; [reflexivity|]. split; [reflexivity|]. apply (written_value v pv l _ V jl L J). reflexivity.
  - intros _ p o [-> X]. apply In_add. left. apply (written_value v pv l _ V jl L J) in X. subst o. reflexivity.
Qed.

(** ** The parts of a dictionary *)

Lemma jget_obj : forall fs k d, jget (JObj fs) k d = Ok match field k fs with Some v => v | None => d end.
Proof. reflexivity. Qed.

Lemma get_value_ok : forall x v, get_key x #"@value" = Ok v -> exists y, x = JObj y /\ field #"@value" y = Some v.
Proof.
  intros x v E. destruct x as [| | | | |y]; try discriminate. exists y. split; [reflexivity|].
  unfold get_key in E. destruct (field #"@value" y); [injection E as ->; reflexivity|discriminate].
Qed.

Definition value_in (js : list json) (v : json) : Prop := exists x, In (JObj x) js /\ field #"@value" x = Some v.

(** The loop over the values of a key that are all added under one predicate. *)
Lemma add_values_grows : forall h i key js w w' r, d_id (obj w h) = i ->
  for_each js (fun x => v <-- lift (get_key x #"@value") ;; add_statement h key v JNull) w = (w', r) ->
  grows i w w' (fun p o => p = key /\ exists v, value_in js v /\ written v None o) (ok r).
Proof.
  intros h i key js w w' r I E.
  eapply grows_iff.
  - eapply (grows_loop _ i h (fun x p o => exists y v, x = JObj y /\ field #"@value" y = Some v /\ p = key /\ written v None o)); [|exact I|exact E].
    intros a v0 w0 r0 _ I0 E0. unfold andthen in E0. unfold lift in E0 at 1.
    destruct (get_key a #"@value") as [v|e] eqn:K.
    + apply get_value_ok in K. destruct K as (y & -> & F).
      apply (add_statement_grows h i) in E0; [|exact I0]. eapply grows_iff; [exact E0|].
      cbn beta. intros p o. rewrite <- written_plain. split.
      * intros [-> X]. exists y, v. auto.
      * intros (y' & v' & Y & F' & -> & X). injection Y as <-. assert (v' = v) as -> by congruence. auto.
    + injection E0 as <- <-. apply grows_none. intros [].
  - cbn beta. intros p o. unfold value_in. split.
    + intros (a & X & y & v & -> & F & -> & Y). split; [reflexivity|]. exists v. split; [exists y; auto|exact Y].
    + intros (-> & v & (y & X & F) & Y). exists (JObj y). split; [exact X|]. exists y, v. auto.
Qed.

(** The labels. *)
Lemma set_label_step : forall h i v w w' r, d_id (obj w h) = i ->
  (n <-- node_of h ;; pv <-- lift (as_value v) ;; write (fun g => set_label g n pv None)) w = (w', r) ->
  grows i w w' (fun p o => (p = rdfs_label \/ p = skos_prefLabel) /\ written v None o) (ok r).
Proof.
  intros h i v w w' r I E. unfold andthen, node_of, lift in E.
  destruct (as_value v) as [pv|e] eqn:V.
  2:{ injection E as <- <-. apply grows_none. intros []. }
  unfold write in E. injection E as <- <-.
  assert (W : forall o, written v None o <-> o = mk_literal pv None).
  { intros o. rewrite written_plain. rewrite (written_value v pv JNull o V None eq_refl (fun _ => eq_refl)).
    destruct v; try discriminate; injection V as <-; reflexivity. }
  assert (W' : as_object (PTerm (mk_literal pv None)) None = mk_literal pv None).
  { destruct v; try discriminate; injection V as <-; reflexivity. }
  split; [reflexivity|]. split; [reflexivity|]. cbn [w_graph]. unfold set_label, md_add. rewrite I, W'. split; [|split].
  - intros t X. apply In_add. right. apply In_add. right; exact X.
  - intros n p o X. apply In_add in X. destruct X as [X|X].
    + injection X as -> -> ->. right. split; [reflexivity|]. split; [left; reflexivity|]. apply W; reflexivity.
    + apply In_add in X. destruct X as [X|X]; [right|left; exact X].
      injection X as -> -> ->. split; [reflexivity|]. split; [right; reflexivity|]. apply W; reflexivity.
  - intros _ p o [P X]. apply W in X. subst o. destruct P as [-> | ->].
    + apply In_add. left; reflexivity.
    + apply In_add. right. apply In_add. left; reflexivity.
Qed.

Lemma labels_grows : forall h i js w w' r, d_id (obj w h) = i ->
  for_each js (fun x => v <-- lift (get_key x #"@value") ;; n <-- node_of h ;; v <-- lift (as_value v) ;;
                        write (fun g => set_label g n v None)) w = (w', r) ->
  grows i w w' (fun p o => (p = rdfs_label \/ p = skos_prefLabel) /\ exists v, value_in js v /\ written v None o) (ok r).
Proof.
  intros h i js w w' r I E.
  eapply grows_iff.
  - eapply (grows_loop _ i h (fun x p o => exists y v, x = JObj y /\ field #"@value" y = Some v /\ (p = rdfs_label \/ p = skos_prefLabel) /\ written v None o)); [|exact I|exact E].
    intros a v0 w0 r0 _ I0 E0. unfold andthen in E0 at 1. unfold lift in E0 at 1.
    destruct (get_key a #"@value") as [v|e] eqn:K.
    + apply get_value_ok in K. destruct K as (y & -> & F).
      apply (set_label_step h i) in E0; [|exact I0]. eapply grows_iff; [exact E0|].
      cbn beta. intros p o. split.
      * intros [P X]. exists y, v. auto.
      * intros (y' & v' & Y & F' & P & X). injection Y as <-. assert (v' = v) as -> by congruence. auto.
    + injection E0 as <- <-. apply grows_none. intros [].
  - cbn beta. intros p o. unfold value_in. split.
    + intros (a & X & y & v & -> & F & P & Y). split; [exact P|]. exists v. split; [exists y; auto|exact Y].
    + intros (P & v & (y & X & F) & Y). exists (JObj y). split; [exact X|]. exists y, v. auto.
Qed.

(** One of the two groups of further statements. *)
Definition grouped (fs : list (str * json)) (k : str) (p o : term) : Prop :=
  exists groups rest key js x v, field k fs = Some (JList (JObj groups :: rest)) /\
    In (key, JList js) groups /\ In (JObj x) js /\ field #"@value" x = Some v /\
    written v (field #"@language" x) o /\ p = URI key.

Lemma literal_ok : forall x vl, dict_to_literal x = Ok vl ->
  exists y v, x = JObj y /\ field #"@value" y = Some v /\ fst vl = v /\
    forall o, written v (Some (snd vl)) o <-> written v (field #"@language" y) o.
Proof.
  intros x vl E. unfold dict_to_literal in E.
  destruct (get_key x #"@value") as [v|e] eqn:K; [|discriminate].
  apply get_value_ok in K. destruct K as (y & -> & F). exists y, v. split; [reflexivity|]. split; [exact F|].
  cbn [bind] in E. rewrite jget_obj in E.
  assert (N : forall l l' o z, written (JInt z) l o -> written (JInt z) l' o) by (intros l l' o z X; inversion X; subst; constructor; auto).
  assert (B : forall l l' o b, written (JBool b) l o -> written (JBool b) l' o) by (intros l l' o b X; inversion X; subst; constructor; auto).
  destruct (field #"@language" y) as [lang|]; destruct v as [|b|z|s|l|l]; cbn [bind] in E; injection E as <-; cbn [fst snd]; (split; [reflexivity|]); intros o;
    try (split; [apply N|apply N]); try (split; [apply B|apply B]);
    try (split; intros X; inversion X; fail); try reflexivity.
  symmetry. apply written_plain.
Qed.

Lemma read_group_grows : forall h i k fs w w' r, d_id (obj w h) = i -> read_group h k (JObj fs) w = (w', r) ->
  grows i w w' (grouped fs k) (ok r).
Proof.
  intros h i k fs w w' r I E. unfold read_group in E. rewrite jget_obj in E.
  unfold andthen at 1, lift at 1 in E. unfold andthen at 1, lift at 1 in E.
  set (v := match field k fs with Some v => v | None => empty_object end) in E.
  destruct (get_first v) as [o|e] eqn:G.
  2:{ injection E as <- <-. apply grows_none. intros []. }
  unfold andthen at 1, lift at 1 in E.
  destruct (jitems o) as [items|e] eqn:J.
  2:{ injection E as <- <-. apply grows_none. intros []. }
  destruct o as [| | | | |groups]; try discriminate. injection J as ->.
  eapply grows_iff.
  - eapply (grows_loop _ i h (fun kv p o => exists js x v, snd kv = JList js /\ In (JObj x) js /\ field #"@value" x = Some v /\
              written v (field #"@language" x) o /\ p = URI (fst kv))); [|exact I|exact E].
    intros [key vs] w1 w2 r1 _ I1 E1. cbn [fst snd] in *. unfold andthen at 1, lift at 1 in E1.
    destruct (iter_json vs) as [l|e] eqn:T.
    2:{ injection E1 as <- <-. apply grows_none. intros []. }
    assert (G1 : grows i w1 w2 (fun p o => exists x, In x l /\ exists y v, x = JObj y /\ field #"@value" y = Some v /\
              written v (field #"@language" y) o /\ p = URI key) (ok r1)).
    { eapply (grows_loop _ i h (fun x p o => exists y v, x = JObj y /\ field #"@value" y = Some v /\
              written v (field #"@language" y) o /\ p = URI key)); [|exact I1|exact E1].
      intros x w3 w4 r3 _ I3 E3. unfold andthen at 1, lift at 1 in E3.
      destruct (dict_to_literal x) as [vl|e] eqn:D.
      2:{ injection E3 as <- <-. apply grows_none. intros []. }
      apply literal_ok in D. destruct D as (y & v1 & -> & F & V & W).
      apply (add_statement_grows h i) in E3; [|exact I3]. rewrite V in E3. eapply grows_iff; [exact E3|].
      intros p o. cbn beta. rewrite W. split.
      - intros [-> X]. exists y, v1. auto.
      - intros (y' & v2 & Y & F' & X & ->). injection Y as <-. assert (v2 = v1) as -> by congruence. auto. }
    eapply grows_iff; [exact G1|]. intros p o. cbn beta. split.
    + intros (x & X & y & v1 & -> & F & W & ->). destruct vs as [| | |s|js|ys]; try discriminate; injection T as <-.
      * apply in_map_iff in X. destruct X as (c & X & _). discriminate.
      * exists js, y, v1. auto.
      * apply in_map_iff in X. destruct X as (c & X & _). discriminate.
    + intros (js & x & v1 & -> & X & F & W & ->). injection T as <-. exists (JObj x). split; [exact X|]. exists x, v1. auto.
  - cbn beta. intros p o. unfold grouped.
    assert (V : items = [] \/ exists rest, field k fs = Some (JList (JObj items :: rest))).
    { subst v. destruct (field k fs) as [u|] eqn:F.
      - destruct u as [| | |s|l|l]; try discriminate.
        + destruct s; discriminate.
        + destruct l as [|u l]; [discriminate|]. injection G as ->. right. eauto.
      - injection G as <-. left; reflexivity. }
    split.
    + intros ([key vs] & X & js & x & v1 & Y & Z & F & W & ->). cbn [fst snd] in *. subst vs.
      destruct V as [-> |(rest & V)]; [destruct X|]. exists items, rest, key, js, x, v1. auto 10.
    + intros (groups & rest & key & js & x & v1 & F & X & Z & F1 & W & ->).
      destruct V as [-> |(rest' & V)].
      * assert (U : v = JList (JObj groups :: rest)) by (subst v; rewrite F; reflexivity).
        rewrite U in G. injection G as ->. destruct X.
      * rewrite F in V. injection V as -> _. exists (key, JList js). split; [exact X|]. exists js, x, v1. auto 10.
Qed.

(** ** Learning about one object *)

Definition learned (i : str) (h : nat) (w w' : world) (P : term -> term -> Prop) (done : Prop) : Prop :=
  w_sent w' = w_sent w /\ length (w_objs w') = length (w_objs w) /\
  (forall k, d_id (obj w' k) = d_id (obj w k) /\ d_known (obj w' k) = d_known (obj w k)) /\
  (forall k, k <> h -> obj w' k = obj w k) /\
  (forall n p o, n <> URI i -> (In (n, p, o) (w_graph w') <-> In (n, p, o) (w_graph w))) /\
  (forall p o, p <> rdf_type -> In (URI i, p, o) (w_graph w) -> In (URI i, p, o) (w_graph w')) /\
  (forall p o, p <> rdf_type -> In (URI i, p, o) (w_graph w') -> In (URI i, p, o) (w_graph w) \/ P p o) /\
  (done -> forall p o, p <> rdf_type -> P p o -> In (URI i, p, o) (w_graph w')).

Lemma learned_same : forall i h w (P : term -> term -> Prop) (d : Prop), (d -> forall p o, ~ P p o) -> learned i h w w P d.
Proof. intros i h w P d H. repeat split; auto. intros D p o _ X. elim (H D p o X). Qed.

Lemma grows_learned : forall i h w w' P d, grows i w w' P d -> learned i h w w' P d.
Proof.
  intros i h w w' P d (A1 & A2 & A3 & A4 & A5). unfold learned, obj. rewrite A1.
  split; [exact A2|]. split; [reflexivity|]. split; [auto|]. split; [auto|]. split.
  - intros n p o N. split; [|apply A3]. intros X. destruct (A4 n p o X) as [Y|[Y _]]; [exact Y|congruence].
  - split; [intros; apply A3; auto|]. split; [|auto].
    intros p o _ X. destruct (A4 _ p o X) as [Y|[_ Y]]; auto.
Qed.

Lemma learned_seq : forall i h w w1 w2 (P Q R : term -> term -> Prop) (d1 d2 : Prop), learned i h w w1 P d1 -> d1 -> learned i h w1 w2 Q d2 ->
  (forall p o, R p o <-> P p o \/ Q p o) -> learned i h w w2 R d2.
Proof.
  intros i h w w1 w2 P Q R d1 d2 (A1 & A2 & A3 & A4 & A5 & A6 & A7 & A8) D (B1 & B2 & B3 & B4 & B5 & B6 & B7 & B8) E.
  split; [congruence|]. split; [congruence|]. split.
  { intros k. destruct (A3 k), (B3 k). split; congruence. }
  split; [intros k K; rewrite (B4 k K); auto|]. split; [intros n p o N; rewrite (B5 n p o N); auto|].
  split; [auto|]. split.
  - intros p o N X. destruct (B7 p o N X) as [Y|Y]; [destruct (A7 p o N Y) as [Z|Z]; auto|]; right; apply E; auto.
  - intros D2 p o N X. apply E in X. destruct X as [X|X]; auto.
Qed.

Lemma learned_stop : forall i h w w1 (P R : term -> term -> Prop) (d d' : Prop), learned i h w w1 P d -> ~ d' ->
  (forall p o, P p o -> R p o) -> learned i h w w1 R d'.
Proof.
  intros i h w w1 P R d d' (A1 & A2 & A3 & A4 & A5 & A6 & A7 & A8) D E.
  repeat (split; [assumption|]). split.
  - intros p o N X. destruct (A7 p o N X); auto.
  - intros X. elim (D X).
Qed.

Lemma learned_iff : forall i h w w1 (P R : term -> term -> Prop) d, learned i h w w1 P d -> (forall p o, P p o <-> R p o) -> learned i h w w1 R d.
Proof.
  intros i h w w1 P R d (A1 & A2 & A3 & A4 & A5 & A6 & A7 & A8) E.
  repeat (split; [assumption|]). split.
  - intros p o N X. destruct (A7 p o N X); auto. right. apply E; auto.
  - intros D p o N X. apply A8; auto. apply E; auto.
Qed.

Lemma learned_id : forall i h w w1 P d k, learned i h w w1 P d -> d_id (obj w1 k) = d_id (obj w k).
Proof. intros i h w w1 P d k (_ & _ & A & _). apply A. Qed.

Lemma lift_learned : forall {A B} (r0 : result A) (k : A -> act B) i h w w' r Q,
  andthen (lift r0) k w = (w', r) -> (forall a, r0 = Ok a -> k a w = (w', r) -> learned i h w w' Q (ok r)) ->
  learned i h w w' Q (ok r).
Proof.
  intros A B r0 k i h w w' r Q E K. unfold andthen, lift in E. destruct r0 as [a|e].
  - apply (K a); [reflexivity|exact E].
  - injection E as <- <-. apply learned_same. intros [].
Qed.

Lemma then_learned : forall {A B} (m : act A) (k : A -> act B) i h w w' r (P Q R : term -> term -> Prop),
  d_id (obj w h) = i -> andthen m k w = (w', r) ->
  (forall w1 r1, m w = (w1, r1) -> learned i h w w1 P (ok r1)) ->
  (forall a w1, m w = (w1, Ok a) -> d_id (obj w1 h) = i -> k a w1 = (w', r) -> learned i h w1 w' Q (ok r)) ->
  (forall p o, R p o <-> P p o \/ Q p o) ->
  learned i h w w' R (ok r).
Proof.
  intros A B m k i h w w' r P Q R I E M K H. unfold andthen in E. destruct (m w) as [w1 [a|e]] eqn:F.
  - pose proof (M w1 (Ok a) eq_refl) as L. eapply learned_seq; [exact L|exact Logic.I| |exact H].
    apply (K a); [reflexivity| |exact E]. rewrite (learned_id _ _ _ _ _ _ h L). exact I.
  - injection E as <- <-. eapply learned_stop; [apply (M w1 (Err e) eq_refl)|cbn; auto|]. intros p o X. apply H; auto.
Qed.

(** ** Types *)

Lemma In_set : forall n p o s q v g, In (n, p, o) (g_set (s, q, v) g) <->
  (n, p, o) = (s, q, v) \/ (In (n, p, o) g /\ ~ (n = s /\ p = q)).
Proof.
  intros n p o s q v g. unfold g_set. rewrite In_add, In_remove. split.
  - intros [X|[X Y]]; [left; exact X|right]. split; [exact X|]. intros [-> ->]. apply Y. repeat split; unfold covers; auto.
  - intros [X|[X Y]]; [left; exact X|right]. split; [exact X|]. intros [A [B C]]. apply Y. split.
    + destruct A as [A|A]; congruence.
    + destruct B as [B|B]; congruence.
Qed.

Lemma set_type_spec : forall h i v w w' r, d_id (obj w h) = i -> set_type h v w = (w', r) ->
  (exists s, v = JStr s /\ r = Ok tt /\ w' = MkWorld (g_set (URI i, rdf_type, URI s) (w_graph w)) (w_objs w) (w_sent w)) \/
  ((forall s, v <> JStr s) /\ w' = w /\ r = Err TypeError).
Proof.
  intros h i v w w' r I E. unfold set_type, andthen, node_of, lift in E. rewrite I in E.
  destruct v as [| | |s| |]; cbn in E; injection E as <- <-; try (right; split; [discriminate|auto]).
  left. exists s. auto.
Qed.

Lemma types_spec : forall h i js w w' r, d_id (obj w h) = i -> for_each js (set_type h) w = (w', r) ->
  learned i h w w' (fun _ _ => False) (ok r) /\ w_objs w' = w_objs w /\
  (ok r -> forall ts, js = map JStr ts -> forall o,
     In (URI i, rdf_type, o) (w_graph w') <->
     match ts with [] => In (URI i, rdf_type, o) (w_graph w) | _ => o = URI (last ts []) end).
Proof.
  intros h i js. induction js as [|v js IH]; intros w w' r I E; cbn in E.
  - injection E as <- <-. split; [apply learned_same; auto|]. split; [reflexivity|].
    intros _ ts T o. destruct ts; [reflexivity|discriminate].
  - unfold andthen in E. destruct (set_type h v w) as [w1 r1] eqn:E1.
    destruct (set_type_spec h i v w w1 r1 I E1) as [(s & -> & -> & ->)|(N & -> & ->)].
    + destruct (IH (MkWorld (g_set (URI i, rdf_type, URI s) (w_graph w)) (w_objs w) (w_sent w)) w' r I E) as (L & O & T). cbn [w_objs] in O.
      split; [|split].
      * eapply (learned_seq i h w _ w' (fun _ _ => False) (fun _ _ => False) _ True); [|exact Logic.I|exact L|cbn; tauto].
        repeat split; auto; cbn [w_graph].
        { intros X. apply In_set in X. destruct X as [X|[X _]]; [congruence|exact X]. }
        { intros X. apply In_set. right. split; [exact X|]. intros [Y _]. congruence. }
        { intros p o N X. apply In_set. right. split; [exact X|]. intros [_ Y]. congruence. }
        { intros p o N X. apply In_set in X. destruct X as [X|[X _]]; [congruence|auto]. }
        { intros _ p o _ []. }
      * exact O.
      * intros D ts T1 o. destruct ts as [|t ts]; [discriminate|]. injection T1 as <- T1.
        rewrite (T D ts T1 o). destruct ts as [|t ts]; [|reflexivity].
        cbn [w_graph last]. rewrite In_set. split.
        { intros [X|[_ X]]; [congruence|elim X; auto]. }
        { intros ->. left; reflexivity. }
    + injection E as <- <-. split; [apply learned_same; intros []|]. split; [reflexivity|]. intros [].
Qed.

(** ** Reading a dictionary *)

Lemma nth_change : forall f h k w w' r, change h f w = (w', r) ->
  w_graph w' = w_graph w /\ w_sent w' = w_sent w /\ length (w_objs w') = length (w_objs w) /\ r = Ok tt /\
  (k <> h -> obj w' k = obj w k) /\ (h < length (w_objs w) -> obj w' h = f (obj w h)) /\
  (length (w_objs w) <= h -> obj w' h = obj w h).
Proof.
  intros f h k w w' r E. unfold change in E. injection E as <- <-. cbn [w_graph w_sent w_objs]. unfold obj. cbn [w_objs].
  split; [reflexivity|]. split; [reflexivity|]. generalize (w_objs w). clear w. intros l.
  split; [|split; [reflexivity|split; [|split]]].
  - revert h. induction l as [|o l IH]; intros [|h]; cbn; auto. 
  - revert h k. induction l as [|o l IH]; intros [|h] [|k] N; cbn; auto; try congruence. 
  - revert h. induction l as [|o l IH]; intros [|h] N; cbn in *; auto; try lia. apply IH; lia.
  - revert h. induction l as [|o l IH]; intros [|h] N; cbn in *; auto; try lia. apply IH; lia.
Qed.

Lemma change_learned : forall f h i w w' r, (forall o, d_id (f o) = d_id o /\ d_known (f o) = d_known o) ->
  change h f w = (w', r) -> learned i h w w' (fun _ _ => False) (ok r).
Proof.
  intros f h i w w' r F E.
  pose proof (fun k => nth_change f h k w w' r E) as C.
  destruct (C h) as (G & S1 & L & R & _ & A & B). unfold learned. rewrite G.
  split; [exact S1|]. split; [exact L|]. split.
  - intros k. destruct (Nat.eq_dec k h) as [->|N].
    + destruct (Nat.lt_ge_cases h (length (w_objs w))) as [H|H]; [rewrite (A H); apply F|rewrite (B H); auto].
    + destruct (C k) as (_ & _ & _ & _ & D & _). rewrite (D N). auto.
  - split; [intros k N; apply (C k); exact N|]. repeat split; auto. intros _ p o _ [].
Qed.

Lemma iter_value : forall fs k t js v, field k fs = Some t -> iter_json t = Ok js -> (value_in js v <-> has_value fs k v).
Proof.
  intros fs k t js v F T. unfold has_value, value_in. split.
  - intros (x & X & V). destruct t as [| | |s|l|ys]; try discriminate; injection T as <-.
    + apply in_map_iff in X. destruct X as (c & X & _). discriminate.
    + exists l, x. auto.
    + apply in_map_iff in X. destruct X as (c & X & _). discriminate.
  - intros (l & x & F' & X & V). rewrite F in F'. injection F' as ->. injection T as <-. exists x. auto.
Qed.

Lemma iter_value_default : forall fs k js v,
  iter_json (match field k fs with Some t => t | None => JList [] end) = Ok js -> (value_in js v <-> has_value fs k v).
Proof.
  intros fs k js v T. destruct (field k fs) as [t|] eqn:F; [apply (iter_value fs k t); auto|].
  injection T as <-. unfold has_value, value_in. split; [intros (x & [] & _)|].
  intros (l & x & F' & _). congruence.
Qed.

Definition labelled (fs : list (str * json)) (p o : term) : Prop :=
  (p = rdfs_label \/ p = skos_prefLabel) /\ exists v, has_value fs #"https://www.w3.org/ns/hydra/core#title" v /\ written v None o.
Definition valued (fs : list (str * json)) (k : str) (p o : term) : Prop :=
  p = URI k /\ exists v, has_value fs k v /\ written v None o.

Lemma mentions_split : forall fs p o, mentions fs p o <->
  labelled fs p o \/ valued fs #"https://www.w3.org/ns/hydra/core#totalItems" p o \/
  valued fs #"https://www.w3.org/ns/hydra/core#description" p o \/
  grouped fs #"https://w3id.org/dts/api#dublincore" p o \/ grouped fs #"https://w3id.org/dts/api#extensions" p o.
Proof.
  intros fs p o. unfold labelled, valued, grouped. split.
  - intros X. inversion X as [v o' A B C|v o' A B C|v o' A B C|v o' A B C|group groups rest key js x v o' G F A B C D E]; subst.
    + left. split; [left; reflexivity|]. eauto.
    + left. split; [right; reflexivity|]. eauto.
    + right; left. eauto.
    + right; right; left. eauto.
    + right; right; right. destruct G as [-> | ->]; [left|right]; exists groups, rest, key, js, x, v; auto 10.
  - intros [(A & v & B & C)|[(-> & v & B & C)|[(-> & v & B & C)|[X|X]]]].
    + destruct A as [-> | ->]; [eapply mentions_label|eapply mentions_skos]; eauto.
    + eapply mentions_total; eauto.
    + eapply mentions_description; eauto.
    + destruct X as (groups & rest & key & js & x & v & F & A & B & C & D & ->). eapply mentions_other; [left; reflexivity|..]; eauto.
    + destruct X as (groups & rest & key & js & x & v & F & A & B & C & D & ->). eapply mentions_other; [right; reflexivity|..]; eauto.
Qed.

Lemma key_field : forall fs k t, get_key (JObj fs) k = Ok t -> field k fs = Some t.
Proof. intros fs k t E. unfold get_key in E. destruct (field k fs); [injection E as ->; reflexivity|discriminate]. Qed.

Definition nothing : term -> term -> Prop := fun _ _ => False.

Lemma cite_structure_learned : forall h i s w w' r,
  (if jtruthy s then c <-- lift (set_ingest 0 s) ;; change h (fun o => MkDobj (d_id o) c None (d_known o)) else ret tt) w = (w', r) ->
  learned i h w w' nothing (ok r).
Proof.
  intros h i s w w' r E. destruct (jtruthy s).
  - eapply lift_learned; [exact E|]. intros c _ E1. eapply change_learned; [|exact E1]. cbn; auto.
  - injection E as <- <-. apply learned_same. unfold nothing; auto.
Qed.

Lemma cite_depth_learned : forall h i s w w' r,
  (if jtruthy s then v <-- lift (first_at_value s) ;; change h (fun o => MkDobj (d_id o) (d_cite o) (Some v) (d_known o)) else ret tt) w = (w', r) ->
  learned i h w w' nothing (ok r).
Proof.
  intros h i s w w' r E. destruct (jtruthy s).
  - eapply lift_learned; [exact E|]. intros c _ E1. eapply change_learned; [|exact E1]. cbn; auto.
  - injection E as <- <-. apply learned_same. unfold nothing; auto.
Qed.

Definition later_on (fs : list (str * json)) : term -> term -> Prop := fun p o =>
  valued fs #"https://www.w3.org/ns/hydra/core#totalItems" p o \/
  valued fs #"https://www.w3.org/ns/hydra/core#description" p o \/
  grouped fs #"https://w3id.org/dts/api#dublincore" p o \/ grouped fs #"https://w3id.org/dts/api#extensions" p o.

Lemma read_learned : forall h i fs w w' r, d_id (obj w h) = i -> read_metadata h (JObj fs) w = (w', r) ->
  learned i h w w' (mentions fs) (ok r).
Proof.
  intros h i fs w w' r I E. unfold read_metadata in E.
  eapply lift_learned; [exact E|clear E; cbn beta; intros t F E]. apply key_field in F.
  eapply lift_learned; [exact E|clear E; cbn beta; intros js T E].
  eapply (then_learned _ _ i h w w' r (labelled fs) (later_on fs));
    [exact I|exact E| | |apply mentions_split]; clear E.
  { intros w1 r1 E. apply (labels_grows h i) in E; [|exact I]. apply (grows_learned i h) in E. eapply learned_iff; [exact E|].
    intros p o. unfold labelled. split; intros (A & v & B & C); (split; [exact A|]; exists v; split; [|exact C]);
      apply (iter_value fs _ t js v F T) in B; exact B. }
  cbn beta. intros _ w1 _ I1 E. clear t F js T. clear w I. rename w1 into w, I1 into I.
  eapply lift_learned; [exact E|clear E; cbn beta; intros t F E].
  eapply lift_learned; [exact E|clear E; cbn beta; intros js T E].
  eapply (then_learned _ _ i h w w' r nothing (later_on fs) (later_on fs)); [exact I|exact E| | |unfold nothing; intros p o; cbn beta; tauto]; clear E.
  { intros w1 r1 E. apply (types_spec h i) in E; [|exact I]. apply E. }
  cbn beta. intros _ w1 _ I1 E. clear t F js T. clear w I. rename w1 into w, I1 into I.
  eapply lift_learned; [exact E|clear E; cbn beta; intros s _ E].
  eapply (then_learned _ _ i h w w' r nothing (later_on fs) (later_on fs)); [exact I|exact E|intros w1 r1; apply cite_structure_learned| |unfold nothing; intros p o; cbn beta; tauto]; clear E.
  cbn beta. intros _ w1 _ I1 E. clear s. clear w I. rename w1 into w, I1 into I.
  eapply lift_learned; [exact E|clear E; cbn beta; intros s _ E].
  eapply (then_learned _ _ i h w w' r nothing (later_on fs) (later_on fs)); [exact I|exact E|intros w1 r1; apply cite_depth_learned| |unfold nothing; intros p o; cbn beta; tauto]; clear E.
  cbn beta. intros _ w1 _ I1 E. clear s. clear w I. rename w1 into w, I1 into I.
  eapply lift_learned; [exact E|clear E; cbn beta; intros t F E]. apply key_field in F.
  eapply lift_learned; [exact E|clear E; cbn beta; intros js T E].
  eapply (then_learned _ _ i h w w' r (valued fs #"https://www.w3.org/ns/hydra/core#totalItems") (fun p o => valued fs #"https://www.w3.org/ns/hydra/core#description" p o \/ grouped fs #"https://w3id.org/dts/api#dublincore" p o \/ grouped fs #"https://w3id.org/dts/api#extensions" p o)); [exact I|exact E| | |intros p o; reflexivity]; clear E.
  { intros w1 r1 E. apply (add_values_grows h i) in E; [|exact I]. apply (grows_learned i h) in E. eapply learned_iff; [exact E|].
    intros p o. unfold valued. split; intros (A & v & B & C); (split; [exact A|]; exists v; split; [|exact C]);
      apply (iter_value fs _ t js v F T) in B; exact B. }
  cbn beta. intros _ w1 _ I1 E. clear t F js T. clear w I. rename w1 into w, I1 into I.
  eapply lift_learned; [exact E|clear E; cbn beta; intros t F E]. rewrite jget_obj in F. injection F as <-.
  eapply lift_learned; [exact E|clear E; cbn beta; intros js T E].
  eapply (then_learned _ _ i h w w' r (valued fs #"https://www.w3.org/ns/hydra/core#description") (fun p o => grouped fs #"https://w3id.org/dts/api#dublincore" p o \/ grouped fs #"https://w3id.org/dts/api#extensions" p o)); [exact I|exact E| | |intros p o; reflexivity]; clear E.
  { intros w1 r1 E. apply (add_values_grows h i) in E; [|exact I]. apply (grows_learned i h) in E. eapply learned_iff; [exact E|].
    intros p o. unfold valued. split; intros (A & v & B & C); (split; [exact A|]; exists v; split; [|exact C]);
      apply (iter_value_default fs _ js v T) in B; exact B. }
  cbn beta. intros _ w1 _ I1 E. clear js T. clear w I. rename w1 into w, I1 into I.
  eapply (then_learned _ _ i h w w' r _ _); [exact I|exact E| | |intros p o; reflexivity]; clear E.
  { intros w1 r1 E. apply (read_group_grows h i) in E; [|exact I]. apply (grows_learned i h) in E. exact E. }
  cbn beta. intros _ w1 _ I1 E. apply (read_group_grows h i) in E; [|exact I1]. apply (grows_learned i h) in E. exact E.
Qed.

Lemma then_ok : forall {A B} (m : act A) (k : A -> act B) w w' b, andthen m k w = (w', Ok b) ->
  exists a w1, m w = (w1, Ok a) /\ k a w1 = (w', Ok b).
Proof. intros A B m k w w' b E. unfold andthen in E. destruct (m w) as [w1 [a|e]]; [eauto|discriminate]. Qed.

Lemma lift_ok : forall {A B} (r : result A) (k : A -> act B) w w' b, andthen (lift r) k w = (w', Ok b) ->
  exists a, r = Ok a /\ k a w = (w', Ok b).
Proof. intros A B r k w w' b E. unfold andthen, lift in E. destruct r as [a|e]; [eauto|discriminate]. Qed.

Lemma grows_at : forall i w w' P p o, grows i w w' P True -> (In (URI i, p, o) (w_graph w') <-> In (URI i, p, o) (w_graph w) \/ P p o).
Proof.
  intros i w w' P p o (A1 & A2 & A3 & A4 & A5). split.
  - intros X. destruct (A4 _ _ _ X) as [Y|[_ Y]]; auto.
  - intros [X|X]; [apply A3; exact X|apply A5; auto].
Qed.

Lemma cite_structure_spec : forall h s w w' u,
  (if jtruthy s then c <-- lift (set_ingest 0 s) ;; change h (fun o => MkDobj (d_id o) c None (d_known o)) else ret tt) w = (w', Ok u) ->
  w_graph w' = w_graph w /\ length (w_objs w') = length (w_objs w) /\
  (jtruthy s = false -> obj w' h = obj w h) /\
  (jtruthy s = true -> h < length (w_objs w) -> exists c, set_ingest 0 s = Ok c /\ d_cite (obj w' h) = c /\ d_depth (obj w' h) = None).
Proof.
  intros h s w w' u E. destruct (jtruthy s).
  - apply lift_ok in E. destruct E as (c & C & E). destruct (nth_change _ h h _ _ _ E) as (G & _ & L & _ & _ & A & _).
    split; [exact G|]. split; [exact L|]. split; [discriminate|]. intros _ H. exists c. rewrite (A H). auto.
  - injection E as <- <-. repeat split; auto. discriminate.
Qed.

Lemma cite_depth_spec : forall h s w w' u,
  (if jtruthy s then v <-- lift (first_at_value s) ;; change h (fun o => MkDobj (d_id o) (d_cite o) (Some v) (d_known o)) else ret tt) w = (w', Ok u) ->
  w_graph w' = w_graph w /\ length (w_objs w') = length (w_objs w) /\
  (jtruthy s = false -> obj w' h = obj w h) /\
  (jtruthy s = true -> h < length (w_objs w) -> exists v, first_at_value s = Ok v /\ d_cite (obj w' h) = d_cite (obj w h) /\ d_depth (obj w' h) = Some v).
Proof.
  intros h s w w' u E. destruct (jtruthy s).
  - apply lift_ok in E. destruct E as (c & C & E). destruct (nth_change _ h h _ _ _ E) as (G & _ & L & _ & _ & A & _).
    split; [exact G|]. split; [exact L|]. split; [discriminate|]. intros _ H. exists c. rewrite (A H). auto.
  - injection E as <- <-. repeat split; auto. discriminate.
Qed.

Lemma grows_obj : forall i w w' P d h, grows i w w' P d -> obj w' h = obj w h /\ length (w_objs w') = length (w_objs w).
Proof. intros i w w' P d h (A & _). unfold obj. rewrite A. auto. Qed.

Lemma type_not : forall k, k = #"https://www.w3.org/ns/hydra/core#totalItems" \/ k = #"https://www.w3.org/ns/hydra/core#description" ->
  rdf_type <> URI k.
Proof. intros k [-> | ->]; vm_compute; discriminate. Qed.
Lemma type_not_label : rdf_type <> rdfs_label /\ rdf_type <> skos_prefLabel.
Proof. split; vm_compute; discriminate. Qed.

Lemma Ok_inj : forall {A} (a b : A), Ok a = Ok b -> a = b.
Proof. intros A a b E. congruence. Qed.

Lemma read_more : forall h i fs w w' u, d_id (obj w h) = i -> read_metadata h (JObj fs) w = (w', Ok u) ->
  (forall ts o, typed fs ts -> (In (URI i, rdf_type, o) (w_graph w') <->
     match ts with [] => In (URI i, rdf_type, o) (w_graph w) | _ => o = URI (last ts []) end \/ mentions fs rdf_type o)) /\
  (h < length (w_objs w) -> cites fs (d_cite (obj w h)) (d_cite (obj w' h)) (d_depth (obj w h)) (d_depth (obj w' h))).
Proof.
  intros h i fs w w' u I E. unfold read_metadata in E.
  apply lift_ok in E. destruct E as (t & _ & E). apply lift_ok in E. destruct E as (js & _ & E).
  apply then_ok in E. destruct E as (u0 & w1 & E1 & E). apply (labels_grows h i) in E1; [|exact I]. cbn [ok] in E1.
  destruct (grows_obj _ _ _ _ _ h E1) as [O1 L1].
  apply lift_ok in E. destruct E as (t2 & F2 & E). apply key_field in F2. apply lift_ok in E. destruct E as (js2 & T2 & E).
  apply then_ok in E. destruct E as (u2 & w2 & E2 & E). apply (types_spec h i) in E2; [|rewrite O1; exact I].
  destruct E2 as (_ & O2 & E2). specialize (E2 Logic.I).
  assert (O2' : obj w2 h = obj w1 h) by (unfold obj; rewrite O2; reflexivity).
  apply lift_ok in E. destruct E as (s3 & F3 & E). rewrite jget_obj in F3. apply then_ok in E. destruct E as (u3 & w3 & E3 & E).
  pose proof (cite_structure_learned h i _ _ _ _ E3) as K3. apply cite_structure_spec in E3. destruct E3 as (G3 & L3 & N3 & C3).
  assert (I3 : d_id (obj w3 h) = i) by (rewrite (learned_id _ _ _ _ _ _ h K3), O2', O1; exact I).
  apply lift_ok in E. destruct E as (s4 & F4 & E). rewrite jget_obj in F4. apply then_ok in E. destruct E as (u4 & w4 & E4 & E).
  pose proof (cite_depth_learned h i _ _ _ _ E4) as K4. apply cite_depth_spec in E4. destruct E4 as (G4 & L4 & N4 & C4).
  assert (I4 : d_id (obj w4 h) = i) by (rewrite (learned_id _ _ _ _ _ _ h K4); exact I3).
  apply lift_ok in E. destruct E as (t5 & _ & E). apply lift_ok in E. destruct E as (js5 & _ & E).
  apply then_ok in E. destruct E as (u5 & w5 & E5 & E). apply (add_values_grows h i) in E5; [|exact I4]. cbn [ok] in E5.
  destruct (grows_obj _ _ _ _ _ h E5) as [O5 L5].
  apply lift_ok in E. destruct E as (t6 & _ & E). apply lift_ok in E. destruct E as (js6 & _ & E).
  apply then_ok in E. destruct E as (u6 & w6 & E6 & E). apply (add_values_grows h i) in E6; [|rewrite O5; exact I4]. cbn [ok] in E6.
  destruct (grows_obj _ _ _ _ _ h E6) as [O6 L6].
  apply then_ok in E. destruct E as (u7 & w7 & E7 & E). apply (read_group_grows h i) in E7; [|rewrite O6, O5; exact I4]. cbn [ok] in E7.
  destruct (grows_obj _ _ _ _ _ h E7) as [O7 L7].
  apply (read_group_grows h i) in E; [|rewrite O7, O6, O5; exact I4]. cbn [ok] in E.
  destruct (grows_obj _ _ _ _ _ h E) as [O8 L8].
  split.
  - intros ts o T. unfold typed in T. rewrite F2 in T. injection T as ->. injection T2 as <-. specialize (E2 ts eq_refl o).
    rewrite (grows_at _ _ _ _ _ _ E), (grows_at _ _ _ _ _ _ E7), (grows_at _ _ _ _ _ _ E6), (grows_at _ _ _ _ _ _ E5), G4, G3, E2, mentions_split.
    destruct type_not_label as [NL1 NL2].
    pose proof (type_not _ (or_introl eq_refl)) as NT. pose proof (type_not _ (or_intror eq_refl)) as ND.
    unfold labelled, valued.
    assert (H : match ts with [] => In (URI i, rdf_type, o) (w_graph w1) | _ => o = URI (last ts []) end <->
                match ts with [] => In (URI i, rdf_type, o) (w_graph w) | _ => o = URI (last ts []) end).
    { destruct ts; [|reflexivity]. rewrite (grows_at _ _ _ _ _ _ E1). split; [|auto]. intros [X|[[X|X] _]]; [exact X|contradiction|contradiction]. }
    rewrite H. split.
    + intros [[[[X|[X _]]|[X _]]|X]|X]; auto; [elim (NT X)|elim (ND X)|..]; right; right; right; right; auto.
    + intros [X|[[[X|X] _]|[[X _]|[[X _]|[X|X]]]]]; auto; contradiction.
  - intros H. rewrite O8, O7, O6, O5, <- O1, <- O2'. unfold cites, absent.
    assert (H2 : h < length (w_objs w2)) by (rewrite O2, L1; exact H).
    assert (H3 : h < length (w_objs w3)) by (rewrite L3; exact H2).
    specialize (fun J => C3 J H2). specialize (fun J => C4 J H3).
    apply Ok_inj in F3, F4.
    change (dts_term #"citeStructure") with (#"https://w3id.org/dts/api#citeStructure") in F3.
    change (dts_term #"citeDepth") with (#"https://w3id.org/dts/api#citeDepth") in F4.
    assert (D : forall P : option json -> Prop, (jtruthy s4 = false -> P (d_depth (obj w3 h))) ->
       (forall v, jtruthy s4 = true -> first_at_value s4 = Ok v -> P (Some v)) -> P (d_depth (obj w4 h))).
    { intros P A B. destruct (jtruthy s4); [|rewrite N4; auto]. destruct C4 as (v & V & _ & ->); auto. }
    assert (C : d_cite (obj w4 h) = d_cite (obj w3 h)).
    { destruct (jtruthy s4); [|rewrite N4; auto]. destruct C4 as (v & V & X & _); auto. }
    assert (Z : (field #"https://w3id.org/dts/api#citeDepth" fs = None \/ field #"https://w3id.org/dts/api#citeDepth" fs = Some (JList [])) -> jtruthy s4 = false).
    { intros X. rewrite <- F4. destruct X as [-> | ->]; reflexivity. }
    split; [|split].
    + intros X. assert (J : jtruthy s3 = false).
      { rewrite <- F3. destruct X as [-> | ->]; reflexivity. }
      rewrite C, (N3 J). split; [reflexivity|]. intros Y. rewrite (N4 (Z Y)), (N3 J). reflexivity.
    + intros x l X. assert (J : s3 = JList (x :: l)).
      { rewrite <- F3. rewrite X. reflexivity. }
      rewrite J in C3. destruct (C3 eq_refl) as (c & A1 & A2 & A3). rewrite C, A2. split; [exact A1|].
      intros Y. rewrite (N4 (Z Y)). exact A3.
    + intros x l v X V. assert (J : s4 = JList (JObj x :: l)).
      { rewrite <- F4. rewrite X. reflexivity. }
      rewrite J in C4. destruct (C4 eq_refl) as (v' & A1 & _ & A3). rewrite A3. unfold first_at_value, get_first, bind, get_key in A1. rewrite V in A1. congruence.
Qed.
