(** Property C74: walking through a local text.

    [session scheme same (opened x u) h] opens the text [x] and asks the questions
    [h], each of an object that the session has made so far; objects remember what
    they have answered.  WalkSpec.v says what is answered. *)

From Coq Require Import List NArith ZArith Arith Bool Lia Sorted.
From Verif Require Import PyStr PyStrFacts RefModel UrnModel UrnSpec XmlModel XmlSpec XPathModel TemplateSpec.
From Verif Require Import PassageModel PassageSpec PassageWords PassageCheck Props_Passage.
From Verif Require Import PassageProofs PassageApi WalkModel WalkSpec WalkLists WalkProofs.
Import ListNotations.

(** What objects remember never changes an answer, for any text and any questions. *)
Theorem C74_memory : forall scheme same x u h,
  snd (session scheme same (opened x u) h) = snd (forgetting_session scheme same (opened x u) h).
Proof. intros scheme same x u h. apply session_forgotten; [apply opened_sound|reflexivity]. Qed.
Print Assumptions C74_memory.

(** In a text with clear references, every question of every session is answered as
    the document says, and every passage holds what its reference names. *)
Theorem C74_session : forall levels x same u h, clear_text levels x (length levels) -> proper_root levels x -> good_urn u ->
  Forall (fun e => askable (snd e)) h ->
  exists pls, replies levels x [Whole] h (snd (session (write_scheme levels) same (opened x u) h)) pls /\
    Forall2 (holds levels x) pls (map v_thing (fst (session (write_scheme levels) same (opened x u) h))).
Proof. intros levels x same u h Hc Hr Hu Hh. apply session_opened; assumption. Qed.
Print Assumptions C74_session.

(** What is answered is determined by where the object stands. *)
Theorem C74_determined : forall levels x pl n q a a' new new', clear_text levels x (length levels) ->
  match pl with Whole | Above _ => True | Rebuilt c | Light c => 0 < length c <= length levels | Beside _ _ => True | Lost => False end -> askable q ->
  reply levels x pl n q a new -> reply levels x pl n q a' new' -> a = a' /\ new = new'.
Proof.
  intros levels x pl n q a a' new new' Hc Hp Hq H H'. assert (D : (exists d c, pl = Beside d c) \/ forall d c, pl <> Beside d c) by (destruct pl; eauto; right; discriminate).
  destruct D as [(d & c & ->)|D]; [exact (beside_unique levels x Hc d c n q a a' new new' Hq H H')|].
  revert Hq H H'. apply reply_unique; [exact Hc|]. destruct pl; try exact Hp. exact (D _ _ eq_refl).
Qed.
Print Assumptions C74_determined.

(** reffs: all references of all levels, each once, and each can be read. *)
Theorem C74_reffs : forall levels x same u l, clear_text levels x (length levels) -> good_urn u ->
  all_reffs (write_scheme levels) same (OText x u) = Ok l ->
  NoDup l /\
  (forall o, In o l <-> exists c p, o = Some (reference_to c) /\ 1 <= length c <= length levels /\ cites levels x c p) /\
  forall r, In (Some r) l -> exists c R v, r = reference_to c /\
    get_node (write_scheme levels) same (OText x u) r = Ok (OPass r R (OText x u) v) /\ rebuilt_content levels x c R.
Proof. intros levels x same u l Hc. apply all_complete. exact Hc. Qed.
Print Assumptions C74_reffs.

Example C74_meets : clear_text poem_scheme poems (length poem_scheme) /\ proper_root poem_scheme poems /\ good_urn poem_urn /\ poem_urn <> None.
Proof.
  split; [apply poems_clear; cbn; lia|]. split; [|apply C22_listed_example].
  intros s rest comps Hc E. destruct comps as [|c comps]; [congruence|]. cbn in E. injection E as <- _. split; [intros t [= <-]; reflexivity|intros g t []].
Qed.

(** A session: the text, its last child, the first child of that, its neighbours
    twice, a simple passage and its next one, all references. *)
Definition a_session : list (nat * question) :=
  [(0, QChildIds); (0, QLast); (1, QFirst); (2, QSiblingsId); (2, QSiblingsId); (2, QChildIds); (1, QChildren);
   (0, QNode (reference_to [#"1"; #"3"]) true); (5, QNext); (6, QPrevId); (0, QAll); (6, QNode (reference_to [#"3"]) false); (9, QFirst)].
Definition r_of (s : str) : option ref := Some (MkRef s None s).
Example C74_sample :
  snd (session (write_scheme poem_scheme) identity_only (opened poems poem_urn) a_session) =
  [Ok (ARefs [r_of #"1"; r_of #"2"]); Ok (AObject (Some 1)); Ok (AObject (Some 2));
   Ok (APair (r_of #"1.3", r_of #"2.2a")); Ok (APair (r_of #"1.3", r_of #"2.2a")); Ok (ARefs []);
   Ok (AObjects [3; 4]); Ok (AObject (Some 5)); Ok (AObject (Some 6)); Ok (ARef (r_of #"1.3"));
   Ok (ARefs [r_of #"1"; r_of #"2"; r_of #"1.1"; r_of #"1.2"; r_of #"1.3"; r_of #"2.1"; r_of #"2.2a"]);
   Err IndexError; Err AttributeError] /\
  Forall (fun e => askable (snd e)) a_session.
Proof.
  split; [vm_compute; reflexivity|].
  assert (G : forall v, check_id v = true -> good_id v) by (intros v; apply check_id_good).
  repeat constructor; cbn [snd askable]; try exact I.
  - exists [#"1"; #"3"]. split; [reflexivity|]. split; [|discriminate]. repeat constructor; apply G; reflexivity.
  - exists [#"3"]. split; [reflexivity|]. split; [|discriminate]. repeat constructor; apply G; reflexivity.
Qed.

(** What is next to a passage, and a question about it. *)
Lemma got_beside : forall levels x same u c a b r, clear_text levels x (length levels) -> proper_root levels x -> good_urn u ->
  Forall good_id c -> c <> [] -> In a [QNext; QPrev] -> askable b ->
  snd (session (write_scheme levels) same (opened x u) [(0, QNode (reference_to c) false); (1, a); (2, b)]) =
    [Ok (AObject (Some 1)); Ok (AObject (Some 2)); r] ->
  0 < length c <= length levels /\ exists d new, length d = length c /\ reply levels x (Beside c d) 3 b r new.
Proof.
  intros levels x same u c a b r Hc Hr Hu Gc Nc Ha Qb E.
  assert (Q : askable (QNode (reference_to c) false)) by (exists c; auto).
  assert (Qa : askable a) by (destruct Ha as [<-|[<-|[]]]; exact I).
  destruct (C74_session levels x same u [(0, QNode (reference_to c) false); (1, a); (2, b)] Hc Hr Hu
    ltac:(repeat constructor; assumption)) as (pls & R & _).
  rewrite E in R. clear E Q Qa Qb. pose proof (good_plain c Gc) as Pc.
  inversion R as [|? ? pl ? ? ? new1 ? ? E1 R1 T1|? ? ? ? ? ? ? ? (e & X)]; subst; [|discriminate X]. injection E1 as <-. clear R.
  destruct R1 as (c1 & (N1 & P1) & E1 & R1). apply reference_to_inj in E1; try assumption. subst c1.
  assert (N : new1 = [Rebuilt c]).
  { destruct (length levels <? length c); [destruct R1 as (X & _); discriminate X|]. destruct R1 as [(_ & _ & X)|(_ & X & _)]; [exact X|discriminate X]. }
  assert (Lc : 0 < length c <= length levels).
  { destruct (Nat.ltb_spec (length levels) (length c)) as [L|L]; [destruct R1 as (X & _); discriminate X|]. destruct c; [congruence|cbn in *; lia]. }
  split; [exact Lc|].
  clear R1. subst new1. cbn [app length] in T1.
  inversion T1 as [|? ? pl ? ? ? new2 ? ? E2 R2 T2|? ? ? ? ? ? ? ? (e & X)]; subst; [|discriminate X]. injection E2 as <-. clear T1.
  assert (M : exists d, new2 = [Beside c d] /\ length d = length c).
  { assert (G : forall l i o d, listing levels x [] (length c) l -> at_index l i = o -> o = Some (reference_to d) -> named d -> length d = length c).
    { intros l i o d (HL & H0) X Y (Nd & Pd). unfold at_index in X. destruct (nth_error l i) as [o'|] eqn:F; [|congruence]. subst o' o.
      apply nth_error_In in F. destruct (listing_cited levels x Hc [] (length c) l _ (conj HL H0) Lc F) as (c' & F' & Lc' & Cc'). injection F' as F'.
      apply cited_named in Cc'. destruct Cc' as (Nc' & Pc').
      assert (X : d = c') by (apply reference_to_inj; try assumption; unfold reference_to; rewrite F'; reflexivity). subst c'. exact Lc'. }
    destruct Ha as [<-|[<-|[]]]; destruct R2 as (rr & (l & i & HL & _ & ->) & O); cbn [fst snd] in O.
    - destruct (at_index l (S i)) as [r'|] eqn:F; cbn [object_of] in O; [|destruct O as (O & _); discriminate O].
      destruct O as (d & Nd & -> & _ & ->). exists d. split; [reflexivity|]. exact (G l (S i) _ d HL F eq_refl Nd).
    - destruct (match i with 0 => None | S j => at_index l j end) as [r'|] eqn:F; cbn [object_of] in O; [|destruct O as (O & _); discriminate O].
      destruct O as (d & Nd & -> & _ & ->). exists d. split; [reflexivity|]. destruct i as [|j]; [discriminate F|]. exact (G l j _ d HL F eq_refl Nd). }
  destruct M as (d & -> & Ld). clear R2 Ha. cbn [app length] in T2.
  inversion T2 as [|? ? pl ? ? ? new3 ? ? E3 R3 T3|? ? ? ? ? ? ? X]; subst; [|discriminate X]. injection E3 as <-. clear T2 T3.
  exists d, new3. split; [exact Ld|exact R3].
Qed.

(** Finding: walking on stops after one step.  Whatever is next to a passage, forwards or
    backwards, does not tell what is next to itself, in any text: the error says whether
    the passage it was got from has children. *)
Theorem C74_beside_refuted : forall levels x same u c a b r, clear_text levels x (length levels) -> proper_root levels x -> good_urn u ->
  Forall good_id c -> c <> [] -> In a [QNext; QPrev] -> In b [QNext; QPrev; QNextId; QPrevId; QSiblingsId] ->
  snd (session (write_scheme levels) same (opened x u) [(0, QNode (reference_to c) false); (1, a); (2, b)]) =
    [Ok (AObject (Some 1)); Ok (AObject (Some 2)); r] ->
  if length levels <=? length c then r = Err CitationDepthError else
  (exists e p, length e = S (length c) /\ begins c e /\ cites levels x e p) /\ r = Err ValueError \/
  (forall e p, length e = S (length c) -> begins c e -> ~ cites levels x e p) /\ r = Err KeyError.
Proof.
  intros levels x same u c a b r Hc Hr Hu Gc Nc Ha Hb E.
  assert (Qb : askable b) by (destruct Hb as [<-|[<-|[<-|[<-|[<-|[]]]]]]; exact I).
  destruct (got_beside levels x same u c a b r Hc Hr Hu Gc Nc Ha Qb E) as (_ & d & new & Ld & _ & R). rewrite Ld in R.
  destruct Hb as [<-|[<-|[<-|[<-|[<-|[]]]]]]; exact (proj2 R).
Qed.
Print Assumptions C74_beside_refuted.

(** Finding: nor does it know its own children.  Above the last level they are refused
    with a KeyError, whatever the text holds. *)
Theorem C74_beside_children_refuted : forall levels x same u c a b r, clear_text levels x (length levels) -> proper_root levels x -> good_urn u ->
  Forall good_id c -> c <> [] -> length c < length levels -> In a [QNext; QPrev] ->
  In b [QChildIds; QFirstId; QLastId; QFirst; QLast; QChildren] ->
  snd (session (write_scheme levels) same (opened x u) [(0, QNode (reference_to c) false); (1, a); (2, b)]) =
    [Ok (AObject (Some 1)); Ok (AObject (Some 2)); r] ->
  r = Err KeyError.
Proof.
  intros levels x same u c a b r Hc Hr Hu Gc Nc L Ha Hb E.
  assert (Qb : askable b) by (destruct Hb as [<-|[<-|[<-|[<-|[<-|[<-|[]]]]]]]; exact I).
  destruct (got_beside levels x same u c a b r Hc Hr Hu Gc Nc Ha Qb E) as (_ & d & new & Ld & _ & R). rewrite Ld in R.
  replace (length levels <=? length c) with false in R by (symmetry; apply Nat.leb_gt; exact L).
  destruct Hb as [<-|[<-|[<-|[<-|[<-|[<-|[]]]]]]]; exact (proj2 R).
Qed.
Print Assumptions C74_beside_children_refuted.

(** Finding: what it can read is what contains the passage it was got from, and what that
    one contains; not what it contains itself, nor itself. *)
Theorem C74_beside_reads_refuted : forall levels x same u c a e light r, clear_text levels x (length levels) -> proper_root levels x -> good_urn u ->
  Forall good_id c -> c <> [] -> In a [QNext; QPrev] -> Forall good_id e -> e <> [] -> length e <= length levels ->
  snd (session (write_scheme levels) same (opened x u) [(0, QNode (reference_to c) false); (1, a); (2, QNode (reference_to e) light)]) =
    [Ok (AObject (Some 1)); Ok (AObject (Some 2)); r] ->
  (r = Ok (AObject (Some 3)) <-> (exists p, cites levels x e p) /\ (begins e c \/ begins c e)) /\
  (r = Ok (AObject (Some 3)) \/ r = Err IndexError).
Proof.
  intros levels x same u c a e light r Hc Hr Hu Gc Nc Ha Ge Ne Le E.
  assert (Qb : askable (QNode (reference_to e) light)) by (exists e; auto).
  destruct (got_beside levels x same u c a _ r Hc Hr Hu Gc Nc Ha Qb E) as (_ & d & new & Ld & _ & (e' & (Ne' & Pe') & Ee & R)).
  apply reference_to_inj in Ee; try assumption; [|apply good_plain; exact Ge]. subst e'.
  replace (length levels <? length e) with false in R by (symmetry; apply Nat.ltb_ge; exact Le).
  destruct R as [(Y & -> & _)|(N & -> & _)]; (split; [|auto]); (split; [intros X|intros X]); try reflexivity; try exact Y; [discriminate X|contradiction].
Qed.
Print Assumptions C74_beside_reads_refuted.

Example C74_beside_example :
  snd (session (write_scheme poem_scheme) identity_only (opened poems poem_urn)
    [(0, QNode (reference_to [#"1"; #"3"]) false); (1, QPrev); (2, QNext); (0, QNode (reference_to [#"1"]) false); (3, QNext); (4, QPrevId)]) =
  [Ok (AObject (Some 1)); Ok (AObject (Some 2)); Err CitationDepthError; Ok (AObject (Some 3)); Ok (AObject (Some 4)); Err ValueError].
Proof. vm_compute. reflexivity. Qed.

Example C74_beside_children_example :
  snd (session (write_scheme poem_scheme) identity_only (opened poems poem_urn)
    [(0, QNode (reference_to [#"1"]) false); (1, QNext); (2, QChildIds); (2, QFirst); (2, QNode (reference_to [#"1"; #"1"]) false);
     (2, QNode (reference_to [#"2"; #"1"]) false); (2, QNode (reference_to [#"2"]) false); (2, QReffs 1 None);
     (2, QReffs 2 (Some (reference_to [#"1"]))); (2, QReffs 2 (Some (reference_to [#"2"])))]) =
  [Ok (AObject (Some 1)); Ok (AObject (Some 2)); Err KeyError; Err KeyError; Ok (AObject (Some 3)); Err IndexError; Err IndexError; Err KeyError;
   Ok (ARefs [r_of #"1.1"; r_of #"1.2"; r_of #"1.3"]); Err KeyError].
Proof. vm_compute. reflexivity. Qed.

(** Finding: parent does not lead upwards.  The parent of any passage has no reference,
    and holds what the passage holds when it was rebuilt; its children are those of the
    whole text, it has no neighbours, and its own parent is the whole text. *)
Theorem C74_parent_refuted : forall levels x same u c l, clear_text levels x (length levels) -> good_urn u ->
  Forall good_id c -> c <> [] -> length c <= length levels -> (exists p, cites levels x c p) ->
  session (write_scheme levels) same (opened x u)
    [(0, QNode (reference_to c) false); (1, QParent); (2, QChildIds); (2, QSiblingsId); (2, QParent); (0, QChildIds)] = l ->
  exists r whole R v v1 v2 m3,
    snd l = [Ok (AObject (Some 1)); Ok (AObject (Some 2)); shaped ARefs r; Err AttributeError; Ok (AObject (Some 3)); shaped ARefs r] /\
    told_level levels x [] 1 r /\
    map v_thing (fst l) = [whole; TFull (OPass (reference_to c) R (OText x u) v); TSimple (MkSimple None R [0] (OText x u) v1); m3] /\
    rebuilt_content levels x c R /\ m3 = TSimple (MkSimple None x [0] (OText x u) v2).
Proof.
  intros levels x same u c l Hc Hu Gc Nc Lc [p Hp] <-. set (h := [_; _; _; _; _; _]).
  assert (Cc : cited levels x c) by (repeat split; eauto).
  destruct (thing_node_read levels x same u Hc Hu Whole (TFull (OText x u)) c eq_refl I Cc) as (t' & E & St).
  destruct t' as [o|s]; [|destruct St]. destruct St as (_ & R & v & -> & _ & HR).
  assert (D0 : does (write_scheme levels) same [TFull (OText x u)] (w_ask (write_scheme levels) same 0 (QNode (reference_to c) false)) (Ok (AObject (Some 1)))
    [TFull (OPass (reference_to c) R (OText x u) v)]).
  { pose proof (does_node (write_scheme levels) same [TFull (OText x u)] 0 _ (reference_to c) false eq_refl) as D. rewrite E in D.
    exact (does_as levels same _ _ _ (fun n => AObject (Some n)) _ _ D). }
  assert (S0 : Forall (sound (write_scheme levels) same) (opened x u)) by (apply opened_sound).
  destruct (D0 (opened x u) eq_refl S0) as (m1 & E1 & T1 & S1). cbn [app] in T1.
  assert (Up : forall ts i t, nth_error ts i = Some t -> does (write_scheme levels) same ts (w_ask (write_scheme levels) same i QParent) (Ok (AObject (Some (length ts)))) [TSimple (whole_thing t)]).
  { intros ts i t Ht. apply (does_as levels same _ _ _ (fun n => AObject (Some n)) (Ok (length ts))). unfold w_parent.
    apply (does_look_thing _ _ _ _ i t (fun t => w_make (TSimple (whole_thing t))) _ _ Ht). apply does_make. }
  assert (Kids : forall ts i t, nth_error ts i = Some t -> does (write_scheme levels) same ts (w_ask (write_scheme levels) same i QChildIds) (shaped ARefs (pure_children (write_scheme levels) same t)) []).
  { intros ts i t Ht. apply (does_as levels same). apply does_children. exact Ht. }
  assert (Sib : forall ts i t, nth_error ts i = Some t -> does (write_scheme levels) same ts (w_ask (write_scheme levels) same i QSiblingsId) (shaped APair (pure_siblings (write_scheme levels) same t)) []).
  { intros ts i t Ht. apply (does_as levels same). apply does_siblings. exact Ht. }
  set (t0 := TFull (OText x u)) in *. set (t1 := TFull (OPass (reference_to c) R (OText x u) v)) in *. set (t2 := TSimple (whole_thing t1)).
  destruct (Up [t0; t1] 1 t1 eq_refl m1 T1 S1) as (m2 & E2 & T2 & S2). cbn [app length] in T2, E2. fold t2 in T2.
  destruct (Kids [t0; t1; t2] 2 t2 eq_refl m2 T2 S2) as (m3 & E3 & T3 & S3). cbn [app] in T3.
  destruct (Sib [t0; t1; t2] 2 t2 eq_refl m3 T3 S3) as (m4 & E4 & T4 & S4). cbn [app] in T4.
  destruct (Up [t0; t1; t2] 2 t2 eq_refl m4 T4 S4) as (m5 & E5 & T5 & S5). cbn [app length] in T5, E5.
  destruct (Kids [t0; t1; t2; TSimple (whole_thing t2)] 0 t0 eq_refl m5 T5 S5) as (m6 & E6 & T6 & S6). cbn [app] in T6.
  assert (A2 : stands levels x u (Above (Some c)) t2) by (exists R, v; auto).
  pose proof (pure_children_told levels x same u Hc (Above (Some c)) t2 A2 I) as K2.
  pose proof (pure_children_told levels x same u Hc Whole t0 eq_refl I) as K0.
  pose proof (pure_siblings_told levels x same u Hc (Above (Some c)) t2 A2 I) as B2.
  assert (KK : pure_children (write_scheme levels) same t0 = pure_children (write_scheme levels) same t2) by exact (told_level_unique levels x Hc [] 1 _ _ ltac:(lia) K0 K2).
  rewrite KK in E6. cbn [told_siblings] in B2. rewrite B2 in E4.
  exists (pure_children (write_scheme levels) same t2), t0, R, v, v, u, (TSimple (whole_thing t2)).
  unfold h. cbn [session]. rewrite E1, E2, E3, E4, E5, E6. cbn [fst snd]. split; [reflexivity|]. split; [exact K2|]. split; [exact T6|]. split; [exact HR|reflexivity].
Qed.
Print Assumptions C74_parent_refuted.

Example C74_parent_example :
  snd (session (write_scheme poem_scheme) identity_only (opened poems poem_urn)
    [(0, QNode (reference_to [#"1"; #"3"]) false); (1, QParent); (2, QChildIds); (2, QSiblingsId); (2, QParent); (0, QChildIds);
     (0, QNode (reference_to [#"1"; #"3"]) true); (4, QParent); (5, QFirst); (5, QNode (reference_to [#"1"]) true)]) =
  [Ok (AObject (Some 1)); Ok (AObject (Some 2)); Ok (ARefs [r_of #"1"; r_of #"2"]); Err AttributeError; Ok (AObject (Some 3)); Ok (ARefs [r_of #"1"; r_of #"2"]);
   Ok (AObject (Some 4)); Ok (AObject (Some 5)); Ok (AObject (Some 6)); Err TypeError].
Proof. vm_compute. reflexivity. Qed.

(** But a simple passage whose reference is assigned anew goes on with the neighbours
    it has answered before. *)
Theorem C74_assigned_refuted : exists m m', 
  session (write_scheme poem_scheme) identity_only (opened poems poem_urn) [(0, QNode (reference_to [#"1"; #"1"]) true); (1, QNextId)] =
    (m, [Ok (AObject (Some 1)); Ok (ARef (Some (reference_to [#"1"; #"2"])))]) /\
  m' = put m 1 (assign_reference (reference_to [#"2"; #"1"])) /\
  snd (session (write_scheme poem_scheme) identity_only m' [(1, QNextId); (0, QNode (reference_to [#"2"; #"1"]) true); (2, QNextId)]) =
    [Ok (ARef (Some (reference_to [#"1"; #"2"]))); Ok (AObject (Some 2)); Ok (ARef (Some (reference_to [#"2"; #"2a"])))].
Proof. eexists; eexists. split; [vm_compute; reflexivity|]. split; [reflexivity|]. vm_compute. reflexivity. Qed.
Print Assumptions C74_assigned_refuted.

(** And the two kinds of passages count the levels of getReffs differently: from the
    text, and from the passage. *)
Theorem C74_levels_refuted :
  snd (session (write_scheme poem_scheme) identity_only (opened poems poem_urn)
    [(0, QNode (reference_to [#"2"]) false); (0, QNode (reference_to [#"2"]) true);
     (1, QReffs 1 None); (2, QReffs 1 None); (1, QReffs 2 None); (2, QReffs 2 None)]) =
  [Ok (AObject (Some 1)); Ok (AObject (Some 2));
   Ok (ARefs [r_of #"2.1"; r_of #"2.2a"]); Ok (ARefs [r_of #"2.1"; r_of #"2.2a"]);
   Ok (ARefs [r_of #"2.1"; r_of #"2.2a"]); Err CitationDepthError].
Proof. vm_compute. reflexivity. Qed.
Print Assumptions C74_levels_refuted.
