(** Proofs about histories of requests: see [DtsMetaProofs]. *)

From Coq Require Import List NArith ZArith Arith Bool Lia Permutation.
From Verif Require Import PyStr PyStrFacts Json TreeModel HttpModel HttpSpec HttpProofs DtsModel MetaModel MetaSpec MetaProofs DtsMetaModel DtsMetaSpec DtsMetaProofs.
Import ListNotations.

Definition plain (p : term) : Prop := p <> rdf_type /\ p <> the_model.

(** What was learned: [T] are the identifiers concerned, [Q] the statements. *)
Definition gained (w w' : world) (T : str -> Prop) (Q : str -> term -> term -> Prop) (done : Prop) : Prop :=
  w_sent w' = w_sent w /\ length (w_objs w) <= length (w_objs w') /\
  (forall k, k < length (w_objs w) -> obj w' k = obj w k) /\
  (forall n p o, (forall i, T i -> n <> URI i) -> (In (n, p, o) (w_graph w') <-> In (n, p, o) (w_graph w))) /\
  (forall n p o, plain p -> In (n, p, o) (w_graph w) -> In (n, p, o) (w_graph w')) /\
  (forall n p o, plain p -> In (n, p, o) (w_graph w') -> In (n, p, o) (w_graph w) \/ exists i, n = URI i /\ Q i p o) /\
  (done -> forall i p o, plain p -> Q i p o -> In (URI i, p, o) (w_graph w')).

Lemma gained_same : forall w (T : str -> Prop) (Q : str -> term -> term -> Prop) (d : Prop), (d -> forall i p o, ~ Q i p o) -> gained w w T Q d.
Proof. intros w T Q d H. repeat split; auto. intros D i p o _ X. elim (H D i p o X). Qed.

Lemma gained_seq : forall w w1 w2 (T1 T2 T : str -> Prop) (Q1 Q2 Q : str -> term -> term -> Prop) (d1 d2 : Prop),
  gained w w1 T1 Q1 d1 -> d1 -> gained w1 w2 T2 Q2 d2 ->
  (forall i, T1 i \/ T2 i -> T i) -> (forall i p o, Q i p o <-> Q1 i p o \/ Q2 i p o) -> gained w w2 T Q d2.
Proof.
  intros w w1 w2 T1 T2 T Q1 Q2 Q d1 d2 (A1 & A2 & A3 & A4 & A5 & A6 & A7) D (B1 & B2 & B3 & B4 & B5 & B6 & B7) HT HQ.
  split; [congruence|]. split; [lia|]. split; [intros k K; rewrite B3, A3; auto; lia|]. split.
  { intros n p o N. rewrite B4, A4; [reflexivity| |]; intros i X; apply N; apply HT; auto. }
  split; [auto|]. split.
  - intros n p o P X. destruct (B6 n p o P X) as [Y|(i & -> & Y)].
    + destruct (A6 n p o P Y) as [Z|(i & -> & Z)]; [auto|right; exists i; split; [reflexivity|apply HQ; auto]].
    + right; exists i; split; [reflexivity|apply HQ; auto].
  - intros D2 i p o P X. apply HQ in X. destruct X as [X|X]; auto.
Qed.

Lemma gained_stop : forall w w1 (T1 T : str -> Prop) (Q1 Q : str -> term -> term -> Prop) (d1 d2 : Prop),
  gained w w1 T1 Q1 d1 -> ~ d2 -> (forall i, T1 i -> T i) -> (forall i p o, Q1 i p o -> Q i p o) -> gained w w1 T Q d2.
Proof.
  intros w w1 T1 T Q1 Q d1 d2 (A1 & A2 & A3 & A4 & A5 & A6 & A7) D HT HQ.
  split; [exact A1|]. split; [exact A2|]. split; [exact A3|]. split; [|split; [exact A5|split]].
  - intros n p o N. apply A4. intros i X. apply N. apply HT. exact X.
  - intros n p o P X. destruct (A6 n p o P X) as [Y|(i & -> & Y)]; [auto|right; exists i; auto].
  - intros X. elim (D X).
Qed.

Lemma gained_iff : forall w w1 (T1 T : str -> Prop) (Q1 Q : str -> term -> term -> Prop) (d : Prop),
  gained w w1 T1 Q1 d -> (forall i, T1 i -> T i) -> (forall i p o, Q1 i p o <-> Q i p o) -> gained w w1 T Q d.
Proof.
  intros w w1 T1 T Q1 Q d (A1 & A2 & A3 & A4 & A5 & A6 & A7) HT HQ.
  split; [exact A1|]. split; [exact A2|]. split; [exact A3|]. split; [|split; [exact A5|split]].
  - intros n p o N. apply A4. intros i X. apply N. apply HT. exact X.
  - intros n p o P X. destruct (A6 n p o P X) as [Y|(i & -> & Y)]; [auto|right; exists i; split; [reflexivity|apply HQ; exact Y]].
  - intros D i p o P X. apply A7; auto. apply HQ; exact X.
Qed.

(** ** A new object, and what is read into it *)

Lemma obj_app : forall w l k, k < length (w_objs w) -> nth k (w_objs w ++ l) nobody = obj w k.
Proof. intros w l k H. unfold obj. apply app_nth1. exact H. Qed.
Lemma three : forall {A B C} (a x : A) (b y : B) (c z : C), (a, b, c) = (x, y, z) -> a = x /\ b = y /\ c = z.
Proof. intros. injection H as <- <- <-. auto. Qed.
Lemma model_not_type : the_model <> rdf_type.
Proof. vm_compute; discriminate. Qed.

Definition is_about (d : json) (i : str) (fs : list (str * json)) : Prop := d = JObj fs /\ field #"@id" fs = Some (JStr i).

Lemma parse_head_gained : forall known d w w' r, parse_head known d w = (w', r) ->
  gained w w' (fun i => exists fs, is_about d i fs) (fun i p o => exists fs, is_about d i fs /\ mentions fs p o) (ok r) /\
  (forall h, r = Ok h -> exists i fs, is_about d i fs /\ h = length (w_objs w) /\ length (w_objs w') = S h /\
     d_id (obj w' h) = i /\ d_known (obj w' h) = known /\
     cites fs (MkSet [] None) (d_cite (obj w' h)) None (d_depth (obj w' h)) /\
     (forall ts o, typed fs ts -> (In (URI i, rdf_type, o) (w_graph w') <->
        o = match ts with [] => URI #"https://w3id.org/dts/api#collection" | _ => URI (last ts []) end \/ mentions fs rdf_type o))).
Proof.
  intros known d w w' r E. unfold parse_head in E.
  assert (STOP : forall e, gained w w (fun i => exists fs, is_about d i fs) (fun i p o => exists fs, is_about d i fs /\ mentions fs p o) (ok (Err e : result nat))
             /\ (forall h, Err e = Ok h -> exists i fs, is_about d i fs /\ h = length (w_objs w) /\ length (w_objs w) = S h /\
     d_id (obj w h) = i /\ d_known (obj w h) = known /\
     cites fs (MkSet [] None) (d_cite (obj w h)) None (d_depth (obj w h)) /\
     (forall ts o, typed fs ts -> (In (URI i, rdf_type, o) (w_graph w) <->
        o = match ts with [] => URI #"https://w3id.org/dts/api#collection" | _ => URI (last ts []) end \/ mentions fs rdf_type o)))).
  { intros e. split; [apply gained_same; intros []|discriminate]. }
  unfold andthen at 1, lift at 1 in E. destruct (get_key d #"@id") as [i0|e] eqn:K; [|injection E as <- <-; apply STOP].
  unfold andthen at 1, lift at 1 in E. destruct (as_text i0) as [i|e] eqn:A; [|injection E as <- <-; apply STOP].
  destruct i0 as [| | |i'| |]; try discriminate. injection A as ->.
  destruct d as [| | | | |fs]; try discriminate. apply key_field in K.
  assert (B : is_about (JObj fs) i fs) by (split; auto).
  assert (U : forall j gs, is_about (JObj fs) j gs -> j = i /\ gs = fs).
  { intros j gs [X Y]. injection X as <-. split; [|reflexivity]. congruence. }
  unfold andthen at 1, new_object at 1 in E.
  set (w1 := MkWorld _ _ _) in E.
  set (h := length (w_objs w)) in E.
  assert (I : obj w1 h = MkDobj i (MkSet [] None) None known) by (unfold obj, w1, h; cbn [w_objs]; apply nth_middle).
  assert (L1 : length (w_objs w1) = S h) by (unfold w1; cbn [w_objs]; rewrite app_length; cbn; lia).
  assert (G1 : gained w w1 (fun j => j = i) (fun _ _ _ => False) True /\
     (forall o, In (URI i, rdf_type, o) (w_graph w1) <-> o = URI #"https://w3id.org/dts/api#collection")).
  { split.
    - split; [reflexivity|]. split; [rewrite L1; unfold h; lia|]. split; [intros k X; unfold w1, obj at 1; cbn [w_objs]; apply obj_app; exact X|].
      unfold w1; cbn [w_graph]. split; [|split; [|split]].
      + intros n p o N. specialize (N i eq_refl). rewrite !In_set. split.
        * intros [X|[[X|[X _]] _]]; [apply three in X; destruct X as [X _]; contradiction|apply three in X; destruct X as [X _]; contradiction|exact X].
        * intros X. right. split; [right; split; [exact X|]|]; intros [Y _]; congruence.
      + intros n p o [P1 P2] X. rewrite !In_set. right. split; [right; split; [exact X|]|]; intros [_ Y]; [apply P1|apply P2]; exact Y.
      + intros n p o [P1 P2] X. rewrite !In_set in X. left. destruct X as [X|[[X|[X _]] _]]; [| |exact X]; apply three in X; destruct X as (_ & X & _); [elim (P2 X)|elim (P1 X)].
      + intros _ j p o _ [].
    - intros o. unfold w1; cbn [w_graph]. rewrite !In_set. change a_type with rdf_type. change a_model with the_model. pose proof model_not_type as M. split.
      + intros [X|[[X|[_ X]] _]]; [|apply three in X; apply X|elim X; auto]. apply three in X. destruct X as (_ & X & _). elim M. symmetry. exact X.
      + intros ->. right. split; [left; reflexivity|]. intros [_ X]. elim M. symmetry. exact X. }
  destruct G1 as [G1 T1].
  clearbody w1.
  unfold andthen at 1 in E. destruct (read_metadata h (JObj fs) w1) as [w2 r2] eqn:R.
  assert (Ih : d_id (obj w1 h) = i) by (rewrite I; reflexivity).
  pose proof (read_learned h i fs w1 w2 r2 Ih R) as (C1 & C2 & C3 & C4 & C5 & C6 & C7 & C8).
  assert (G2 : gained w w2 (fun j => exists gs, is_about (JObj fs) j gs) (fun j p o => exists gs, is_about (JObj fs) j gs /\ mentions gs p o) (ok r2)).
  { destruct G1 as (D1 & D2 & D3 & D4 & D5 & D6 & D7).
    split; [congruence|]. split; [lia|]. split; [intros k X; rewrite C4, D3; auto; unfold h; lia|].
    split; [|split; [|split]].
    - intros n p o N. assert (N1 : n <> URI i) by (apply N; exists fs; exact B). rewrite (C5 n p o N1). apply D4. intros j ->. exact N1.
    - intros n p o P X. apply D5 in X; [|exact P]. destruct (term_eq_dec n (URI i)) as [->|N]; [apply C6; [apply P|exact X]|apply C5; auto].
    - intros n p o P X. destruct (term_eq_dec n (URI i)) as [->|N].
      + destruct (C7 p o (proj1 P) X) as [Y|Y].
        * destruct (D6 _ _ _ P Y) as [Z|(j & _ & [])]. left; exact Z.
        * right. exists i. split; [reflexivity|]. exists fs. auto.
      + apply C5 in X; [|exact N]. destruct (D6 _ _ _ P X) as [Z|(j & _ & [])]. left; exact Z.
    - intros D j p o P (gs & X & Y). apply U in X. destruct X as [-> ->]. apply C8; [exact D|apply P|exact Y]. }
  destruct r2 as [u|e].
  - cbn in E. injection E as <- <-. split; [exact G2|]. intros h' X. injection X as <-. exists i, fs.
    split; [exact B|]. split; [reflexivity|]. split; [lia|]. destruct (C3 h) as [X1 X2]. rewrite X1, X2, I. split; [reflexivity|]. split; [reflexivity|].
    destruct (read_more h i fs w1 w2 u Ih R) as [M1 M2]. rewrite I in M2. split; [apply M2; lia|].
    intros ts o T. rewrite (M1 ts o T). destruct ts; [rewrite T1|]; reflexivity.
  - injection E as <- <-. split; [exact G2|discriminate].
Qed.

(** ** Members *)

Definition one_of (ms : list json) (i : str) (fs : list (str * json)) : Prop := In (JObj fs) ms /\ field #"@id" fs = Some (JStr i).

Lemma one_of_dec : forall ms i, (exists gs, one_of ms i gs) \/ ~ exists gs, one_of ms i gs.
Proof.
  intros ms i. induction ms as [|d ms IH]; [right; intros (gs & [[] _])|].
  destruct IH as [(gs & X & Y)|N]; [left; exists gs; split; [right; exact X|exact Y]|].
  destruct d as [| | | | |gs]; try (right; intros (x & [X|X] & Y); [discriminate|apply N; exists x; split; auto]).
  destruct (field #"@id" gs) as [v|] eqn:F.
  2:{ right; intros (x & [X|X] & Y); [injection X as ->; congruence|apply N; exists x; split; auto]. }
  destruct v as [| | |s| |]; try (right; intros (x & [X|X] & Y); [injection X as ->; congruence|apply N; exists x; split; auto]).
  destruct (str_eqb s i) eqn:Q.
  - apply str_eqb_eq in Q. subst s. left. exists gs. split; [left; reflexivity|exact F].
  - right; intros (x & [X|X] & Y); [injection X as ->|apply N; exists x; split; auto].
    rewrite F in Y. injection Y as ->. rewrite str_eqb_refl in Q. discriminate.
Qed.

(** The type that a dictionary gives to a new object. *)
Definition first_type (fs : list (str * json)) (w : world) (i : str) : Prop :=
  forall ts o, typed fs ts -> (In (URI i, rdf_type, o) (w_graph w) <->
    o = match ts with [] => URI #"https://w3id.org/dts/api#collection" | _ => URI (last ts []) end \/ mentions fs rdf_type o).

(** The object made for a dictionary. *)
Definition made (w : world) (d : json) (known : bool) (h : nat) : Prop :=
  exists i fs, is_about d i fs /\ h < length (w_objs w) /\ d_id (obj w h) = i /\ d_known (obj w h) = known /\
    cites fs (MkSet [] None) (d_cite (obj w h)) None (d_depth (obj w h)).

Lemma made_later : forall w w' T Q D d known h, gained w w' T Q D -> made w d known h -> made w' d known h.
Proof.
  intros w w' T Q D d known h (_ & L & O & _) (i & fs & A & B & C). exists i, fs. rewrite (O h B). split; [exact A|]. split; [lia|exact C].
Qed.

Lemma parse_below_gained : forall d w w' r, parse_below d w = (w', r) ->
  gained w w' (fun i => exists fs, is_about d i fs) (fun i p o => exists fs, is_about d i fs /\ mentions fs p o) (ok r) /\
  (forall h, r = Ok h -> made w' d false h /\ h = length (w_objs w) /\ length (w_objs w') = S h /\
     forall i fs, is_about d i fs -> first_type fs w' i).
Proof.
  intros d w w' r E. unfold parse_below in E. unfold andthen at 1 in E.
  destruct (parse_head false d w) as [w1 r1] eqn:H. destruct (parse_head_gained false d w w1 r1 H) as [G O].
  destruct r1 as [h|e].
  - destruct (O h eq_refl) as (i & fs & A & B1 & B2 & B3 & B4 & B5 & B6).
    destruct A as [-> A]. unfold andthen, lift in E. rewrite jget_obj in E.
    assert (S1 : w' = w1) by (destruct (jtruthy _) in E; injection E as <- <-; reflexivity). subst w'.
    split.
    + destruct r; [exact G|]. eapply gained_stop; [exact G|cbn; auto|auto|auto].
    + intros h' ->. assert (h' = h) by (destruct (jtruthy _) in E; [discriminate|injection E as ->; reflexivity]). subst h'.
      split; [|split; [exact B1|split; [exact B2|]]].
      * exists i, fs. split; [split; auto|]. split; [lia|]. auto.
      * intros j gs [X Y]. injection X as <-. assert (j = i) by congruence. subst j. exact B6.
  - injection E as <- <-. split; [|discriminate]. exact G.
Qed.

Lemma collect_gained : forall ms w w' r, collect ms parse_below w = (w', r) ->
  gained w w' (fun i => exists fs, one_of ms i fs) (fun i p o => exists fs, one_of ms i fs /\ mentions fs p o) (ok r) /\
  (forall hs, r = Ok hs -> Forall2 (fun d h => made w' d false h) ms hs /\ hs = seq (length (w_objs w)) (length ms) /\
     forall i fs, one_of ms i fs -> (forall gs, one_of ms i gs -> gs = fs) -> first_type fs w' i).
Proof.
  intros ms. induction ms as [|d ms IH]; intros w w' r E; cbn in E.
  - injection E as <- <-. split.
    + apply gained_same. intros _ i p o (fs & [[] _] & _).
    + intros hs X. injection X as <-. split; [constructor|]. split; [reflexivity|]. intros i fs [[] _].
  - unfold andthen at 1 in E. destruct (parse_below d w) as [w1 r1] eqn:H.
    destruct (parse_below_gained d w w1 r1 H) as [G O].
    assert (GT : forall i, (exists fs, is_about d i fs) -> exists fs, one_of (d :: ms) i fs).
    { intros i (fs & X & Y). exists fs. split; [left; exact X|exact Y]. }
    assert (GQ : forall i p o, (exists fs, is_about d i fs /\ mentions fs p o) -> exists fs, one_of (d :: ms) i fs /\ mentions fs p o).
    { intros i p o (fs & (X & Y) & Z). exists fs. split; [split; [left; exact X|exact Y]|exact Z]. }
    destruct r1 as [h|e].
    2:{ injection E as <- <-. split; [|discriminate]. eapply gained_stop; [exact G|cbn; auto|exact GT|exact GQ]. }
    destruct (O h eq_refl) as (M & Hh & Hl & F).
    unfold andthen at 1 in E. destruct (collect ms parse_below w1) as [w2 r2] eqn:C.
    destruct (IH w1 w2 r2 C) as [G2 O2].
    assert (E' : w' = w2 /\ r = match r2 with Ok hs => Ok (h :: hs) | Err e => Err e end).
    { destruct r2; injection E as <- <-; auto. }
    destruct E' as [-> ->]. clear E. split.
    + assert (OK : ok match r2 with Ok hs => Ok (h :: hs) | Err e => Err e end <-> ok r2) by (destruct r2; reflexivity).
      assert (GG : gained w w2 (fun i => exists fs, one_of (d :: ms) i fs) (fun i p o => exists fs, one_of (d :: ms) i fs /\ mentions fs p o) (ok r2)).
      { eapply gained_seq; [exact G|exact Logic.I|exact G2| |].
        - intros i [X|(fs & X & Y)]; [apply GT; exact X|]. exists fs. split; [right; exact X|exact Y].
        - intros i p o. split.
          + intros (fs & ([X|X] & Y) & Z); [left; exists fs; split; [split; auto|exact Z]|right; exists fs; split; [split; auto|exact Z]].
          + intros [X|(fs & (X & Y) & Z)]; [apply GQ; exact X|]. exists fs. split; [split; [right; exact X|exact Y]|exact Z]. }
      destruct GG as (X1 & X2 & X3 & X4 & X5 & X6 & X7). repeat (split; [assumption|]). intros D. apply X7. apply OK. exact D.
    + intros hs' X. destruct r2 as [hs|e]; [|discriminate]. injection X as <-.
      destruct (O2 hs eq_refl) as (M2 & S2 & F2). split; [|split].
      * constructor; [|exact M2]. eapply made_later; [exact G2|exact M].
      * cbn. rewrite S2, Hl, Hh. reflexivity.
      * intros i fs X U.
        assert (ID : field #"@id" fs = Some (JStr i)) by apply X.
        assert (U2 : forall gs, one_of ms i gs -> gs = fs) by (intros gs [Y Z]; apply U; split; [right; exact Y|exact Z]).
        assert (IN : In (JObj fs) ms \/ ~ exists gs, one_of ms i gs).
        { destruct (one_of_dec ms i) as [(gs & Y)|N]; [left|right; exact N]. rewrite <- (U2 gs Y). apply Y. }
        destruct IN as [IN|N].
        { apply F2; [split; [exact IN|exact ID]|exact U2]. }
        { destruct X as [[X|X] _]; [|elim N; exists fs; split; auto].
          assert (FT : first_type fs w1 i) by (apply F; split; [exact X|exact ID]).
          intros ts o T. specialize (FT ts o T). destruct G2 as (_ & _ & _ & G4 & _). rewrite G4; [exact FT|].
          intros j Y Z. injection Z as <-. apply N. exact Y. }
Qed.

Definition members_of (d : json) (i : str) (fs : list (str * json)) : Prop := listed_in d i fs.

Lemma parse_members_gained : forall d w w' r, parse_members d w = (w', r) ->
  gained w w' (fun i => exists fs, listed_in d i fs) (fun i p o => exists fs, listed_in d i fs /\ mentions fs p o) (ok r) /\
  (forall hs, r = Ok hs -> 
     (forall top ms, d = JObj top -> field #"https://www.w3.org/ns/hydra/core#member" top = Some (JList ms) ->
        Forall2 (fun d h => made w' d false h) ms hs /\ hs = seq (length (w_objs w)) (length ms)) /\
     forall i fs, listed_in d i fs -> (forall gs, listed_in d i gs -> gs = fs) -> first_type fs w' i).
Proof.
  intros d w w' r E. unfold parse_members in E.
  unfold andthen at 1, lift at 1 in E. destruct (jget d (hydra_term #"member") (JList [])) as [ms|e] eqn:J.
  2:{ injection E as <- <-. split; [apply gained_same; intros []|discriminate]. }
  destruct d as [| | | | |top]; try discriminate. rewrite jget_obj in J. apply Ok_inj in J.
  change (hydra_term #"member") with (#"https://www.w3.org/ns/hydra/core#member") in J.
  assert (LI : forall i fs, listed_in (JObj top) i fs <-> exists l, ms = JList l /\ one_of l i fs).
  { intros i fs. unfold listed_in, one_of. split.
    - intros (t & l & X & Y & Z & V). injection X as <-. rewrite Y in J. exists l. auto.
    - intros (l & -> & X & Y). destruct (field #"https://www.w3.org/ns/hydra/core#member" top) as [v|] eqn:F.
      + subst v. exists top, l. auto.
      + injection J as <-. destruct X. }
  destruct (jtruthy ms) eqn:T.
  - destruct ms as [| | | |l|]; try (injection E as <- <-; split; [apply gained_same; intros []|discriminate]).
    destruct (collect_gained l w w' r E) as [G O]. split.
    + eapply gained_iff; [exact G| |].
      * intros i (fs & X). exists fs. apply LI. exists l. auto.
      * intros i p o. split.
        { intros (fs & X & Y). exists fs. split; [|exact Y]. apply LI. exists l. auto. }
        { intros (fs & X & Y). exists fs. split; [|exact Y]. apply LI in X. destruct X as (l' & X & Z). injection X as <-. exact Z. }
    + intros hs X. destruct (O hs X) as (A & B & C). split.
      * intros t ms Y F. injection Y as <-. rewrite F in J. injection J as ->. auto.
      * intros i fs Y U. apply C.
        { apply LI in Y. destruct Y as (l' & Y & Z). injection Y as <-. exact Z. }
        { intros gs Z. apply U. apply LI. exists l. auto. }
  - injection E as <- <-. split.
    + apply gained_same. intros _ i p o (fs & X & _). apply LI in X. destruct X as (l & -> & X & _). destruct l; [destruct X|discriminate].
    + intros hs X. injection X as <-. split.
      * intros t l Y F. injection Y as <-. rewrite F in J. subst ms. destruct l; [|discriminate]. split; [constructor|reflexivity].
      * intros i fs X. apply LI in X. destruct X as (l & -> & X & _). destruct l; [destruct X|discriminate].
Qed.

(** ** A reply to getMetadata *)

Definition in_reply (d : json) (i : str) (fs : list (str * json)) : Prop := is_about d i fs \/ listed_in d i fs.

Lemma parse_top_gained : forall d w w' r, parse_top d w = (w', r) ->
  gained w w' (fun i => exists fs, in_reply d i fs) (fun i p o => exists fs, in_reply d i fs /\ mentions fs p o) (ok r) /\
  (forall h hs, r = Ok (h, hs) -> made w' d true h /\
     (forall top ms, d = JObj top -> field #"https://www.w3.org/ns/hydra/core#member" top = Some (JList ms) ->
        Forall2 (fun d h => made w' d false h) ms hs) /\
     forall i fs, in_reply d i fs -> (forall gs, in_reply d i gs -> gs = fs) -> first_type fs w' i).
Proof.
  intros d w w' r E. unfold parse_top in E. unfold andthen at 1 in E.
  destruct (parse_head true d w) as [w1 r1] eqn:H. destruct (parse_head_gained true d w w1 r1 H) as [G O].
  assert (GT : forall i, (exists fs, is_about d i fs) -> exists fs, in_reply d i fs) by (intros i (fs & X); exists fs; left; exact X).
  assert (GQ : forall i p o, (exists fs, is_about d i fs /\ mentions fs p o) -> exists fs, in_reply d i fs /\ mentions fs p o)
    by (intros i p o (fs & X & Y); exists fs; split; [left; exact X|exact Y]).
  destruct r1 as [h|e].
  2:{ injection E as <- <-. split; [|discriminate]. eapply gained_stop; [exact G|cbn; auto|exact GT|exact GQ]. }
  destruct (O h eq_refl) as (i0 & fs0 & A & B1 & B2 & B3 & B4 & B5 & B6).
  assert (M : made w1 d true h) by (exists i0, fs0; split; [exact A|]; split; [lia|auto]).
  unfold andthen at 1 in E. destruct (parse_members d w1) as [w2 r2] eqn:C.
  destruct (parse_members_gained d w1 w2 r2 C) as [G2 O2].
  assert (E' : w' = w2 /\ r = match r2 with Ok hs => Ok (h, hs) | Err e => Err e end) by (destruct r2; injection E as <- <-; auto).
  destruct E' as [-> ->]. clear E. split.
  - assert (OK : ok match r2 with Ok hs => Ok (h, hs) | Err e => Err e end <-> ok r2) by (destruct r2; reflexivity).
    assert (GG : gained w w2 (fun i => exists fs, in_reply d i fs) (fun i p o => exists fs, in_reply d i fs /\ mentions fs p o) (ok r2)).
    { eapply gained_seq; [exact G|exact Logic.I|exact G2| |].
      - intros i [X|(fs & X)]; [apply GT; exact X|]. exists fs. right; exact X.
      - intros i p o. split.
        + intros (fs & [X|X] & Y); [left|right]; exists fs; auto.
        + intros [X|(fs & X & Y)]; [apply GQ; exact X|]. exists fs. split; [right; exact X|exact Y]. }
    destruct GG as (X1 & X2 & X3 & X4 & X5 & X6 & X7). repeat (split; [assumption|]). intros D. apply X7. apply OK. exact D.
  - intros h' hs' X. destruct r2 as [hs|e]; [|discriminate]. injection X as <- <-.
    destruct (O2 hs eq_refl) as (M2 & F2). split; [eapply made_later; [exact G2|exact M]|]. split.
    + intros top ms X Y. apply (M2 top ms X Y).
    + intros i fs X U.
      assert (DEC : (exists gs, listed_in d i gs) \/ ~ exists gs, listed_in d i gs).
      { destruct A as [-> _]. unfold listed_in. destruct (field #"https://www.w3.org/ns/hydra/core#member" fs0) as [v|] eqn:F.
        2:{ right. intros (gs & top & ms & Y & Z & _). injection Y as <-. congruence. }
        destruct v as [| | | |l|]; try (right; intros (gs & top & ms & Y & Z & _); injection Y as <-; congruence).
        destruct (one_of_dec l i) as [(gs & D1 & D2)|N]; [left; exists gs, fs0, l; auto|right].
        intros (gs & top & ms & Y & Z & V & W). injection Y as <-. rewrite F in Z. injection Z as ->. apply N. exists gs. split; auto. }
      destruct DEC as [(gs & Y)|N].
      * assert (gs = fs) by (apply U; right; exact Y). subst gs. apply F2; [exact Y|]. intros gs Z. apply U. right; exact Z.
      * destruct X as [X|X]; [|elim N; exists fs; exact X].
        assert (FT : first_type fs w1 i).
        { destruct A as [-> A]. destruct X as [X1 X2]. injection X1 as ->. assert (Q : i0 = i) by congruence. rewrite Q in B6. exact B6. }
        intros ts o T. specialize (FT ts o T). destruct G2 as (_ & _ & _ & G4 & _). rewrite G4; [exact FT|].
        intros j Y Z. injection Z as <-. apply N. exact Y.
Qed.

(** ** Deeds *)

Section Histories.
Variable server : list request -> request -> reply.
Variable collections : route.

(** The request a deed makes, if it makes one. *)
Definition request_of (w : world) (d : deed) : option request :=
  match d with
  | Get id => Some (get_collection collections (match id with Some i => StrParam i | None => NoParam end) (StrParam #"children") NoParam)
  | Page h dir page => Some (get_collection collections (StrParam (d_id (obj w h))) (StrParam (direction_name dir))
                (if (1 <? page)%Z then IntParam page else NoParam))
  | Retrieve h => if d_known (obj w h) then None
                  else Some (get_collection collections (StrParam (d_id (obj w h))) (StrParam #"children") NoParam)
  end.
Definition asked (w : world) (q : request) : world := MkWorld (w_graph w) (w_objs w) (w_sent w ++ [q]).

(** What is done with the reply. *)
Definition handle (d : deed) (p : reply) (w1 : world) : world * result unit :=
  match d with
  | Get _ => if p_good p then
               match p_body p with
               | None => (w1, Err ValueError)
               | Some (_, []) => (w1, Err JsonLdCollectionMissing)
               | Some (_, x :: _) => void (parse_top x w1)
               end
             else (w1, Err HTTPError)
  | Page _ _ _ => if p_good p then
               match p_body p with
               | None => (w1, Err ValueError)
               | Some (_, []) => (w1, Err IndexError)
               | Some (_, x :: _) => void (parse_members x w1)
               end
             else (w1, Err HTTPError)
  | Retrieve h => match p_body p with
                  | None => (w1, Err ValueError)
                  | Some (true, _) => (w1, Err UnknownCollection)
                  | Some (false, []) => (w1, Err IndexError)
                  | Some (false, x :: _) => void (read_metadata h x w1)
                  end
  end.

Lemma perform_eq : forall d w, perform server collections d w =
  match request_of w d with
  | None => (w, Ok tt)
  | Some q => handle d (server (w_sent w) q) (asked w q)
  end.
Proof.
  intros d w. destruct d as [id|h dir page|h]; cbn [perform request_of handle].
  - unfold get_metadata, andthen, send, check, json_of, lift.
    destruct (p_good _); [|reflexivity]. destruct (p_body _) as [[e [|x l]]|]; reflexivity.
  - unfold read_page, andthen, send, check, json_of, lift.
    destruct (p_good _); [|reflexivity]. destruct (p_body _) as [[e [|x l]]|]; reflexivity.
  - unfold retrieve, andthen, send, json_of, lift.
    destruct (d_known (obj w h)); [reflexivity|]. destruct (p_body _) as [[e l]|]; [|reflexivity].
    destruct e; cbn [fst snd]; [reflexivity|]. destruct l as [|x l]; [reflexivity|].
    unfold void, asked. destruct (read_metadata _ _ _) as [w1 [u|e]]; reflexivity.
Qed.

(** Everything a deed does. *)
Definition advance (d : deed) (w w' : world) (r : result unit) : Prop :=
  (w_sent w' = match request_of w d with Some q => w_sent w ++ [q] | None => w_sent w end) /\
  length (w_objs w) <= length (w_objs w') /\
  (forall k, k < length (w_objs w) -> d_id (obj w' k) = d_id (obj w k) /\ d_known (obj w' k) = d_known (obj w k) /\
     (d <> Retrieve k -> obj w' k = obj w k)) /\
  (forall n p o, (forall i fs, learns server collections w d i fs -> n <> URI i) -> (In (n, p, o) (w_graph w') <-> In (n, p, o) (w_graph w))) /\
  (forall n p o, plain p -> In (n, p, o) (w_graph w) -> In (n, p, o) (w_graph w')) /\
  (forall n p o, plain p -> In (n, p, o) (w_graph w') -> In (n, p, o) (w_graph w) \/
     exists i fs, n = URI i /\ learns server collections w d i fs /\ mentions fs p o) /\
  (r = Ok tt -> forall i fs p o, plain p -> learns server collections w d i fs -> mentions fs p o -> In (URI i, p, o) (w_graph w')).

Lemma void_ok : forall {A} (x : world * result A) w r, void x = (w, r) -> exists r', x = (w, r') /\ (r = Ok tt <-> ok r').
Proof.
  intros A [w1 r1] w r E. unfold void in E. injection E as <- <-. exists r1. split; [reflexivity|].
  destruct r1; cbn; split; intros X; auto; try discriminate; contradiction.
Qed.

Lemma sent_perform : forall d w, w_sent (fst (perform server collections d w)) = match request_of w d with Some q => w_sent w ++ [q] | None => w_sent w end.
Proof.
  intros d w. rewrite perform_eq. destruct (request_of w d) as [q|] eqn:Q; [|reflexivity].
  destruct d as [id|h dir page|h]; cbn [handle].
  - destruct (p_good _); [|reflexivity]. destruct (p_body _) as [[e [|x l]]|]; try reflexivity.
    destruct (void _) as [w1 r1] eqn:V. apply void_ok in V. destruct V as (r' & V & _). apply parse_top_gained in V. apply V.
  - destruct (p_good _); [|reflexivity]. destruct (p_body _) as [[e [|x l]]|]; try reflexivity.
    destruct (void _) as [w1 r1] eqn:V. apply void_ok in V. destruct V as (r' & V & _). apply parse_members_gained in V. apply V.
  - destruct (p_body _) as [[[|] [|x l]]|]; try reflexivity.
    destruct (void _) as [w1 r1] eqn:V. apply void_ok in V. destruct V as (r' & V & _).
    destruct x as [| | | | |fs]; try (cbn in V; injection V as <- <-; reflexivity).
    apply (read_learned h (d_id (obj (asked w q) h))) in V; [|reflexivity]. apply V.
Qed.

Lemma learns_inv : forall d w i fs q, request_of w d = Some q ->
  (learns server collections w d i fs <-> exists e data rest, p_body (server (w_sent w) q) = Some (e, data :: rest) /\ speaks w data i fs d).
Proof.
  intros d w i fs q Q. unfold learns. rewrite sent_perform, Q. split.
  - intros (q' & e & data & rest & S & X). apply app_inv_head in S. injection S as <-. eauto.
  - intros (e & data & rest & X). exists q, e, data, rest. auto.
Qed.

Lemma learns_none : forall d w i fs, request_of w d = None -> ~ learns server collections w d i fs.
Proof.
  intros d w i fs Q (q & e & data & rest & S & _). rewrite sent_perform, Q in S.
  apply (f_equal (@length _)) in S. rewrite app_length in S. cbn in S. lia.
Qed.

Lemma advance_idle : forall d w q e, request_of w d = Some q -> advance d w (asked w q) (Err e).
Proof.
  intros d w q e Q. split; [rewrite Q; reflexivity|]. cbn. repeat split; auto; try discriminate.
Qed.

Lemma advance_gained : forall d w q w' (r : result unit) (D : Prop) T Q, request_of w d = Some q -> (r = Ok tt <-> D) ->
  gained (asked w q) w' T Q D ->
  (forall i, T i -> exists fs, learns server collections w d i fs) ->
  (forall i p o, Q i p o <-> exists fs, learns server collections w d i fs /\ mentions fs p o) ->
  advance d w w' r.
Proof.
  intros d w q w' r D T Q R DD (A1 & A2 & A3 & A4 & A5 & A6 & A7) HT HQ. cbn [asked w_sent w_objs w_graph] in *.
  split; [rewrite R; exact A1|]. split; [exact A2|]. split.
  { intros k K. rewrite (A3 k K). auto. }
  split.
  { intros n p o N. apply A4. intros i X. destruct (HT i X) as (fs & Y). apply (N i fs Y). }
  split; [exact A5|]. split.
  - intros n p o P X. destruct (A6 n p o P X) as [Y|(i & -> & Y)]; [auto|right]. apply HQ in Y. destruct Y as (fs & Y & Z). exists i, fs. auto.
  - intros E i fs p o P X Y. apply A7; [apply DD; exact E|exact P|]. apply HQ. exists fs. auto.
Qed.

Theorem perform_advance : forall d w w' r, perform server collections d w = (w', r) -> advance d w w' r.
Proof.
  intros d w w' r E. rewrite perform_eq in E. destruct (request_of w d) as [q|] eqn:R.
  2:{ injection E as <- <-. split; [rewrite R; reflexivity|]. repeat split; auto.
      intros _ i fs p o _ X. elim (learns_none d w i fs R X). }
  pose proof (fun i fs => learns_inv d w i fs q R) as LI.
  destruct d as [id|h dir page|h]; cbn [handle] in E.
  - destruct (p_good _); [|injection E as <- <-; apply advance_idle; exact R].
    destruct (p_body _) as [[e [|x l]]|]; try (injection E as <- <-; apply advance_idle; exact R).
    apply void_ok in E. destruct E as (r' & E & OK). apply parse_top_gained in E. destruct E as [G _].
    assert (SP : forall i fs, speaks w x i fs (Get id) <-> in_reply x i fs).
    { intros i fs. unfold in_reply, is_about. split.
      - intros X. inversion X; subst; auto.
      - intros [[X Y]|X]; [apply speaks_top; auto|apply speaks_get; auto]. }
    eapply advance_gained; [exact R|exact OK|exact G| |].
    + intros i (fs & X). exists fs. apply LI. exists e, x, l. split; [reflexivity|]. apply SP; exact X.
    + intros i p o. split; intros (fs & X & Y); exists fs; (split; [|exact Y]).
      * apply LI. exists e, x, l. split; [reflexivity|]. apply SP; exact X.
      * apply LI in X. destruct X as (e' & x' & l' & X & Z). injection X as <- <- <-. apply SP in Z. exact Z.
  - destruct (p_good _); [|injection E as <- <-; apply advance_idle; exact R].
    destruct (p_body _) as [[e [|x l]]|]; try (injection E as <- <-; apply advance_idle; exact R).
    apply void_ok in E. destruct E as (r' & E & OK). apply parse_members_gained in E. destruct E as [G _].
    assert (SP : forall i fs, speaks w x i fs (Page h dir page) <-> listed_in x i fs).
    { intros i fs. split; [intros X; inversion X; subst; auto|apply speaks_page]. }
    eapply advance_gained; [exact R|exact OK|exact G| |].
    + intros i (fs & X). exists fs. apply LI. exists e, x, l. split; [reflexivity|]. apply SP; exact X.
    + intros i p o. split; intros (fs & X & Y); exists fs; (split; [|exact Y]).
      * apply LI. exists e, x, l. split; [reflexivity|]. apply SP; exact X.
      * apply LI in X. destruct X as (e' & x' & l' & X & Z). injection X as <- <- <-. apply SP in Z. exact Z.
  - destruct (p_body _) as [[[|] [|x l]]|]; try (injection E as <- <-; apply advance_idle; exact R).
    apply void_ok in E. destruct E as (r' & E & OK).
    destruct x as [| | | | |fs]; try (cbn in E; injection E as <- <-; destruct r as [[]|ee]; [elim (proj1 OK eq_refl)|apply advance_idle; exact R]).
    apply (read_learned h (d_id (obj (asked w q) h))) in E; [|reflexivity].
    change (d_id (obj (asked w q) h)) with (d_id (obj w h)) in E.
    set (i := d_id (obj w h)) in *.
    assert (L0 : learns server collections w (Retrieve h) i fs).
    { apply LI. exists false, (JObj fs), l. split; [reflexivity|]. apply speaks_self; reflexivity. }
    destruct E as (A1 & A2 & A3 & A4 & A5 & A6 & A7 & A8). cbn [asked w_sent w_objs w_graph] in *.
    split; [rewrite R; exact A1|]. split; [lia|]. split.
    { intros k _. destruct (A3 k) as [X Y]. split; [exact X|]. split; [exact Y|]. intros N. apply (A4 k). intros ->. apply N. reflexivity. }
    split.
    { intros n p o N. apply A5. apply (N i fs L0). }
    split.
    { intros n p o [P _] X. destruct (term_eq_dec n (URI i)) as [->|N]; [apply A6; auto|apply A5; auto]. }
    split.
    { intros n p o [P _] X. destruct (term_eq_dec n (URI i)) as [->|N].
      - destruct (A7 p o P X) as [Y|Y]; [auto|right; exists i, fs; auto].
      - left. apply (A5 n p o N). exact X. }
    intros O j gs p o [P _] X Y. apply LI in X. destruct X as (e' & x' & l' & X & Z). injection X as <- <- <-.
    inversion Z; subst. injection H0 as <-. apply A8; [apply OK; reflexivity|exact P|exact Y].
Qed.

(** ** Histories *)

Lemma after_app : forall w a b, after server collections w (a ++ b) = after server collections (after server collections w a) b.
Proof. intros w a b. unfold after. apply fold_left_app. Qed.

Lemma plain_spec : forall p, p <> rdf_type -> p <> the_model -> plain p.
Proof. split; auto. Qed.

Theorem history_kept : forall ds w i p o, p <> rdf_type -> p <> the_model ->
  has w i p o -> has (after server collections w ds) i p o.
Proof.
  intros ds. induction ds as [|d ds IH]; intros w i p o P1 P2 H; [exact H|]. cbn. apply IH; auto.
  destruct (perform server collections d w) as [w1 r1] eqn:E. pose proof (perform_advance d w w1 r1 E) as (_ & _ & _ & _ & K & _).
  apply K; [split; auto|exact H].
Qed.

Theorem history_told : forall ds w n p o, p <> rdf_type -> p <> the_model ->
  In (n, p, o) (w_graph (after server collections w ds)) ->
  In (n, p, o) (w_graph w) \/ exists i fs, n = URI i /\ learnt server collections w ds i fs /\ mentions fs p o.
Proof.
  intros ds. induction ds as [|d ds IH] using rev_ind; intros w n p o P1 P2 H; [left; exact H|].
  rewrite after_app in H. cbn in H.
  destruct (perform server collections d (after server collections w ds)) as [w1 r1] eqn:E.
  pose proof (perform_advance d _ w1 r1 E) as (_ & _ & _ & _ & _ & K & _). cbn in H.
  destruct (K n p o (plain_spec p P1 P2) H) as [X|(i & fs & -> & X & Y)].
  - destruct (IH w n p o P1 P2 X) as [Y|(i & fs & -> & (a & d' & b & -> & Y) & Z)]; [left; exact Y|right].
    exists i, fs. split; [reflexivity|]. split; [|exact Z]. exists a, d', (b ++ [d]). split; [rewrite <- app_assoc; reflexivity|exact Y].
  - right. exists i, fs. split; [reflexivity|]. split; [|exact Y]. exists ds, d, []. auto.
Qed.

Lemma succeed_app : forall a b w, succeed server collections w (a ++ b) ->
  succeed server collections w a /\ succeed server collections (after server collections w a) b.
Proof.
  intros a. induction a as [|d a IH]; intros b w H; [cbn in *; auto|]. cbn in H. destruct H as [H1 H2].
  apply IH in H2. destruct H2 as [H2 H3]. cbn. auto.
Qed.

Theorem history_all : forall ds w i fs p o, p <> rdf_type -> p <> the_model -> succeed server collections w ds ->
  learnt server collections w ds i fs -> mentions fs p o -> has (after server collections w ds) i p o.
Proof.
  intros ds w i fs p o P1 P2 S (a & d & b & -> & L) M. apply succeed_app in S. destruct S as [_ S]. cbn in S. destruct S as [S _].
  rewrite after_app. cbn. apply history_kept; auto.
  destruct (perform server collections d (after server collections w a)) as [w1 r1] eqn:E. cbn in S.
  pose proof (perform_advance d _ w1 r1 E) as (_ & _ & _ & _ & _ & _ & K). eapply K; eauto. split; auto.
Qed.

Theorem history_others : forall ds w n p o, (forall i fs, learnt server collections w ds i fs -> n <> URI i) ->
  (In (n, p, o) (w_graph (after server collections w ds)) <-> In (n, p, o) (w_graph w)).
Proof.
  intros ds. induction ds as [|d ds IH] using rev_ind; intros w n p o N; [reflexivity|].
  rewrite after_app. cbn.
  destruct (perform server collections d (after server collections w ds)) as [w1 r1] eqn:E.
  pose proof (perform_advance d _ w1 r1 E) as (_ & _ & _ & K & _). cbn. rewrite K.
  - apply IH. intros i fs (a & d' & b & -> & Y). apply (N i fs). exists a, d', (b ++ [d]). split; [rewrite <- app_assoc; reflexivity|exact Y].
  - intros i fs X. apply (N i fs). exists ds, d, []. auto.
Qed.

Theorem history_objects : forall ds w k, k < length (w_objs w) ->
  k < length (w_objs (after server collections w ds)) /\
  d_id (obj (after server collections w ds) k) = d_id (obj w k) /\
  d_known (obj (after server collections w ds) k) = d_known (obj w k) /\
  (~ In (Retrieve k) ds -> obj (after server collections w ds) k = obj w k).
Proof.
  intros ds. induction ds as [|d ds IH]; intros w k K; [cbn; auto|]. cbn.
  destruct (perform server collections d w) as [w1 r1] eqn:E. cbn.
  pose proof (perform_advance d w w1 r1 E) as (_ & L & O & _).
  destruct (O k K) as (O1 & O2 & O3). destruct (IH w1 k) as (A1 & A2 & A3 & A4); [lia|].
  split; [exact A1|]. split; [etransitivity; [exact A2|exact O1]|]. split; [etransitivity; [exact A3|exact O2]|]. intros N. etransitivity; [apply A4|apply O3]; intros X; apply N; auto.
Qed.

(** ** Types *)

Theorem get_types : forall w id w' h hs, get_metadata server collections id w = (w', Ok (h, hs)) ->
  forall i fs, learns server collections w (Get id) i fs -> (forall gs, learns server collections w (Get id) i gs -> gs = fs) ->
  first_type fs w' i.
Proof.
  intros w id w' h hs E i fs L U.
  set (q := get_collection collections (match id with Some i => StrParam i | None => NoParam end) (StrParam #"children") NoParam).
  assert (R : request_of w (Get id) = Some q) by reflexivity.
  pose proof (fun i fs => learns_inv (Get id) w i fs q R) as LI.
  unfold get_metadata, andthen, send, check, json_of, lift in E. fold q in E.
  destruct (p_good _); [|discriminate]. destruct (p_body _) as [[e [|x l]]|]; try discriminate. cbn [snd] in E.
  apply parse_top_gained in E. destruct E as [_ O]. destruct (O h hs eq_refl) as (_ & _ & F).
  assert (SP : forall i fs, speaks w x i fs (Get id) <-> in_reply x i fs).
  { intros j gs. unfold in_reply, is_about. split.
    - intros X. inversion X; subst; auto.
    - intros [[X Y]|X]; [apply speaks_top; auto|apply speaks_get; auto]. }
  apply F.
  - apply LI in L. destruct L as (e' & x' & l' & X & Z). injection X as <- <- <-. apply SP in Z. exact Z.
  - intros gs X. apply U. apply LI. exists e, x, l. split; [reflexivity|]. apply SP. exact X.
Qed.

Theorem page_types : forall w h0 dir page w' hs, read_page server collections h0 dir page w = (w', Ok hs) ->
  forall i fs, learns server collections w (Page h0 dir page) i fs -> (forall gs, learns server collections w (Page h0 dir page) i gs -> gs = fs) ->
  first_type fs w' i.
Proof.
  intros w h0 dir page w' hs E i fs L U.
  set (q := get_collection collections (StrParam (d_id (obj w h0))) (StrParam (direction_name dir)) (if (1 <? page)%Z then IntParam page else NoParam)).
  assert (R : request_of w (Page h0 dir page) = Some q) by reflexivity.
  pose proof (fun i fs => learns_inv (Page h0 dir page) w i fs q R) as LI.
  unfold read_page, andthen, send, check, json_of, lift in E. fold q in E.
  destruct (p_good _); [|discriminate]. destruct (p_body _) as [[e [|x l]]|]; try discriminate. cbn [snd] in E.
  apply parse_members_gained in E. destruct E as [_ O]. destruct (O hs eq_refl) as (_ & F).
  assert (SP : forall i fs, speaks w x i fs (Page h0 dir page) <-> listed_in x i fs).
  { intros j gs. split; [intros X; inversion X; subst; auto|apply speaks_page]. }
  apply F.
  - apply LI in L. destruct L as (e' & x' & l' & X & Z). injection X as <- <- <-. apply SP in Z. exact Z.
  - intros gs X. apply U. apply LI. exists e, x, l. split; [reflexivity|]. apply SP. exact X.
Qed.

(** ** Retrieving *)

Theorem retrieve_known : forall h w, d_known (obj w h) = true -> retrieve server collections h w = (w, Ok true).
Proof. intros h w K. unfold retrieve, andthen. rewrite K. reflexivity. Qed.

Theorem retrieve_cases : forall h w, d_known (obj w h) = false ->
  let q := get_collection collections (StrParam (d_id (obj w h))) (StrParam #"children") NoParam in
  let w1 := asked w q in
  match p_body (server (w_sent w) q) with
  | None => retrieve server collections h w = (w1, Err ValueError)
  | Some (true, _) => retrieve server collections h w = (w1, Err UnknownCollection)
  | Some (false, []) => retrieve server collections h w = (w1, Err IndexError)
  | Some (false, x :: _) => retrieve server collections h w =
      (fst (read_metadata h x w1), match snd (read_metadata h x w1) with Ok _ => Ok true | Err e => Err e end)
  end.
Proof.
  intros h w K q w1. unfold retrieve, andthen, send, json_of, lift. rewrite K. fold q.
  destruct (p_body _) as [[[|] [|x l]]|]; cbn [fst snd]; try reflexivity.
  change (MkWorld (w_graph w) (w_objs w) (w_sent w ++ [q])) with w1.
  destruct (read_metadata h x w1) as [w2 [u|e]]; reflexivity.
Qed.

Theorem retrieve_more : forall h w w' b, d_known (obj w h) = false -> h < length (w_objs w) ->
  retrieve server collections h w = (w', Ok b) ->
  exists fs, learns server collections w (Retrieve h) (d_id (obj w h)) fs /\ b = true /\
    (forall ts o, typed fs ts -> (has w' (d_id (obj w h)) rdf_type o <->
       match ts with [] => has w (d_id (obj w h)) rdf_type o | _ => o = URI (last ts []) end \/ mentions fs rdf_type o)) /\
    cites fs (d_cite (obj w h)) (d_cite (obj w' h)) (d_depth (obj w h)) (d_depth (obj w' h)).
Proof.
  intros h w w' b K H E. pose proof (retrieve_cases h w K) as C. cbn zeta in C.
  set (q := get_collection collections (StrParam (d_id (obj w h))) (StrParam #"children") NoParam) in *.
  assert (R : request_of w (Retrieve h) = Some q) by (cbn; rewrite K; reflexivity).
  destruct (p_body (server (w_sent w) q)) as [[[|] [|x l]]|] eqn:B; rewrite E in C; try discriminate.
  destruct (read_metadata h x (asked w q)) as [w2 [u|e]] eqn:RM; cbn in C; [|discriminate]. injection C as -> ->.
  destruct x as [| | | | |fs]; try discriminate.
  exists fs. split; [|split; [reflexivity|]].
  - apply (learns_inv _ _ _ _ q R). exists false, (JObj fs), l. split; [exact B|]. apply speaks_self; reflexivity.
  - apply (read_more h (d_id (obj w h))) in RM; [|reflexivity]. destruct RM as [M1 M2]. split; [exact M1|apply M2; exact H].
Qed.

End Histories.
