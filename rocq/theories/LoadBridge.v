(** What a resolver shows, in terms of the dictionaries of its objects. *)

From Coq Require Import List NArith ZArith Arith Bool Lia.
From Verif Require Import PyStr PyStrFacts UrnModel UrnSpec UrnProofs MetaModel CollModel CollSpec CollProofs CollHist CollMerge
  InvModel InvSpec LocalModel LocalSpec LocalProofs LoadModel LoadSpec LoadDict LoadTree LoadEnter.
Import ListNotations.

Lemma F2_in_l : forall {X Y} (P : X -> Y -> Prop) l l' x, Forall2 P l l' -> In x l -> exists y, In y l' /\ P x y.
Proof.
  intros X Y P l l' x H. induction H as [|a b l l' Hab H IH]; [intros []|].
  intros [->|I]; [exists b; split; [left; reflexivity|exact Hab]|].
  destruct (IH I) as (y & J & K). exists y. split; [right; exact J|exact K].
Qed.
Lemma F2_in_r : forall {X Y} (P : X -> Y -> Prop) l l' y, Forall2 P l l' -> In y l' -> exists x, In x l /\ P x y.
Proof.
  intros X Y P l l' y H. induction H as [|a b l l' Hab H IH]; [intros []|].
  intros [->|I]; [exists a; split; [left; reflexivity|exact Hab]|].
  destruct (IH I) as (x & J & K). exists x. split; [right; exact J|exact K].
Qed.
Lemma F2_with : forall {X Y} (P Q : X -> Y -> Prop) l l', Forall2 P l l' -> (forall x y, In x l -> In y l' -> P x y -> Q x y) -> Forall2 Q l l'.
Proof.
  intros X Y P Q l l' H. induction H as [|a b l l' Hab H IH]; intros F; constructor.
  - apply F; [left; reflexivity|left; reflexivity|exact Hab].
  - apply IH. intros x y I J. apply F; right; assumption.
Qed.
Lemma F2_unmap_l : forall {A B C} (R : B -> C -> Prop) (f : A -> B) l l', Forall2 R (map f l) l' -> Forall2 (fun a c => R (f a) c) l l'.
Proof.
  intros A B C R f l. induction l as [|a l IH]; intros l' H; inversion H; subst; constructor; auto.
Qed.

Section Bridge.
Variable texts : disk.

Definition leaf_ok (s : store) (t : nat) (x : source) : Prop :=
  c_kind (obj (s_state s) t) = KText (src_kind x) /\ shows_source texts s t x.

Notation works_shown := (shown_works src_kind (shows_source texts)).
Notation texts_shown := (shown_texts src_kind (shows_source texts)).
Notation groups_shown := (shown_groups src_kind (shows_source texts)).

Lemma registered_in : forall s k p e key, registered_as s k p e key -> fst e = key.
Proof. intros s k p e key H. apply H. Qed.

Lemma texts_rel : forall s w l, texts_shown s w l -> rel_work (leaf_ok s) (entries s w) l.
Proof.
  intros s w l H. eapply F2_with; [exact H|]. cbn beta. intros e x _ _ (A & _ & B).
  split; [apply A|]. split; [apply A|exact B].
Qed.
Lemma works_rel : forall s g l, works_shown s g l -> rel_group (leaf_ok s) (view_group (s_state s) g) l.
Proof.
  intros s g l H. unfold rel_group, drel, view_group. apply Forall2_map_l. cbn [fst snd].
  eapply F2_with; [exact H|]. cbn beta. intros e x _ _ (A & B). split; [apply A|]. apply texts_rel. exact B.
Qed.
Lemma groups_rel : forall s i l, groups_shown s i l -> rel_shelf (leaf_ok s) (view_shelf (s_state s) i) l.
Proof.
  intros s g l H. unfold rel_shelf, drel, view_shelf. apply Forall2_map_l. cbn [fst snd].
  eapply F2_with; [exact H|]. cbn beta. intros e x _ _ (A & B). split; [apply A|]. apply works_rel. exact B.
Qed.

Lemma keys_shown : forall {A B} (P : str * A -> str * B -> Prop) l l', Forall2 P l l' -> (forall a b, P a b -> fst a = fst b) -> keys l = keys l'.
Proof.
  intros A B P l l' H F. induction H as [|a b l l' Hab H IH]; [reflexivity|]. unfold keys in *. cbn [map]. f_equal; [apply F; exact Hab|exact IH].
Qed.

Lemma shown_good : forall s p k g ws, registered_as s KTextgroup p (k, g) k -> works_shown s g ws -> fits k ws ->
  (forall k2 ts k3 t, In (k2, ts) ws -> In (k3, t) ts -> src_kind t <> Unknown) ->
  good (s_state s) (Some p) k g.
Proof.
  intros s p k g ws (_ & R1 & R2 & R3 & R4 & R5) W (ns & cts & tg & _ & _ & _ & _ & N & F) U. cbn [snd] in *.
  assert (WK : forall k' w, In (k', w) (kids (s_state s) g) -> exists ts, In (k', ts) ws /\ registered_as s KWork g (k', w) k' /\ texts_shown s w ts).
  { intros k' w I. destruct (F2_in_l _ _ _ _ W I) as ([k2 ts] & J & A & B). cbn [fst snd] in *.
    assert (k' = k2) by apply A. subst k2. eauto. }
  assert (TX : forall k' w k2 t, In (k', w) (kids (s_state s) g) -> In (k2, t) (kids (s_state s) w) ->
    exists x, registered_as s (KText (src_kind x)) w (k2, t) k2 /\ src_kind x <> Unknown /\ kids (s_state s) t = []).
  { intros k' w k2 t I J. destruct (WK k' w I) as (ts & I1 & _ & T). destruct (F2_in_l _ _ _ _ T J) as ([k3 x] & J1 & A & E & _).
    cbn [fst snd] in *. assert (k2 = k3) by apply A. subst k3. exists x. split; [exact A|]. split; [eapply U; eassumption|exact E]. }
  constructor; [constructor|..].
  - exact R1.
  - exact R2.
  - change (kids (s_state s) g) with (entries s g).
    rewrite (keys_shown _ _ _ W); [exact N|]. intros a b [A _]. apply A.
  - intros k' w I. destruct (WK k' w I) as (ts & I1 & (_ & A1 & A2 & A3 & A4 & A5) & T). cbn [snd] in *.
    split; [exact A1|]. split; [exact A2|]. split; [exact A3|]. split; [exact A5|].
    change (kids (s_state s) w) with (entries s w).
    rewrite (keys_shown _ _ _ T); [|intros a b [A _]; apply A]. destruct (F _ _ I1) as (wk & _ & _ & D & _). exact D.
  - intros k' w k2 t I J. destruct (TX _ _ _ _ I J) as (x & (_ & A1 & A2 & A3 & A4 & A5) & _). cbn [snd] in *.
    split; [exact A1|]. split; [exists (src_kind x); exact A2|]. auto.
  - exact R3.
  - exact R4.
  - exact R5.
  - intros k' w I. destruct (WK k' w I) as (ts & I1 & (_ & A1 & A2 & A3 & A4 & A5) & T). exact A4.
  - intros k' w k2 t I J. destruct (TX _ _ _ _ I J) as (x & (_ & A1 & A2 & A3 & A4 & A5) & B & C). cbn [snd] in *.
    split; [exact A4|]. split; [congruence|exact C].
Qed.

Theorem shows_shelved : forall s root L, resolver_shows texts s root L ->
  shelved (s_state s) root /\ rel_all (leaf_ok s) (view (s_state s) root) L.
Proof.
  intros s root L [R1 R2 RP R3 R4 R5].
  assert (V : rel_all (leaf_ok s) (view (s_state s) root) L).
  { unfold rel_all, drel, view. apply Forall2_map_l. cbn [fst snd]. eapply F2_with; [exact R5|]. cbn beta.
    intros e x _ _ (A & _ & _ & _ & _ & B). split; [exact A|]. apply groups_rel. exact B. }
  split; [|exact V]. constructor.
  - exact R1.
  - exact R2.
  - intros n i I. destruct (F2_in_l _ _ _ _ R5 I) as ([n' l] & J & A & B & C & D & E & _). cbn [fst snd] in *. subst n'. auto.
  - intros n i k g I J. destruct (F2_in_l _ _ _ _ R5 I) as ([n' l] & X & A & B & C & D & E & G). cbn [fst snd] in *. subst n'.
    destruct (F2_in_l _ _ _ _ G J) as ([k' ws] & Y & H & W). cbn [fst snd] in *. assert (k = k') by apply H. subst k'.
    eapply shown_good; [exact H|exact W| |].
    + destruct (io_urns _ _ R3 _ _ _ _ X Y) as (ns & cts & tg & F). exists ns, cts, tg. exact F.
    + intros k2 ts k3 t I2 I3. eapply R4; eassumption.
  - apply (rel_in_order _ _ _ _ V). exact R3.
Qed.

Lemma good_shown : forall s p k g ws, good (s_state s) (Some p) k g -> rel_group (leaf_ok s) (view_group (s_state s) g) ws ->
  registered_as s KTextgroup p (k, g) k /\ works_shown s g ws.
Proof.
  intros s p k g ws [[T1 T2 T3 T4 T5] G1 G2 G3 G4 G5] R. split; [repeat split; assumption|].
  unfold rel_group, drel, view_group in R. apply F2_unmap_l in R. cbn [fst snd] in R.
  eapply F2_with; [exact R|]. cbn beta. intros [k' w] [k2 ts] I J (E & RW). cbn [fst snd] in *. subst k2.
  destruct (T4 _ _ I) as (A1 & A2 & A3 & A4 & A5). split; [repeat split; try assumption; apply G4; exact I|].
  eapply F2_with; [exact RW|]. cbn beta. intros [k3 t] [k4 x] I2 J2 (E2 & K & S). cbn [fst snd] in *. subst k4.
  destruct (T5 _ _ _ _ I I2) as (B1 & B2 & B3 & B4). destruct (G5 _ _ _ _ I I2) as (C1 & C2 & C3).
  split; [repeat split; assumption|]. split; [exact C3|exact S].
Qed.

Theorem shelved_shows : forall s root L, shelved (s_state s) root -> rel_all (leaf_ok s) (view (s_state s) root) L ->
  (forall t path, In (t, path) (s_paths s) -> t < length (objs (s_state s))) ->
  resolver_shows texts s root L.
Proof.
  intros s root L [S1 S2 S3 S4 S5] V P. constructor; [exact S1|exact S2|exact P| | |].
  - apply (rel_in_order _ _ _ _ V). exact S5.
  - intros n l k ws k2 ts k3 t I1 I2 I3 I4.
    destruct (drel_In_r _ _ _ _ _ V I1) as (l' & J1 & V1). apply in_view in J1. destruct J1 as (i & J1 & ->).
    destruct (drel_In_r _ _ _ _ _ V1 I2) as (g' & J2 & V2). apply in_view in J2. destruct J2 as (g & J2 & ->).
    destruct (drel_In_r _ _ _ _ _ V2 I3) as (w' & J3 & V3). apply in_view_group' in J3. destruct J3 as (w & J3 & ->).
    destruct (drel_In_r _ _ _ _ _ V3 I4) as (x & J4 & K & _).
    destruct (gd_text _ _ _ _ (S4 _ _ _ _ J1 J2) _ _ _ _ J3 J4) as (_ & N & _). congruence.
  - unfold rel_all, drel, view in V. apply F2_unmap_l in V. cbn [fst snd] in V.
    eapply F2_with; [exact V|]. cbn beta. intros [n i] [n' l] I J (E & RV). cbn [fst snd] in *. subst n'.
    destruct (S3 _ _ I) as (A1 & A2 & A3 & A4). split; [reflexivity|]. split; [exact A1|]. split; [exact A2|]. split; [exact A3|].
    split; [exact A4|]. unfold rel_shelf, drel, view_shelf in RV. apply F2_unmap_l in RV. cbn [fst snd] in RV.
    eapply F2_with; [exact RV|]. cbn beta. intros [k g] [k' ws] I2 J2 (E2 & RG). cbn [fst snd] in *. subst k'.
    apply good_shown; [|exact RG]. eapply S4; eassumption.
Qed.

(** Leaves keep what they show. *)
Lemma leaf_kept : forall s s' t x, alike (s_state s) t (s_state s') t -> citation_of s' t = citation_of s t -> path_of s' t = path_of s t ->
  leaf_ok s t x -> leaf_ok s' t x.
Proof.
  intros s s' t x (A1 & A2 & A3) C P (K & U & (c & E & F) & G). split; [congruence|]. split; [rewrite U, A2; reflexivity|].
  split; [exists c; rewrite C; auto|]. unfold kept_at in *. rewrite P. exact G.
Qed.

Lemma rel_group_kept : forall s s' g ws, rel_group (leaf_ok s) g ws ->
  (forall k ts k2 t, In (k, ts) g -> In (k2, t) ts -> alike (s_state s) t (s_state s') t /\ citation_of s' t = citation_of s t /\ path_of s' t = path_of s t) ->
  rel_group (leaf_ok s') g ws.
Proof.
  intros s s' g ws R H. eapply drel_mono; [exact R|]. intros k ts ts' I _ R1. eapply drel_mono; [exact R1|].
  intros k2 t x I2 _ R2. destruct (H _ _ _ _ I I2) as (? & ? & ?). eapply leaf_kept; eassumption.
Qed.

Lemma rel_all_kept : forall s s' L L', rel_all (leaf_ok s) L L' ->
  (forall n l k g k2 ts k3 t, In (n, l) L -> In (k, g) l -> In (k2, ts) g -> In (k3, t) ts ->
    alike (s_state s) t (s_state s') t /\ citation_of s' t = citation_of s t /\ path_of s' t = path_of s t) ->
  rel_all (leaf_ok s') L L'.
Proof.
  intros s s' L L' R H. eapply drel_mono; [exact R|]. intros n l l' I _ R1. eapply drel_mono; [exact R1|].
  intros k g g' I2 _ R2. eapply rel_group_kept; [exact R2|]. intros. eapply H; eassumption.
Qed.

Lemma rel_shelves : forall s tests l l' L L', rel_all (leaf_ok s) L L' ->
  Forall2 (fun a b => fst a = fst b /\ fst (snd a) = fst (snd b) /\ rel_group (leaf_ok s) (snd (snd a)) (snd (snd b))) l l' ->
  rel_all (leaf_ok s) (fold_left (shelve_at tests) l L) (fold_left (shelve_at tests) l' L').
Proof.
  intros s tests l l' L L' R H. revert L L' R. induction H as [|[p [k g]] [p' [k' g']] l l' (Ep & E & G) H IH]; intros L L' R; [exact R|].
  cbn [fold_left]. apply IH. unfold shelve_at. cbn [fst snd] in *. subst k' p'. apply rel_shelve; assumption.
Qed.
End Bridge.
