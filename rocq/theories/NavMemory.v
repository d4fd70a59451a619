(** What remote objects have been told they keep, whatever the endpoint replies. *)

From Coq Require Import List NArith ZArith Arith Bool Lia.
From Verif Require Import PyStr RefModel UrnModel XmlModel InvModel PassageModel HttpModel RemoteModel TextMetaModel NavModel NavSpec NavProofs.
Import ListNotations.
Open Scope nav_scope.

Definition at_ (i : nat) (w : world) : remote := nth i (w_objs w) blank.
Definition fine (w : world) : Prop := forall i, coherent (at_ i w).
Definition size (w : world) : nat := length (w_objs w).
Definition onward (w w' : world) : Prop :=
  fine w' /\ size w <= size w' /\ forall i, i < size w -> grows (at_ i w) (at_ i w').

Lemma onward_refl : forall w, fine w -> onward w w.
Proof. intros w F. split; [exact F|]. split; [lia|]. intros i _. apply grows_refl. Qed.
Lemma onward_trans : forall a b d, onward a b -> onward b d -> onward a d.
Proof.
  intros a b d (A1 & A2 & A3) (B1 & B2 & B3). split; [exact B1|]. split; [lia|]. intros i Hi.
  eapply grows_trans; [apply A3; exact Hi|]. apply B3. lia.
Qed.

Lemma at_change : forall l i f j, nth j (change_at l i f) blank = (if Nat.eqb j i && Nat.ltb i (length l) then f (nth j l blank) else nth j l blank).
Proof.
  induction l as [|o l IH]; intros i f j.
  - cbn [change_at length]. rewrite andb_false_r. reflexivity.
  - destruct i as [|i], j as [|j]; cbn [change_at nth length]; try reflexivity. rewrite IH. cbn [Nat.eqb]. reflexivity.
Qed.
Lemma change_size : forall l i f, length (change_at l i f) = length l.
Proof. induction l as [|o l IH]; intros [|i] f; cbn; auto. Qed.

(** A change to one object. *)
Lemma change_onward : forall i f w, fine w -> (i < size w -> coherent (f (at_ i w)) /\ grows (at_ i w) (f (at_ i w))) ->
  onward w (fst (change i f w)).
Proof.
  intros i f w F H. unfold change. cbn [fst]. split; [|split].
  - intros j. unfold at_. cbn [w_objs]. rewrite at_change. destruct (Nat.eqb_spec j i) as [->|N]; cbn [andb]; [|apply F].
    destruct (Nat.ltb_spec i (length (w_objs w))) as [L|L]; [apply H; exact L|apply F].
  - unfold size. cbn [w_objs]. rewrite change_size. lia.
  - intros j Hj. unfold at_. cbn [w_objs]. rewrite at_change. destruct (Nat.eqb_spec j i) as [->|N]; cbn [andb]; [|apply grows_refl].
    destruct (Nat.ltb_spec i (length (w_objs w))) as [L|L]; [apply H; exact L|apply grows_refl].
Qed.
Lemma change_at_it : forall i f w, i < size w -> at_ i (fst (change i f w)) = f (at_ i w).
Proof.
  intros i f w L. unfold change, at_. cbn [fst w_objs]. rewrite at_change, Nat.eqb_refl. unfold size in L.
  destruct (Nat.ltb_spec i (length (w_objs w))); [reflexivity|lia].
Qed.
Lemma change_ok : forall i f w, snd (change i f w) = Ok tt.
Proof. reflexivity. Qed.

(** Steps that only change citations. *)
Definition only_cite (o o' : remote) : Prop := exists l, o' = with_cite l o.
Definition cites (w w' : world) : Prop := size w' = size w /\ forall i, only_cite (at_ i w) (at_ i w').
Lemma only_cite_refl : forall o, only_cite o o.
Proof. intros []. eexists. reflexivity. Qed.
Lemma cites_refl : forall w, cites w w.
Proof. intros w. split; [reflexivity|]. intros i. apply only_cite_refl. Qed.
Lemma cites_trans : forall a b d, cites a b -> cites b d -> cites a d.
Proof.
  intros a b d [A1 A2] [B1 B2]. split; [congruence|]. intros i. destruct (A2 i) as [l A], (B2 i) as [l' B]. exists l'. rewrite B, A. reflexivity.
Qed.
Lemma cites_onward : forall w w', fine w -> cites w w' -> onward w w'.
Proof.
  intros w w' F [C1 C2]. split; [|split].
  - intros i. destruct (C2 i) as [l ->]. exact (F i).
  - lia.
  - intros i _. destruct (C2 i) as [l ->]. repeat split; auto.
Qed.
Lemma cites_fine : forall w w', fine w -> cites w w' -> fine w'.
Proof. intros w w' F C. exact (proj1 (cites_onward w w' F C)). Qed.

Definition keeps_all {A} (m : M A) : Prop := forall w, cites w (fst (m w)).
Lemma keeps_andthen : forall {A B} (m : M A) (k : A -> M B), keeps_all m -> (forall a, keeps_all (k a)) -> keeps_all (andthen m k).
Proof.
  intros A B m k H K w. unfold andthen. specialize (H w). destruct (m w) as [w1 [a|e]]; cbn [fst] in *; [|exact H].
  eapply cites_trans; [exact H|]. apply K.
Qed.
Lemma keeps_ret : forall {A} (a : A), keeps_all (ret a).
Proof. intros A a w. apply cites_refl. Qed.
Lemma keeps_lift : forall {A} (r : result A), keeps_all (lift r).
Proof. intros A r w. apply cites_refl. Qed.
Lemma keeps_fail : forall {A} e, keeps_all (@fail A e).
Proof. intros A e w. apply cites_refl. Qed.
Lemma keeps_look : forall i, keeps_all (look i).
Proof. intros i w. apply cites_refl. Qed.
Lemma keeps_cite : forall i l, keeps_all (change i (with_cite l)).
Proof.
  intros i l w. unfold change. split; [unfold size; cbn [fst w_objs]; apply change_size|]. intros j. unfold at_. cbn [fst w_objs]. rewrite at_change.
  destruct (_ && _); [eexists; reflexivity|apply only_cite_refl].
Qed.

Section Any.
Variable E : nat -> call -> result XmlModel.node.

Lemma keeps_ask : forall cl, keeps_all (ask_for E cl).
Proof. intros cl w. split; [reflexivity|]. intros i. apply only_cite_refl. Qed.
Lemma keeps_learn : forall i x, keeps_all (learn_request i x).
Proof.
  intros i x. apply keeps_andthen; [apply keeps_look|]. intros o. destruct (filter _ _); [apply keeps_fail|].
  apply keeps_andthen; [apply keeps_lift|]. intros l'. apply keeps_cite.
Qed.
Lemma keeps_reffs : forall i z r, keeps_all (get_remote_reffs E i z r).
Proof.
  intros i z r. apply keeps_andthen; [apply keeps_look|]. intros o. unfold get_valid_reff.
  apply keeps_andthen; [apply keeps_look|]. intros o1.
  apply keeps_andthen; [apply keeps_lift|]. intros u.
  apply keeps_andthen; [apply keeps_ask|]. intros x.
  apply keeps_andthen; [apply keeps_learn|]. intros _. apply keeps_lift.
Qed.

Definition goes {A} (m : M A) : Prop := forall w, fine w -> onward w (fst (m w)).
Lemma goes_andthen : forall {A B} (m : M A) (k : A -> M B), goes m -> (forall a, goes (k a)) -> goes (andthen m k).
Proof.
  intros A B m k H K w F. unfold andthen. specialize (H w F). destruct (m w) as [w1 [a|e]]; cbn [fst] in *; [|exact H].
  eapply onward_trans; [exact H|]. apply K. exact (proj1 H).
Qed.
Lemma goes_keeps : forall {A} (m : M A), keeps_all m -> goes m.
Proof. intros A m K w F. apply cites_onward; [exact F|apply K]. Qed.

Lemma goes_make : forall o, coherent o -> goes (make o).
Proof.
  intros o C w F. unfold make. cbn [fst]. split; [|split].
  - intros i. unfold at_. cbn [w_objs]. destruct (Nat.lt_ge_cases i (length (w_objs w))) as [L|L].
    + rewrite app_nth1 by exact L. apply F.
    + rewrite app_nth2 by exact L. destruct (i - length (w_objs w)) as [|k]; cbn [nth]; [exact C|].
      destruct k; (split; [split; reflexivity|discriminate]).
  - unfold size. cbn [w_objs]. rewrite app_length. lia.
  - intros i L. unfold at_. cbn [w_objs]. rewrite app_nth1 by exact L. apply grows_refl.
Qed.
Lemma prevnext_both : forall x p n, read_prevnext x = (p, n) -> (p = Unknown <-> n = Unknown).
Proof. intros x p n H. unfold read_prevnext in H. destruct (filter _ _); injection H as <- <-; split; congruence || discriminate. Qed.
Lemma goes_node : forall i a, goes (get_remote_node E i a).
Proof.
  intros i a. apply goes_andthen; [apply goes_keeps, keeps_look|]. intros o.
  apply goes_andthen; [apply goes_keeps, keeps_lift|]. intros u.
  apply goes_andthen; [apply goes_keeps, keeps_ask|]. intros x.
  apply goes_andthen; [apply goes_keeps, keeps_learn|]. intros _. unfold make_passage.
  apply goes_andthen; [apply goes_keeps, keeps_lift|]. intros v.
  apply goes_andthen; [apply goes_keeps, keeps_lift|]. intros xc.
  destruct (read_prevnext x) as [p n] eqn:PN. apply goes_make. split; [exact (prevnext_both _ _ _ PN)|discriminate].
Qed.

Lemma siblings_onward : forall i w, fine w -> r_prev (at_ i w) = Unknown -> onward w (fst (ask_siblings E i w)).
Proof.
  intros i w F U. unfold ask_siblings, andthen, look, lift, ask_for. fold (at_ i w).
  destruct (passage_request _) as [u|e]; [|apply onward_refl; exact F]. destruct (E _ _) as [x|e]; cbn [fst].
  - destruct (read_prevnext x) as [p n] eqn:PN. pose proof (F i) as [C L]. refine (change_onward i _ (MkWorld (w_objs w) _) F _). intros _. split.
    + split; [exact (prevnext_both _ _ _ PN)|exact L].
    + repeat split; auto; cbn [with_siblings r_prev r_next]; intros X; exfalso; apply X; [exact U|apply C; exact U].
  - exact (onward_refl (MkWorld (w_objs w) _) F).
Qed.
Lemma siblings_told : forall i w, snd (ask_siblings E i w) = Ok tt \/ exists e, snd (ask_siblings E i w) = Err e.
Proof. intros i w. destruct (snd (ask_siblings E i w)) as [[]|e]; eauto. Qed.

Lemma goes_prev : forall i, goes (prev_id E i).
Proof.
  intros i w F. unfold prev_id, andthen at 1, look at 1. fold (at_ i w). destruct (r_passage (at_ i w)); [|apply onward_refl; exact F].
  destruct (r_prev (at_ i w)) as [|s] eqn:P; cbn [unknown].
  - pose proof (siblings_onward i w F P) as O. unfold andthen. destruct (ask_siblings E i w) as [w1 [u|e]]; exact O.
  - apply onward_refl. exact F.
Qed.
Lemma goes_next : forall i, goes (next_id E i).
Proof.
  intros i w F. unfold next_id, andthen at 1, look at 1. fold (at_ i w). destruct (r_passage (at_ i w)); [|apply onward_refl; exact F].
  destruct (r_next (at_ i w)) as [|s] eqn:P; cbn [unknown].
  - pose proof (siblings_onward i w F (proj2 (proj1 (F i)) P)) as O. unfold andthen. destruct (ask_siblings E i w) as [w1 [u|e]]; exact O.
  - apply onward_refl. exact F.
Qed.
Lemma goes_both : forall i, goes (siblings_id E i).
Proof.
  intros i w F. unfold siblings_id, andthen at 1, look at 1. fold (at_ i w). destruct (r_passage (at_ i w)); [|apply onward_refl; exact F].
  destruct (unknown (r_next (at_ i w)) || unknown (r_prev (at_ i w))) eqn:U.
  - assert (P : r_prev (at_ i w) = Unknown).
    { apply orb_prop in U. destruct U as [U|U]; [apply (proj1 (F i))|]; destruct (r_next (at_ i w)), (r_prev (at_ i w)); congruence || discriminate. }
    pose proof (siblings_onward i w F P) as O. unfold andthen. destruct (ask_siblings E i w) as [w1 [u|e]]; exact O.
  - apply onward_refl. exact F.
Qed.

Lemma children_eq : forall i w, children_ids E i w =
  match r_children (at_ i w) with
  | Some l => (w, Ok l)
  | None => match get_remote_reffs E i 1 None w with
            | (w1, Ok l) => (fst (change i (with_children l) w1), Ok l)
            | (w1, Err e) => (w1, Err e)
            end
  end.
Proof.
  intros i w. unfold children_ids, andthen at 1, look. fold (at_ i w). destruct (r_children (at_ i w)); [reflexivity|].
  unfold andthen. destruct (get_remote_reffs E i 1 None w) as [w1 [l|e]]; reflexivity.
Qed.
Lemma children_size : forall i w, size (fst (children_ids E i w)) = size w.
Proof.
  intros i w. rewrite children_eq. destruct (r_children (at_ i w)); [reflexivity|]. destruct (keeps_reffs i 1 None w) as [K _].
  destruct (get_remote_reffs E i 1 None w) as [w1 [l|e]]; cbn [fst] in *; [|exact K]. rewrite <- K. unfold size. cbn [change fst w_objs]. apply change_size.
Qed.
Lemma children_onward : forall i w, fine w -> onward w (fst (children_ids E i w)) /\
  (forall j, r_last (at_ j (fst (children_ids E i w))) = r_last (at_ j w)) /\
  (forall l, snd (children_ids E i w) = Ok l -> i < size w -> r_children (at_ i (fst (children_ids E i w))) = Some l).
Proof.
  intros i w F. rewrite children_eq. destruct (r_children (at_ i w)) as [l|] eqn:C.
  - split; [apply onward_refl; exact F|]. split; [reflexivity|]. cbn. intros l' E' _. rewrite C. congruence.
  - pose proof (keeps_reffs i 1 None w) as K. destruct (get_remote_reffs E i 1 None w) as [w1 [l|e]]; cbn [fst] in K.
    + pose proof (cites_fine _ _ F K) as F1. pose proof K as [KS KO].
      assert (O : onward w1 (fst (change i (with_children l) w1))).
      { apply change_onward; [exact F1|]. intros L. destruct (KO i) as [cc X]. assert (Y : r_children (at_ i w1) = None) by (rewrite X; exact C).
        pose proof (F1 i) as [C1 C2]. split.
        - split; [exact C1|]. cbn [with_children r_last r_children]. intros s S. destruct (C2 s S) as (l0 & t & Q & _). congruence.
        - repeat split; auto. intros Z. congruence. }
      cbn [change fst snd ret] in *. split; [eapply onward_trans; [apply cites_onward; eassumption|exact O]|]. split.
      * intros j. unfold at_. cbn [w_objs]. rewrite at_change. destruct (KO j) as [cc X]. unfold at_ in X. rewrite X. destruct (_ && _); reflexivity.
      * intros l' E' L. injection E' as <-. unfold at_. cbn [w_objs]. rewrite at_change, Nat.eqb_refl. cbn [andb].
        destruct (Nat.ltb_spec i (length (w_objs w1))) as [_|L1]; [reflexivity|]. unfold size in *. lia.
    + cbn [fst snd]. split; [apply cites_onward; assumption|]. split; [|discriminate]. intros j. destruct (proj2 K j) as [cc ->]. reflexivity.
Qed.

Lemma first_onward : forall i w, fine w -> onward w (fst (remote_first_id E i w)) /\
  (forall s, snd (remote_first_id E i w) = Ok s -> i < size w -> r_first (at_ i (fst (remote_first_id E i w))) = Some s).
Proof.
  intros i w F.
  assert (Q : remote_first_id E i w =
    match r_first (at_ i w) with
    | Some s => (w, Ok s)
    | None => match asked_first (r_urn (at_ i w)) None with
              | Err e => (w, Err e)
              | Ok u => let w1 := MkWorld (w_objs w) (w_log w ++ [MkCall #"GetFirstUrn" u None]) in
                        match E (length (w_log w)) (MkCall #"GetFirstUrn" u None) with
                        | Err e => (w1, Err e)
                        | Ok x => (fst (change i (with_first (read_first x)) w1), Ok (read_first x))
                        end
              end
    end).
  { unfold remote_first_id, andthen at 1, look. fold (at_ i w). destruct (r_first (at_ i w)); [reflexivity|].
    unfold andthen, lift, ask_for. destruct (asked_first _ None); [|reflexivity]. destruct (E _ _); reflexivity. }
  rewrite Q. destruct (r_first (at_ i w)) as [s|] eqn:R.
  - split; [apply onward_refl; exact F|]. cbn. intros s' X _. congruence.
  - destruct (asked_first _ None) as [u|e]; [|split; [apply onward_refl; exact F|discriminate]]. cbn zeta.
    destruct (E _ _) as [x|e]; [|split; [exact (onward_refl (MkWorld (w_objs w) _) F)|discriminate]].
    cbn [fst snd]. split.
    + refine (change_onward i _ (MkWorld (w_objs w) _) F _). intros _. split; [exact (F i)|]. repeat split; auto.
      intros Z. destruct Z. exact R.
    + intros s X L. injection X as <-. rewrite change_at_it by exact L. reflexivity.
Qed.
Lemma last_onward : forall i w, fine w -> onward w (fst (remote_last_id E i w)) /\
  (forall s, snd (remote_last_id E i w) = Ok s -> i < size w -> r_last (at_ i (fst (remote_last_id E i w))) = Some s).
Proof.
  intros i w F.
  assert (Q : remote_last_id E i w =
    match r_last (at_ i w) with
    | Some s => (w, Ok s)
    | None => match children_ids E i w with
              | (w1, Err e) => (w1, Err e)
              | (w1, Ok l) => match rev l with [] => (w1, Err IndexError) | s :: _ => (fst (change i (with_last s) w1), Ok s) end
              end
    end).
  { unfold remote_last_id, andthen at 1, look. fold (at_ i w). destruct (r_last (at_ i w)); [reflexivity|].
    unfold andthen. destruct (children_ids E i w) as [w1 [l|e]]; [|reflexivity]. destruct (rev l); reflexivity. }
  rewrite Q. destruct (r_last (at_ i w)) as [s|] eqn:R.
  - split; [apply onward_refl; exact F|]. cbn. intros s' X _. congruence.
  - destruct (children_onward i w F) as (O & KL & KC). pose proof (children_size i w) as SZ. destruct (children_ids E i w) as [w1 [l|e]]; cbn [fst snd] in *; [|split; [exact O|discriminate]].
    destruct (rev l) as [|s t] eqn:RL; cbn [fst snd]; [split; [exact O|discriminate]|]. pose proof O as (F1 & S1 & G1).
    destruct (Nat.lt_ge_cases i (size w)) as [L|L].
    + split.
      * eapply onward_trans; [exact O|]. apply change_onward; [exact F1|]. intros L1. pose proof (F1 i) as [C1 C2]. split.
        -- split; [exact C1|]. cbn [with_last r_last r_children]. intros s' X. injection X as <-. exists l, t. split; [apply KC; auto|exact RL].
        -- repeat split; auto. intros Z. destruct Z. rewrite KL. exact R.
      * intros s' X _. injection X as <-. rewrite change_at_it by lia. reflexivity.
    + split; [|lia]. eapply onward_trans; [exact O|]. apply change_onward; [exact F1|]. intros L1. exfalso.
      lia.
Qed.

Lemma goes_children : forall i, goes (children_ids E i).
Proof. intros i w F. apply children_onward. exact F. Qed.
Lemma goes_first : forall i, goes (remote_first_id E i).
Proof. intros i w F. apply first_onward. exact F. Qed.
Lemma goes_last : forall i, goes (remote_last_id E i).
Proof. intros i w F. apply last_onward. exact F. Qed.
Lemma keeps_parent : forall i, keeps_all (remote_parent_id i).
Proof.
  intros i. apply keeps_andthen; [apply keeps_look|]. intros o. destruct (r_passage o); [|apply keeps_fail].
  destruct (u_ref (r_urn o)); [|apply keeps_fail]. apply keeps_andthen; [apply keeps_lift|]. intros p. apply keeps_ret.
Qed.
Lemma goes_ret : forall {A} (a : A), goes (ret a).
Proof. intros A a. apply goes_keeps, keeps_ret. Qed.
Lemma goes_sibling : forall i id, (forall j, goes (id j)) -> goes (go_sibling E i id).
Proof.
  intros i id H. apply goes_andthen; [apply H|]. intros [|[s|]]; try apply goes_ret;
    (apply goes_andthen; [apply H|]; intros b; apply goes_andthen; [apply goes_node|]; intros k; apply goes_ret).
Qed.
Lemma goes_each : forall l i, goes (get_each E i l).
Proof.
  induction l as [|s l IH]; intros i; [apply goes_ret|]. cbn [get_each]. apply goes_andthen; [apply goes_node|]. intros k.
  apply goes_andthen; [apply IH|]. intros ks. apply goes_ret.
Qed.
Lemma move_onward : forall w i m, fine w -> onward w (fst (make_move E w i m)).
Proof.
  intros w i m F. destruct m; unfold make_move, answered; cbn [fst].
  - apply goes_children; exact F.
  - apply goes_first; exact F.
  - apply goes_last; exact F.
  - apply goes_prev; exact F.
  - apply goes_next; exact F.
  - apply goes_both; exact F.
  - apply goes_keeps; [apply keeps_parent|exact F].
  - revert w F. apply goes_andthen; [apply goes_children|]. intros l. apply goes_each.
  - revert w F. apply goes_andthen; [apply goes_first|]. intros [s|]; [|apply goes_ret].
    apply goes_andthen; [apply goes_first|]. intros b. apply goes_andthen; [apply goes_node|]. intros k. apply goes_ret.
  - revert w F. apply goes_andthen; [apply goes_last|]. intros _.
    apply goes_andthen; [apply goes_last|]. intros b. apply goes_andthen; [apply goes_node|]. intros k. apply goes_ret.
  - apply goes_sibling; [apply goes_prev|exact F].
  - apply goes_sibling; [apply goes_next|exact F].
  - revert w F. apply goes_andthen; [apply goes_keeps, keeps_parent|]. intros s. apply goes_andthen; [apply goes_node|]. intros k. apply goes_ret.
  - apply goes_keeps; [apply keeps_reffs|exact F].
  - apply goes_node; exact F.
  - apply goes_node; exact F.
Qed.
Lemma moves_onward : forall h w, fine w -> onward w (fst (make_moves E w h)).
Proof.
  induction h as [|[i m] h IH]; intros w F; cbn [make_moves]; [apply onward_refl; exact F|].
  pose proof (move_onward w i m F) as O. destruct (make_move E w i m) as [w1 a]. cbn [fst] in O.
  pose proof (IH w1 (proj1 O)) as O2. destruct (make_moves E w1 h) as [w2 l]. cbn [fst] in *. eapply onward_trans; eassumption.
Qed.

(** ** Asking again *)

Lemma prev_eq : forall i w, prev_id E i w =
  if r_passage (at_ i w) then
    let r := (if unknown (r_prev (at_ i w)) then ask_siblings E i else ret tt) w in
    let w1 := fst r in match snd r with Ok _ => (w1, Ok (r_prev (at_ i w1))) | Err e => (w1, Err e) end
  else (w, Err NotImplementedError).
Proof.
  intros i w. unfold prev_id. unfold andthen at 1. unfold look at 1. fold (at_ i w). destruct (r_passage (at_ i w)); [|reflexivity].
  unfold andthen at 1. cbv zeta. destruct ((if unknown (r_prev (at_ i w)) then ask_siblings E i else ret tt) w) as [w1 [u|e]]; reflexivity.
Qed.
Lemma told_prev : forall i w o, fine w -> i < size w -> snd (prev_id E i w) = Ok (Known o) ->
  r_passage (at_ i (fst (prev_id E i w))) = true /\ r_prev (at_ i (fst (prev_id E i w))) = Known o.
Proof.
  intros i w o F L. pose proof (goes_prev i w F) as (_ & _ & G). specialize (G i L). destruct G as (_ & G & _). rewrite G. clear G. rewrite prev_eq.
  destruct (r_passage (at_ i w)); [|discriminate]. cbv zeta. destruct (snd ((if unknown (r_prev (at_ i w)) then ask_siblings E i else ret tt) w)); [|discriminate]. cbn [fst snd]. intros X. split; congruence.
Qed.
Lemma next_eq : forall i w, next_id E i w =
  if r_passage (at_ i w) then
    let r := (if unknown (r_next (at_ i w)) then ask_siblings E i else ret tt) w in
    let w1 := fst r in match snd r with Ok _ => (w1, Ok (r_next (at_ i w1))) | Err e => (w1, Err e) end
  else (w, Err NotImplementedError).
Proof.
  intros i w. unfold next_id. unfold andthen at 1. unfold look at 1. fold (at_ i w). destruct (r_passage (at_ i w)); [|reflexivity].
  unfold andthen at 1. cbv zeta. destruct ((if unknown (r_next (at_ i w)) then ask_siblings E i else ret tt) w) as [w1 [u|e]]; reflexivity.
Qed.
Lemma told_next : forall i w o, fine w -> i < size w -> snd (next_id E i w) = Ok (Known o) ->
  r_passage (at_ i (fst (next_id E i w))) = true /\ r_next (at_ i (fst (next_id E i w))) = Known o.
Proof.
  intros i w o F L. pose proof (goes_next i w F) as (_ & _ & G). specialize (G i L). destruct G as (_ & G & _). rewrite G. clear G. rewrite next_eq.
  destruct (r_passage (at_ i w)); [|discriminate]. cbv zeta. destruct (snd ((if unknown (r_next (at_ i w)) then ask_siblings E i else ret tt) w)); [|discriminate]. cbn [fst snd]. intros X. split; congruence.
Qed.
Lemma both_eq : forall i w, siblings_id E i w =
  if r_passage (at_ i w) then
    let r := (if unknown (r_next (at_ i w)) || unknown (r_prev (at_ i w)) then ask_siblings E i else ret tt) w in
    let w1 := fst r in match snd r with Ok _ => (w1, Ok (r_prev (at_ i w1), r_next (at_ i w1))) | Err e => (w1, Err e) end
  else (w, Err NotImplementedError).
Proof.
  intros i w. unfold siblings_id. unfold andthen at 1. unfold look at 1. fold (at_ i w). destruct (r_passage (at_ i w)); [|reflexivity].
  unfold andthen at 1. cbv zeta. destruct ((if unknown (r_next (at_ i w)) || unknown (r_prev (at_ i w)) then ask_siblings E i else ret tt) w) as [w1 [u|e]]; reflexivity.
Qed.
Lemma told_both : forall i w o o', fine w -> i < size w -> snd (siblings_id E i w) = Ok (Known o, Known o') ->
  let w' := fst (siblings_id E i w) in r_passage (at_ i w') = true /\ r_prev (at_ i w') = Known o /\ r_next (at_ i w') = Known o'.
Proof.
  intros i w o o' F L. pose proof (goes_both i w F) as (_ & _ & G). specialize (G i L). destruct G as (_ & G & _). cbv zeta. rewrite G. clear G. rewrite both_eq.
  destruct (r_passage (at_ i w)); [|discriminate]. cbv zeta. destruct (snd ((if unknown (r_next (at_ i w)) || unknown (r_prev (at_ i w)) then ask_siblings E i else ret tt) w)); [|discriminate]. cbn [fst snd]. intros X. repeat split; congruence.
Qed.
Lemma remembered : forall w i m a w1 h w2 l, fine w -> i < size w -> tells_ids m -> definite a ->
  make_move E w i m = (w1, a) -> make_moves E w1 h = (w2, l) -> make_move E w2 i m = (w2, a).
Proof.
  intros w i m a w1 h w2 l F L T D Q H.
  pose proof (move_onward w i m F) as O1. rewrite Q in O1. cbn [fst] in O1. pose proof O1 as (F1 & S1 & G1). specialize (G1 i L).
  pose proof (moves_onward h w1 F1) as O2. rewrite H in O2. cbn [fst] in O2. destruct O2 as (F2 & S2 & G2). assert (L1 : i < size w1) by lia. specialize (G2 i L1).
  destruct G2 as (U & P & GP & GN & GC & GF & GL).
  unfold tells_ids in T. cbn [In] in T. repeat (destruct T as [<-|T]; [|]); [..|destruct T]; unfold make_move, answered in Q.
  - destruct (children_onward i w F) as (_ & _ & K). injection Q as <- <-. destruct (snd (children_ids E i w)) as [ids|e] eqn:X; [|destruct D].
    specialize (K ids eq_refl L). unfold make_move, answered. rewrite children_eq, GC by congruence. rewrite K. reflexivity.
  - destruct (first_onward i w F) as [_ K]. injection Q as <- <-. destruct (snd (remote_first_id E i w)) as [s|e] eqn:X; [|destruct D].
    specialize (K s eq_refl L). assert (Z : remote_first_id E i w2 = (w2, Ok s)); [|unfold make_move, answered; rewrite Z; reflexivity].
    unfold remote_first_id. unfold andthen at 1. unfold look. fold (at_ i w2). rewrite GF by congruence. rewrite K. reflexivity.
  - destruct (last_onward i w F) as [_ K]. injection Q as <- <-. destruct (snd (remote_last_id E i w)) as [s|e] eqn:X; [|destruct D].
    specialize (K s eq_refl L). assert (Z : remote_last_id E i w2 = (w2, Ok s)); [|unfold make_move, answered; rewrite Z; reflexivity].
    unfold remote_last_id. unfold andthen at 1. unfold look. fold (at_ i w2). rewrite GL by congruence. rewrite K. reflexivity.
  - injection Q as <- <-. destruct (snd (prev_id E i w)) as [[|o]|e] eqn:X; try (destruct D; fail).
    destruct (told_prev i w o F L X) as [K1 K2]. unfold make_move, answered. rewrite prev_eq, P, K1. cbv zeta. rewrite GP by congruence. rewrite K2. cbn [unknown ret fst snd].
    rewrite GP by congruence. rewrite K2. reflexivity.
  - injection Q as <- <-. destruct (snd (next_id E i w)) as [[|o]|e] eqn:X; try (destruct D; fail).
    destruct (told_next i w o F L X) as [K1 K2]. unfold make_move, answered. rewrite next_eq, P, K1. cbv zeta. rewrite GN by congruence. rewrite K2. cbn [unknown ret fst snd].
    rewrite GN by congruence. rewrite K2. reflexivity.
  - injection Q as <- <-. destruct (snd (siblings_id E i w)) as [[[|o] [|o']]|e] eqn:X; try (destruct D; fail).
    destruct (told_both i w o o' F L X) as (K1 & K2 & K3). unfold make_move, answered. rewrite both_eq, P, K1. cbv zeta.
    rewrite GP by congruence. rewrite GN by congruence. rewrite K2, K3. cbn [unknown orb ret fst snd].
    rewrite GP by congruence. rewrite GN by congruence. rewrite K2, K3. reflexivity.
  - destruct G1 as (U1 & P1 & _). injection Q as <- <-. revert U P U1 P1 D.
    unfold make_move, answered, remote_parent_id, andthen, look. fold (at_ i w) (at_ i w2). intros U P U1 P1 D. rewrite P, U, P1, U1.
    destruct (r_passage (at_ i w)); [|reflexivity]. destruct (u_ref (r_urn (at_ i w))); [|reflexivity]. unfold lift. destruct (ref_parent _); reflexivity.
Qed.
End Any.
