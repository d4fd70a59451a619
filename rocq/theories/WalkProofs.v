(** Proofs about walking through a local text. *)

From Coq Require Import List NArith ZArith Arith Bool Lia Sorted.
From Verif Require Import PyStr PyStrFacts RefModel RefSpec RefProofs CiteModel SchemeModel UrnModel UrnSpec UrnProofs.
From Verif Require Import XmlModel XmlSpec XmlProofs XPathModel TemplateSpec TemplateProofs.
From Verif Require Import PassageModel PassageSpec PassageWords PassageProofs PassageTree PassageNav PassageRange PassageApi PassageFinal.
From Verif Require Import WalkModel WalkSpec WalkLists WalkWithin.
Import ListNotations.

(** ** What objects remember is what they would compute *)

Definition things (m : memory) : list thing := map v_thing m.

Section Memory.
Variable scheme : list str.
Variable same : node -> node -> bool.

Definition pure_children (t : thing) : result (list (option ref)) :=
  none <- childless scheme t ;; if (none : bool) then Ok [] else thing_reffs scheme same t 1%Z None.
Definition pure_siblings (t : thing) : result (option ref * option ref) :=
  match t with TFull o => siblings scheme same o | TSimple s => simple_siblings scheme same s end.
Definition pure_all (t : thing) : result (list (option ref)) :=
  match t with TFull (OText x u) => all_reffs scheme same (OText x u) | _ => Err AttributeError end.

Definition sound (v : visited) : Prop :=
  (forall l, v_children v = Some l -> thing_reffs scheme same (v_thing v) 1%Z None = Ok l) /\
  (forall p, v_siblings v = Some p -> pure_siblings (v_thing v) = Ok p) /\
  (forall l, v_reffs v = Some l -> pure_all (v_thing v) = Ok l).

(** In a memory of the things [ts], the step [s] gives [r] and makes [new]. *)
Definition does {A} (ts : list thing) (s : W A) (r : result A) (new : list thing) : Prop :=
  forall m, things m = ts -> Forall sound m -> exists m', s m = (m', r) /\ things m' = ts ++ new /\ Forall sound m'.

Lemma does_ret : forall A ts (a : A), does ts (w_ret a) (Ok a) [].
Proof. intros A ts a m Hm S. exists m. rewrite app_nil_r. auto. Qed.
Lemma does_fail : forall A ts e, does ts (w_fail e : W A) (Err e) [].
Proof. intros A ts a m Hm S. exists m. rewrite app_nil_r. auto. Qed.
Lemma does_lift : forall A ts (r : result A), does ts (w_lift r) r [].
Proof. intros A ts a m Hm S. exists m. rewrite app_nil_r. auto. Qed.

Lemma does_then : forall A B ts (s : W A) (k : A -> W B) a n1 r n2, does ts s (Ok a) n1 -> does (ts ++ n1) (k a) r n2 ->
  does ts (w_then s k) r (n1 ++ n2).
Proof.
  intros A B ts s k a n1 r n2 H1 H2 m Hm S. destruct (H1 m Hm S) as (m1 & E1 & T1 & S1). destruct (H2 m1 T1 S1) as (m2 & E2 & T2 & S2).
  exists m2. unfold w_then. rewrite E1, app_assoc. auto.
Qed.
Lemma does_stop : forall A B ts (s : W A) (k : A -> W B) e n1, does ts s (Err e) n1 -> does ts (w_then s k) (Err e) n1.
Proof.
  intros A B ts s k e n1 H1 m Hm S. destruct (H1 m Hm S) as (m1 & E1 & T1 & S1). exists m1. unfold w_then. rewrite E1. auto.
Qed.

(** A step that makes nothing, then another. *)
Lemma does_pure : forall A B ts (s : W A) (k : A -> W B) ra r n, does ts s ra [] ->
  match ra with Ok a => does ts (k a) r n | Err e => r = Err e /\ n = [] end -> does ts (w_then s k) r n.
Proof.
  intros A B ts s k [a|e] r n H1 H2.
  - change n with ([] ++ n). apply (does_then _ _ _ _ _ a); [exact H1|]. rewrite app_nil_r. exact H2.
  - destruct H2 as [-> ->]. apply does_stop. exact H1.
Qed.

Lemma nth_things : forall m i v, nth_error m i = Some v -> nth_error (things m) i = Some (v_thing v).
Proof. intros m i v H. unfold things. rewrite nth_error_map, H. reflexivity. Qed.

Lemma things_put : forall m i f, (forall v, v_thing (f v) = v_thing v) -> things (put m i f) = things m.
Proof.
  intros m. induction m as [|v m IH]; intros [|i] f H; try reflexivity; cbn; [rewrite H; reflexivity|].
  f_equal. apply IH. exact H.
Qed.
Lemma sound_put : forall m i f v, nth_error m i = Some v -> Forall sound m -> sound (f v) -> Forall sound (put m i f).
Proof.
  intros m. induction m as [|w m IH]; intros [|i] f v H S Hf; try discriminate; inversion S; subst; cbn in *.
  - injection H as ->. constructor; assumption.
  - constructor; [assumption|]. apply (IH i f v); assumption.
Qed.

Lemma fresh_sound : forall t, sound (fresh t).
Proof. intros t. repeat split; cbn; discriminate. Qed.

Lemma does_make : forall ts t, does ts (w_make t) (Ok (length ts)) [t].
Proof.
  intros ts t m Hm S. exists (m ++ [fresh t]). unfold w_make. split; [|split].
  - rewrite <- Hm. unfold things. rewrite map_length. reflexivity.
  - rewrite <- Hm. unfold things. rewrite map_app. reflexivity.
  - apply Forall_app. split; [exact S|]. constructor; [apply fresh_sound|constructor].
Qed.

(** Looking at an object: what follows may use what it remembers. *)
Lemma does_look : forall B ts i t (k : visited -> W B) r n, nth_error ts i = Some t ->
  (forall v m, nth_error m i = Some v -> v_thing v = t -> sound v -> things m = ts -> Forall sound m ->
     exists m', k v m = (m', r) /\ things m' = ts ++ n /\ Forall sound m') ->
  does ts (w_then (w_look i) k) r n.
Proof.
  intros B ts i t k r n Ht H m Hm S. unfold w_then, w_look. destruct (nth_error m i) as [v|] eqn:E.
  - assert (Hv : v_thing v = t) by (apply nth_things in E; rewrite Hm in E; congruence).
    apply (H v m E Hv); try assumption. rewrite Forall_forall in S. apply S. eapply nth_error_In. exact E.
  - exfalso. rewrite <- Hm in Ht. unfold things in Ht. rewrite nth_error_map, E in Ht. discriminate.
Qed.

(** When it looks only at the thing. *)
Lemma does_look_thing : forall B ts i t (k : thing -> W B) r n, nth_error ts i = Some t -> does ts (k t) r n ->
  does ts (w_then (w_look i) (fun v => k (v_thing v))) r n.
Proof. intros B ts i t k r n Ht H. apply (does_look _ _ _ t); [exact Ht|]. intros v m _ <- _ Hm S. apply (H m Hm S). Qed.

Lemma does_children : forall ts i t, nth_error ts i = Some t -> does ts (w_children scheme same i) (pure_children t) [].
Proof.
  intros ts i t Ht. unfold w_children. apply (does_look _ _ _ t); [exact Ht|]. intros v m Hv <- S Hm Sm. unfold pure_children.
  unfold w_lift, w_then, w_ret, w_put. rewrite app_nil_r. destruct (childless scheme (v_thing v)) as [[|]|e]; cbn [bind]; try (exists m; auto; fail).
  destruct (v_children v) as [l|] eqn:E.
  - exists m. rewrite (proj1 S l E). auto.
  - destruct (thing_reffs scheme same (v_thing v) 1 None) as [l|e] eqn:F; [|exists m; auto]. exists (put m i (keep_children l)).
    split; [reflexivity|]. split; [rewrite things_put by reflexivity; exact Hm|]. apply (sound_put m i _ v Hv Sm).
    destruct S as (_ & S2 & S3). repeat split; cbn; try assumption. intros l' [= <-]. exact F.
Qed.

Lemma siblings_depth : forall r x t u e, childless scheme (TFull (OPass r x t u)) = Err e -> siblings scheme same (OPass r x t u) = Err e.
Proof. intros r x t u e H. unfold childless in H. unfold siblings. destruct (negb _); [congruence|discriminate]. Qed.

Lemma does_siblings : forall ts i t, nth_error ts i = Some t -> does ts (w_siblings scheme same i) (pure_siblings t) [].
Proof.
  intros ts i t Ht. unfold w_siblings. apply (does_look _ _ _ t); [exact Ht|]. intros v m Hv <- S Hm Sm.
  destruct (v_thing v) as [[x u|r x t u]|s] eqn:Et; unfold w_lift, w_then, w_ret, w_put; rewrite app_nil_r.
  - exists m. auto.
  - destruct (childless scheme (TFull (OPass r x t u))) as [b|e] eqn:C.
    + destruct (v_siblings v) as [p|] eqn:E.
      * exists m. destruct S as (_ & S2 & _). specialize (S2 p E). rewrite Et in S2. rewrite S2. auto.
      * cbn [pure_siblings]. destruct (siblings scheme same (OPass r x t u)) as [p|e] eqn:F; [|exists m; auto]. exists (put m i (keep_siblings p)).
        split; [reflexivity|]. split; [rewrite things_put by reflexivity; exact Hm|]. apply (sound_put m i _ v Hv Sm).
        destruct S as (S1 & _ & S3). repeat split; cbn; try assumption. intros p' [= <-]. rewrite Et. exact F.
    + exists m. cbn [pure_siblings]. rewrite (siblings_depth _ _ _ _ _ C). auto.
  - destruct (v_siblings v) as [p|] eqn:E.
    + exists m. destruct S as (_ & S2 & _). specialize (S2 p E). rewrite Et in S2. rewrite S2. auto.
    + cbn [pure_siblings]. destruct (simple_siblings scheme same s) as [p|e] eqn:F; [|exists m; auto]. exists (put m i (keep_siblings p)).
      split; [reflexivity|]. split; [rewrite things_put by reflexivity; exact Hm|]. apply (sound_put m i _ v Hv Sm).
      destruct S as (S1 & _ & S3). repeat split; cbn; try assumption. intros p' [= <-]. rewrite Et. exact F.
Qed.

Lemma does_reffs : forall ts i t, nth_error ts i = Some t -> does ts (w_reffs scheme same i) (pure_all t) [].
Proof.
  intros ts i t Ht. unfold w_reffs. apply (does_look _ _ _ t); [exact Ht|]. intros v m Hv <- S Hm Sm.
  destruct (v_thing v) as [[x u|r x t u]|s] eqn:Et; unfold w_lift, w_then, w_ret, w_put, w_fail; rewrite app_nil_r; try (exists m; auto; fail).
  assert (C : exists m', (let '(m1, r) := (m, all_reffs scheme same (OText x u)) in
      match r with Ok a => let '(m2, r0) := (put m1 i (keep_reffs a), Ok tt) in match r0 with Ok _ => (m2, Ok a) | Err e => (m2, Err e) end | Err e => (m1, Err e) end) =
      (m', pure_all (TFull (OText x u))) /\ things m' = ts /\ Forall sound m').
  { cbn [pure_all]. destruct (all_reffs scheme same (OText x u)) as [l|e] eqn:F; [|exists m; auto]. exists (put m i (keep_reffs l)).
    split; [reflexivity|]. split; [rewrite things_put by reflexivity; exact Hm|]. apply (sound_put m i _ v Hv Sm).
    destruct S as (S1 & S2 & _). repeat split; cbn; try assumption. intros l' [= <-]. rewrite Et. exact F. }
  destruct (v_reffs v) as [[|o l]|] eqn:E; try exact C.
  exists m. destruct S as (_ & _ & S3). specialize (S3 _ E). rewrite Et in S3. rewrite S3. auto.
Qed.

Lemma does_node : forall ts i t r light, nth_error ts i = Some t ->
  match thing_node scheme same t r light with
  | Ok t' => does ts (w_node scheme same i r light) (Ok (length ts)) [t']
  | Err e => does ts (w_node scheme same i r light) (Err e) []
  end.
Proof.
  intros ts i t r light Ht. unfold w_node.
  assert (H : forall res n, does ts (t0 <~~ w_lift (thing_node scheme same t r light);; w_make t0) res n ->
     does ts (v <~~ w_look i;; t0 <~~ w_lift (thing_node scheme same (v_thing v) r light);; w_make t0) res n).
  { intros res n H. apply (does_look_thing _ ts i t (fun t => t0 <~~ w_lift (thing_node scheme same t r light);; w_make t0)); assumption. }
  destruct (thing_node scheme same t r light) as [t'|e]; apply H.
  - apply (does_pure _ _ _ _ _ (Ok t')); [apply does_lift|]. apply does_make.
  - apply (does_pure _ _ _ _ _ (Err e)); [apply does_lift|]. auto.
Qed.

(** ** Every step is a function of the things only *)

Definition settled {A} (s : W A) : Prop := forall ts, exists r new, does ts s r new.

Lemma settled_then : forall A B (s : W A) (k : A -> W B), settled s -> (forall a, settled (k a)) -> settled (w_then s k).
Proof.
  intros A B s k Hs Hk ts. destruct (Hs ts) as ([a|e] & n1 & H1).
  - destruct (Hk a (ts ++ n1)) as (r & n2 & H2). exists r, (n1 ++ n2). exact (does_then _ _ _ _ _ a _ _ _ H1 H2).
  - exists (Err e), n1. apply does_stop. exact H1.
Qed.
Lemma settled_ret : forall A (a : A), settled (w_ret a).
Proof. intros A a ts. exists (Ok a), []. apply does_ret. Qed.
Lemma settled_lift : forall A (r : result A), settled (w_lift r).
Proof. intros A r ts. exists r, []. apply does_lift. Qed.
Lemma settled_make : forall t, settled (w_make t).
Proof. intros t ts. exists (Ok (length ts)), [t]. apply does_make. Qed.
Lemma settled_map : forall A B (f : A -> W B) l, (forall a, settled (f a)) -> settled (w_map f l).
Proof.
  intros A B f l H. induction l as [|a l IH]; cbn; [apply settled_ret|]. apply settled_then; [apply H|]. intros b.
  apply settled_then; [exact IH|]. intros bs. apply settled_ret.
Qed.
Lemma look_missing : forall B ts i (k : visited -> W B), nth_error ts i = None -> does ts (w_then (w_look i) k) (Err AttributeError) [].
Proof.
  intros B ts i k H m Hm S. exists m. unfold w_then, w_look. rewrite app_nil_r. destruct (nth_error m i) as [v|] eqn:E; [|auto].
  apply nth_things in E. rewrite Hm in E. congruence.
Qed.
Lemma settled_look : forall B i (k : thing -> W B), (forall t, settled (k t)) -> settled (w_then (w_look i) (fun v => k (v_thing v))).
Proof.
  intros B i k H ts. destruct (nth_error ts i) as [t|] eqn:E.
  - destruct (H t ts) as (r & n & D). exists r, n. apply (does_look_thing _ _ _ t); assumption.
  - exists (Err AttributeError), []. apply look_missing. exact E.
Qed.
Lemma settled_children : forall i, settled (w_children scheme same i).
Proof.
  intros i ts. destruct (nth_error ts i) as [t|] eqn:E; [eexists; exists []; apply does_children; exact E|].
  exists (Err AttributeError), []. apply look_missing. exact E.
Qed.
Lemma settled_siblings : forall i, settled (w_siblings scheme same i).
Proof.
  intros i ts. destruct (nth_error ts i) as [t|] eqn:E; [eexists; exists []; apply does_siblings; exact E|].
  exists (Err AttributeError), []. apply look_missing. exact E.
Qed.
Lemma settled_reffs : forall i, settled (w_reffs scheme same i).
Proof.
  intros i ts. destruct (nth_error ts i) as [t|] eqn:E; [eexists; exists []; apply does_reffs; exact E|].
  exists (Err AttributeError), []. apply look_missing. exact E.
Qed.
Lemma settled_node : forall i r light, settled (w_node scheme same i r light).
Proof.
  intros i r light. apply (settled_look _ i (fun t => t0 <~~ w_lift (thing_node scheme same t r light);; w_make t0)). intros t.
  apply settled_then; [apply settled_lift|]. intros t'. apply settled_make.
Qed.

Lemma settled_ask : forall i q, settled (w_ask scheme same i q).
Proof.
  intros i q. destruct q; unfold w_ask, w_as;
    try (apply settled_then; [first [apply settled_children|apply settled_siblings|apply settled_reffs|apply settled_node|
      apply settled_then; [apply settled_children|intros; apply settled_ret]]|intros; apply settled_ret]).
  - apply (settled_look _ i (fun t => a <~~ w_lift (thing_reffs scheme same t level sub);; w_ret (ARefs a))). intros t.
    apply settled_then; [apply settled_lift|intros; apply settled_ret].
  - apply settled_then; [|intros; apply settled_ret]. apply settled_then; [apply settled_then; [apply settled_children|intros; apply settled_ret]|].
    intros [r|]; cbn; [|apply settled_ret]. apply settled_then; [apply settled_node|intros; apply settled_ret].
  - apply settled_then; [|intros; apply settled_ret]. apply settled_then; [apply settled_then; [apply settled_children|intros; apply settled_ret]|].
    intros [r|]; cbn; [|apply settled_ret]. apply settled_then; [apply settled_node|intros; apply settled_ret].
  - apply settled_then; [|intros; apply settled_ret]. apply settled_then; [apply settled_children|]. intros l. apply settled_map.
    intros [r|]; cbn; [apply settled_node|]. apply (settled_look _ i (fun t => w_make (TSimple (whole_thing t)))). intros t. apply settled_make.
  - apply settled_then; [|intros; apply settled_ret]. apply settled_then; [apply settled_siblings|]. intros [b [r|]]; cbn; [|apply settled_ret].
    apply (settled_look _ i (fun t => match t with
      | TFull (OPass q x t u) => o' <~~ w_lift (shared_node scheme same (OPass q x t u) r) ;; n <~~ w_make (TFull o') ;; w_ret (Some n)
      | _ => n <~~ w_node scheme same i r false ;; w_ret (Some n) end)).
    intros [[]|]; (apply settled_then; [first [apply settled_lift|apply settled_node]|intros; first [apply settled_ret|apply settled_then; [apply settled_make|intros; apply settled_ret]]]).
  - apply settled_then; [|intros; apply settled_ret]. apply settled_then; [apply settled_siblings|]. intros [[r|] b]; cbn; [|apply settled_ret].
    apply (settled_look _ i (fun t => match t with
      | TFull (OPass q x t u) => o' <~~ w_lift (shared_node scheme same (OPass q x t u) r) ;; n <~~ w_make (TFull o') ;; w_ret (Some n)
      | _ => n <~~ w_node scheme same i r false ;; w_ret (Some n) end)).
    intros [[]|]; (apply settled_then; [first [apply settled_lift|apply settled_node]|intros; first [apply settled_ret|apply settled_then; [apply settled_make|intros; apply settled_ret]]]).
  - apply settled_then; [|intros; apply settled_ret]. apply (settled_look _ i (fun t => w_make (TSimple (whole_thing t)))). intros t. apply settled_make.
Qed.

Lemma forgotten_things : forall m, things (forgotten m) = things m.
Proof. intros m. unfold things, forgotten. rewrite map_map. reflexivity. Qed.
Lemma forgotten_sound : forall m, Forall sound (forgotten m).
Proof. intros m. apply Forall_forall. intros v H. apply in_map_iff in H. destruct H as (w & <- & _). apply (fresh_sound (v_thing w)). Qed.

Lemma session_sound : forall h m, Forall sound m -> Forall sound (fst (session scheme same m h)).
Proof.
  intros h. induction h as [|[i q] h IH]; intros m S; [exact S|]. cbn. destruct (settled_ask i q (things m)) as (r & n & D).
  destruct (D m eq_refl S) as (m1 & E & _ & S1). rewrite E. specialize (IH m1 S1). destruct (session scheme same m1 h). exact IH.
Qed.

Lemma session_forgotten : forall h m m', Forall sound m -> things m = things m' ->
  snd (session scheme same m h) = snd (forgetting_session scheme same m' h) /\
  things (fst (session scheme same m h)) = things (fst (forgetting_session scheme same m' h)).
Proof.
  intros h. induction h as [|[i q] h IH]; intros m m' S T; [auto|]. cbn. destruct (settled_ask i q (things m)) as (r & n & D).
  destruct (D m eq_refl S) as (m1 & E1 & T1 & S1).
  destruct (D (forgotten m') (eq_trans (forgotten_things m') (eq_sym T)) (forgotten_sound m')) as (m2 & E2 & T2 & _). rewrite E1, E2.
  destruct (IH m1 m2 S1 (eq_trans T1 (eq_sym T2))) as [I1 I2]. destruct (session scheme same m1 h), (forgetting_session scheme same m2 h).
  cbn [fst snd] in *. split; [f_equal; exact I1|exact I2].
Qed.

Lemma opened_sound : forall x u, Forall sound (opened x u).
Proof. intros x u. constructor; [apply fresh_sound|constructor]. Qed.

End Memory.

(** ** Clear texts *)

Section Clear.
Variables (levels : list level) (x : node) (same : node -> node -> bool) (u : option urn).
Hypothesis Hclear : clear_text levels x (length levels).
Notation scheme := (write_scheme levels).
Notation text := (OText x u).
Notation clear_less := (clear_less levels x Hclear).
Notation some_level := (some_level levels x Hclear).
Notation told_text := (told_text levels x same u Hclear).
Notation told_below := (told_below levels x same Hclear).
Notation cited := (cited levels x).
Notation cited_unit := (cited_unit levels x Hclear).
Notation unit_cited := (unit_cited levels x Hclear).
Notation listing_cited := (listing_cited levels x Hclear).
Notation cited_named := (cited_named levels x).
Notation node_read := (node_read levels x same Hclear).
Notation node_deep := (node_deep levels same).
Notation cites_dec := (cites_dec levels x Hclear).

(** Where things stand. *)
Definition stands (pl : place) (t : thing) : Prop :=
  match pl, t with
  | Whole, TFull o => o = text
  | Rebuilt c, TFull o => cited c /\ exists R v, o = OPass (reference_to c) R text v /\ good_urn v /\ rebuilt_content levels x c R
  | Light c, TSimple s => cited c /\ exists P v, s = MkSimple (Some (reference_to c)) x P text v /\ cites_only levels x c P
  | Beside d c, TFull o => cited c /\ exists R v R0 v0, o = OPass (reference_to c) R (OPass (reference_to d) R0 text v0) v /\
      cited d /\ length c = length d /\ c <> d /\ good_urn v /\ rebuilt_content levels x d R0 /\ rebuilt_content levels x c R
  | Above o, TSimple s => exists R v, s = MkSimple None R [0] text v /\
      match o with None => R = x | Some c => rebuilt_content levels x c R end
  | Lost, _ => True
  | _, _ => False
  end.

Lemma stands_holds : forall pl t, stands pl t -> holds levels x pl t.
Proof using.
  intros [|c|c|d c|c|] [o|s] H; cbn in *; try exact I; try contradiction.
  - rewrite H. reflexivity.
  - destruct H as (_ & R & v & -> & _ & H). auto.
  - destruct H as (_ & P & v & -> & H). cbn. split; [reflexivity|]. split; [reflexivity|exact H].
  - destruct H as (_ & R & v & R0 & v0 & -> & _ & _ & _ & _ & _ & H). auto.
  - destruct H as (R & v & -> & H). cbn. auto.
Qed.

Lemma above_reffs : forall R v level, simple_reffs scheme same (MkSimple None R [0] text v) level None = get_reffs scheme same text (Some level) None.
Proof using. intros R v level. unfold simple_reffs, get_reffs, sp_depth. cbn [sp_ref sp_text]. rewrite Z.add_0_r. reflexivity. Qed.
Lemma above_below : forall R v level r, simple_reffs scheme same (MkSimple None R [0] text v) level (Some r) = get_reffs scheme same text (Some level) (Some r).
Proof using. intros R v level r. unfold simple_reffs, get_reffs, sp_depth. cbn [sp_ref sp_text]. rewrite Z.add_0_r. reflexivity. Qed.
Lemma above_siblings : forall R v, simple_siblings scheme same (MkSimple None R [0] text v) = Err AttributeError.
Proof using Hclear.
  intros R v. unfold simple_siblings, sp_depth. cbn [sp_ref sp_text].
  assert (E : get_reffs scheme same text (Some 0%Z) None = Ok [None]).
  { unfold get_reffs, valid_reff, reff_start. cbn [bind length map app]. pose proof some_level as SL. rewrite scheme_length.
    replace ((Z.of_nat (length levels) <? (if (0 <=? Z.of_nat 0)%Z && false then (Z.of_nat 0 + 1)%Z else 0))%Z) with false by (symmetry; apply Z.ltb_ge; cbn; lia).
    change (extend_times scheme (Z.to_nat ((if (0 <=? Z.of_nat 0)%Z && false then (Z.of_nat 0 + 1)%Z else 0%Z) - Z.of_nat 0)) (o_xml (text_object text)) [[]]) with (Ok [@nil (option str)]).
    cbn [bind]. change (listed_references [[]]) with (Ok [@None ref]). cbn [bind andb Z.of_nat].
    destruct (citation_at scheme ((if (0 <=? 0)%Z && false then (0 + 1)%Z else 0%Z) - 1)) as [c|e] eqn:E; [reflexivity|exfalso].
    revert E. unfold citation_at, list_index. change ((if (0 <=? 0)%Z && false then (0 + 1)%Z else 0%Z) - 1)%Z with (-1)%Z. change (-1 <? 0)%Z with true. cbv iota.
    rewrite scheme_length. replace (Z.of_nat (length levels) - 1 <? -1)%Z with false by (symmetry; apply Z.ltb_ge; lia).
    replace (Z.of_nat (length levels) + -1 <? 0)%Z with false by (symmetry; apply Z.ltb_ge; lia). cbv zeta iota.
    destruct (nth_error scheme (Z.to_nat (Z.of_nat (length levels) + -1))) as [c|] eqn:N; [discriminate|].
    apply nth_error_None in N. rewrite scheme_length in N. lia. }
  change (Z.of_nat 0) with 0%Z. rewrite E. reflexivity.
Qed.

Lemma simple_as_text : forall s level r, sp_ref s = Some r -> simple_reffs scheme same s level None = get_reffs scheme same (sp_text s) (Some (level + Z.of_nat (sp_depth s))%Z) (Some r).
Proof using. intros s level r H. unfold simple_reffs. rewrite H. reflexivity. Qed.

Lemma single_depth : forall c, c <> [] -> Forall plain c -> ref_depth (reference_to c) = length c.
Proof using. intros c Nc Pc. unfold ref_depth, ref_highest. cbn [r_end r_start reference_to]. rewrite id_list_join by assumption. reflexivity. Qed.

Lemma pure_children_told : forall pl t, stands pl t -> match pl with Whole | Rebuilt _ | Light _ | Above _ => True | _ => False end ->
  told_children levels x pl (pure_children scheme same t).
Proof using Hclear.
  intros [|c|c|c|c|] [o|s] H Hpl'; try contradiction; cbn in H.
  - subst o. apply told_text. lia.
  - destruct H as ((Nc & Gc & Lc & Hp) & R & v & -> & _). pose proof (good_plain c Gc) as Pc.
    change (pure_children scheme same (TFull (OPass (reference_to c) R text v))) with
      (none <- childless scheme (TFull (OPass (reference_to c) R text v)) ;;
       if (none : bool) then Ok [] else get_reffs scheme same (OPass (reference_to c) R text v) (Some 1%Z) (Some (reference_to c))).
    unfold childless. cbn [r_start r_end reference_to]. rewrite id_depth_join by assumption. rewrite Nat.eqb_refl, scheme_length. cbn [negb bind].
    unfold told_children. cbn [identifiers]. destruct (length levels <=? length c); [reflexivity|]. apply told_below; try assumption; [reflexivity|lia].
  - destruct H as ((Nc & Gc & Lc & Hp) & P & v & -> & _). pose proof (good_plain c Gc) as Pc. unfold pure_children, childless, thing_reffs.
    rewrite (simple_as_text (MkSimple (Some (reference_to c)) x P text v) _ (reference_to c) eq_refl). unfold sp_depth. cbn [sp_ref sp_text]. rewrite (single_depth c Nc Pc), scheme_length. cbn [bind].
    unfold told_children. cbn [identifiers]. destruct (length levels <=? length c); [reflexivity|]. apply told_below; try assumption; [reflexivity|lia].
  - destruct H as (R & v & -> & _). unfold pure_children, childless, thing_reffs. rewrite above_reffs. unfold sp_depth. cbn [sp_ref].
    pose proof some_level as SL. rewrite scheme_length. replace (length levels <=? 0) with false by (symmetry; apply Nat.leb_gt; exact SL). cbn [bind].
    apply told_text. lia.
Qed.

Lemma level_of : forall c, cited c -> exists l i, get_reffs scheme same text (Some (Z.of_nat (length c))) None = Ok l /\
  listing levels x [] (length c) l /\ nth_error l i = Some (Some (reference_to c)).
Proof using Hclear.
  intros c Hc. destruct (cited_unit c Hc) as [Hd Hi]. pose proof (told_text (length c) (proj1 Hd)) as T.
  destruct (get_reffs scheme same text (Some (Z.of_nat (length c))) None) as [l|e] eqn:E.
  - destruct T as (_ & _ & HL). destruct Hc as (_ & _ & _ & p & Hp). destruct (In_nth_error l (Some (reference_to c))) as [i Hn].
    { apply (proj1 HL). exists c, p. split; [reflexivity|]. split; [reflexivity|]. split; [exists c; reflexivity|exact Hp]. }
    exists l, i. auto.
  - exfalso. destruct Hc as (_ & _ & _ & p & Hp). destruct e; cbn in T; try contradiction; [|lia]. destruct T as [_ T].
    apply (T c p eq_refl); [exists c; reflexivity|exact Hp].
Qed.

Lemma pure_siblings_told : forall pl t, stands pl t -> match pl with Whole | Rebuilt _ | Light _ | Above _ => True | _ => False end ->
  told_siblings levels x pl (pure_siblings scheme same t).
Proof using Hclear.
  intros [|c|c|c|c|] [o|s] H Hpl'; try contradiction; cbn in H.
  - subst o. reflexivity.
  - destruct H as (Hc & R & v & -> & _). destruct (level_of c Hc) as (l & i & E & HL & Hi). exists l, i. split; [exact HL|]. split; [exact Hi|].
    destruct (cited_unit c Hc) as [Hd _].
    apply (siblings_single levels x (length c) same u l i (reference_to c) R v (clear_less _ (proj2 Hd)) (proj1 Hd) E Hi).
  - destruct H as (Hc & P & v & -> & _). destruct (level_of c Hc) as (l & i & E & HL & Hi). exists l, i. split; [exact HL|]. split; [exact Hi|].
    destruct (cited_unit c Hc) as [Hd _].
    apply (simple_siblings_single levels x (length c) same u l i (reference_to c) P v (clear_less _ (proj2 Hd)) (proj1 Hd) E Hi).
  - destruct H as (R & v & -> & _). apply above_siblings.
Qed.

Lemma all_told : told_all levels x (all_reffs scheme same text).
Proof using Hclear.
  unfold all_reffs. rewrite scheme_length.
  assert (G : forall n a, a + n = length levels ->
    match mapM (fun i => get_reffs scheme same text (Some (Z.of_nat i)) None) (seq (S a) n) with
    | Ok ls => length ls = n /\ forall k lk, nth_error ls k = Some lk -> lk <> [] /\ listing levels x [] (S (a + k)) lk
    | Err KeyError => exists k, k < length levels /\ forall c p, length c = S k -> ~ cites levels x c p
    | Err _ => False
    end).
  { intros n. induction n as [|n IH]; intros a Ha; [cbn; split; [reflexivity|]; intros [|k] lk; discriminate|].
    cbn [seq mapM]. pose proof (told_text (S a) ltac:(lia)) as T. destruct (get_reffs scheme same text (Some (Z.of_nat (S a))) None) as [l|e]; cbn [bind].
    - destruct T as (_ & Nl & HL). specialize (IH (S a) ltac:(lia)).
      destruct (mapM (fun i => get_reffs scheme same text (Some (Z.of_nat i)) None) (seq (S (S a)) n)) as [ls|e]; [|exact IH]. cbn [bind]. destruct IH as [I1 I2]. split; [cbn; lia|].
      intros [|k] lk Hk; cbn in Hk; [injection Hk as <-; rewrite Nat.add_0_r; auto|]. destruct (I2 k lk Hk) as [I3 I4]. split; [exact I3|].
      replace (a + S k) with (S a + k) by lia. exact I4.
    - destruct e; cbn in T; try contradiction; [|lia]. destruct T as [T1 T2]. exists a. split; [lia|]. intros c p Hc. apply T2; [exact Hc|exists c; reflexivity]. }
  specialize (G (length levels) 0 eq_refl). destruct (mapM _ (seq 1 (length levels))) as [ls|e]; [|exact G]. cbn [bind].
  exists ls. split; [reflexivity|exact G].
Qed.

(** ** The answers are determined *)

Lemma sorted_unique : forall A (R : A -> A -> Prop) l l', StronglySorted R l -> StronglySorted R l' ->
  (forall a, In a l -> ~ R a a) -> (forall a b, In a l -> In b l -> R a b -> R b a -> False) -> (forall a, In a l <-> In a l') -> l = l'.
Proof using.
  intros A R l. induction l as [|a l IH]; intros l' S S' Hirr Has Hi.
  - destruct l' as [|b l']; [reflexivity|]. destruct (proj2 (Hi b) (or_introl eq_refl)).
  - destruct l' as [|b l']; [destruct (proj1 (Hi a) (or_introl eq_refl))|]. inversion S as [|? ? S1 F1]; subst. inversion S' as [|? ? S2 F2]; subst.
    rewrite Forall_forall in F1, F2. assert (E : a = b).
    { destruct (proj1 (Hi a) (or_introl eq_refl)) as [E|Ha]; [auto|]. destruct (proj2 (Hi b) (or_introl eq_refl)) as [E|Hb]; [auto|].
      exfalso. apply (Has a b (or_introl eq_refl) (or_intror Hb)); auto. }
    subst b. f_equal. assert (Na : ~ In a l) by (intros Ha; apply (Hirr a (or_introl eq_refl)); auto).
    assert (Na' : ~ In a l') by (intros Ha; apply (Hirr a (or_introl eq_refl)); auto).
    apply (IH l' S1 S2); [intros c Hc; apply Hirr; right; exact Hc|intros c d Hc Hd; apply Has; right; assumption|].
    intros c. split; intros Hc.
    + destruct (proj1 (Hi c) (or_intror Hc)) as [E|H]; [subst; contradiction|exact H].
    + destruct (proj2 (Hi c) (or_intror Hc)) as [E|H]; [subst; contradiction|exact H].
Qed.

Lemma refs_unique : forall k l l', k <= length levels -> (forall o, In o l -> exists c, o = Some (reference_to c) /\ length c = k /\ cited c) ->
  StronglySorted (before levels x) l -> StronglySorted (before levels x) l' -> (forall o, In o l <-> In o l') -> l = l'.
Proof using Hclear.
  intros k l l' Hk C H3 H3' Hi.
  assert (P : forall a b c d p q, In a l -> In b l -> named c -> named d -> a = Some (reference_to c) -> b = Some (reference_to d) -> a = b ->
    cites levels x c p -> cites levels x d q -> p = q).
  { intros a b c d p q Ha Hb Nc Nd -> -> [= E] Hp Hq. assert (Ecd : c = d) by (apply reference_to_inj; try apply Nc; try apply Nd; unfold reference_to; rewrite E; reflexivity).
    subst d. destruct (C (Some (reference_to c)) Ha) as (c' & [= E'] & Lc' & Cc'). pose proof (cited_named c' Cc') as Nc'.
    assert (Ec : c = c') by (apply reference_to_inj; try apply Nc; try apply Nc'; unfold reference_to; rewrite E'; reflexivity). subst c'.
    apply (proj1 (proj2 (proj2 Hclear)) c); [lia|assumption|assumption]. }
  apply (sorted_unique _ (before levels x)); try assumption.
  - intros a Ha (c & d & p & q & Nc & Nd & Ea & Eb & Hp & Hq & Hpq). assert (E : p = q) by (apply (P a a c d); auto). subst q. rewrite precedes_irrefl in Hpq. discriminate.
  - intros a b Ha Hb (c & d & p & q & Nc & Nd & Ea & Eb & Hp & Hq & Hpq) (c' & d' & p' & q' & Nc' & Nd' & Eb' & Ea' & Hp' & Hq' & Hpq').
    assert (E1 : p = q') by (apply (P a a c d'); auto). assert (E2 : q = p') by (apply (P b b d c'); auto). subst q' p'.
    pose proof (precedes_trans p q p Hpq Hpq') as T. rewrite precedes_irrefl in T. discriminate.
Qed.

Lemma listing_unique : forall parts k l l', 0 < k <= length levels -> listing levels x parts k l -> listing levels x parts k l' -> l = l'.
Proof using Hclear.
  intros parts k l l' Hk H H'. pose proof (fun o => listing_cited parts k l o H Hk) as C. destruct H as (H1 & H2 & H3), H' as (H1' & H2' & H3').
  apply (refs_unique k); try assumption; [lia|]. intros o. rewrite (H1 o), (H1' o). reflexivity.
Qed.

Lemma told_near_unique : forall d parts k r r', 0 < k -> told_near levels x d parts k r -> told_near levels x d parts k r' -> r = r'.
Proof using Hclear.
  assert (Ex : forall d parts k l, told_near levels x d parts k (Ok l) -> (forall e p, length e = k -> begins parts e -> overlap d e -> ~ cites levels x e p) -> False).
  { intros d parts k l (_ & Nl & _ & _ & HL) N. destruct l as [|o l]; [congruence|]. destruct (proj1 (HL o) (or_introl eq_refl)) as (c & p & _ & H1 & H2 & H3 & H4). exact (N c p H1 H2 H4 H3). }
  intros d parts k [l|e] [l'|e'] Hk H H'.
  - destruct H as (L & _ & _ & S & H), H' as (_ & _ & _ & S' & H'). f_equal. apply (refs_unique k l l' L); try assumption.
    + intros o Ho. apply H in Ho. destruct Ho as (c & p & -> & Lc & _ & C & _). exists c. split; [reflexivity|]. split; [exact Lc|]. apply (unit_cited k); eauto.
    + intros o. rewrite (H o), (H' o). reflexivity.
  - exfalso. destruct e'; cbn in H'; try contradiction; [|destruct H; lia]. exact (Ex d parts k l H (proj2 H')).
  - exfalso. destruct e; cbn in H; try contradiction; [|destruct H'; lia]. exact (Ex d parts k l' H' (proj2 H)).
  - destruct e; cbn in H; try contradiction; destruct e'; cbn in H'; try contradiction; try reflexivity; lia.
Qed.

Lemma told_level_unique : forall parts k r r', 0 < k -> told_level levels x parts k r -> told_level levels x parts k r' -> r = r'.
Proof using Hclear.
  assert (Ex : forall parts k l, told_level levels x parts k (Ok l) -> (forall c p, length c = k -> begins parts c -> ~ cites levels x c p) -> False).
  { intros parts k l (_ & Nl & (HL & _)) N. destruct l as [|o l]; [congruence|]. destruct (proj1 (HL o) (or_introl eq_refl)) as (c & p & _ & H1 & H2 & H3). exact (N c p H1 H2 H3). }
  intros parts k [l|e] [l'|e'] Hk H H'.
  - destruct H as (L & _ & H), H' as (_ & _ & H'). f_equal. apply (listing_unique parts k l l' (conj Hk L) H H').
  - exfalso. destruct e'; cbn in H'; try contradiction; [|destruct H; lia]. exact (Ex parts k l H (proj2 H')).
  - exfalso. destruct e; cbn in H; try contradiction; [|destruct H'; lia]. exact (Ex parts k l' H' (proj2 H)).
  - destruct e; cbn in H; try contradiction; destruct e'; cbn in H'; try contradiction; try reflexivity; lia.
Qed.

Lemma told_children_unique : forall pl r r', told_children levels x pl r -> told_children levels x pl r' -> r = r'.
Proof using Hclear.
  intros pl r r' H H'. destruct pl; unfold told_children in *; cbn [identifiers length] in *; try (destruct (length levels <=? _); [congruence|]);
    revert H H'; apply told_level_unique; lia.
Qed.

Lemma told_siblings_unique : forall pl r r', match pl with Rebuilt c | Light c => 0 < length c <= length levels | _ => True end ->
  told_siblings levels x pl r -> told_siblings levels x pl r' -> r = r'.
Proof using Hclear.
  intros pl r r' Hl H H'. destruct pl; cbn in H, H'; try congruence; destruct H as (l & i & HL & Hi & ->), H' as (l' & i' & HL' & Hi' & ->);
    rewrite <- (listing_unique [] (length c) l l' Hl HL HL') in *;
    (assert (E : i = i') by (apply (proj1 (NoDup_nth_error l) (proj1 (proj2 HL))); [apply nth_error_Some; congruence|congruence])); subst i'; reflexivity.
Qed.

Lemma told_all_unique : forall r r', told_all levels x r -> told_all levels x r' -> r = r'.
Proof using Hclear.
  assert (Ex : forall l, told_all levels x (Ok l) -> (exists k, k < length levels /\ forall c p, length c = S k -> ~ cites levels x c p) -> False).
  { intros l (ls & _ & Ll & HL) (k & Hk & N). destruct (nth_error ls k) as [lk|] eqn:E; [|apply nth_error_None in E; lia].
    destruct (HL k lk E) as [Nl [H _]]. destruct lk as [|o lk]; [congruence|]. destruct (proj1 (H o) (or_introl eq_refl)) as (c & p & _ & H1 & _ & H3). exact (N c p H1 H3). }
  intros [l|e] [l'|e'] H H'.
  - destruct H as (ls & -> & L1 & HL), H' as (ls' & -> & L2 & HL'). f_equal. f_equal. apply nth_ext with (d := []) (d' := []); [congruence|].
    intros k Hk. destruct (nth_error ls k) as [lk|] eqn:E1; [|apply nth_error_None in E1; lia]. destruct (nth_error ls' k) as [lk'|] eqn:E2; [|apply nth_error_None in E2; lia].
    rewrite (nth_error_nth _ _ _ E1), (nth_error_nth _ _ _ E2). apply (listing_unique [] (S k)); [lia|apply (HL k lk E1)|apply (HL' k lk' E2)].
  - exfalso. destruct e'; try contradiction. exact (Ex l H H').
  - exfalso. destruct e; try contradiction. exact (Ex l' H' H).
  - destruct e; try contradiction; destruct e'; try contradiction. reflexivity.
Qed.

Lemma object_unique : forall n kind o a a' new new', object_of n kind o a new -> object_of n kind o a' new' -> a = a' /\ new = new'.
Proof using.
  intros n kind [r|] a a' new new' H H'.
  - destruct H as (c & Nc & -> & -> & ->), H' as (c' & Nc' & E & -> & ->). rewrite (reference_to_inj c c' (proj1 Nc) (proj1 Nc') (proj2 Nc) (proj2 Nc') E). auto.
  - destruct H as [-> ->], H' as [-> ->]. auto.
Qed.

Lemma map_reference_inj : forall cs cs', Forall named cs -> Forall named cs' ->
  map (fun c => Some (reference_to c)) cs = map (fun c => Some (reference_to c)) cs' -> cs = cs'.
Proof using.
  intros cs cs' F. revert cs'. induction F as [|c cs [N P] F IH]; intros [|c' cs'] F' E; try discriminate; [reflexivity|].
  inversion F' as [|? ? [N' P'] F2]; subst. cbn [map] in E. injection E as E1 E2. f_equal; [|apply IH; assumption].
  apply reference_to_inj; try assumption. unfold reference_to. rewrite E1. reflexivity.
Qed.

Lemma reply_unique : forall pl n q a a' new new', match pl with Whole | Above _ => True | Rebuilt c | Light c => 0 < length c <= length levels | _ => False end -> askable q ->
  reply levels x pl n q a new -> reply levels x pl n q a' new' -> a = a' /\ new = new'.
Proof using Hclear.
  intros pl n q a a' new new' Hp Hq H H'.
  assert (Hs : match pl with Rebuilt c | Light c => 0 < length c <= length levels | _ => True end) by (destruct pl; auto).
  assert (G : match q with QReffs _ _ | QAll | QNode _ _ => False | _ => True end -> a = a' /\ new = new').
  { intros Nq. destruct q; try contradiction; destruct pl; try contradiction; cbn [reply] in H, H';
    try (destruct H as (-> & r & T & ->), H' as (-> & r' & T' & ->); (split; [|reflexivity]); f_equal;
         first [exact (told_children_unique _ _ _ T T')|eapply told_siblings_unique; [|exact T|exact T']; exact Hs]);
    try (destruct H as [-> ->], H' as [-> ->]; auto; fail);
    try (destruct H as (r & T & O), H' as (r' & T' & O');
         assert (E : r = r') by (eapply told_siblings_unique; [|exact T|exact T']; exact Hs); subst r'; destruct r as [p|e];
         [exact (object_unique _ _ _ _ _ _ _ O O')|destruct O as [-> ->], O' as [-> ->]; auto; fail]);
    destruct H as (r & T & O), H' as (r' & T' & O'); pose proof (told_children_unique _ _ _ T T') as E; subst r'; destruct r as [l|e];
      try exact (object_unique _ _ _ _ _ _ _ O O'); try (destruct O as [-> ->], O' as [-> ->]; auto; fail);
      destruct O as (cs & F & -> & -> & ->), O' as (cs' & F' & E & -> & ->); rewrite (map_reference_inj cs cs' F F' E); auto. }
  destruct q as [level sub| | | | | | | |r light| | | | | | ]; try (apply G; exact I); clear G.
  - destruct Hq as [Hl Hsub]. destruct sub as [s|].
    + destruct Hsub as (parts & Np & ->). destruct pl; try contradiction; cbn [reply] in H, H';
        destruct H as (-> & r & -> & k & H), H' as (-> & r' & -> & k' & H'); destruct (H parts Np eq_refl) as [Ek T], (H' parts Np eq_refl) as [Ek' T'];
        (assert (k' = k) by lia); subst k'; (split; [|reflexivity]); f_equal; apply (told_level_unique parts k); try assumption; lia.
    + destruct pl; try contradiction; cbn [reply] in H, H';
        destruct H as (-> & r & -> & k & Ek & T), H' as (-> & r' & -> & k' & Ek' & T');
        (assert (k' = k) by lia); subst k'; (split; [|reflexivity]); f_equal; revert T T'; apply told_level_unique; lia.
  - destruct pl; try contradiction; cbn [reply] in H, H'; destruct H as [-> H], H' as [-> H']; (split; [|reflexivity]); try congruence.
    destruct H as (r & T & ->), H' as (r' & T' & ->). f_equal. apply told_all_unique; assumption.
  - destruct pl; try contradiction; cbn [reply] in H, H'; destruct H as (c' & Nc & -> & H), H' as (c'' & Nc' & E & H');
      pose proof (reference_to_inj _ _ (proj1 Nc) (proj1 Nc') (proj2 Nc) (proj2 Nc') E) as <-; destruct light;
      try (destruct (length levels <? length c'); [destruct H as [-> ->], H' as [-> ->]; auto|]);
      try (destruct H as [-> ->], H' as [-> ->]; auto; fail);
      (destruct H as [([p H1] & -> & ->)|(H1 & -> & ->)], H' as [([p' H2] & -> & ->)|(H2 & -> & ->)]; auto; exfalso; [exact (H2 p H1)|exact (H1 p' H2)]).
Qed.

Lemma beside_unique : forall d c n q a a' new new', askable q ->
  reply levels x (Beside d c) n q a new -> reply levels x (Beside d c) n q a' new' -> a = a' /\ new = new'.
Proof using Hclear.
  intros d c n q a a' new new' Hq (_ & H) (_ & H'). cbv zeta in H, H'.
  assert (G : forall Y N : Prop, (Y -> N -> False) -> (Y /\ a = Err ValueError \/ N /\ a = Err KeyError) -> (Y /\ a' = Err ValueError \/ N /\ a' = Err KeyError) -> a = a').
  { intros Y N X [(Z1 & ->)|(Z1 & ->)] [(Z2 & ->)|(Z2 & ->)]; try reflexivity; exfalso; eauto. }
  assert (X : (exists e p, length e = S (length d) /\ begins d e /\ cites levels x e p) ->
    (forall e p, length e = S (length d) -> begins d e -> ~ cites levels x e p) -> False).
  { intros (e & p & H1 & H2 & H3) N. exact (N e p H1 H2 H3). }
  destruct q as [level sub| | | | | | | |r light| | | | | | ];
    try (destruct H as (-> & ->), H' as (-> & ->); auto; fail);
    try (destruct H as (-> & H), H' as (-> & H'); (split; [|reflexivity]); destruct (length levels <=? length c); [congruence|exact (G _ _ X H H')]; fail).
  - destruct sub as [s|]; [|destruct H as (-> & ->), H' as (-> & ->); auto]. destruct Hq as (Hl & parts & Np & ->).
    destruct H as (-> & r & -> & k & H), H' as (-> & r' & -> & k' & H'). destruct (H parts Np eq_refl) as (K & T), (H' parts Np eq_refl) as (K' & T').
    assert (k' = k) by lia. subst k'. split; [|reflexivity]. f_equal. apply (told_near_unique d parts k); try assumption. lia.
  - destruct H as (e & Ne & -> & H), H' as (e' & Ne' & E & H').
    apply reference_to_inj in E; try apply Ne; try apply Ne'. subst e'. destruct (length levels <? length e); [destruct H as (-> & ->), H' as (-> & ->); auto|].
    destruct H as [(Y & -> & ->)|(Y & -> & ->)], H' as [(Y' & -> & ->)|(Y' & -> & ->)]; auto; contradiction.
Qed.

(** All references of a text. *)
Lemma concat_nodup : forall A (ls : list (list A)), (forall k l, nth_error ls k = Some l -> NoDup l) ->
  (forall j k l l' a, nth_error ls j = Some l -> nth_error ls k = Some l' -> In a l -> In a l' -> j = k) -> NoDup (concat ls).
Proof using.
  intros A ls. induction ls as [|l ls IH]; intros H1 H2; cbn; [constructor|].
  assert (D : NoDup (concat ls)).
  { apply IH; [intros k l' E; apply (H1 (S k)); exact E|]. intros j k l1 l2 a E1 E2 I1 I2. pose proof (H2 (S j) (S k) l1 l2 a E1 E2 I1 I2). lia. }
  assert (N : forall a, In a l -> ~ In a (concat ls)).
  { intros a Ha Hc. apply in_concat in Hc. destruct Hc as (l' & Hl' & Ha'). apply In_nth_error in Hl'. destruct Hl' as [k Hk].
    pose proof (H2 0 (S k) l l' a eq_refl Hk Ha Ha'). discriminate. }
  specialize (H1 0 l eq_refl). clear H2 IH. induction H1 as [|a l Ha Hl IH]; [exact D|]. cbn. constructor.
  - intros Hi. apply in_app_iff in Hi. destruct Hi as [Hi|Hi]; [exact (Ha Hi)|]. apply (N a (or_introl eq_refl) Hi).
  - apply IH. intros b Hb. apply N. right. exact Hb.
Qed.

Lemma all_complete : forall l, good_urn u -> all_reffs scheme same text = Ok l ->
  NoDup l /\
  (forall o, In o l <-> exists c p, o = Some (reference_to c) /\ 1 <= length c <= length levels /\ cites levels x c p) /\
  forall r, In (Some r) l -> exists c R v, r = reference_to c /\
    get_node scheme same text r = Ok (OPass r R text v) /\ rebuilt_content levels x c R.
Proof using Hclear.
  intros l Hu E. pose proof all_told as T. rewrite E in T. destruct T as (ls & -> & Ll & HL).
  assert (K : forall k lk, nth_error ls k = Some lk -> k < length levels) by (intros k lk F; rewrite <- Ll; apply nth_error_Some; congruence).
  assert (M : forall o, In o (concat ls) <-> exists c p, o = Some (reference_to c) /\ 1 <= length c <= length levels /\ cites levels x c p).
  { intros o. split.
    - intros Ho. apply in_concat in Ho. destruct Ho as (lk & Hlk & Ho). apply In_nth_error in Hlk. destruct Hlk as [k Hk].
      destruct (HL k lk Hk) as [_ [H _]]. destruct (proj1 (H o) Ho) as (c & p & -> & Lc & _ & Hp). exists c, p. split; [reflexivity|]. split; [|exact Hp].
      specialize (K k lk Hk). lia.
    - intros (c & p & -> & Lc & Hp). destruct (nth_error ls (length c - 1)) as [lk|] eqn:F; [|apply nth_error_None in F; lia].
      apply in_concat. exists lk. split; [eapply nth_error_In; exact F|]. destruct (HL _ lk F) as [_ [H _]]. apply H. exists c, p. split; [reflexivity|].
      split; [lia|]. split; [exists c; reflexivity|exact Hp]. }
  split; [|split; [exact M|]].
  - apply concat_nodup.
    + intros k lk F. apply (HL k lk F).
    + intros j k l1 l2 o F1 F2 I1 I2. pose proof (K _ _ F1). pose proof (K _ _ F2).
      destruct (listing_cited [] (S j) l1 o (proj2 (HL j l1 F1)) ltac:(lia) I1) as (c & -> & Lc & Cc).
      destruct (listing_cited [] (S k) l2 _ (proj2 (HL k l2 F2)) ltac:(lia) I2) as (d & Ed & Ld & Cd). injection Ed as Ed.
      pose proof (cited_named c Cc) as [N1 P1]. pose proof (cited_named d Cd) as [N2 P2].
      assert (c = d) by (apply reference_to_inj; try assumption; unfold reference_to; rewrite Ed; reflexivity). subst d. lia.
  - intros r Hr. apply M in Hr. destruct Hr as (c & p & [= ->] & Lc & Hp).
    assert (Cc : cited c) by (apply (unit_cited (length c)); eauto; lia).
    destruct (node_read text c eq_refl Hu Cc) as (R & v & E1 & _ & HR). exists c, R, v. auto.
Qed.

Hypothesis Hroot : proper_root levels x.
Hypothesis Hurn : good_urn u.

Definition ordinary (pl : place) : Prop := match pl with Whole | Rebuilt _ | Light _ | Above _ => True | _ => False end.

(** getTextualNode of anything but the simple mode. *)
Lemma thing_node_read : forall pl t c, stands pl t -> ordinary pl -> cited c ->
  exists t', thing_node scheme same t (reference_to c) false = Ok t' /\ stands (Rebuilt c) t'.
Proof using Hclear Hurn.
  intros [|d|d|d0 d|d|] [o|s] c H Ho Hc; try contradiction; cbn in H.
  - subst o. destruct (node_read text c eq_refl Hurn Hc) as (R & v & E & Gv & HR). exists (TFull (OPass (reference_to c) R text v)).
    cbn [thing_node]. rewrite E. split; [reflexivity|]. cbn. split; [exact Hc|]. eauto.
  - destruct H as (_ & R0 & v0 & -> & G0 & _). destruct (node_read (OPass (reference_to d) R0 text v0) c eq_refl G0 Hc) as (R & v & E & Gv & HR).
    exists (TFull (OPass (reference_to c) R text v)). cbn [thing_node]. rewrite E. split; [reflexivity|]. cbn. split; [exact Hc|]. eauto.
  - destruct H as (_ & P0 & v0 & -> & _). destruct (node_read text c eq_refl Hurn Hc) as (R & v & E & Gv & HR).
    exists (TFull (OPass (reference_to c) R text v)). cbn [thing_node sp_text]. rewrite E. split; [reflexivity|]. cbn. split; [exact Hc|]. eauto.
  - destruct H as (P0 & v0 & -> & _). destruct (node_read text c eq_refl Hurn Hc) as (R & v & E & Gv & HR).
    exists (TFull (OPass (reference_to c) R text v)). cbn [thing_node sp_text]. rewrite E. split; [reflexivity|]. cbn. split; [exact Hc|]. eauto.
Qed.

Lemma thing_node_not : forall pl t c, stands pl t -> ordinary pl -> c <> [] -> Forall good_id c ->
  (length levels < length c -> thing_node scheme same t (reference_to c) false = Err CitationDepthError) /\
  (length c <= length levels -> (forall p, ~ cites levels x c p) -> thing_node scheme same t (reference_to c) false = Err IndexError).
Proof using Hclear Hroot.
  intros [|d|d|d0 d|d|] [o|s] c H Ho Nc Gc; try contradiction; cbn in H; pose proof (good_plain c Gc) as Pc.
  - subst o. split; intros; cbn [thing_node]; [rewrite node_deep by assumption; reflexivity|].
    rewrite (read_unknown_one levels x same text c (proj1 Hclear) Hroot eq_refl Nc Gc) by assumption. reflexivity.
  - destruct H as (_ & R0 & v0 & -> & G0 & _). split; intros; cbn [thing_node]; [rewrite node_deep by assumption; reflexivity|].
    rewrite (read_unknown_one levels x same (OPass (reference_to d) R0 text v0) c (proj1 Hclear) Hroot eq_refl Nc Gc) by assumption. reflexivity.
  - destruct H as (_ & P0 & v0 & -> & _). split; intros; cbn [thing_node sp_text]; [rewrite node_deep by assumption; reflexivity|].
    rewrite (read_unknown_one levels x same text c (proj1 Hclear) Hroot eq_refl Nc Gc) by assumption. reflexivity.
  - destruct H as (P0 & v0 & -> & _). split; intros; cbn [thing_node sp_text]; [rewrite node_deep by assumption; reflexivity|].
    rewrite (read_unknown_one levels x same text c (proj1 Hclear) Hroot eq_refl Nc Gc) by assumption. reflexivity.
Qed.

Lemma does_go : forall ts i pl t c, nth_error ts i = Some t -> stands pl t -> ordinary pl -> cited c ->
  exists t', does scheme same ts (w_node scheme same i (reference_to c) false) (Ok (length ts)) [t'] /\ stands (Rebuilt c) t'.
Proof using Hclear Hurn.
  intros ts i pl t c Ht H Ho Hc. destruct (thing_node_read pl t c H Ho Hc) as (t' & E & St). exists t'. split; [|exact St].
  pose proof (does_node scheme same ts i t (reference_to c) false Ht) as D. rewrite E in D. exact D.
Qed.

Lemma nth_more : forall A (l l' : list A) i a, nth_error l i = Some a -> nth_error (l ++ l') i = Some a.
Proof using. intros A l l' i a H. rewrite nth_error_app1; [exact H|]. apply nth_error_Some. congruence. Qed.

Lemma does_all : forall cs ts i pl t, nth_error ts i = Some t -> stands pl t -> ordinary pl -> Forall cited cs ->
  exists new, does scheme same ts (w_map (w_member scheme same i) (map (fun c => Some (reference_to c)) cs)) (Ok (seq (length ts) (length cs))) new /\
    Forall2 stands (map Rebuilt cs) new.
Proof using Hclear Hurn.
  intros cs. induction cs as [|c cs IH]; intros ts i pl t Ht H Ho F.
  - exists []. split; [apply does_ret|constructor].
  - inversion F as [|? ? Hc F']; subst. destruct (does_go ts i pl t c Ht H Ho Hc) as (t' & D & St).
    destruct (IH (ts ++ [t']) i pl t (nth_more _ _ _ _ _ Ht) H Ho F') as (new & D' & Sn). exists (t' :: new). split; [|constructor; assumption].
    cbn [map w_map length seq]. change (t' :: new) with ([t'] ++ new). apply (does_then _ _ _ _ _ _ _ (length ts)); [exact D|].
    rewrite <- (app_nil_r new). apply (does_then _ _ _ _ _ _ _ (seq (S (length ts)) (length cs))); [|apply does_ret].
    rewrite app_length in D'. cbn [length] in D'. rewrite Nat.add_1_r in D'. exact D'.
Qed.

Lemma does_as : forall A ts (s : W A) (f : A -> answer) r new, does scheme same ts s r new -> does scheme same ts (w_as f s) (shaped f r) new.
Proof using.
  intros A ts s f [a|e] new D; unfold w_as; cbn [shaped].
  - rewrite <- (app_nil_r new). apply (does_then _ _ _ _ _ _ _ a); [exact D|]. apply does_ret.
  - apply does_stop. exact D.
Qed.

Lemma does_after : forall A B ts (s : W A) (f : A -> B) r, does scheme same ts s r [] -> does scheme same ts (w_then s (fun a => w_ret (f a))) (shaped f r) [].
Proof using. intros A B ts s f [a|e] D; (apply (does_pure _ _ _ _ _ _ _ _ _ _ D)); [apply does_ret|auto]. Qed.

Lemma shaped_twice : forall A B C (f : A -> B) (g : B -> C) r, shaped g (shaped f r) = shaped (fun a => g (f a)) r.
Proof using. intros A B C f g [a|e]; reflexivity. Qed.

Lemma last_entry : forall (l : list (option ref)), last l None = at_index l (length l - 1).
Proof using.
  unfold at_index. induction l as [|a [|b l] IH]; [reflexivity|reflexivity|]. change (last (a :: b :: l) None) with (last (b :: l) None). rewrite IH.
  replace (length (a :: b :: l) - 1) with (S (length (b :: l) - 1)) by (cbn; lia). reflexivity.
Qed.
Lemma first_entry : forall (l : list (option ref)), match l with [] => None | r :: _ => r end = at_index l 0.
Proof using. intros [|a l]; reflexivity. Qed.

(** The members of a list of children or neighbours. *)
Lemma children_cited : forall pl t l, stands pl t -> ordinary pl -> pure_children scheme same t = Ok l ->
  exists cs, l = map (fun c => Some (reference_to c)) cs /\ Forall cited cs.
Proof using Hclear.
  intros pl t l H Ho E. pose proof (pure_children_told pl t H Ho) as T. rewrite E in T.
  assert (G : forall parts k, 0 < k -> told_level levels x parts k (Ok l) -> exists cs, l = map (fun c => Some (reference_to c)) cs /\ Forall cited cs).
  { intros parts k Hk (Lk & _ & HL). assert (F : forall o, In o l -> exists c, o = Some (reference_to c) /\ length c = k /\ cited c).
    { intros o Hi. apply (listing_cited parts k l o HL ltac:(lia) Hi). }
    clear - F. induction l as [|o l IH]; [exists []; split; [reflexivity|constructor]|].
    destruct (F o (or_introl eq_refl)) as (c & -> & _ & Hc). destruct IH as (cs & -> & Hcs); [intros o' Hi; apply F; right; exact Hi|].
    exists (c :: cs). split; [reflexivity|constructor; assumption]. }
  destruct pl; try contradiction; cbn [told_children identifiers] in T.
  - apply (G [] 1); [lia|exact T].
  - destruct (length levels <=? length c); [injection T as ->; exists []; split; [reflexivity|constructor]|]. apply (G c (S (length c))); [lia|exact T].
  - destruct (length levels <=? length c); [injection T as ->; exists []; split; [reflexivity|constructor]|]. apply (G c (S (length c))); [lia|exact T].
  - apply (G [] 1); [lia|exact T].
Qed.

Lemma at_index_map : forall cs i r, at_index (map (fun c => Some (reference_to c)) cs) i = Some r -> exists c, r = reference_to c /\ In c cs.
Proof using.
  intros cs i r H. unfold at_index in H. rewrite nth_error_map in H. destruct (nth_error cs i) as [c|] eqn:E; [|discriminate].
  cbn in H. injection H as <-. exists c. split; [reflexivity|]. eapply nth_error_In. exact E.
Qed.

Lemma siblings_cited : forall pl t, stands pl t -> ordinary pl -> (forall o, pl <> Above o) ->
  exists b f, pure_siblings scheme same t = Ok (b, f) /\ told_siblings levels x pl (Ok (b, f)) /\
    forall r, b = Some r \/ f = Some r -> exists c, r = reference_to c /\ cited c /\ length c = length (identifiers pl) /\ c <> identifiers pl.
Proof using Hclear.
  intros pl t H Ho Hn. pose proof (pure_siblings_told pl t H Ho) as T.
  assert (Na : match pl with Above _ => False | _ => True end) by (destruct pl; try exact I; exact (Hn _ eq_refl)). clear Hn.
  destruct (pure_siblings scheme same t) as [[b f]|e] eqn:E.
  - exists b, f. split; [reflexivity|]. split; [exact T|]. intros r Hr. destruct pl; try contradiction; cbn in H, T.
    + injection T as -> ->. destruct Hr; discriminate.
    + destruct T as (l & i & HL & Hi & [= -> ->]). destruct t as [o|s]; [|contradiction]. destruct H as (Hc & _). destruct (cited_unit c Hc) as [Hd _].
      assert (G : forall j, j <> i -> at_index l j = Some r -> exists c', r = reference_to c' /\ cited c' /\ length c' = length c /\ c' <> c).
      { intros j Nj Hj. unfold at_index in Hj. destruct (nth_error l j) as [o'|] eqn:F; [|discriminate]. subst o'.
        destruct (listing_cited [] (length c) l (Some r) HL Hd (nth_error_In _ _ F)) as (c' & [= ->] & Lc' & Hc').
        exists c'. repeat (split; [assumption || reflexivity|]). intros ->. apply Nj. destruct HL as (_ & ND & _).
        apply (proj1 (NoDup_nth_error l) ND); [apply nth_error_Some; congruence|congruence]. }
      destruct Hr as [Hr|Hr]; [destruct i as [|i]; [discriminate|]|]; apply (G _) in Hr; try exact Hr; lia.
    + destruct T as (l & i & HL & Hi & [= -> ->]). destruct t as [o|s]; [contradiction|]. destruct H as (Hc & _). destruct (cited_unit c Hc) as [Hd _].
      assert (G : forall j, j <> i -> at_index l j = Some r -> exists c', r = reference_to c' /\ cited c' /\ length c' = length c /\ c' <> c).
      { intros j Nj Hj. unfold at_index in Hj. destruct (nth_error l j) as [o'|] eqn:F; [|discriminate]. subst o'.
        destruct (listing_cited [] (length c) l (Some r) HL Hd (nth_error_In _ _ F)) as (c' & [= ->] & Lc' & Hc').
        exists c'. repeat (split; [assumption || reflexivity|]). intros ->. apply Nj. destruct HL as (_ & ND & _).
        apply (proj1 (NoDup_nth_error l) ND); [apply nth_error_Some; congruence|congruence]. }
      destruct Hr as [Hr|Hr]; [destruct i as [|i]; [discriminate|]|]; apply (G _) in Hr; try exact Hr; lia.
  - exfalso. destruct pl; try contradiction; cbn in T; [discriminate| |]; destruct T as (? & ? & _ & _ & T); discriminate.
Qed.

(** next and prev, given the neighbour. *)
Lemma does_beside : forall ts i pl t o, nth_error ts i = Some t -> stands pl t -> ordinary pl ->
  (forall r, o = Some r -> exists c, r = reference_to c /\ cited c /\ length c = length (identifiers pl) /\ c <> identifiers pl) -> (pl = Whole -> o = None) ->
  exists a new ts', does scheme same ts (w_beside scheme same i o) a ts' /\
    object_of (length ts) (match pl with Light _ => Rebuilt | _ => Beside (identifiers pl) end) o (shaped AObject a) new /\ Forall2 stands new ts'.
Proof using Hclear Hurn.
  intros ts i pl t o Ht H Ho Hr Hw. destruct o as [r|].
  2: { exists (Ok None), [], []. split; [apply does_ret|]. split; [split; reflexivity|constructor]. }
  destruct (Hr r eq_refl) as (c & -> & Hc & Lc & Nc). destruct pl as [|d|d|d0 d|d|]; try contradiction; [discriminate (Hw eq_refl)| | |].
  - destruct t as [o|s]; [|contradiction]. cbn in H. destruct H as (Hd & R0 & v0 & -> & G0 & C0). destruct (cited_unit c Hc) as [Hlen Hi].
    destruct (shared_same levels x (length c) same u (reference_to d) R0 v0 c (clear_less _ (proj2 Hlen)) Hlen Hurn G0 Hi) as (R2 & v & w & E1 & E2).
    destruct (node_read text c eq_refl Hurn Hc) as (R3 & v3 & E3 & _ & HR). cbn [text_object] in E3. rewrite E2 in E3. injection E3 as -> _.
    assert (Gv : good_urn v).
    { destruct (node_read (OPass (reference_to d) R0 text v0) c eq_refl G0 Hc) as (R4 & v4 & E4 & G4 & _). cbn [get_node] in E4. rewrite E1 in E4. cbn [bind] in E4.
      injection E4 as _ ->. exact G4. }
    exists (Ok (Some (length ts))), [Beside d c], [TFull (OPass (reference_to c) R3 (OPass (reference_to d) R0 text v0) v)]. split; [|split].
    + unfold w_beside. apply (does_look _ _ _ _ _ _ _ _ _ Ht). intros w' m _ -> _ Hm Sm.
      assert (D : does scheme same ts (o' <~~ w_lift (shared_node scheme same (OPass (reference_to d) R0 text v0) (reference_to c)) ;; n <~~ w_make (TFull o') ;; w_ret (Some n))
        (Ok (Some (length ts))) [TFull (OPass (reference_to c) R3 (OPass (reference_to d) R0 text v0) v)]).
      { rewrite E1. apply (does_pure _ _ _ _ _ _ _ _ _ _ (does_lift _ _ _ _ _)).
        change [TFull (OPass (reference_to c) R3 (OPass (reference_to d) R0 text v0) v)] with ([TFull (OPass (reference_to c) R3 (OPass (reference_to d) R0 text v0) v)] ++ []).
        apply (does_then _ _ _ _ _ _ _ (length ts)); [apply does_make|apply does_ret]. }
      exact (D m Hm Sm).
    + cbn. exists c. split; [apply cited_named; exact Hc|auto].
    + constructor; [|constructor]. cbn. split; [exact Hc|]. exists R3, v, R0, v0. cbn [identifiers] in Lc, Nc. repeat (split; [assumption || reflexivity|]). exact HR.
  - destruct t as [o|s]; [contradiction|]. destruct (does_go ts i (Light d) (TSimple s) c Ht H I Hc) as (t' & D & St).
    exists (Ok (Some (length ts))), [Rebuilt c], [t']. split; [|split; [cbn; exists c; split; [apply cited_named; exact Hc|auto]|constructor; [exact St|constructor]]].
    unfold w_beside. apply (does_look _ _ _ _ _ _ _ _ _ Ht). intros w' m _ -> _ Hm Sm.
    assert (D' : does scheme same ts (n <~~ w_node scheme same i (reference_to c) false ;; w_ret (Some n)) (Ok (Some (length ts))) [t']).
    { change [t'] with ([t'] ++ []). apply (does_then _ _ _ _ _ _ _ (length ts)); [exact D|apply does_ret]. }
    exact (D' m Hm Sm).
  - cbn [identifiers length] in Lc, Nc. destruct c; [congruence|discriminate Lc].
Qed.

(** first and last, given the child. *)
Lemma does_child : forall ts i pl t o, nth_error ts i = Some t -> stands pl t -> ordinary pl ->
  (forall r, o = Some r -> exists c, r = reference_to c /\ cited c) ->
  exists a new ts', does scheme same ts (w_go scheme same i o) a ts' /\
    object_of (length ts) Rebuilt o (shaped AObject a) new /\ Forall2 stands new ts'.
Proof using Hclear Hurn.
  intros ts i pl t o Ht H Ho Hr. destruct o as [r|].
  2: { exists (Ok None), [], []. split; [apply does_ret|]. split; [split; reflexivity|constructor]. }
  destruct (Hr r eq_refl) as (c & -> & Hc). destruct (does_go ts i pl t c Ht H Ho Hc) as (t' & D & St).
  exists (Ok (Some (length ts))), [Rebuilt c], [t']. split; [|split; [cbn; exists c; split; [apply cited_named; exact Hc|auto]|constructor; [exact St|constructor]]].
  cbn [w_go]. change [t'] with ([t'] ++ []). apply (does_then _ _ _ _ _ _ _ (length ts)); [exact D|apply does_ret].
Qed.

Lemma reffs_reply : forall pl t level sub, stands pl t -> ordinary pl -> askable (QReffs level sub) ->
  reply levels x pl 0 (QReffs level sub) (shaped ARefs (thing_reffs scheme same t level sub)) [].
Proof using Hclear.
  intros pl t level sub H Ho [Hl Hs]. destruct sub as [s|].
  - destruct Hs as (parts & (Np & Pp) & ->).
    assert (Inj : forall parts', reference_to parts = reference_to parts' -> Forall plain parts' -> parts' <> [] -> parts' = parts).
    { intros parts' E Pp' Np'. symmetry. apply reference_to_inj; assumption. }
    destruct pl as [|d|d|d0 d|d|]; try contradiction; destruct t as [o|s]; try contradiction; cbn in H; (split; [reflexivity|]);
      eexists; (split; [reflexivity|]).
    + subst o. exists (Z.to_nat (Z.max level (Z.of_nat (length parts) + 1))). intros parts' [Np' Pp'] E. rewrite (Inj parts' E Pp' Np').
      assert (K : Z.of_nat (Z.to_nat (Z.max level (Z.of_nat (length parts) + 1))) = Z.max level (Z.of_nat (length parts) + 1)) by lia.
      split; [exact K|]. apply told_below; [reflexivity|assumption..].
    + destruct H as (_ & R & v & -> & _). exists (Z.to_nat (Z.max level (Z.of_nat (length parts) + 1))). intros parts' [Np' Pp'] E. rewrite (Inj parts' E Pp' Np').
      assert (K : Z.of_nat (Z.to_nat (Z.max level (Z.of_nat (length parts) + 1))) = Z.max level (Z.of_nat (length parts) + 1)) by lia.
      split; [exact K|]. apply told_below; [reflexivity|assumption..].
    + destruct H as ((Nd & Gd & _) & P & v & -> & _). exists (Z.to_nat (Z.max (level + Z.of_nat (length d)) (Z.of_nat (length parts) + 1))).
      intros parts' [Np' Pp'] E. rewrite (Inj parts' E Pp' Np').
      assert (K : Z.of_nat (Z.to_nat (Z.max (level + Z.of_nat (length d)) (Z.of_nat (length parts) + 1))) = Z.max (level + Z.of_nat (length d)) (Z.of_nat (length parts) + 1)) by lia.
      split; [exact K|].
      change (thing_reffs scheme same (TSimple (MkSimple (Some (reference_to d)) x P text v)) level (Some (reference_to parts))) with
        (get_reffs scheme same text (Some (level + Z.of_nat (ref_depth (reference_to d)))%Z) (Some (reference_to parts))).
      rewrite (single_depth d Nd (good_plain d Gd)). apply told_below; [reflexivity|assumption..].
    + destruct H as (R & v & -> & _). exists (Z.to_nat (Z.max level (Z.of_nat (length parts) + 1))). intros parts' [Np' Pp'] E. rewrite (Inj parts' E Pp' Np').
      assert (K : Z.of_nat (Z.to_nat (Z.max level (Z.of_nat (length parts) + 1))) = Z.max level (Z.of_nat (length parts) + 1)) by lia.
      split; [exact K|]. cbn [thing_reffs]. rewrite above_below. apply told_below; [reflexivity|assumption..].
  - clear Hs. destruct pl as [|d|d|d0 d|d|]; try contradiction; destruct t as [o|s]; try contradiction; cbn in H; (split; [reflexivity|]);
      eexists; (split; [reflexivity|]).
    + subst o. exists (Z.to_nat level). cbn [identifiers length]. split; [lia|]. cbn [thing_reffs].
      replace level with (Z.of_nat (Z.to_nat level)) at 2 by lia. apply told_text. lia.
    + destruct H as ((Nd & Gd & _) & R & v & -> & _). exists (Z.to_nat (Z.max level (Z.of_nat (length d) + 1))). cbn [identifiers].
      assert (K : Z.of_nat (Z.to_nat (Z.max level (Z.of_nat (length d) + 1))) = Z.max level (Z.of_nat (length d) + 1)) by lia.
      split; [exact K|].
      change (thing_reffs scheme same (TFull (OPass (reference_to d) R text v)) level None) with
        (get_reffs scheme same (OPass (reference_to d) R text v) (Some level) (Some (reference_to d))).
      apply told_below; [reflexivity|assumption|apply good_plain; assumption|exact K].
    + destruct H as ((Nd & Gd & _) & P & v & -> & _). exists (Z.to_nat (level + Z.of_nat (length d))).
      split; [lia|]. cbn [thing_reffs]. rewrite (simple_as_text (MkSimple (Some (reference_to d)) x P text v) level (reference_to d) eq_refl).
      unfold sp_depth. cbn [sp_ref sp_text]. rewrite (single_depth d Nd (good_plain d Gd)).
      apply told_below; [reflexivity|assumption|apply good_plain; assumption|lia].
    + destruct H as (R & v & -> & _). exists (Z.to_nat level). cbn [identifiers length]. split; [lia|]. cbn [thing_reffs]. rewrite above_reffs.
      replace level with (Z.of_nat (Z.to_nat level)) at 2 by lia. apply told_text. lia.
Qed.

Lemma Forall2_length : forall A B (R : A -> B -> Prop) l l', Forall2 R l l' -> length l = length l'.
Proof using. intros A B R l l' F. induction F; cbn; congruence. Qed.

Lemma stands_places : forall pls ts i pl, Forall2 stands pls ts -> nth_error pls i = Some pl -> exists t, nth_error ts i = Some t /\ stands pl t.
Proof using.
  intros pls ts i pl F. revert i. induction F as [|p t pls ts H F IH]; intros [|i] E; try discriminate; cbn in *.
  - injection E as ->. eauto.
  - apply IH. exact E.
Qed.

(** The neighbours of a passage got by next or prev: they are looked for among what is
    below the passage it was got from. *)
Lemma beside_siblings : forall d c t, stands (Beside d c) t ->
  if length levels <=? length c then pure_siblings scheme same t = Err CitationDepthError
  else (exists e p, length e = S (length d) /\ begins d e /\ cites levels x e p) /\ pure_siblings scheme same t = Err ValueError \/
    (forall e p, length e = S (length d) -> begins d e -> ~ cites levels x e p) /\ pure_siblings scheme same t = Err KeyError.
Proof using Hclear.
  intros d c [o|s] H; [|contradiction]. destruct H as (Hc & R & v & R0 & v0 & -> & Hd & Lc0 & _). assert (Ld : length d = length c) by (symmetry; exact Lc0). cbn [pure_siblings]. unfold siblings.
  pose proof (cited_named c Hc) as (Nc & Pc). pose proof (cited_named d Hd) as (Nd & Pd).
  cbn [r_end r_start reference_to].
  rewrite (id_depth_join c Nc Pc), Nat.eqb_refl. cbn [negb].
  change (get_reffs scheme same (OPass (reference_to d) R0 text v0) (Some (Z.of_nat (length c))) None) with
    (get_reffs scheme same (OPass (reference_to d) R0 text v0) (Some (Z.of_nat (length c))) (Some (reference_to d))).
  pose proof (told_below (OPass (reference_to d) R0 text v0) (Z.of_nat (length c)) d (S (length c)) eq_refl Nd Pd ltac:(lia)) as T.
  destruct (get_reffs scheme same (OPass (reference_to d) R0 text v0) (Some (Z.of_nat (length c))) (Some (reference_to d))) as [l|e]; cbn [bind].
  - destruct T as (Lk & Nl & HL). destruct (Nat.leb_spec (length levels) (length c)) as [L|_]; [lia|]. left. split.
    { destruct l as [|o l]; [congruence|]. destruct (proj1 (proj1 HL o) (or_introl eq_refl)) as (e & p & _ & Le & B & C). exists e, p. rewrite Ld. auto. }
    unfold set_index. rewrite (parse_id c Nc Pc). cbn [bind].
    assert (O : oindex (Some (reference_to c)) l = None).
    { assert (F : forall o, In o l -> oref_eqb o (Some (reference_to c)) = false).
      { intros o Ho. destruct (listing_cited d (S (length c)) l o HL ltac:(lia) Ho) as (c' & -> & Lc' & Hc').
        destruct (oref_eqb (Some (reference_to c')) (Some (reference_to c))) eqn:E; [exfalso|reflexivity].
        unfold oref_eqb, opt_eqb in E. apply ref_eqb_spec in E. destruct E as [E _]. cbn [r_start reference_to] in E. pose proof (cited_named c' Hc') as (Nc' & Pc').
        pose proof (id_depth_join c' Nc' Pc') as X. rewrite E, (id_depth_join c Nc Pc) in X. lia. }
      clear - F. induction l as [|o l IH]; [reflexivity|]. cbn [oindex]. rewrite (F o (or_introl eq_refl)), IH by (intros o' Ho'; apply F; right; exact Ho'). reflexivity. }
    rewrite O. reflexivity.
  - destruct e; try contradiction; [|]; cbn [told_level] in T; destruct (Nat.leb_spec (length levels) (length c)); try lia; [|reflexivity]. right. rewrite Ld. split; [apply T|reflexivity].
Qed.

Lemma ask_reply : forall pls ts i pl q, Forall2 stands pls ts -> nth_error pls i = Some pl -> askable q ->
  exists a new ts', does scheme same ts (w_ask scheme same i q) a ts' /\ reply levels x pl (length pls) q a new /\ Forall2 stands new ts'.
Proof using Hclear Hroot Hurn.
  intros pls ts i pl q F Hpl Hq. destruct (stands_places pls ts i pl F Hpl) as (t & Ht & St).
  assert (Dec : ordinary pl \/ ~ ordinary pl) by (destruct pl; cbn; auto). destruct Dec as [Ho|Ho].
  2: { assert (Other : exists a new ts', does scheme same ts (w_ask scheme same i q) a ts' /\ Forall (fun p => p = Lost) new /\ Forall2 stands new ts').
       { destruct (settled_ask scheme same i q ts) as (r & n & D). exists r, (map (fun _ => Lost) n), n. split; [exact D|]. split.
         - apply Forall_forall; intros p Hp; apply in_map_iff in Hp; destruct Hp as (? & <- & _); reflexivity.
         - clear. induction n; cbn; constructor; [exact I|assumption]. }
       destruct pl as [|c|c|d c|c|]; try (destruct Ho; exact I); [|exact Other]. clear Ho.
       assert (Fail : forall B (f : B -> answer) (s : W B) (r : result B) (Q : result answer -> Prop), does scheme same ts s r [] -> Q (shaped f r) ->
         exists a ts', does scheme same ts (w_as f s) a ts' /\ Q a /\ ts' = []).
       { intros B f s r Q D P. exists (shaped f r), []. split; [apply does_as; exact D|auto]. }
       pose proof (beside_siblings d c t St) as BS. pose proof (does_siblings scheme same ts i t Ht) as DS.
       assert (Sib : forall B (f : B -> answer) (s : W B) (r : result B), does scheme same ts s r [] ->
         (forall e, pure_siblings scheme same t = Err e -> r = Err e) ->
         exists a new ts', does scheme same ts (w_as f s) a ts' /\
           (Forall (fun p => p = Lost) new /\ new = [] /\ if length levels <=? length c then a = Err CitationDepthError else
             (exists e p, length e = S (length d) /\ begins d e /\ cites levels x e p) /\ a = Err ValueError \/
             (forall e p, length e = S (length d) -> begins d e -> ~ cites levels x e p) /\ a = Err KeyError) /\ Forall2 stands new ts').
       { intros B f s r D P. exists (shaped f r), [], []. split; [apply does_as; exact D|]. split; [|constructor]. split; [constructor|]. split; [reflexivity|].
         destruct (length levels <=? length c); [rewrite (P _ BS); reflexivity|]. destruct BS as [(Y & BS)|(Y & BS)]; rewrite (P _ BS); auto. }
       assert (Step : forall B (k : option ref * option ref -> W B), exists r, does scheme same ts (w_then (w_siblings scheme same i) k) r [] /\
         forall e, pure_siblings scheme same t = Err e -> r = Err e).
       { intros B k. destruct (pure_siblings scheme same t) as [p|e] eqn:E.
         - exfalso. destruct (length levels <=? length c); [discriminate BS|]. destruct BS as [(_ & BS)|(_ & BS)]; discriminate BS.
         - exists (Err e). split; [|intros e0 X; injection X as ->; reflexivity]. apply does_stop. try rewrite E in DS. exact DS. }
       destruct t as [o|s0]; [|contradiction]. pose proof St as (Hc & R & v & R0 & v0 & Eo & Hd & Lcd & Ncd & Gv & C0 & _).
       pose proof (cited_named c Hc) as (Nc & Pc). destruct Hd as (Nd & Gd & Ld & _).
       assert (Hself : o_xml (text_object o) = R0) by (rewrite Eo; reflexivity).
       assert (None_below : forall level, get_reffs scheme same o (Some level) None =
         Err (if (Z.of_nat (length levels) <? Z.max level (Z.of_nat (length c) + 1))%Z then CitationDepthError else KeyError)).
       { intros level. rewrite <- (near_none levels x R0 d Hclear Nd Ld C0 same o Hself level c Nc Pc Lcd Ncd). rewrite Eo. reflexivity. }
       assert (PC : pure_children scheme same (TFull o) = if length levels <=? length c then Ok [] else Err KeyError).
       { unfold pure_children, childless. rewrite Eo at 1. cbn [r_end r_start reference_to]. rewrite (id_depth_join c Nc Pc), Nat.eqb_refl, scheme_length. cbn [negb bind].
         destruct (Nat.leb_spec (length levels) (length c)) as [L|L]; [reflexivity|]. cbn [thing_reffs]. rewrite None_below.
         destruct (Z.ltb_spec (Z.of_nat (length levels)) (Z.max 1 (Z.of_nat (length c) + 1))) as [L'|L']; [lia|reflexivity]. }
       pose proof (does_children scheme same ts i _ Ht) as DC. rewrite PC in DC.
       assert (Kids : forall B (f : B -> answer) (k : list (option ref) -> W B) (b : B), does scheme same ts (k []) (Ok b) [] ->
         does scheme same ts (w_as f (w_then (w_children scheme same i) k)) (if length levels <=? length c then Ok (f b) else Err KeyError) []).
       { intros B f k b D. destruct (length levels <=? length c).
         - apply (does_as _ _ _ f (Ok b)). apply (does_pure _ _ _ _ _ _ _ _ _ _ DC). exact D.
         - apply (does_as _ _ _ f (Err KeyError)). apply does_stop. exact DC. }
       assert (Goes : forall pick : list (option ref) -> option ref, pick [] = None ->
         does scheme same ts (w_as AObject (w_then (w_then (w_children scheme same i) (fun l => w_ret (pick l))) (fun o' => w_go scheme same i o')))
           (if length levels <=? length c then Ok (AObject None) else Err KeyError) []).
       { intros pick E. pose proof (does_after _ _ _ _ pick _ DC) as D. destruct (length levels <=? length c).
         - cbn [shaped] in D. rewrite E in D. apply (does_as _ _ _ AObject (Ok None)). apply (does_pure _ _ _ _ _ _ _ _ _ _ D). apply does_ret.
         - apply (does_as _ _ _ AObject (Err KeyError)). apply does_stop. exact D. }
       rewrite (Forall2_length _ _ _ _ _ F).
       assert (Done : forall a, does scheme same ts (w_ask scheme same i q) a [] -> reply levels x (Beside d c) (length ts) q a [] ->
         exists a new ts', does scheme same ts (w_ask scheme same i q) a ts' /\ reply levels x (Beside d c) (length ts) q a new /\ Forall2 stands new ts').
       { intros a D P. exists a, [], []. auto. }
       destruct q as [level sub| | | | | | | |r light| | | | | | ].
       - assert (D : does scheme same ts (w_ask scheme same i (QReffs level sub)) (shaped ARefs (thing_reffs scheme same (TFull o) level sub)) []).
         { unfold w_ask. apply (does_look_thing _ _ _ _ i _ (fun t => w_as ARefs (w_lift (thing_reffs scheme same t level sub))) _ _ Ht). apply does_as. apply does_lift. }
         apply (Done _ D). split; [constructor|]. destruct sub as [s|]; (split; [reflexivity|]).
         + destruct Hq as (_ & parts & (Np & Pp) & ->). eexists. split; [reflexivity|]. exists (Z.to_nat (Z.max level (Z.of_nat (length parts) + 1))).
           intros parts' (Np' & Pp') E. apply reference_to_inj in E; try assumption. subst parts'.
           assert (K : Z.of_nat (Z.to_nat (Z.max level (Z.of_nat (length parts) + 1))) = Z.max level (Z.of_nat (length parts) + 1)) by lia.
           split; [exact K|]. cbn [thing_reffs]. exact (near_below levels x R0 d Hclear Nd Ld C0 same o Hself level parts _ Np Pp K).
         + cbn [thing_reffs]. rewrite None_below. reflexivity.
       - apply (Done _ (does_as _ _ _ ARefs _ _ DC)). split; [constructor|]. split; [reflexivity|]. destruct (length levels <=? length c); reflexivity.
       - apply (Done _ (Kids _ ARef _ None (does_ret _ _ _ _ _))). split; [constructor|]. split; reflexivity.
       - apply (Done _ (Kids _ ARef _ None (does_ret _ _ _ _ _))). split; [constructor|]. split; reflexivity.
       - apply (Sib _ APair _ _ DS). auto.
       - apply (Sib _ (fun p => ARef (snd p)) _ _ DS). auto.
       - apply (Sib _ (fun p => ARef (fst p)) _ _ DS). auto.
       - apply (Done _ (does_as _ _ _ ARefs _ _ (does_reffs scheme same ts i _ Ht))). split; [constructor|]. rewrite Eo. split; reflexivity.
       - destruct Hq as (e & -> & Ge & Ne). pose proof (good_plain e Ge) as Pe. pose proof (does_node scheme same ts i _ (reference_to e) light Ht) as D.
         assert (Eq : thing_node scheme same (TFull o) (reference_to e) light = (o' <- get_node scheme same o (reference_to e) ;; Ok (TFull o'))) by (rewrite Eo; reflexivity).
         rewrite Eq in D. clear Eq.
         destruct (Nat.ltb_spec (length levels) (length e)) as [L|L].
         + rewrite (node_deep o e Ne Pe L) in D. cbn [bind] in D. apply (Done _ (does_as _ _ _ (fun n => AObject (Some n)) _ _ D)). split; [constructor|]. exists e.
           split; [split; assumption|]. split; [reflexivity|]. replace (length levels <? length e) with true by (symmetry; apply Nat.ltb_lt; exact L). auto.
         + assert (Gu : good_urn (o_urn o)) by (rewrite Eo; exact Gv).
           destruct (near_node levels x R0 d Hclear Nd Ld C0 same o Hself e Hroot Gu Ne Ge L) as [(Y & o' & E)|(Y & E)]; rewrite E in D; cbn [bind] in D.
           * exists (Ok (AObject (Some (length ts)))), [Lost], [TFull o']. split; [exact (does_as _ _ _ (fun n => AObject (Some n)) _ _ D)|].
             split; [|constructor; [exact I|constructor]]. split; [repeat constructor|]. exists e. split; [split; assumption|]. split; [reflexivity|].
             replace (length levels <? length e) with false by (symmetry; apply Nat.ltb_ge; exact L). left. auto.
           * apply (Done _ (does_as _ _ _ (fun n => AObject (Some n)) _ _ D)). split; [constructor|]. exists e. split; [split; assumption|]. split; [reflexivity|].
             replace (length levels <? length e) with false by (symmetry; apply Nat.ltb_ge; exact L). right. auto.
       - apply (Done _ (Goes (fun l => match l with [] => None | r :: _ => r end) eq_refl)). split; [constructor|]. split; reflexivity.
       - apply (Done _ (Goes (fun l => last l None) eq_refl)). split; [constructor|]. split; reflexivity.
       - apply (Done _ (Kids _ AObjects _ [] (does_ret _ _ _ _ _))). split; [constructor|]. split; reflexivity.
       - destruct (Step _ (fun p => w_beside scheme same i (snd p))) as (r & D & P). apply (Sib _ AObject _ r D P).
       - destruct (Step _ (fun p => w_beside scheme same i (fst p))) as (r & D & P). apply (Sib _ AObject _ r D P).
       - assert (D : does scheme same ts (w_parent i) (Ok (length ts)) [TSimple (whole_thing (TFull o))]).
         { unfold w_parent. apply (does_look_thing _ _ _ _ i _ (fun t => w_make (TSimple (whole_thing t))) _ _ Ht). apply does_make. }
         exists (Ok (AObject (Some (length ts)))), [Lost], [TSimple (whole_thing (TFull o))]. split; [exact (does_as _ _ _ (fun n => AObject (Some n)) _ _ D)|].
         split; [split; [repeat constructor|auto]|]. constructor; [exact I|constructor]. }
  rewrite (Forall2_length _ _ _ _ _ F).
  pose proof (pure_children_told pl t St Ho) as TC. pose proof (does_children scheme same ts i t Ht) as DC.
  pose proof (pure_siblings_told pl t St Ho) as TS. pose proof (does_siblings scheme same ts i t Ht) as DS.
  destruct q as [level sub| | | | | | | |r light| | | | | | ].
  - exists (shaped ARefs (thing_reffs scheme same t level sub)), [], []. split; [|split; [|constructor]].
    + unfold w_ask. apply (does_look_thing _ _ _ _ i t (fun t => w_as ARefs (w_lift (thing_reffs scheme same t level sub))) _ _ Ht). apply does_as. apply does_lift.
    + exact (reffs_reply pl t level sub St Ho Hq).
  - exists (shaped ARefs (pure_children scheme same t)), [], []. split; [apply does_as; exact DC|]. split; [|constructor].
    destruct pl; try contradiction; (split; [reflexivity|]); eexists; (split; [exact TC|reflexivity]).
  - exists (shaped (fun l => ARef (at_index l 0)) (pure_children scheme same t)), [], []. split; [|split; [|constructor]].
    + replace (shaped (fun l => ARef (at_index l 0)) (pure_children scheme same t)) with
        (shaped ARef (shaped (fun l : list (option ref) => match l with [] => None | r :: _ => r end) (pure_children scheme same t))).
      * apply does_as. apply does_after. exact DC.
      * rewrite shaped_twice. destruct (pure_children scheme same t); [cbn; rewrite first_entry|]; reflexivity.
    + destruct pl; try contradiction; (split; [reflexivity|]); eexists; (split; [exact TC|reflexivity]).
  - exists (shaped (fun l => ARef (at_index l (length l - 1))) (pure_children scheme same t)), [], []. split; [|split; [|constructor]].
    + replace (shaped (fun l => ARef (at_index l (length l - 1))) (pure_children scheme same t)) with
        (shaped ARef (shaped (fun l : list (option ref) => last l None) (pure_children scheme same t))).
      * apply does_as. apply does_after. exact DC.
      * rewrite shaped_twice. destruct (pure_children scheme same t); [cbn [shaped]; rewrite last_entry|]; reflexivity.
    + destruct pl; try contradiction; (split; [reflexivity|]); eexists; (split; [exact TC|reflexivity]).
  - exists (shaped APair (pure_siblings scheme same t)), [], []. split; [apply does_as; exact DS|]. split; [|constructor].
    destruct pl; try contradiction; (split; [reflexivity|]); eexists; (split; [exact TS|reflexivity]).
  - exists (shaped (fun p => ARef (snd p)) (pure_siblings scheme same t)), [], []. split; [apply does_as; exact DS|]. split; [|constructor].
    destruct pl; try contradiction; (split; [reflexivity|]); eexists; (split; [exact TS|reflexivity]).
  - exists (shaped (fun p => ARef (fst p)) (pure_siblings scheme same t)), [], []. split; [apply does_as; exact DS|]. split; [|constructor].
    destruct pl; try contradiction; (split; [reflexivity|]); eexists; (split; [exact TS|reflexivity]).
  - exists (shaped ARefs (pure_all scheme same t)), [], []. split; [apply does_as; apply does_reffs; exact Ht|]. split; [|constructor].
    destruct pl; try contradiction; destruct t as [o|s]; try contradiction; cbn in St; (split; [reflexivity|]).
    + subst o. eexists. split; [exact all_told|reflexivity].
    + destruct St as (_ & R & v & -> & _). reflexivity.
    + reflexivity.
    + reflexivity.
  - destruct Hq as (c & -> & Gc & Nc). pose proof (good_plain c Gc) as Pc.
    assert (Full : forall lt, (match pl with Whole | Light _ | Above _ => lt = false | _ => True end) ->
      exists a new ts', does scheme same ts (w_ask scheme same i (QNode (reference_to c) lt)) a ts' /\
        (if length levels <? length c then a = Err CitationDepthError /\ new = [] else
         (exists p, cites levels x c p) /\ a = Ok (AObject (Some (length ts))) /\ new = [Rebuilt c] \/
         (forall p, ~ cites levels x c p) /\ a = Err IndexError /\ new = []) /\ Forall2 stands new ts').
    { intros lt Hlt.
      assert (Eq : thing_node scheme same t (reference_to c) lt = thing_node scheme same t (reference_to c) false).
      { destruct pl; try contradiction; destruct t as [o|s]; try contradiction; cbn in St, Hlt; subst; try reflexivity.
        destruct St as (_ & R & v & -> & _). reflexivity. }
      pose proof (does_node scheme same ts i t (reference_to c) lt Ht) as D. rewrite Eq in D.
      destruct (thing_node_not pl t c St Ho Nc Gc) as [N1 N2]. destruct (Nat.ltb_spec (length levels) (length c)) as [L|L].
      - rewrite (N1 L) in D. exists (Err CitationDepthError), [], []. split; [exact (does_as _ _ _ (fun n => AObject (Some n)) _ _ D)|]. split; [auto|constructor].
      - destruct (cites_dec c Nc) as [Hp|Hp].
        + assert (Hc : cited c) by (split; [exact Nc|split; [exact Gc|split; [exact L|exact Hp]]]).
          destruct (thing_node_read pl t c St Ho Hc) as (t' & E & St'). rewrite E in D. exists (Ok (AObject (Some (length ts)))), [Rebuilt c], [t'].
          split; [exact (does_as _ _ _ (fun n => AObject (Some n)) _ _ D)|]. split; [left; auto|constructor; [exact St'|constructor]].
        + rewrite (N2 L Hp) in D. exists (Err IndexError), [], []. split; [exact (does_as _ _ _ (fun n => AObject (Some n)) _ _ D)|]. split; [right; auto|constructor]. }
    assert (Wrap : forall a new ts', does scheme same ts (w_ask scheme same i (QNode (reference_to c) light)) a ts' ->
      match pl, light with
      | Light _, true | Above _, true => a = Err TypeError /\ new = []
      | Whole, true =>
          if length levels <? length c then a = Err CitationDepthError /\ new = [] else
          (exists p, cites levels x c p) /\ a = Ok (AObject (Some (length ts))) /\ new = [Light c] \/
          (forall p, ~ cites levels x c p) /\ a = Err InvalidURN /\ new = []
      | _, _ =>
          if length levels <? length c then a = Err CitationDepthError /\ new = [] else
          (exists p, cites levels x c p) /\ a = Ok (AObject (Some (length ts))) /\ new = [Rebuilt c] \/
          (forall p, ~ cites levels x c p) /\ a = Err IndexError /\ new = []
      end -> Forall2 stands new ts' ->
      exists a new ts', does scheme same ts (w_ask scheme same i (QNode (reference_to c) light)) a ts' /\ reply levels x pl (length ts) (QNode (reference_to c) light) a new /\ Forall2 stands new ts').
    { intros a new ts' D R2 S2. exists a, new, ts'. split; [exact D|]. split; [|exact S2]. destruct pl; try contradiction; exists c; (split; [split; assumption|]); (split; [reflexivity|exact R2]). }
    destruct light.
    2: { destruct (Full false) as (a & new & ts' & D & R2 & S2); [destruct pl; exact I || reflexivity|]. apply (Wrap a new ts' D); [|exact S2]. destruct pl; try contradiction; exact R2. }
    destruct pl; try contradiction.
    + destruct t as [o|s]; [|contradiction]. cbn in St. subst o. pose proof (does_node scheme same ts i _ (reference_to c) true Ht) as D. cbn [thing_node] in D.
      destruct (Nat.ltb_spec (length levels) (length c)) as [L|L].
      * assert (E : simple_node scheme text (reference_to c) = Err CitationDepthError).
        { unfold simple_node. cbn [r_start reference_to]. rewrite id_depth_join, scheme_length by assumption.
          replace (length levels <? length c) with true by (symmetry; apply Nat.ltb_lt; exact L). reflexivity. }
        rewrite E in D. cbn [bind] in D. apply (Wrap (Err CitationDepthError) [] []); [exact (does_as _ _ _ (fun n => AObject (Some n)) _ _ D)|auto|constructor].
      * destruct (cites_dec c Nc) as [Hp|Hp].
        -- assert (Hc : cited c) by (split; [exact Nc|split; [exact Gc|split; [exact L|exact Hp]]]).
           destruct (cited_unit c Hc) as [Hd Hi]. destruct (units_only levels x (length c) (clear_less _ L) Hd c Hi) as [P HP].
           destruct (simple_node_spec levels (proj1 Hclear) text x (reference_to c) P eq_refl eq_refl Hurn (writable_single c Nc Gc)) as (v & E);
             cbn [r_start reference_to]; rewrite ?id_depth_join, ?id_list_join by assumption; [lia|apply good_safe; exact Gc|exact HP|].
           rewrite E in D. cbn [bind text_object] in D.
           apply (Wrap (Ok (AObject (Some (length ts)))) [Light c] [TSimple (MkSimple (Some (reference_to c)) x P text v)]);
             [exact (does_as _ _ _ (fun n => AObject (Some n)) _ _ D)|left; auto|].
           constructor; [|constructor]. cbn. split; [exact Hc|]. eauto.
        -- rewrite (read_simple_refused levels x u c (proj1 Hclear) Nc Gc L) in D by (intros P [HP _]; exact (Hp P HP)). cbn [bind] in D.
           apply (Wrap (Err InvalidURN) [] []); [exact (does_as _ _ _ (fun n => AObject (Some n)) _ _ D)|right; auto|constructor].
    + destruct (Full true I) as (a & new & ts' & D & R2 & S2). apply (Wrap a new ts' D); [exact R2|exact S2].
    + destruct t as [o|s]; [contradiction|]. pose proof (does_node scheme same ts i _ (reference_to c) true Ht) as D. cbn [thing_node] in D.
      apply (Wrap (Err TypeError) [] []); [exact (does_as _ _ _ (fun n => AObject (Some n)) _ _ D)|auto|constructor].
    + destruct t as [o|s]; [contradiction|]. pose proof (does_node scheme same ts i _ (reference_to c) true Ht) as D. cbn [thing_node] in D.
      apply (Wrap (Err TypeError) [] []); [exact (does_as _ _ _ (fun n => AObject (Some n)) _ _ D)|auto|constructor].
  - assert (G : exists a new ts', does scheme same ts (w_first scheme same i) a ts' /\
      match pure_children scheme same t with Ok l => object_of (length ts) Rebuilt (at_index l 0) (shaped AObject a) new | Err e => shaped AObject a = Err e /\ new = [] end /\ Forall2 stands new ts').
    { destruct (pure_children scheme same t) as [l|e] eqn:E.
      - destruct (children_cited pl t l St Ho E) as (cs & El & Hcs).
        destruct (does_child ts i pl t (at_index l 0) Ht St Ho) as (a & new & ts' & D & R2 & S2).
        { intros r Hr. rewrite El in Hr. apply at_index_map in Hr. destruct Hr as (c & -> & Hi). exists c. split; [reflexivity|]. rewrite Forall_forall in Hcs. auto. }
        exists a, new, ts'. split; [|auto]. unfold w_first, w_first_id. apply (does_pure _ _ _ _ _ _ _ (Ok (at_index l 0))); [|exact D].
        rewrite <- first_entry. exact (does_after _ _ _ _ (fun l : list (option ref) => match l with [] => None | r :: _ => r end) _ DC).
      - exists (Err e), [], []. split; [|split; [auto|constructor]]. unfold w_first, w_first_id. apply (does_pure _ _ _ _ _ _ _ (Err e)); [|auto].
        exact (does_after _ _ _ _ (fun l : list (option ref) => match l with [] => None | r :: _ => r end) _ DC). }
    destruct G as (a & new & ts' & D & R2 & S2). exists (shaped AObject a), new, ts'. split; [apply does_as; exact D|]. split; [|exact S2].
    destruct pl; try contradiction; eexists; (split; [exact TC|exact R2]).
  - assert (G : exists a new ts', does scheme same ts (w_last scheme same i) a ts' /\
      match pure_children scheme same t with Ok l => object_of (length ts) Rebuilt (at_index l (length l - 1)) (shaped AObject a) new | Err e => shaped AObject a = Err e /\ new = [] end /\ Forall2 stands new ts').
    { destruct (pure_children scheme same t) as [l|e] eqn:E.
      - destruct (children_cited pl t l St Ho E) as (cs & El & Hcs).
        destruct (does_child ts i pl t (at_index l (length l - 1)) Ht St Ho) as (a & new & ts' & D & R2 & S2).
        { intros r Hr. rewrite El in Hr. apply at_index_map in Hr. destruct Hr as (c & -> & Hi). exists c. split; [reflexivity|]. rewrite Forall_forall in Hcs. auto. }
        exists a, new, ts'. split; [|auto]. unfold w_last, w_last_id. apply (does_pure _ _ _ _ _ _ _ (Ok (at_index l (length l - 1)))); [|exact D].
        rewrite <- last_entry. exact (does_after _ _ _ _ (fun l : list (option ref) => last l None) _ DC).
      - exists (Err e), [], []. split; [|split; [auto|constructor]]. unfold w_last, w_last_id. apply (does_pure _ _ _ _ _ _ _ (Err e)); [|auto].
        exact (does_after _ _ _ _ (fun l : list (option ref) => last l None) _ DC). }
    destruct G as (a & new & ts' & D & R2 & S2). exists (shaped AObject a), new, ts'. split; [apply does_as; exact D|]. split; [|exact S2].
    destruct pl; try contradiction; eexists; (split; [exact TC|exact R2]).
  - assert (G : exists a new ts', does scheme same ts (w_child_nodes scheme same i) a ts' /\
      match pure_children scheme same t with
      | Ok l => exists cs, Forall named cs /\ l = map (fun c => Some (reference_to c)) cs /\ shaped AObjects a = Ok (AObjects (seq (length ts) (length cs))) /\ new = map Rebuilt cs
      | Err e => shaped AObjects a = Err e /\ new = [] end /\ Forall2 stands new ts').
    { destruct (pure_children scheme same t) as [l|e] eqn:E.
      - destruct (children_cited pl t l St Ho E) as (cs & El & Hcs). destruct (does_all cs ts i pl t Ht St Ho Hcs) as (ts' & D & S2).
        exists (Ok (seq (length ts) (length cs))), (map Rebuilt cs), ts'. split; [|split; [exists cs; split; [eapply Forall_impl; [exact cited_named|exact Hcs]|auto]|exact S2]].
        unfold w_child_nodes. apply (does_pure _ _ _ _ _ _ _ (Ok l) _ _ DC). rewrite El. exact D.
      - exists (Err e), [], []. split; [|split; [auto|constructor]]. unfold w_child_nodes. apply (does_pure _ _ _ _ _ _ _ (Err e) _ _ DC). auto. }
    destruct G as (a & new & ts' & D & R2 & S2). exists (shaped AObjects a), new, ts'. split; [apply does_as; exact D|]. split; [|exact S2].
    destruct pl; try contradiction; eexists; (split; [exact TC|exact R2]).
  - assert (G : exists a new ts', does scheme same ts (w_next scheme same i) a ts' /\
      match pure_siblings scheme same t with
      | Ok p => object_of (length ts) (match pl with Light _ => Rebuilt | _ => Beside (identifiers pl) end) (snd p) (shaped AObject a) new
      | Err e => shaped AObject a = Err e /\ new = [] end /\ Forall2 stands new ts').
    { destruct (pure_siblings scheme same t) as [[b f]|e] eqn:ES.
      - assert (Hn : forall o, pl <> Above o) by (intros o ->; discriminate TS).
        destruct (siblings_cited pl t St Ho Hn) as (b' & f' & ES' & _ & CS). rewrite ES in ES'. injection ES' as <- <-.
        destruct (does_beside ts i pl t f Ht St Ho) as (a & new & ts' & D & R2 & S2); [intros r ->; apply CS; auto|intros ->; cbn in TS; congruence|].
        exists a, new, ts'. split; [|auto]. unfold w_next. apply (does_pure _ _ _ _ _ _ _ _ _ _ DS). exact D.
      - exists (Err e), [], []. split; [|split; [auto|constructor]]. unfold w_next. apply does_stop. exact DS. }
    destruct G as (a & new & ts' & D & R2 & S2). exists (shaped AObject a), new, ts'. split; [apply does_as; exact D|]. split; [|exact S2].
    destruct pl; try contradiction; eexists; (split; [exact TS|exact R2]).
  - assert (G : exists a new ts', does scheme same ts (w_prev scheme same i) a ts' /\
      match pure_siblings scheme same t with
      | Ok p => object_of (length ts) (match pl with Light _ => Rebuilt | _ => Beside (identifiers pl) end) (fst p) (shaped AObject a) new
      | Err e => shaped AObject a = Err e /\ new = [] end /\ Forall2 stands new ts').
    { destruct (pure_siblings scheme same t) as [[b f]|e] eqn:ES.
      - assert (Hn : forall o, pl <> Above o) by (intros o ->; discriminate TS).
        destruct (siblings_cited pl t St Ho Hn) as (b' & f' & ES' & _ & CS). rewrite ES in ES'. injection ES' as <- <-.
        destruct (does_beside ts i pl t b Ht St Ho) as (a & new & ts' & D & R2 & S2); [intros r ->; apply CS; auto|intros ->; cbn in TS; congruence|].
        exists a, new, ts'. split; [|auto]. unfold w_prev. apply (does_pure _ _ _ _ _ _ _ _ _ _ DS). exact D.
      - exists (Err e), [], []. split; [|split; [auto|constructor]]. unfold w_prev. apply does_stop. exact DS. }
    destruct G as (a & new & ts' & D & R2 & S2). exists (shaped AObject a), new, ts'. split; [apply does_as; exact D|]. split; [|exact S2].
    destruct pl; try contradiction; eexists; (split; [exact TS|exact R2]).
  - assert (D : does scheme same ts (w_parent i) (Ok (length ts)) [TSimple (whole_thing t)]).
    { unfold w_parent. apply (does_look_thing _ _ _ _ i t (fun t => w_make (TSimple (whole_thing t))) _ _ Ht). apply does_make. }
    exists (Ok (AObject (Some (length ts)))), [Above (match pl with Rebuilt c => Some c | _ => None end)], [TSimple (whole_thing t)].
    split; [exact (does_as _ _ _ (fun n => AObject (Some n)) _ _ D)|]. split; [destruct pl; try contradiction; split; reflexivity|]. constructor; [|constructor].
    destruct pl; try contradiction; destruct t as [o|s]; try contradiction; cbn in St.
    + subst o. exists x, u. auto.
    + destruct St as (_ & R & v & -> & _ & HR). exists R, v. auto.
    + destruct St as (_ & P & v & -> & _). exists x, u. auto.
    + destruct St as (R & v & -> & _). exists x, u. auto.
Qed.

Lemma session_replies : forall h pls m, Forall (fun e => askable (snd e)) h -> Forall (sound scheme same) m -> Forall2 stands pls (things m) ->
  exists pls', replies levels x pls h (snd (session scheme same m h)) pls' /\ Forall2 stands pls' (things (fst (session scheme same m h))).
Proof using Hclear Hroot Hurn.
  intros h. induction h as [|[i q] h IH]; intros pls m Hh S F; [exists pls; split; [constructor|exact F]|]. inversion Hh as [|? ? Hq Hh']; subst. cbn [snd] in Hq.
  cbn [session]. destruct (nth_error pls i) as [pl|] eqn:E.
  - destruct (ask_reply pls (things m) i pl q F E Hq) as (a & new & ts' & D & R2 & S2). destruct (D m eq_refl S) as (m1 & E1 & T1 & S1). rewrite E1.
    destruct (IH (pls ++ new) m1 Hh' S1) as (pls' & I1 & I2); [rewrite T1; apply Forall2_app; assumption|].
    destruct (session scheme same m1 h) as [m2 l]. cbn [fst snd] in *. exists pls'. split; [|exact I2]. apply (replies_ask levels x pls i pl q h a new); assumption.
  - assert (N : nth_error (things m) i = None).
    { apply nth_error_None. apply nth_error_None in E. rewrite <- (Forall2_length _ _ _ _ _ F). exact E. }
    assert (D : does scheme same (things m) (w_ask scheme same i q) (Err AttributeError) []).
    { destruct q; unfold w_ask, w_as, w_children, w_first, w_last, w_first_id, w_last_id, w_child_nodes, w_children, w_siblings, w_reffs, w_node, w_next, w_prev, w_siblings, w_parent;
        repeat first [apply look_missing; exact N|apply does_stop]. }
    destruct (D m eq_refl S) as (m1 & E1 & T1 & S1). rewrite E1.
    destruct (IH pls m1 Hh' S1) as (pls' & I1 & I2); [rewrite T1, app_nil_r; exact F|].
    destruct (session scheme same m1 h) as [m2 l]. cbn [fst snd] in *. exists pls'. split; [|exact I2]. apply replies_nothing; eauto.
Qed.

Lemma session_opened : forall h, Forall (fun e => askable (snd e)) h ->
  exists pls, replies levels x [Whole] h (snd (session scheme same (opened x u) h)) pls /\
    Forall2 (holds levels x) pls (things (fst (session scheme same (opened x u) h))).
Proof using Hclear Hroot Hurn.
  intros h Hh. destruct (session_replies h [Whole] (opened x u) Hh (opened_sound scheme same x u)) as (pls & H1 & H2); [constructor; [reflexivity|constructor]|].
  exists pls. split; [exact H1|]. clear - H2. induction H2; constructor; [apply stands_holds|]; assumption.
Qed.

End Clear.
