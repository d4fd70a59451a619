(** Proofs about the answers of the local resolver. *)

From Coq Require Import List NArith ZArith Arith Bool Lia.
From Verif Require Import PyStr PyStrFacts UrnModel UrnSpec MetaModel MetaSpec MetaProofs CollModel CollSpec CollProofs CollHist
  InvModel InvSpec InvExport LocalModel LocalSpec LocalProofs AnswerModel.
Import ListNotations.

(** ** The objects and graphs are those of LocalModel *)

Definition mirrors {A} (m : act A) (s : store) (o : state * result A) : Prop :=
  (s_state (fst (m s)), snd (m s)) = o /\ s_paths (fst (m s)) = s_paths s.

Lemma rebuild_text_state : forall order inv t s, mirrors (rebuild_text order inv t) s (rebuild order inv (s_state s, Ok tt) t).
Proof.
  intros order inv t s. unfold mirrors, rebuild_text, rebuild, andthen, on_state, up, same_citation, set_citation, ret.
  destruct (c_parent (obj (s_state s) t)) as [w|]; [|split; reflexivity]. cbn [bind].
  destruct (c_parent (obj (s_state s) w)) as [g|]; [|split; reflexivity]. cbn [bind fst snd s_state s_cites s_paths].
  destruct (ensure order (s_state s) KTextgroup inv (c_urn (obj (s_state s) g))) as [st1 [g'|e]]; [|split; reflexivity].
  cbn [s_state s_cites s_paths].
  destruct (ensure order st1 KWork g' (c_urn (obj (s_state s) w))) as [st2 [w'|e]]; [|split; reflexivity].
  cbn [s_state s_cites s_paths].
  destruct (c_kind (obj (s_state s) t)) as [|[| | |]| | | |]; try (split; reflexivity); cbn [fst snd s_state s_cites s_paths].
  - destruct (new_cts order st2 (KText Edition) (c_urn (obj (s_state s) t)) (Some w') None) as [st3 [c|e]]; split; reflexivity.
  - destruct (get_lang order st2 t) as [l|e]; [|split; reflexivity]. cbn [s_state s_cites s_paths].
    destruct (new_cts order st2 (KText Translation) (c_urn (obj (s_state s) t)) (Some w') (Some l)) as [st3 [c|e]]; split; reflexivity.
  - destruct (get_lang order st2 t) as [l|e]; [|split; reflexivity]. cbn [s_state s_cites s_paths].
    destruct (new_cts order st2 (KText Commentary) (c_urn (obj (s_state s) t)) (Some w') (Some l)) as [st3 [c|e]]; split; reflexivity.
Qed.

Lemma rebuild_err : forall order inv l st e, fold_left (rebuild order inv) l (st, Err e) = (st, Err e).
Proof. intros order inv l. induction l as [|t l IH]; intros st e; [reflexivity|]. cbn [fold_left]. apply IH. Qed.

Lemma rebuild_texts_state : forall order inv l s, mirrors (for_each l (rebuild_text order inv)) s (fold_left (rebuild order inv) l (s_state s, Ok tt)).
Proof.
  intros order inv l. induction l as [|t l IH]; intros s; [split; reflexivity|]. cbn [for_each fold_left].
  destruct (rebuild_text_state order inv t s) as [E P]. unfold mirrors, andthen. destruct (rebuild_text order inv t s) as [s1 [[]|e]]; cbn [fst snd] in *.
  - rewrite <- E. destruct (IH s1) as [E1 P1]. split; [exact E1|congruence].
  - rewrite <- E, rebuild_err. split; [reflexivity|exact P].
Qed.

Lemma metadata_state : forall limit order root id s,
  mirrors (resolver_metadata limit order root id) s (get_metadata limit order (s_state s) root (has_citation s) id).
Proof.
  intros limit order root [key|] s; [|split; reflexivity]. unfold mirrors, resolver_metadata, get_metadata.
  destruct (existsb _ _); [split; reflexivity|].
  unfold andthen, resolver_texts, list_texts, on_state.
  destruct (find_texts limit order (s_state s) root (has_citation s) (MkQuery (Some key) None None)) as [l|e]; [|split; reflexivity].
  cbn [bind fst snd s_state s_cites s_paths].
  destruct (mapM _ l) as [names|e]; [|split; reflexivity]. cbn [bind s_state s_cites s_paths].
  destruct (new_object (s_state s) KInventory (inventory_name names) []) as [st1 inv]. cbn [s_state s_cites s_paths].
  destruct (rebuild_texts_state order inv l (MkStore st1 (s_cites s) (s_paths s))) as [E P]. cbn [s_state s_paths] in E, P.
  destruct (for_each l (rebuild_text order inv) (MkStore st1 (s_cites s) (s_paths s))) as [s2 [[]|e]]; cbn [fst snd] in *; rewrite <- E; split; reflexivity || exact P.
Qed.

(** ** What there was stays *)

(** [n] objects were there before; the others are in order. *)
Record kept_store (n : nat) (s0 s : store) : Prop := {
  ks_len : n <= length (objs (s_state s));
  ks_old : forall x, x < n -> obj (s_state s) x = obj (s_state s0) x;
  ks_cites : forall x, x < n -> citation_of s x = citation_of s0 x;
  ks_paths : s_paths s = s_paths s0;
  ks_graph : forall x, n <= x -> x < length (objs (s_state s)) -> c_graph (obj (s_state s) x) = 0;
  ks_kids : forall p k c, n <= p -> In (k, c) (c_children (obj (s_state s) p)) ->
    n <= c < length (objs (s_state s)) /\ c_id (obj (s_state s) c) = k }.

(** What the making of an object does, success or not. *)
Record more (n : nat) (st st' : state) (k : kind) (id : str) : Prop := {
  mo_len : length (objs st) <= length (objs st');
  mo_old : forall x, x < length (objs st) -> c_kind (obj st' x) = c_kind (obj st x) /\ c_id (obj st' x) = c_id (obj st x);
  mo_same : forall x, x < n -> obj st' x = obj st x;
  mo_graph : forall x, n <= x -> x < length (objs st') -> c_graph (obj st' x) = 0;
  mo_new : forall x, length (objs st) <= x < length (objs st') -> x = length (objs st) /\ c_kind (obj st' x) = k /\ c_id (obj st' x) = id;
  mo_kids : forall p key c, n <= p -> In (key, c) (c_children (obj st' p)) -> n <= c < length (objs st') /\ c_id (obj st' c) = key }.

Section Grow.
Variable n : nat.
Variable st : state.
Hypothesis Hn : n <= length (objs st).
Hypothesis Hg : forall x, n <= x -> x < length (objs st) -> c_graph (obj st x) = 0.
Hypothesis Hk : forall p k c, n <= p -> In (k, c) (c_children (obj st p)) -> n <= c < length (objs st) /\ c_id (obj st c) = k.

Lemma more_refl : forall k id, more n st st k id.
Proof using Hn Hg Hk. intros k id. split; auto; intros; lia. Qed.

Lemma more_new : forall k id urn, more n st (fst (new_object st k id urn)) k id.
Proof using Hn Hg Hk.
  intros k id urn. assert (L : length (objs (fst (new_object st k id urn))) = S (length (objs st))) by (cbn; rewrite app_length; cbn; lia).
  split; rewrite ?L.
  - lia.
  - intros x X. rewrite obj_new. destruct (Nat.eqb_spec x (length (objs st))); [lia|]. auto.
  - intros x X. rewrite obj_new. destruct (Nat.eqb_spec x (length (objs st))); [lia|]. reflexivity.
  - intros x X1 X2. rewrite obj_new. destruct (Nat.eqb_spec x (length (objs st))); [reflexivity|]. apply Hg; lia.
  - intros x X. rewrite obj_new. destruct (Nat.eqb_spec x (length (objs st))); [auto|lia].
  - intros p key c X. rewrite obj_new. destruct (Nat.eqb_spec p (length (objs st))); [intros []|]. intros I.
    destruct (Hk p key c X I) as [A B]. split; [lia|]. rewrite obj_new. destruct (Nat.eqb_spec c (length (objs st))); [lia|]. exact B.
Qed.
End Grow.

Lemma more_graph : forall n st st' st'' k id, more n st st' k id -> objs st'' = objs st' -> more n st st'' k id.
Proof.
  intros n st st' st'' k id M E. assert (O : forall x, obj st'' x = obj st' x) by (intros x; unfold obj; rewrite E; reflexivity).
  destruct M as [A B C D F G]. split; intros; rewrite ?O, ?E in *; eauto.
Qed.

Lemma more_parent : forall n st st' k id p, more n st st' k id -> length (objs st') = S (length (objs st)) -> n <= length (objs st) ->
  n <= p < length (objs st) -> more n st (set_parent st' (length (objs st)) p) k id.
Proof.
  intros n st st' k id p M L Hn Hp. destruct M as [A B C D F G].
  assert (O : forall x, obj (set_parent st' (length (objs st)) p) x = _) by (intros x; apply obj_set_parent; lia). cbv zeta in O.
  split; rewrite ?length_set_parent; try assumption.
  - intros x X. rewrite O. cbn. auto.
  - intros x X. rewrite O. destruct (Nat.eqb_spec (length (objs st)) x); [lia|]. destruct (Nat.eqb_spec p x); [lia|]. cbn. rewrite <- (C x X). destruct (obj st' x). reflexivity.
  - intros x X1 X2. rewrite O. cbn. auto.
  - intros x X. rewrite O. cbn. auto.
  - intros q key c X I. rewrite !O in *. cbn [c_children c_id] in *. destruct (Nat.eqb_spec p q) as [->|Y]; cbn [andb] in I; [|exact (G q key c X I)].
    destruct (negb _) in I; [|exact (G q key c X I)]. apply in_app_iff in I. destruct I as [I|[I|[]]]; [exact (G q key c X I)|].
    injection I as <- <-. split; [lia|reflexivity].
Qed.

(** A textgroup, work or text of the new inventory. *)
Lemma more_cts : forall n st order k urn p lang, n <= length (objs st) ->
  (forall x, n <= x -> x < length (objs st) -> c_graph (obj st x) = 0) ->
  (forall p k c, n <= p -> In (k, c) (c_children (obj st p)) -> n <= c < length (objs st) /\ c_id (obj st c) = k) ->
  n <= p < length (objs st) ->
  more n st (fst (new_cts order st k urn (Some p) lang)) k urn /\
  (forall c, snd (new_cts order st k urn (Some p) lang) = Ok c -> c = length (objs st) /\
     length (objs (fst (new_cts order st k urn (Some p) lang))) = S c /\
     In urn (keys (c_children (obj (fst (new_cts order st k urn (Some p) lang)) p)))).
Proof.
  intros n st order k urn p lang Hn Hg Hk Hp. unfold new_cts.
  set (text := u <- urn_parse urn ;; to_str u).
  pose proof (more_new n st Hn Hg Hk k urn (match text with Ok t => t | Err _ => [] end)) as M.
  destruct (new_object st k urn (match text with Ok t => t | Err _ => [] end)) as [st1 c] eqn:N.
  assert (Ec : c = length (objs st)) by (unfold new_object in N; injection N as <- <-; reflexivity).
  assert (L1 : length (objs st1) = S (length (objs st))) by (unfold new_object in N; injection N as <- _; cbn [objs]; rewrite app_length; cbn; lia).
  cbn [fst] in M. clear N. subst c. destruct text as [u|e]; [|split; [exact M|discriminate]].
  set (st2 := match k, lang with KText _, Some l => set_lang st1 (length (objs st)) l | _, _ => st1 end).
  assert (O2 : objs st2 = objs st1) by (unfold st2; destruct k; try reflexivity; destruct lang; reflexivity).
  assert (M3 : more n st (set_parent st2 (length (objs st)) p) k urn).
  { apply more_parent; try assumption; [eapply more_graph; [exact M|exact O2]|rewrite O2; exact L1]. }
  assert (L3 : length (objs (set_parent st2 (length (objs st)) p)) = S (length (objs st))) by (rewrite length_set_parent, O2; exact L1).
  assert (K3 : In urn (keys (c_children (obj (set_parent st2 (length (objs st)) p) p)))).
  { rewrite obj_set_parent by (rewrite O2; lia). cbv zeta. cbn [c_children]. rewrite Nat.eqb_refl. cbn [andb].
    assert (I : c_id (obj st2 (length (objs st))) = urn).
    { unfold obj. rewrite O2. apply (mo_new _ _ _ _ _ M). lia. }
    rewrite I. destruct (existsb (str_eqb urn) (keys (c_children (obj st2 p)))) eqn:E; cbn [negb].
    - apply existsb_str. exact E.
    - unfold keys. rewrite map_app. apply in_or_app. right. left. reflexivity. }
  assert (OK : more n st (fst (set_parent st2 (length (objs st)) p, Ok (length (objs st)))) k urn /\
    forall c, snd (set_parent st2 (length (objs st)) p, Ok (length (objs st))) = Ok c -> c = length (objs st) /\
      length (objs (fst (set_parent st2 (length (objs st)) p, @Ok nat (length (objs st))))) = S c /\
      In urn (keys (c_children (obj (fst (set_parent st2 (length (objs st)) p, @Ok nat (length (objs st)))) p)))).
  { split; [exact M3|]. intros c [= <-]. auto. }
  destruct k; try exact OK. destruct lang; [exact OK|].
  destruct (get_lang order (set_parent st2 (length (objs st)) p) p) as [l|e]; cbn [fst snd].
  - split; [eapply more_graph; [exact M3|reflexivity]|]. intros c [= <-]. auto.
  - split; [exact M3|discriminate].
Qed.

Lemma more_ensure : forall n st order k p urn, n <= length (objs st) ->
  (forall x, n <= x -> x < length (objs st) -> c_graph (obj st x) = 0) ->
  (forall p k c, n <= p -> In (k, c) (c_children (obj st p)) -> n <= c < length (objs st) /\ c_id (obj st c) = k) ->
  n <= p < length (objs st) ->
  more n st (fst (ensure order st k p urn)) k urn /\
  (forall c, snd (ensure order st k p urn) = Ok c -> n <= c < length (objs (fst (ensure order st k p urn))) /\
     c_id (obj (fst (ensure order st k p urn)) c) = urn).
Proof.
  intros n st order k p urn Hn Hg Hk Hp. unfold ensure. destruct (dget urn (c_children (obj st p))) as [i|] eqn:D.
  - split; [apply more_refl; assumption|]. intros c [= <-]. apply (Hk p urn i); [lia|]. apply dget_In. exact D.
  - destruct (more_cts n st order k urn p None Hn Hg Hk Hp) as [M H].
    destruct (new_cts order st k urn (Some p) None) as [st1 [c|e]]; cbn [fst snd] in *; [|split; [exact M|discriminate]].
    destruct (H c eq_refl) as (Ec & L & I). unfold child. destruct (dget urn (c_children (obj st1 p))) as [j|] eqn:D1.
    + split; [exact M|]. intros c' [= <-]. apply (mo_kids _ _ _ _ _ M p urn j); [lia|]. apply dget_In. exact D1.
    + apply dget_none in D1. contradiction.
Qed.

(** ** The whole answer *)

(** The new texts have the citations of those they stand for. *)
Definition cited_alike (n : nat) (s0 s : store) (l : list nat) : Prop :=
  forall t, n <= t -> text (s_state s) t -> exists x, In x l /\ c_id (obj (s_state s) t) = c_urn (obj (s_state s0) x) /\
    c_kind (obj (s_state s) t) = c_kind (obj (s_state s0) x) /\ citation_of s t = Some (text_citation s0 x).

Lemma kept_more : forall n s0 s st' k id, kept_store n s0 s -> more n (s_state s) st' k id ->
  kept_store n s0 (MkStore st' (s_cites s) (s_paths s)).
Proof.
  intros n s0 s st' k id K M. destruct K as [A B C D E F]. destruct M as [G H I J L O]. split; cbn [s_state s_cites s_paths]; auto.
  - lia.
  - intros x X. rewrite (I x X). auto.
Qed.

Lemma cited_more : forall n s0 s st' k id l, kept_store n s0 s -> more n (s_state s) st' k id -> (forall b, k <> KText b) ->
  cited_alike n s0 s l -> cited_alike n s0 (MkStore st' (s_cites s) (s_paths s)) l.
Proof.
  intros n s0 s st' k id l K M NT CA t Ht T. cbn [s_state] in *. assert (LT : t < length (objs st')) by (apply text_exists; exact T).
  destruct (lt_dec t (length (objs (s_state s)))) as [X|X].
  - destruct (mo_old _ _ _ _ _ M t X) as [A B]. destruct (CA t Ht) as (x & H1 & H2 & H3 & H4); [destruct T as [b T]; exists b; congruence|].
    exists x. rewrite A, B. auto.
  - destruct (mo_new _ _ _ _ _ M t) as (_ & A & _); [lia|]. destruct T as [b T]. destruct (NT b). congruence.
Qed.

Lemma text_citation_of : forall s s' x y, citation_of s x = citation_of s' y -> text_citation s x = text_citation s' y.
Proof.
  intros s s' x y H. unfold citation_of in H. unfold text_citation.
  destruct (find (fun e => Nat.eqb (fst e) x) (s_cites s)) as [[a c]|], (find (fun e => Nat.eqb (fst e) y) (s_cites s')) as [[a' c']|]; cbn in H; congruence.
Qed.

Lemma citation_new : forall s x c y, citation_of (fst (set_citation x c s)) y = if Nat.eqb x y then Some c else citation_of s y.
Proof. intros s x c y. unfold citation_of, set_citation. cbn [fst s_cites find]. destruct (Nat.eqb x y); reflexivity. Qed.

(** One text more. *)
Lemma text_made : forall n s0 s l order k urn p lang t, kept_store n s0 s -> n <= p < length (objs (s_state s)) -> 
  let m := x <-- on_state (fun st => new_cts order st k urn (Some p) lang) ;; same_citation t x in
  kept_store n s0 (fst (m s)) /\ length (objs (s_state s)) <= length (objs (s_state (fst (m s)))) /\
  (snd (m s) = Ok tt -> In t l -> t < n -> k = c_kind (obj (s_state s0) t) -> urn = c_urn (obj (s_state s0) t) ->
   cited_alike n s0 s l -> cited_alike n s0 (fst (m s)) l).
Proof.
  intros n s0 s l order k urn p lang t K Hp m. unfold m, andthen, on_state.
  destruct (more_cts n (s_state s) order k urn p lang (ks_len _ _ _ K) (ks_graph _ _ _ K) (ks_kids _ _ _ K) Hp) as [M H].
  destruct (new_cts order (s_state s) k urn (Some p) lang) as [st1 [c|e]]; cbn [fst snd] in *.
  2:{ split; [eapply kept_more; eassumption|]. split; [exact (mo_len _ _ _ _ _ M)|discriminate]. }
  destruct (H c eq_refl) as (Ec & L & _). pose proof (kept_more _ _ _ _ _ _ K M) as K1. unfold same_citation. set (s1 := MkStore st1 (s_cites s) (s_paths s)) in *.
  split.
  - split; try apply K1. intros x X. rewrite citation_new. destruct (Nat.eqb_spec c x); [pose proof (ks_len _ _ _ K); lia|]. apply (ks_cites _ _ _ K1 x X).
  - split; [exact (mo_len _ _ _ _ _ M)|]. intros _ It Lt Ek Eu CA y Hy T. change (s_state (fst (set_citation c (text_citation s1 t) s1))) with st1 in *. rewrite citation_new.
    destruct (Nat.eqb_spec c y) as [<-|Y].
    + exists t. destruct (mo_new _ _ _ _ _ M c) as (_ & A & B); [lia|]. rewrite A, B, Ek, Eu. split; [exact It|]. split; [reflexivity|]. split; [reflexivity|].
      f_equal. apply text_citation_of. apply (ks_cites _ _ _ K1 t Lt).
    + assert (X : y < length (objs (s_state s))). { pose proof (text_exists _ _ T). lia. }
      destruct (mo_old _ _ _ _ _ M y X) as [A B]. destruct (CA y Hy) as (x & H1 & H2 & H3 & H4); [destruct T as [b T]; exists b; congruence|].
      exists x. rewrite A, B. auto.
Qed.


Definition goes_on (n : nat) (s0 s : store) (l : list nat) (t : nat) (o : store * result unit) : Prop :=
  kept_store n s0 (fst o) /\ length (objs (s_state s)) <= length (objs (s_state (fst o))) /\
  (snd o = Ok tt -> In t l -> t < n -> cited_alike n s0 s l -> cited_alike n s0 (fst o) l).

Lemma rebuild_text_kept : forall n s0 s l order inv t, kept_store n s0 s -> n <= inv < length (objs (s_state s)) ->
  goes_on n s0 s l t (rebuild_text order inv t s).
Proof.
  intros n s0 s l order inv t K Hi. unfold rebuild_text.
  destruct (w <- up (s_state s) t ;; _) as [[[tg wk] tx]|e] eqn:U.
  2:{ split; [exact K|]. split; [cbn; lia|discriminate]. }
  assert (Ux : tx = c_urn (obj (s_state s) t)).
  { destruct (up (s_state s) t) as [w|]; [|discriminate]. cbn [bind] in U. destruct (up (s_state s) w) as [g|]; [|discriminate]. cbn [bind] in U. injection U as _ _ <-. reflexivity. }
  clear U. unfold andthen at 1, on_state at 1.
  destruct (more_ensure n (s_state s) order KTextgroup inv tg (ks_len _ _ _ K) (ks_graph _ _ _ K) (ks_kids _ _ _ K) Hi) as [M1 H1].
  destruct (ensure order (s_state s) KTextgroup inv tg) as [st1 [g|e]]; cbn [fst snd] in *.
  2:{ split; [eapply kept_more; eassumption|]. split; [exact (mo_len _ _ _ _ _ M1)|discriminate]. }
  destruct (H1 g eq_refl) as [Hg _]. pose proof (kept_more _ _ _ _ _ _ K M1) as K1.
  assert (C1 : cited_alike n s0 s l -> cited_alike n s0 (MkStore st1 (s_cites s) (s_paths s)) l).
  { apply (cited_more _ _ _ _ _ _ _ K M1). discriminate. }
  assert (L1 : length (objs (s_state s)) <= length (objs (s_state (MkStore st1 (s_cites s) (s_paths s))))) by exact (mo_len _ _ _ _ _ M1).
  set (s1 := MkStore st1 (s_cites s) (s_paths s)) in *. change st1 with (s_state s1) in Hg. clearbody s1. clear M1 H1 st1.
  unfold andthen at 1, on_state at 1.
  destruct (more_ensure n (s_state s1) order KWork g wk (ks_len _ _ _ K1) (ks_graph _ _ _ K1) (ks_kids _ _ _ K1) Hg) as [M2 H2].
  destruct (ensure order (s_state s1) KWork g wk) as [st2 [w|e]]; cbn [fst snd] in *.
  2:{ split; [eapply kept_more; eassumption|]. split; [exact (Nat.le_trans _ _ _ L1 (mo_len _ _ _ _ _ M2))|discriminate]. }
  destruct (H2 w eq_refl) as [Hw _]. pose proof (kept_more _ _ _ _ _ _ K1 M2) as K2.
  assert (C2 : cited_alike n s0 s1 l -> cited_alike n s0 (MkStore st2 (s_cites s1) (s_paths s1)) l).
  { apply (cited_more _ _ _ _ _ _ _ K1 M2). discriminate. }
  assert (L2 : length (objs (s_state s)) <= length (objs (s_state (MkStore st2 (s_cites s1) (s_paths s1))))) by (pose proof (mo_len _ _ _ _ _ M2); cbn [s_state]; lia).
  set (s2 := MkStore st2 (s_cites s1) (s_paths s1)) in *. change st2 with (s_state s2) in Hw. clearbody s2. clear M2 H2 st2.
  assert (DONE : forall k lang, k = c_kind (obj (s_state s) t) ->
    goes_on n s0 s l t ((x <-- on_state (fun st => new_cts order st k tx (Some w) lang) ;; same_citation t x) s2)).
  { intros k lang Ek. destruct (text_made n s0 s2 l order k tx w lang t K2 Hw) as (A & B & C).
    split; [exact A|]. split; [exact (Nat.le_trans _ _ _ L2 B)|]. intros R It Lt CA. apply C; auto; rewrite <- (ks_old _ _ _ K t Lt); assumption. }
  assert (NONE : goes_on n s0 s l t (ret tt s2)).
  { split; [exact K2|]. split; [exact L2|]. intros _ _ _ CA. apply C2, C1. exact CA. }
  destruct (c_kind (obj (s_state s) t)) as [|[| | |]| | | |] eqn:Ek; try exact NONE.
  - apply (DONE (KText Edition) None eq_refl).
  - unfold andthen at 1, on_state at 1.
    assert (E2 : MkStore (s_state s2) (s_cites s2) (s_paths s2) = s2) by (destruct s2; reflexivity). rewrite E2.
    destruct (get_lang order (s_state s2) t) as [lg|e]; [apply (DONE (KText Translation) (Some lg) eq_refl)|]. cbn [fst snd]. split; [exact K2|]. split; [exact L2|discriminate].
  - unfold andthen at 1, on_state at 1.
    assert (E2 : MkStore (s_state s2) (s_cites s2) (s_paths s2) = s2) by (destruct s2; reflexivity). rewrite E2.
    destruct (get_lang order (s_state s2) t) as [lg|e]; [apply (DONE (KText Commentary) (Some lg) eq_refl)|]. cbn [fst snd]. split; [exact K2|]. split; [exact L2|discriminate].
Qed.

Lemma rebuild_texts_kept : forall order inv n s0 all l s, kept_store n s0 s -> n <= inv < length (objs (s_state s)) -> incl l all ->
  kept_store n s0 (fst (for_each l (rebuild_text order inv) s)) /\
  length (objs (s_state s)) <= length (objs (s_state (fst (for_each l (rebuild_text order inv) s)))) /\
  (snd (for_each l (rebuild_text order inv) s) = Ok tt -> (forall t, In t l -> t < n) ->
   cited_alike n s0 s all -> cited_alike n s0 (fst (for_each l (rebuild_text order inv) s)) all).
Proof.
  intros order inv n s0 all l. induction l as [|t l IH]; intros s K Hi IN; cbn [for_each].
  - split; [exact K|]. split; [cbn; lia|]. auto.
  - destruct (rebuild_text_kept n s0 s all order inv t K Hi) as (A & B & C). unfold andthen.
    destruct (rebuild_text order inv t s) as [s1 [[]|e]]; cbn [fst snd] in *.
    + destruct (IH s1 A ltac:(lia) (fun x X => IN x (or_intror X))) as (A1 & B1 & C1). split; [exact A1|]. split; [lia|].
      intros R H CA. apply C1; [exact R|intros x X; apply H; right; exact X|].
      apply C; [reflexivity|apply IN; left; reflexivity|apply H; left; reflexivity|exact CA].
    + split; [exact A|]. split; [lia|discriminate].
Qed.

(** Whatever is asked, of whatever resolver. *)
Definition store_known (s : store) : Prop :=
  (forall x c, In (x, c) (s_cites s) -> x < length (objs (s_state s))) /\
  (forall x p, In (x, p) (s_paths s) -> x < length (objs (s_state s))).

Lemma kept_refl : forall s, kept_store (length (objs (s_state s))) s s.
Proof.
  intros s. split; auto.
  - intros. lia.
  - intros p k c Hp I. rewrite obj_beyond in I by exact Hp. destruct I.
Qed.

Lemma metadata_kept : forall limit order root id s,
  kept_store (length (objs (s_state s))) s (fst (resolver_metadata limit order root id s)).
Proof.
  intros limit order root [key|] s; [|apply kept_refl]. unfold resolver_metadata. destruct (existsb _ _); [apply kept_refl|].
  unfold andthen at 1, resolver_texts. destruct (list_texts _ _ _ _ _ _ _) as [found|e]; [|apply kept_refl].
  unfold andthen at 1, on_state at 1. destruct (mapM _ _) as [names|e]; cbn [s_state s_cites s_paths].
  2:{ destruct s. apply kept_refl. }
  unfold andthen at 1, on_state at 1. cbn [s_state s_cites s_paths]. pose proof (kept_refl s) as K0.
  pose proof (more_new _ _ (ks_len _ _ _ K0) (ks_graph _ _ _ K0) (ks_kids _ _ _ K0) KInventory (inventory_name names) []) as M.
  assert (L : length (objs (fst (new_object (s_state s) KInventory (inventory_name names) []))) = S (length (objs (s_state s)))) by (cbn; rewrite app_length; cbn; lia).
  destruct (new_object (s_state s) KInventory (inventory_name names) []) as [st1 inv] eqn:N.
  assert (Ei : inv = length (objs (s_state s))) by (unfold new_object in N; injection N as _ <-; reflexivity). cbn [fst] in M, L.
  pose proof (kept_more _ _ _ _ _ _ K0 M) as K1. set (s1 := MkStore st1 (s_cites s) (s_paths s)) in *.
  destruct (rebuild_texts_kept order inv _ s (fst (fst found)) (fst (fst found)) s1 K1) as (A & _ & _); [cbn [s_state s1]; lia|apply incl_refl|].
  unfold andthen at 1. destruct (for_each (fst (fst found)) (rebuild_text order inv) s1) as [s2 [[]|e]]; cbn [fst] in *; [|exact A].
  unfold on_state. cbn [fst]. destruct s2. exact A.
Qed.

Lemma citation_beyond : forall s x, store_known s -> length (objs (s_state s)) <= x -> citation_of s x = None.
Proof.
  intros s x [H _] X. unfold citation_of. destruct (find _ (s_cites s)) as [[y c]|] eqn:F; [|reflexivity].
  apply find_some in F. destruct F as [I E]. apply Nat.eqb_eq in E. cbn in E. subst y. apply H in I. lia.
Qed.

Lemma has_citation_spec : forall s x, has_citation s x = true <-> text_citation s x <> [].
Proof. intros s x. unfold has_citation. destruct (text_citation s x); split; congruence. Qed.

Lemma filterM_incl : forall {A} (f : A -> result bool) d l, filterM f d = Ok l -> incl l d.
Proof.
  intros A f d. induction d as [|a d IH]; intros l H; cbn in H.
  - injection H as <-. apply incl_refl.
  - destruct (f a) as [b|]; [|discriminate]. cbn [bind] in H. destruct (filterM f d) as [l'|]; [|discriminate]. cbn [bind] in H.
    injection H as <-. specialize (IH l' eq_refl). destruct b; intros x X; [destruct X as [->|X]; [left; reflexivity|]|]; right; apply IH; exact X.
Qed.

Lemma found_texts : forall limit order st root cited q l, find_texts limit order st root cited q = Ok l ->
  forall x, In x l -> below st root x /\ text st x.
Proof.
  intros limit order st root cited q l FT x X. unfold find_texts in FT.
  destruct (match q_urn q with Some _ => _ | None => _ end) as [part|]; [|discriminate]. cbn [bind] in FT.
  destruct (readable_descendants limit st root) as [d|] eqn:RD; [|discriminate]. cbn [bind] in FT.
  pose proof (filterM_incl _ _ _ FT x X) as I. unfold readable_descendants in RD.
  destruct (descendants limit st root) as [d'|] eqn:D; [|discriminate]. injection RD as <-. apply filter_In in I. destruct I as [I R].
  split; [apply (descendants_below _ _ _ _ D); exact I|apply is_text_spec; exact R].
Qed.

(** The citations of an answer. *)
Lemma metadata_cited : forall limit order root key s s' c, resolver_metadata limit order root (Some key) s = (s', Ok c) ->
  ~ In key (keys (c_children (obj (s_state s) root))) ->
  forall t, length (objs (s_state s)) <= t -> text (s_state s') t ->
  exists x l, find_texts limit order (s_state s) root (has_citation s) (MkQuery (Some key) None None) = Ok l /\ In x l /\
    c_id (obj (s_state s') t) = c_urn (obj (s_state s) x) /\ c_kind (obj (s_state s') t) = c_kind (obj (s_state s) x) /\
    citation_of s' t = Some (text_citation s x).
Proof.
  intros limit order root key s s' c E NK t Ht T. unfold resolver_metadata in E.
  destruct (existsb _ _) eqn:EX; [apply existsb_str in EX; contradiction|].
  unfold andthen at 1, resolver_texts, list_texts in E.
  destruct (find_texts limit order (s_state s) root (has_citation s) (MkQuery (Some key) None None)) as [l|e] eqn:FT; [|discriminate]. cbn [bind fst] in E.
  unfold andthen at 1, on_state at 1 in E. destruct (mapM _ l) as [names|e] eqn:MN; [|discriminate]. cbn [s_state s_cites s_paths] in E.
  unfold andthen at 1, on_state at 1 in E. cbn [s_state s_cites s_paths] in E. pose proof (kept_refl s) as K0.
  pose proof (more_new _ _ (ks_len _ _ _ K0) (ks_graph _ _ _ K0) (ks_kids _ _ _ K0) KInventory (inventory_name names) []) as M.
  assert (L : length (objs (fst (new_object (s_state s) KInventory (inventory_name names) []))) = S (length (objs (s_state s)))) by (cbn; rewrite app_length; cbn; lia).
  destruct (new_object (s_state s) KInventory (inventory_name names) []) as [st1 inv] eqn:N.
  assert (Ei : inv = length (objs (s_state s))) by (unfold new_object in N; injection N as _ <-; reflexivity). cbn [fst] in M, L.
  pose proof (kept_more _ _ _ _ _ _ K0 M) as K1.
  assert (CA0 : cited_alike (length (objs (s_state s))) s s l).
  { intros y Y TY. apply text_exists in TY. lia. }
  assert (CA1 : cited_alike (length (objs (s_state s))) s (MkStore st1 (s_cites s) (s_paths s)) l) by (eapply cited_more; try eassumption; discriminate).
  set (s1 := MkStore st1 (s_cites s) (s_paths s)) in *.
  destruct (rebuild_texts_kept order inv _ s l l s1 K1) as (_ & _ & C); [cbn [s_state s1]; lia|apply incl_refl|].
  unfold andthen at 1 in E. destruct (for_each l (rebuild_text order inv) s1) as [s2 [[]|e]] eqn:FE; cbn [fst snd] in *; [|discriminate].
  unfold on_state in E. injection E as <- _. cbn [s_state] in *.
  destruct (C eq_refl) with (t := t) as (x & X); [|exact CA1|exact Ht|exact T|exists x, l; split; [reflexivity|exact X]].
  intros x X. apply text_exists. apply (found_texts _ _ _ _ _ _ _ FT x X).
Qed.
