(** Proofs about searching collections in depth. *)

From Coq Require Import List NArith ZArith Arith Bool Lia.
From Verif Require Import PyStr PyStrFacts Json HttpModel HttpSpec HttpProofs MetaProofs DtsModel DtsSpec DtsProofs DtsLazy UtilProofs CrawlModel CrawlSpec.
Import ListNotations.

(** ** Strings once each *)

Lemma filter_filter : forall {A} (f g : A -> bool) l, filter f (filter g l) = filter (fun x => g x && f x) l.
Proof.
  induction l as [|x l IH]; [reflexivity|]. cbn [filter]. destruct (g x); cbn [filter andb]; [|exact IH]. destruct (f x); rewrite IH; reflexivity.
Qed.

Definition not_in (l : list str) (y : str) : bool := negb (existsb (fun x => str_eqb x y) l).
Lemma not_in_spec : forall l y, not_in l y = true <-> ~ In y l.
Proof.
  intros l y. unfold not_in. rewrite negb_true_iff. split.
  - intros H X. assert (E : existsb (fun x => str_eqb x y) l = true) by (apply existsb_exists; exists y; split; [exact X|apply str_eqb_refl]). congruence.
  - intros H. destruct (existsb (fun x => str_eqb x y) l) eqn:E; [|reflexivity]. apply existsb_exists in E. destruct E as (x & H1 & H2).
    apply str_eqb_eq in H2. subst. contradiction.
Qed.

Lemma firsts_In : forall l x, In x (firsts l) <-> In x l.
Proof.
  induction l as [|y l IH]; intros x; [reflexivity|]. cbn [firsts In]. rewrite filter_In, IH. split.
  - intros [H|[H _]]; auto.
  - intros [H|H]; [auto|]. destruct (str_eqb y x) eqn:E; [left; apply str_eqb_eq; exact E|right; split; [exact H|reflexivity]].
Qed.

Lemma firsts_NoDup : forall l, NoDup (firsts l).
Proof.
  induction l as [|y l IH]; [constructor|]. cbn [firsts]. constructor; [|apply NoDup_filter; exact IH].
  intros H. apply filter_In in H. destruct H as [_ H]. rewrite str_eqb_refl in H. discriminate.
Qed.

Lemma firsts_app : forall a b, firsts (a ++ b) = firsts a ++ filter (not_in a) (firsts b).
Proof.
  induction a as [|x a IH]; intros b; cbn [app firsts].
  - rewrite (filter_ext _ (fun _ => true)) by reflexivity. induction (firsts b) as [|y l IHl]; [reflexivity|]. cbn. f_equal. exact IHl.
  - f_equal. rewrite IH, filter_app. f_equal. rewrite filter_filter. apply filter_ext. intros y. unfold not_in. cbn [existsb].
    rewrite negb_orb, andb_comm. reflexivity.
Qed.

Lemma add_keys : forall cs d, keys (add_members cs d) = keys d ++ filter (not_in (keys d)) (firsts (map co_id cs)).
Proof.
  induction cs as [|c cs IH]; intros d; cbn [add_members fold_left map firsts filter]; [rewrite app_nil_r; reflexivity|].
  change (fold_left _ cs (dset (co_id c) (member c) d)) with (add_members cs (dset (co_id c) (member c) d)). rewrite IH.
  destruct (dget (co_id c) d) as [y|] eqn:E.
  - assert (K : In (co_id c) (keys d)) by (apply dget_In in E; apply in_map_iff; exists (co_id c, y); split; [reflexivity|exact E]).
    assert (KK : keys (dset (co_id c) (member c) d) = keys d).
    { rewrite keys_dset. rewrite (proj2 (existsb_exists _ _)); [reflexivity|]. exists (co_id c). split; [exact K|apply str_eqb_refl]. }
    rewrite KK. assert (N : not_in (keys d) (co_id c) = false).
    { destruct (not_in (keys d) (co_id c)) eqn:X; [|reflexivity]. apply not_in_spec in X. contradiction. }
    rewrite N. f_equal. rewrite filter_filter. apply filter_ext_in. intros y' _. destruct (str_eqb (co_id c) y') eqn:Y; [|reflexivity].
    apply str_eqb_eq in Y. subst. rewrite N. reflexivity.
  - rewrite (dset_absent _ _ _ _ E). unfold keys. rewrite map_app. cbn [map fst]. fold (keys d).
    assert (N : not_in (keys d) (co_id c) = true) by (apply not_in_spec; apply dget_None; exact E). rewrite N, <- app_assoc. cbn [app]. f_equal. f_equal.
    rewrite filter_filter. apply filter_ext. intros y. unfold not_in. rewrite existsb_app. cbn [existsb]. rewrite orb_false_r, negb_orb, andb_comm. reflexivity.
Qed.

Lemma add_In : forall cs d k y, In (k, y) (add_members cs d) -> In (k, y) d \/ exists c, In c cs /\ k = co_id c /\ y = member c.
Proof.
  induction cs as [|c cs IH]; intros d k y H; [left; exact H|]. cbn [add_members fold_left] in H. apply IH in H. destruct H as [H|(c' & H1 & H2)].
  - clear IH. induction d as [|[k1 y1] d IHd]; cbn [dset] in H.
    + destruct H as [H|[]]. injection H as <- <-. right. exists c. cbn. auto.
    + destruct (str_eqb k1 (co_id c)) eqn:E.
      * destruct H as [H|H]; [|left; right; exact H]. injection H as <- <-. apply str_eqb_eq in E. right. exists c. cbn. auto.
      * destruct H as [H|H]; [left; left; exact H|]. destruct (IHd H) as [X|X]; [left; right; exact X|right; exact X].
  - right. exists c'. split; [right; exact H1|exact H2].
Qed.

Definition ids_of (l : list (list coll)) : list str := firsts (map co_id (concat l)).

Lemma ids_of_In : forall l k, In k (ids_of l) <-> exists c, is_member l k c.
Proof.
  intros l k. unfold ids_of. rewrite firsts_In, in_map_iff. split.
  - intros (c & E & H). apply in_concat in H. destruct H as (cs & H1 & H2). exists c. split; [exact E|]. exists cs. auto.
  - intros (c & E & cs & H1 & H2). exists c. split; [exact E|]. apply in_concat. exists cs. auto.
Qed.

Lemma filter_none : forall {A} (f : A -> bool) l, (forall x, In x l -> f x = false) -> filter f l = [].
Proof.
  induction l as [|x l IH]; intros H; [reflexivity|]. cbn [filter]. rewrite (H x (or_introl eq_refl)). apply IH. intros y Hy. apply H. right. exact Hy.
Qed.

Lemma known_already : forall l cs, In cs l -> filter (not_in (ids_of l)) (firsts (map co_id cs)) = [].
Proof.
  intros l cs H. apply filter_none. intros k Hk. destruct (not_in (ids_of l) k) eqn:E; [|reflexivity]. apply not_in_spec in E. elim E.
  apply (proj1 (firsts_In _ _)) in Hk. apply in_map_iff in Hk. destruct Hk as (c & E1 & Hc). apply ids_of_In. exists c. split; [exact E1|]. exists cs. auto.
Qed.

Lemma skipn_cons_firstn : forall {A} j (l : list A) x rest, skipn j l = x :: rest -> firstn (S j) l = firstn j l ++ [x] /\ skipn (S j) l = rest /\ j < length l /\ In x l.
Proof.
  induction j as [|j IH]; intros [|y l] x rest H; cbn in H; try discriminate.
  - injection H as -> ->. repeat split; [cbn; lia|left; reflexivity].
  - destruct (IH l x rest H) as (A1 & A2 & A3 & A4). cbn [firstn app length]. rewrite <- A2. split; [f_equal; exact A1|]. split; [reflexivity|]. split; [lia|right; exact A4].
Qed.

Lemma received_keys : forall l j n cs rest, skipn j l = cs :: rest -> j <= n ->
  ids_of (firstn n l) ++ filter (not_in (ids_of (firstn n l))) (firsts (map co_id cs)) = ids_of (firstn (Nat.max n (S j)) l).
Proof.
  intros l j n cs rest E Hn. destruct (skipn_cons_firstn j l cs rest E) as (A1 & A2 & A3 & A4).
  destruct (Nat.eq_dec n j) as [->|N].
  - replace (Nat.max j (S j)) with (S j) by lia. rewrite A1. unfold ids_of at 3. rewrite concat_app, map_app, firsts_app. cbn [concat]. rewrite app_nil_r.
    f_equal. apply filter_ext. intros y. apply Bool.eq_true_iff_eq. rewrite !not_in_spec. unfold ids_of. rewrite firsts_In. reflexivity.
  - replace (Nat.max n (S j)) with n by lia. rewrite known_already; [apply app_nil_r|].
    assert (X : In cs (firstn (S j) l)) by (rewrite A1; apply in_or_app; right; left; reflexivity).
    replace (S j) with (Nat.min (S j) n) in X by lia. rewrite <- firstn_firstn in X.
    rewrite <- (firstn_skipn (S j) (firstn n l)). apply in_or_app. left. exact X.
Qed.

Section Tree.
Variable server : list request -> request -> result (list json).
Variable r : route.
Variables pages limit : nat.
Variable cat : catalogue.
Variable known : str -> Prop.
Hypothesis Hr : NoDup (map fst (rt_query r)).
Hypothesis Hserve : forall i, known i -> (exists ans, steady server r i Children ans /\ cpages ans 1 (cat i)) /\ consistent (cat i) /\
  forall k m, is_member (cat i) k m -> sized cat m.
Hypothesis Hdown : forall i k m, known i -> is_member (cat i) k m -> known k.
Hypothesis Hpages : forall i, known i -> length (cat i) <= pages.

Definition fails : Prop := exists sent q, server sent q = Err HTTPError.

Inductive good : lz -> Prop :=
| good_intro : forall i m d p l n, known i ->
    (size_of m = 0%Z -> forall k c, ~ is_member (cat i) k c) ->
    keys d = ids_of (firstn n (cat i)) ->
    (forall k y, In (k, y) d -> (exists c, is_member (cat i) k c /\ lz_id y = k /\ lz_meta y = co_meta c) /\ good y) ->
    (p = true -> keys d = ids_of (cat i)) ->
    (forall q, l = Some q -> (0 < q)%Z /\ exists ans j, steady server r i Children ans /\ cpages ans q (skipn j (cat i)) /\ j <= n) ->
    good (Lz i m d p l).

Lemma member_good : forall i k c, known i -> is_member (cat i) k c -> good (member c).
Proof using Hdown Hserve.
  intros i k c Hi Hc. pose proof Hc as (E & _). unfold member. apply good_intro with (n := 0).
  - rewrite E. apply (Hdown i k c); assumption.
  - destruct (Hserve i Hi) as (_ & _ & S0). destruct (S0 k c Hc) as (z & Ez & H). unfold size_of. rewrite Ez. exact H.
  - reflexivity.
  - intros k' y [].
  - discriminate.
  - discriminate.
Qed.

Lemma kids_added : forall i d cs, known i -> In cs (cat i) ->
  (forall k y, In (k, y) d -> (exists c, is_member (cat i) k c /\ lz_id y = k /\ lz_meta y = co_meta c) /\ good y) ->
  forall k y, In (k, y) (add_members cs d) -> (exists c, is_member (cat i) k c /\ lz_id y = k /\ lz_meta y = co_meta c) /\ good y.
Proof using Hdown Hserve.
  intros i d cs Hi Hcs Hd k y H. apply add_In in H. destruct H as [H|(c & Hc & -> & ->)]; [apply Hd; exact H|].
  assert (M : is_member (cat i) (co_id c) c) by (split; [reflexivity|]; exists cs; auto).
  split; [exists c; split; [exact M|split; reflexivity]|]. apply (member_good i (co_id c) c Hi M).
Qed.

Lemma fetch_right : forall ans q l, cpages ans q l -> forall fuel sent i m d p la n j,
  l = skipn j (cat i) -> steady server r i Children ans -> j <= n -> length l <= fuel -> known i ->
  (size_of m = 0%Z -> forall k c, ~ is_member (cat i) k c) ->
  keys d = ids_of (firstn n (cat i)) ->
  (forall k y, In (k, y) d -> (exists c, is_member (cat i) k c /\ lz_id y = k /\ lz_meta y = co_meta c) /\ good y) ->
  (p = true -> keys d = ids_of (cat i)) ->
  (forall q, la = Some q -> (0 < q)%Z /\ exists ans j, steady server r i Children ans /\ cpages ans q (skipn j (cat i)) /\ j <= n) ->
  exists sent' x' res, fetch_from server r fuel sent (Lz i m d p la) q = (sent', x', res) /\
    good x' /\ lz_id x' = i /\ lz_meta x' = m /\
    (res = Err HTTPError /\ fails \/ res = Ok tt /\ keys (lz_kids x') = ids_of (cat i) /\ lz_parsed x' = true).
Proof using Hr Hdown Hserve.
  intros ans q l H. induction H as [q fs rest cs Hq Ha Hm Hn|q fs rest cs u n0 z l Hq Ha Hm Hn Hu Hd Hl IH];
    intros fuel sent i m d p la n j El Hst Hj Hf Hi Hz Hk Hd0 Hp Hla; (destruct fuel as [|fuel]; [cbn in Hf; lia|]);
    cbn [fetch_from lz_id]; rewrite (proj2 (Z.eqb_neq q 0)) by lia;
    pose proof (steady_page server r i Children ans sent q Hr Hst Hq) as S0; cbv zeta in S0; cbn [direction_name] in S0;
    symmetry in El; destruct (skipn_cons_firstn _ _ _ _ El) as (A1 & A2 & A3 & A4).
  - destruct S0 as [E|E]; rewrite E.
    2:{ eexists; eexists; eexists. split; [reflexivity|]. split; [exact (good_intro i m d p la n Hi Hz Hk Hd0 Hp Hla)|]. split; [reflexivity|]. split; [reflexivity|].
        left. split; [reflexivity|]. eexists; eexists; exact E. }
    rewrite Ha. rewrite (says_members_parse _ _ Hm). cbn [bind]. destruct (view_known fs) as (v & Ev). rewrite Ev. cbn [bind].
    rewrite (next_address_number _ _ Hn).
    assert (K : keys (add_members cs d) = ids_of (cat i)).
    { rewrite add_keys, Hk, (received_keys _ _ _ _ _ El Hj). f_equal. apply firstn_all2. 
      assert (L1 : length (skipn (S j) (cat i)) = 0) by (rewrite A2; reflexivity). rewrite skipn_length in L1. lia. }
    eexists; eexists; eexists. split; [reflexivity|]. cbn [page_received shut lz_id lz_meta lz_kids lz_parsed]. split; [|split; [reflexivity|split; [reflexivity|]]].
    + apply good_intro with (n := Nat.max n (S j)); auto.
      * rewrite add_keys, Hk. apply (received_keys _ _ _ _ _ El Hj).
      * apply kids_added; assumption.
      * intros q' X. injection X as <-. split; [exact Hq|]. exists ans, j. split; [exact Hst|]. split; [rewrite El; eapply cpages_last; eassumption|lia].
    + right. split; [reflexivity|]. split; [exact K|reflexivity].
  - destruct S0 as [E|E]; rewrite E.
    2:{ eexists; eexists; eexists. split; [reflexivity|]. split; [exact (good_intro i m d p la n Hi Hz Hk Hd0 Hp Hla)|]. split; [reflexivity|]. split; [reflexivity|].
        left. split; [reflexivity|]. eexists; eexists; exact E. }
    rewrite Ha. rewrite (says_members_parse _ _ Hm). cbn [bind]. rewrite (next_has_view _ _ Hn). cbn [bind].
    rewrite (next_address_number _ _ Hn), (first_page_number_some _ _ Hu). cbn [bind]. rewrite (decimal_number _ _ Hd). cbn [page_received].
    apply (IH fuel _ i m _ _ _ (Nat.max n (S j)) (S j)); auto.
    + lia.
    + cbn in Hf. lia.
    + rewrite add_keys, Hk. apply (received_keys _ _ _ _ _ El Hj).
    + apply kids_added; assumption.
    + intros X. apply orb_true_iff in X. destruct X as [X|X].
      * rewrite add_keys, (Hp X), known_already by exact A4. apply app_nil_r.
      * exfalso. unfold closes in X. destruct cs as [|c cs]; [discriminate|]. cbn in X. apply Z.eqb_eq in X.
        apply (Hz X (co_id c) c). split; [reflexivity|]. exists (c :: cs). split; [exact A4|left; reflexivity].
    + intros q' X. injection X as <-. split; [exact Hq|]. exists ans, j. split; [exact Hst|]. split; [rewrite El; eapply cpages_more; eassumption|lia].
Qed.

(** What has been done to an object that the catalogue knows. *)
Definition same_object (x x' : lz) : Prop := good x' /\ lz_id x' = lz_id x /\ lz_meta x' = lz_meta x.

Lemma same_refl : forall x, good x -> same_object x x.
Proof using. intros x H. split; [exact H|split; reflexivity]. Qed.
Lemma same_trans : forall x y z, same_object x y -> same_object y z -> same_object x z.
Proof using. intros x y z (A1 & A2 & A3) (B1 & B2 & B3). split; [exact B1|]. split; congruence. Qed.

Lemma fetch_object : forall sent x, good x ->
  exists sent' x' res, fetch server r pages sent x = (sent', x', res) /\ same_object x x' /\
    (res = Err HTTPError /\ fails \/ res = Ok tt /\ keys (lz_kids x') = ids_of (cat (lz_id x)) /\ lz_parsed x' = true).
Proof using Hr Hdown Hserve Hpages.
  intros sent x G. destruct G as [i m d p l n Hi Hz Hk Hd Hp Hl]. unfold fetch. cbn [lz_last lz_id].
  assert (X : exists ans q j, (match l with None => 1%Z | Some p => if (p =? 0)%Z then 1%Z else p end) = q /\
      steady server r i Children ans /\ cpages ans q (skipn j (cat i)) /\ j <= n).
  { destruct l as [q|].
    - destruct (Hl q eq_refl) as (Q & ans & j & S1 & S2 & S3). exists ans, q, j. rewrite (proj2 (Z.eqb_neq q 0)) by lia. auto.
    - destruct (Hserve i Hi) as ((ans & S1 & S2) & _). exists ans, 1%Z, 0. cbn [skipn]. split; [reflexivity|]. split; [exact S1|]. split; [exact S2|lia]. }
  destruct X as (ans & q & j & -> & S1 & S2 & S3).
  destruct (fetch_right ans q _ S2 pages sent i m d p l n j eq_refl S1 S3) as (sent' & x' & res & E & G & I1 & I2 & R); auto.
  - rewrite skipn_length. pose proof (Hpages i Hi). lia.
  - exists sent', x', res. split; [exact E|]. split; [split; [exact G|split; assumption]|exact R].
Qed.

Lemma shut_good : forall x, good x -> (size_of (lz_meta x) =? 0)%Z = true ->
  same_object x (shut x) /\ lz_kids (shut x) = lz_kids x /\ keys (lz_kids x) = ids_of (cat (lz_id x)) /\ lz_parsed (shut x) = true.
Proof using.
  intros x G E. destruct G as [i m d p l n Hi Hz Hk Hd Hp Hl]. cbn [lz_meta lz_kids lz_id shut lz_parsed] in *. apply Z.eqb_eq in E. specialize (Hz E).
  assert (N : ids_of (cat i) = []).
  { destruct (ids_of (cat i)) as [|k t] eqn:X; [reflexivity|]. assert (Y : In k (ids_of (cat i))) by (rewrite X; left; reflexivity).
    apply ids_of_In in Y. destruct Y as (c & Y). elim (Hz k c Y). }
  assert (K : keys d = ids_of (cat i)).
  { rewrite N. rewrite Hk. destruct (ids_of (firstn n (cat i))) as [|k t] eqn:X; [reflexivity|].
    assert (Y : In k (ids_of (firstn n (cat i)))) by (rewrite X; left; reflexivity). apply ids_of_In in Y. destruct Y as (c & Y1 & cs & Y2 & Y3).
    elim (Hz k c). split; [exact Y1|]. exists cs. split; [|exact Y3]. rewrite <- (firstn_skipn n (cat i)). apply in_or_app. left. exact Y2. }
  split; [|auto]. split; [|split; reflexivity]. apply good_intro with (n := n); auto.
Qed.

Lemma open_object : forall sent x, good x ->
  exists sent' x' res, open server r pages sent x = (sent', x', res) /\ same_object x x' /\
    (res = Err HTTPError /\ fails \/ res = Ok tt /\ keys (lz_kids x') = ids_of (cat (lz_id x)) /\ lz_parsed x' = true).
Proof using Hr Hdown Hserve Hpages.
  intros sent x G. unfold open. destruct (lz_parsed x) eqn:P.
  - exists sent, x, (Ok tt). split; [reflexivity|]. split; [apply same_refl; exact G|]. right. split; [reflexivity|]. split; [|exact P].
    destruct G as [i m d p l n Hi Hz Hk Hd Hp Hl]. cbn in *. apply Hp. exact P.
  - destruct (size_of (lz_meta x) =? 0)%Z eqn:Z0; cbn [negb]; [|apply fetch_object; exact G].
    destruct (shut_good x G Z0) as (A & B & C & D). exists sent, (shut x), (Ok tt). split; [reflexivity|]. split; [exact A|]. right. rewrite B. auto.
Qed.

Lemma open_for_object : forall k sent x, good x ->
  exists sent' x' res, open_for server r pages k sent x = (sent', x', res) /\ same_object x x' /\
    (res = Err HTTPError /\ fails \/ res = Ok tt /\ (keys (lz_kids x') = ids_of (cat (lz_id x)) \/ exists y, dget k (lz_kids x') = Some y)).
Proof using Hr Hdown Hserve Hpages.
  intros k sent x G. unfold open_for. destruct (lz_parsed x) eqn:P.
  - exists sent, x, (Ok tt). split; [reflexivity|]. split; [apply same_refl; exact G|]. right. split; [reflexivity|]. left.
    destruct G as [i m d p l n Hi Hz Hk Hd Hp Hl]. cbn in *. apply Hp. exact P.
  - destruct (size_of (lz_meta x) =? 0)%Z eqn:Z0; cbn [negb].
    + destruct (shut_good x G Z0) as (A & B & C & D). exists sent, (shut x), (Ok tt). split; [reflexivity|]. split; [exact A|]. right. rewrite B. auto.
    + destruct (dget k (lz_kids x)) as [y|] eqn:K.
      * exists sent, x, (Ok tt). split; [reflexivity|]. split; [apply same_refl; exact G|]. right. split; [reflexivity|]. right. exists y. exact K.
      * destruct (fetch_object sent x G) as (sent' & x' & res & E & S0 & R). exists sent', x', res. split; [exact E|]. split; [exact S0|].
        destruct R as [R|(R1 & R2 & R3)]; [left; exact R|right; split; [exact R1|left; exact R2]].
Qed.

(** ** Going down *)

Inductive loaded : lz -> Prop :=
| loaded_intro : forall i m d l, (forall k y, In (k, y) d -> loaded y) -> loaded (Lz i m d true l).

Definition each (f : act (list path)) := fix each (sent : list request) (l : list (str * lz)) : list request * list (str * lz) * result (list path) :=
  match l with
  | [] => (sent, [], Ok [])
  | (k, y) :: l' =>
      let '(sent, y, r) := f sent y in
      match r with
      | Err e => (sent, (k, y) :: l', Err e)
      | Ok ps =>
          let '(sent, l', r) := each sent l' in
          (sent, (k, y) :: l', qs <- r ;; Ok (map (cons k) ps ++ qs))
      end
  end.

Lemma each_cons : forall f sent k y l', each f sent ((k, y) :: l') =
  let '(sent, y, r) := f sent y in
  match r with
  | Err e => (sent, (k, y) :: l', Err e)
  | Ok ps => let '(sent, l', r) := each f sent l' in (sent, (k, y) :: l', qs <- r ;; Ok (map (cons k) ps ++ qs))
  end.
Proof using. reflexivity. Qed.

Lemma descend_S : forall n sent x, descend server r pages (S n) sent x =
  let '(sent, x, res) := open server r pages sent x in
  match res with
  | Err e => (sent, x, Err e)
  | Ok _ =>
      let '(sent, d, res) := each (descend server r pages n) sent (lz_kids x) in
      let '(Lz i m own p l) := x in
      (sent, Lz i m d p l, qs <- res ;; Ok (map (fun kx => [fst kx]) own ++ qs))
  end.
Proof using. reflexivity. Qed.

Definition right_down (n : nat) (i : str) (x' : lz) (res : result (list path)) : Prop :=
  res = Err HTTPError /\ fails \/
  within cat n i /\ res = Ok (below cat n i) /\ loaded x' \/
  deep cat n i /\ res = Err RecursionError.

Lemma way_inv : forall i k p, way cat i (k :: p) -> (exists m, is_member (cat i) k m) /\ way cat k p.
Proof using. intros i k p H. inversion H; subst. split; [exists m; assumption|assumption]. Qed.

Lemma within_S : forall n i, (forall k, In k (listed_in cat i) -> within cat n k) -> within cat (S n) i.
Proof using.
  intros n i H [|k p] W; cbn [length]; [lia|]. apply way_inv in W. destruct W as (M & W).
  assert (X : length p < n) by (apply (H k); [apply ids_of_In; exact M|exact W]). lia.
Qed.

Lemma deep_S : forall n i k, In k (listed_in cat i) -> deep cat n k -> deep cat (S n) i.
Proof using.
  intros n i k H (p & W & L). apply (ids_of_In (cat i)) in H. destruct H as (c & M). exists (k :: p). split; [apply way_down with (m := c); assumption|]. cbn. lia.
Qed.

Lemma each_right : forall n, (forall sent x, good x -> exists sent' x' res, descend server r pages n sent x = (sent', x', res) /\ same_object x x' /\ right_down n (lz_id x) x' res) ->
  forall l sent, (forall k y, In (k, y) l -> lz_id y = k /\ good y) ->
  exists sent' l' res, each (descend server r pages n) sent l = (sent', l', res) /\
    Forall2 (fun a b => fst a = fst b /\ same_object (snd a) (snd b)) l l' /\
    (res = Err HTTPError /\ fails \/
     (forall k, In k (keys l) -> within cat n k) /\ res = Ok (flat_map (fun k => map (cons k) (below cat n k)) (keys l)) /\
       (forall k y, In (k, y) l' -> loaded y) \/
     (exists k, In k (keys l) /\ deep cat n k) /\ res = Err RecursionError).
Proof using.
  intros n IH. induction l as [|[k y] l IHl]; intros sent H.
  - exists sent, [], (Ok []). split; [reflexivity|]. split; [constructor|]. right. left. split; [intros k []|]. split; [reflexivity|]. intros k y [].
  - destruct (H k y (or_introl eq_refl)) as (Ik & Gy). destruct (IH sent y Gy) as (s1 & y' & res & E & S1 & R). rewrite each_cons, E.
    assert (Rest : Forall2 (fun a b : str * lz => fst a = fst b /\ same_object (snd a) (snd b)) l l).
    { assert (X : forall a, In a l -> good (snd a)) by (intros [k0 y0] X; apply (H k0 y0); right; exact X). clear -X.
      induction l as [|a l IH]; constructor; [split; [reflexivity|apply same_refl, X; left; reflexivity]|apply IH; intros b Hb; apply X; right; exact Hb]. }
    rewrite Ik in R. destruct R as [(-> & F)|[(W & -> & L)|(D & ->)]].
    + eexists; eexists; eexists. split; [reflexivity|]. split; [constructor; [split; [reflexivity|exact S1]|exact Rest]|]. left. auto.
    + destruct (IHl s1 (fun k0 y0 X => H k0 y0 (or_intror X))) as (s2 & l' & res & E2 & S2 & R2). rewrite E2.
      eexists; eexists; eexists. split; [reflexivity|]. split; [constructor; [split; [reflexivity|exact S1]|exact S2]|].
      destruct R2 as [(-> & F)|[(W2 & -> & L2)|((k2 & K2 & D2) & ->)]]; cbn [bind].
      * left. auto.
      * right. left. split; [|split; [reflexivity|]].
        -- intros k0 [<-|X]; [exact W|apply W2; exact X].
        -- intros k0 y0 [X|X]; [injection X as _ <-; exact L|apply (L2 k0); exact X].
      * right. right. split; [|reflexivity]. exists k2. split; [right; exact K2|exact D2].
    + eexists; eexists; eexists. split; [reflexivity|]. split; [constructor; [split; [reflexivity|exact S1]|exact Rest]|]. right. right.
      split; [|reflexivity]. exists k. split; [left; reflexivity|exact D].
Qed.

Lemma each_keys : forall l l' : list (str * lz), Forall2 (fun a b => fst a = fst b /\ same_object (snd a) (snd b)) l l' -> keys l' = keys l.
Proof using. intros l l' F. induction F as [|a b l l' (H & _) F IH]; [reflexivity|]. unfold keys in *. cbn [map]. rewrite IH, H. reflexivity. Qed.

Lemma each_In : forall (l l' : list (str * lz)) k y', Forall2 (fun a b => fst a = fst b /\ same_object (snd a) (snd b)) l l' -> In (k, y') l' ->
  exists y, In (k, y) l /\ same_object y y'.
Proof using.
  intros l l' k y' F. induction F as [|[a1 a2] [b1 b2] l l' (H & S0) F IH]; intros X; [destruct X|]. cbn [fst snd] in *. destruct X as [X|X].
  - injection X as -> ->. exists a2. split; [left; f_equal; exact H|exact S0].
  - destruct (IH X) as (y & Y1 & Y2). exists y. split; [right; exact Y1|exact Y2].
Qed.

Lemma kids_good : forall x k y, good x -> In (k, y) (lz_kids x) ->
  (exists c, is_member (cat (lz_id x)) k c /\ lz_id y = k /\ lz_meta y = co_meta c) /\ good y.
Proof using. intros x k y G H. destruct G as [i m d p l n Hi Hz Hk Hd Hp Hl]. apply Hd. exact H. Qed.

Lemma with_kids : forall i m d p l d', good (Lz i m d p l) -> Forall2 (fun a b => fst a = fst b /\ same_object (snd a) (snd b)) d d' ->
  same_object (Lz i m d p l) (Lz i m d' p l).
Proof using.
  intros i m d p l d' G F. split; [|split; reflexivity]. pose proof (fun k y => kids_good _ k y G) as KG. inversion G; subst. apply good_intro with (n := n); auto.
  - rewrite (each_keys _ _ F). assumption.
  - intros k y' X. destruct (each_In _ _ _ _ F X) as (y & Y1 & S1 & S2 & S3). destruct (KG k y Y1) as ((c & C1 & C2 & C3) & _).
    split; [|exact S1]. exists c. split; [exact C1|]. split; congruence.
  - rewrite (each_keys _ _ F). assumption.
Qed.

Lemma descend_right : forall n sent x, good x ->
  exists sent' x' res, descend server r pages n sent x = (sent', x', res) /\ same_object x x' /\ right_down n (lz_id x) x' res.
Proof using Hr Hdown Hserve Hpages.
  induction n as [|n IH]; intros sent x G.
  - exists sent, x, (Err RecursionError). split; [reflexivity|]. split; [apply same_refl; exact G|]. right. right. split; [|reflexivity]. exists []. split; [constructor|reflexivity].
  - rewrite descend_S. destruct (open_object sent x G) as (s1 & x1 & res & E & S1 & R). rewrite E. destruct R as [(-> & F)|(-> & K & P)].
    + exists s1, x1, (Err HTTPError). split; [reflexivity|]. split; [exact S1|]. left. auto.
    + pose proof S1 as (G1 & I1 & M1). destruct (each_right n IH (lz_kids x1) s1) as (s2 & d & res & E2 & F2 & R2).
      { intros k y X. destruct (kids_good x1 k y G1 X) as ((c & _ & C & _) & Y). auto. }
      rewrite E2. rewrite K in R2. destruct x1 as [i m own p l]. cbn [lz_kids lz_id lz_meta lz_parsed] in *.
      eexists; eexists; eexists. split; [reflexivity|]. split; [eapply same_trans; [exact S1|]; apply with_kids; assumption|].
      destruct R2 as [(-> & F)|[(W & -> & L)|((k & K2 & D) & ->)]]; cbn [bind].
      * left. auto.
      * right. left. split; [|split].
        -- apply within_S. exact W.
        -- cbn [below]. replace (map (fun kx : str * lz => [fst kx]) own) with (map (fun k => [k]) (keys own)) by (unfold keys; rewrite map_map; reflexivity).
           rewrite K. reflexivity.
        -- rewrite P. constructor. exact L.
      * right. right. split; [apply (deep_S n _ k); assumption|reflexivity].
Qed.

(** ** The objects found *)

Lemma last_cons : forall {A} (p : list A) (k d : A), last (k :: p) d = last p k.
Proof using.
  induction p as [|x p IH]; intros k d; [reflexivity|]. change (last (x :: p) d = last (x :: p) k). rewrite (IH x d), (IH x k). reflexivity.
Qed.

Lemma target_cons : forall i k p, target i (k :: p) = target k p.
Proof using. intros i k p. apply last_cons. Qed.

Lemma at_way : forall p x, loaded x -> good x -> way cat (lz_id x) p ->
  exists y, object_at x p = Some y /\ lz_id y = target (lz_id x) p /\ forall c, leads_to cat (lz_id x) p c -> lz_meta y = co_meta c.
Proof using Hserve.
  induction p as [|k p IH]; intros x L G W.
  - exists x. split; [reflexivity|]. split; [reflexivity|]. intros c X. inversion X.
  - apply way_inv in W. destruct W as (M & W). destruct L as [i m d l Ld]. cbn [object_at lz_kids lz_id] in *.
    pose proof (fun k y => kids_good _ k y G) as KG. cbn [lz_kids lz_id] in KG. inversion G as [? ? ? ? ? n Hi Hz Hk Hd Hp Hl]; subst.
    assert (K : In k (keys d)) by (rewrite (Hp eq_refl); apply ids_of_In; exact M).
    destruct (dget k d) as [y|] eqn:E; [|apply dget_None in E; contradiction]. apply dget_In in E.
    destruct (KG k y E) as ((c' & C1 & C2 & C3) & Gy). pose proof (Ld k y E) as Ly. rewrite <- C2 in W.
    destruct (IH y Ly Gy W) as (z & Z1 & Z2 & Z3). exists z. split; [exact Z1|]. rewrite target_cons. rewrite C2 in Z2, Z3. split; [exact Z2|].
    intros c X. inversion X; subst.
    + cbn [object_at] in Z1. injection Z1 as <-. rewrite C3. f_equal. destruct (Hserve i Hi) as (_ & Hc & _). apply (Hc (lz_id y)); assumption.
    + apply Z3. assumption.
Qed.

Lemma below_In : forall n i p, In p (below cat n i) <-> p <> [] /\ way cat i p /\ length p <= n.
Proof using.
  induction n as [|n IH]; intros i p; cbn [below].
  - split; [intros []|]. intros (N & _ & L). destruct p; [elim N; reflexivity|cbn in L; lia].
  - rewrite in_app_iff, in_map_iff, in_flat_map. split.
    + intros [(k & <- & K)|(k & K & H)].
      * apply (ids_of_In (cat i)) in K. destruct K as (c & K). split; [discriminate|]. split; [apply way_down with (m := c); [exact K|constructor]|cbn; lia].
      * apply in_map_iff in H. destruct H as (q & <- & H). apply IH in H. destruct H as (N & W & L). apply (ids_of_In (cat i)) in K. destruct K as (c & K).
        split; [discriminate|]. split; [apply way_down with (m := c); assumption|cbn; lia].
    + intros (N & W & L). destruct p as [|k p]; [elim N; reflexivity|]. apply way_inv in W. destruct W as (M & W).
      assert (K : In k (listed_in cat i)) by (apply ids_of_In; exact M). destruct p as [|k2 p].
      * left. exists k. auto.
      * right. exists k. split; [exact K|]. apply in_map. apply IH. split; [discriminate|]. split; [exact W|cbn in L |- *; lia].
Qed.

Lemma find_first : forall (f : path -> bool) l,
  match find f l with
  | Some p => exists a b, l = a ++ p :: b /\ f p = true /\ forall p', In p' a -> f p' = false
  | None => forall p, In p l -> f p = false
  end.
Proof using.
  induction l as [|x l IH]; cbn [find]; [intros p []|]. destruct (f x) eqn:E.
  - exists [], l. split; [reflexivity|]. split; [exact E|]. intros p' [].
  - destruct (find f l) as [p|].
    + destruct IH as (a & b & -> & H1 & H2). exists (x :: a), b. split; [reflexivity|]. split; [exact H1|]. intros p' [<-|X]; auto.
    + intros p [<-|X]; auto.
Qed.

Lemma id_found : forall x p, loaded x -> good x -> way cat (lz_id x) p -> id_at x p = target (lz_id x) p.
Proof using Hserve. intros x p L G W. destruct (at_way p x L G W) as (y & E & I0 & _). unfold id_at. rewrite E. exact I0. Qed.

Lemma readable_found : forall x p c, loaded x -> good x -> leads_to cat (lz_id x) p c -> (readable_at x p = true <-> resource c).
Proof using Hserve.
  intros x p c L G H. assert (W : way cat (lz_id x) p).
  { clear L G. revert H. generalize (lz_id x). intros i H. induction H; [apply way_down with (m := c); [assumption|constructor]|apply way_down with (m := m); assumption]. }
  destruct (at_way p x L G W) as (y & E & _ & M). unfold readable_at. rewrite E. unfold readable. rewrite (M c H). unfold resource.
  generalize (cm_types (co_meta c)). intros l. split.
  - destruct (rev l) as [|t l'] eqn:R.
    + assert (l = []) as -> by (rewrite <- (rev_involutive l), R; reflexivity). discriminate.
    + assert (Hl : l = rev l' ++ [t]) by (rewrite <- (rev_involutive l), R; reflexivity). rewrite Hl, last_last. destruct t; try discriminate. intros X. apply str_eqb_eq in X. subst s.
      exists (rev l'). reflexivity.
  - intros (l' & ->). rewrite last_last. apply str_eqb_refl.
Qed.

Lemma members_right : forall sent x, good x ->
  exists sent' x' res, members_of server r pages sent x = (sent', x', res) /\ same_object x x' /\
    (res = Err HTTPError /\ fails \/ res = Ok (map (fun k => [k]) (listed_in cat (lz_id x))) /\ keys (lz_kids x') = listed_in cat (lz_id x)).
Proof using Hr Hdown Hserve Hpages.
  intros sent x G. unfold members_of. destruct (open_object sent x G) as (s1 & x1 & res & E & S1 & R). rewrite E.
  eexists; eexists; eexists. split; [reflexivity|]. split; [exact S1|]. destruct R as [(-> & F)|(-> & K & P)]; [left; auto|]. right. cbn [bind]. split; [|exact K].
  f_equal. unfold listed_in. fold (ids_of (cat (lz_id x))). rewrite <- K. unfold keys. rewrite map_map. reflexivity.
Qed.

Lemma ask_right : forall q sent x, good x ->
  exists sent' x' res, ask server r pages limit q sent x = (sent', x', res) /\ same_object x x' /\
    (res = Err HTTPError /\ fails \/ right_of cat limit (lz_id x) q res).
Proof using Hr Hdown Hserve Hpages.
  intros q sent x G. destruct (descend_right limit sent x G) as (s1 & x1 & res & E & S1 & R). pose proof S1 as (G1 & I1 & M1).
  destruct q as [| | |k|k|k| |]; cbn [ask]; unfold map_act.
  - destruct (members_right sent x G) as (s2 & x2 & res2 & E2 & S2 & R2). rewrite E2. eexists; eexists; eexists. split; [reflexivity|]. split; [exact S2|].
    destruct R2 as [(-> & F)|(-> & _)]; [left; auto|right; reflexivity].
  - rewrite E. eexists; eexists; eexists. split; [reflexivity|]. split; [exact S1|]. destruct R as [(-> & F)|[(W & -> & L)|(D & ->)]]; [left; auto| |]; right; [left|right]; auto.
  - unfold readable_descendants. rewrite E. eexists; eexists; eexists. split; [reflexivity|]. split; [exact S1|].
    destruct R as [(-> & F)|[(W & -> & L)|(D & ->)]]; [left; auto| |]; right; [left|right; auto]. split; [exact W|]. exists (readable_at x1). split; [reflexivity|].
    intros p c H. apply readable_found; [exact L|exact G1|]. rewrite I1. exact H.
  - unfold contains. rewrite E. eexists; eexists; eexists. split; [reflexivity|]. split; [exact S1|].
    destruct R as [(-> & F)|[(W & -> & L)|(D & ->)]]; [left; auto| |]; right; [left|right; auto]. split; [exact W|]. eexists. split; [reflexivity|].
    rewrite existsb_exists. split.
    + intros (p & P & X). apply str_eqb_eq in X. assert (Wp : way cat (lz_id x) p).
      { apply in_app_or in P. destruct P as [P|[<-|[]]]; [apply (proj1 (below_In _ _ _)) in P; apply P|constructor]. }
      exists p. split; [exact Wp|]. rewrite <- X, <- I1. symmetry. apply id_found; [exact L|exact G1|]. rewrite I1. exact Wp.
    + intros (p & Wp & X). exists p. split.
      * apply in_or_app. destruct p as [|a p]; [right; left; reflexivity|left]. apply below_In. split; [discriminate|]. split; [exact Wp|]. specialize (W _ Wp). lia.
      * rewrite id_found by (try assumption; rewrite I1; exact Wp). rewrite I1, X. apply str_eqb_refl.
  - unfold getitem. destruct (str_eqb k (lz_id x)) eqn:K0.
    + apply str_eqb_eq in K0. eexists; eexists; eexists. split; [reflexivity|]. split; [apply same_refl; exact G|]. right. left. auto.
    + assert (Kn : k <> lz_id x) by (intros X; rewrite X, str_eqb_refl in K0; discriminate).
      destruct (members_right sent x G) as (s2 & x2 & res2 & E2 & S2 & R2). rewrite E2. pose proof S2 as (G2 & I2 & M2). destruct R2 as [(-> & F)|(-> & K2)].
      { eexists; eexists; eexists. split; [reflexivity|]. split; [exact S2|]. left; auto. }
      assert (Id : forall k', In k' (listed_in cat (lz_id x)) -> id_at x2 [k'] = k').
      { intros k' X. rewrite <- K2 in X. unfold id_at. cbn [object_at]. destruct (dget k' (lz_kids x2)) as [y|] eqn:Y; [|apply dget_None in Y; contradiction].
        apply dget_In in Y. destruct (kids_good x2 k' y G2 Y) as ((c & _ & C & _) & _). exact C. }
      pose proof (find_first (fun p => str_eqb k (id_at x2 p)) (map (fun k => [k]) (listed_in cat (lz_id x)))) as FF.
      destruct (find (fun p => str_eqb k (id_at x2 p)) (map (fun k => [k]) (listed_in cat (lz_id x)))) as [p|].
      * destruct FF as (a & b & EL & X & _). assert (P : In p (map (fun k => [k]) (listed_in cat (lz_id x)))) by (rewrite EL; apply in_or_app; right; left; reflexivity).
        apply in_map_iff in P. destruct P as (k' & <- & K'). rewrite (Id k' K') in X. apply str_eqb_eq in X. subst k'.
        eexists; eexists; eexists. split; [reflexivity|]. split; [exact S2|]. right. right. left. split; [exact Kn|]. split; [apply ids_of_In; exact K'|reflexivity].
      * assert (NM : forall m, ~ is_member (cat (lz_id x)) k m).
        { intros m X. assert (K' : In k (listed_in cat (lz_id x))) by (apply ids_of_In; exists m; exact X).
          specialize (FF [k] (in_map (fun k => [k]) _ _ K')). cbn beta in FF. rewrite (Id k K'), str_eqb_refl in FF. discriminate. }
        destruct (descend_right limit s2 x2 G2) as (s3 & x3 & res3 & E3 & S3 & R3). rewrite E3. pose proof S3 as (G3 & I3 & M3). rewrite I2 in R3.
        eexists; eexists; eexists. split; [reflexivity|]. split; [eapply same_trans; eassumption|].
        destruct R3 as [(-> & F)|[(W & -> & L)|(D & ->)]]; [left; auto| |]; right; right; right; [left|right; auto].
        split; [exact Kn|]. split; [exact NM|]. split; [exact W|]. cbn [bind].
        assert (Id3 : forall p, In p (below cat limit (lz_id x)) -> id_at x3 p = target (lz_id x) p).
        { intros p P. apply (proj1 (below_In _ _ _)) in P. destruct P as (_ & P & _). rewrite id_found; [congruence|exact L|exact G3|]. rewrite I3, I2. exact P. }
        pose proof (find_first (fun p => str_eqb (id_at x3 p) k) (below cat limit (lz_id x))) as F3.
        destruct (find (fun p => str_eqb (id_at x3 p) k) (below cat limit (lz_id x))) as [p|]; cbn [bind].
        -- left. exists p. split; [reflexivity|]. destruct F3 as (a & b & EL & X & N). exists a, b. split; [exact EL|]. split.
           ++ rewrite <- Id3; [apply str_eqb_eq; exact X|]. rewrite EL. apply in_or_app. right. left. reflexivity.
           ++ intros p' P' Y. specialize (N p' P'). rewrite Id3 in N by (rewrite EL; apply in_or_app; left; exact P'). rewrite Y, str_eqb_refl in N. discriminate.
        -- right. split; [reflexivity|]. intros p Wp X. destruct p as [|a p]; [apply Kn; symmetry; exact X|].
           assert (P : In (a :: p) (below cat limit (lz_id x))) by (apply below_In; split; [discriminate|]; split; [exact Wp|]; specialize (W _ Wp); lia).
           specialize (F3 _ P). cbn beta in F3. rewrite (Id3 _ P), X, str_eqb_refl in F3. discriminate.
  - unfold has_key. destruct (open_object sent x G) as (s2 & x2 & res2 & E2 & S2 & R2). rewrite E2. eexists; eexists; eexists. split; [reflexivity|]. split; [exact S2|].
    destruct R2 as [(-> & F)|(-> & K & _)]; [left; auto|right]. eexists. split; [reflexivity|]. rewrite existsb_exists, <- ids_of_In, <- K. unfold keys. split.
    + intros (k' & A & B). apply str_eqb_eq in B. subst k'. exact A.
    + intros A. exists k. split; [exact A|apply str_eqb_refl].
  - unfold count_children. destruct (lz_parsed x) eqn:P.
    + eexists; eexists; eexists. split; [reflexivity|]. split; [apply same_refl; exact G|]. right. left. cbn [bind]. do 2 f_equal.
      assert (K : keys (lz_kids x) = ids_of (cat (lz_id x))) by (destruct G as [i m d p l n Hi Hz Hk Hd Hp Hl]; cbn in *; apply Hp; exact P).
      unfold listed_in. fold (ids_of (cat (lz_id x))). rewrite <- K. unfold keys. rewrite map_length. reflexivity.
    + destruct (size_of (lz_meta x) =? 0)%Z eqn:Z0; cbn [negb]; [|eexists; eexists; eexists; split; [reflexivity|]; split; [apply same_refl; exact G|]; right; right; reflexivity].
      destruct (shut_good x G Z0) as (A & _ & K & _). eexists; eexists; eexists. split; [reflexivity|]. split; [exact A|]. right. left. cbn [bind]. do 2 f_equal.
      unfold listed_in. fold (ids_of (cat (lz_id x))). rewrite <- K. unfold keys. rewrite map_length. reflexivity.
  - assert (E0 : right_of cat limit (lz_id x) Empty (Ok (Truth (match lz_kids x with [] => true | _ => false end)))).
    { destruct (lz_kids x) as [|[k y] d] eqn:D; [right; reflexivity|left]. split; [reflexivity|].
      assert (X : In (k, y) (lz_kids x)) by (rewrite D; left; reflexivity). destruct (kids_good x k y G X) as ((c & C & _) & _). exists k, c. exact C. }
    unfold children_empty. cbv zeta. destruct (lz_parsed x); [eexists; eexists; eexists; split; [reflexivity|]; split; [apply same_refl; exact G|]; right; exact E0|].
    destruct (size_of (lz_meta x) =? 0)%Z eqn:Z0; cbn [negb]; [|eexists; eexists; eexists; split; [reflexivity|]; split; [apply same_refl; exact G|]; right; exact E0].
    destruct (shut_good x G Z0) as (A & _). eexists; eexists; eexists. split; [reflexivity|]. split; [exact A|]. right. exact E0.
Qed.

(** ** Programs *)

Lemma put_same : forall k y y' x, good x -> dget k (lz_kids x) = Some y -> same_object y y' -> same_object x (put k y' x).
Proof using.
  intros k y y' x G E S0. pose proof (fun k y => kids_good _ k y G) as KG. destruct x as [i m d p l]. cbn [put lz_kids lz_id] in *. apply with_kids; [exact G|].
  assert (KG' : forall k y, In (k, y) d -> good y) by (intros k0 y0 X; apply (KG k0 y0 X)). clear G KG. revert E. induction d as [|[k0 y0] d IH]; intros E; cbn [dget] in E; [discriminate|]. cbn [dset].
  destruct (str_eqb k0 k) eqn:K.
  - injection E as ->. constructor; [split; [reflexivity|exact S0]|]. assert (X : forall a, In a d -> good (snd a)) by (intros [a b] X; apply (KG' a b); right; exact X). clear -X.
    induction d as [|a d IH]; constructor; [split; [reflexivity|apply same_refl, X; left; reflexivity]|apply IH; intros b Hb; apply X; right; exact Hb].
  - constructor; [split; [reflexivity|apply same_refl; apply (KG' k0); left; reflexivity]|]. apply IH; [intros a b X; apply (KG' a b); right; exact X|exact E].
Qed.

Lemma at_path_right : forall q p sent x, good x ->
  exists sent' x' res, at_path server r pages p (ask server r pages limit q) sent x = (sent', x', res) /\ same_object x x' /\
    right_reply server cat limit (lz_id x) (p, q) res.
Proof using Hr Hdown Hserve Hpages.
  intros q. induction p as [|k p IH]; intros sent x G; cbn [at_path].
  - destruct (ask_right q sent x G) as (s1 & x1 & res & E & S1 & R). exists s1, x1, res. split; [exact E|]. split; [exact S1|].
    destruct R as [(-> & F)|R]; [left; auto|]. right. right. split; [constructor|exact R].
  - destruct (open_for_object k sent x G) as (s1 & x1 & res & E & S1 & R). rewrite E. pose proof S1 as (G1 & I1 & M1). destruct R as [(-> & F)|(-> & K)].
    { eexists; eexists; eexists. split; [reflexivity|]. split; [exact S1|]. left; auto. }
    destruct (dget k (lz_kids x1)) as [y|] eqn:Y.
    + pose proof (dget_In _ _ _ _ Y) as Yi. destruct (kids_good x1 k y G1 Yi) as ((c & C1 & C2 & _) & Gy). rewrite I1 in C1.
      destruct (IH s1 y Gy) as (s2 & y' & res & E2 & S2 & R2). rewrite E2. eexists; eexists; eexists. split; [reflexivity|].
      split; [eapply same_trans; [exact S1|]; apply (put_same k y); assumption|]. rewrite C2 in R2.
      destruct R2 as [R2|[(N & ->)|(W & R2)]]; cbn [fst snd] in *.
      * left. exact R2.
      * right. left. split; [|reflexivity]. cbn [fst]. intros X. apply way_inv in X. apply N. apply X.
      * right. right. cbn [fst snd]. split; [apply way_down with (m := c); assumption|]. rewrite target_cons. exact R2.
    + eexists; eexists; eexists. split; [reflexivity|]. split; [exact S1|]. right. left. split; [|reflexivity]. cbn [fst]. intros X. apply way_inv in X. destruct X as (M & _).
      destruct K as [K|(y & K)]; [|discriminate]. apply dget_None in Y. apply Y. rewrite K. apply ids_of_In. exact M.
Qed.

Lemma deeds_right : forall h sent x, good x ->
  exists sent' x' outs, do_deeds server r pages limit sent x h = (sent', x', outs) /\ same_object x x' /\
    Forall2 (right_reply server cat limit (lz_id x)) h outs.
Proof using Hr Hdown Hserve Hpages.
  induction h as [|[p q] h IH]; intros sent x G; cbn [do_deeds].
  - exists sent, x, []. split; [reflexivity|]. split; [apply same_refl; exact G|constructor].
  - destruct (at_path_right q p sent x G) as (s1 & x1 & res & E & S1 & R). rewrite E. pose proof S1 as (G1 & I1 & _).
    destruct (IH s1 x1 G1) as (s2 & x2 & outs & E2 & S2 & R2). rewrite E2. eexists; eexists; eexists. split; [reflexivity|].
    split; [eapply same_trans; eassumption|]. constructor; [exact R|]. rewrite I1 in R2. exact R2.
Qed.
End Tree.

(** ** What is loaded stays, and asks for nothing *)

Section Silent.
Variable server : list request -> request -> result (list json).
Variable r : route.
Variables pages limit : nat.

Lemma open_silent : forall sent x, loaded x -> open server r pages sent x = (sent, x, Ok tt).
Proof using. intros sent x L. destruct L. reflexivity. Qed.

Definition no_http {A} (res : result A) : Prop := res <> Err HTTPError /\ res <> Err TypeError.

Lemma no_http_other : forall {A B} e, @no_http A (Err e) -> @no_http B (Err e).
Proof using. intros A B e (H1 & H2). split; intros X; injection X as ->; [apply H1|apply H2]; reflexivity. Qed.

Lemma descend_silent : forall n sent x, loaded x -> exists res, descend server r pages n sent x = (sent, x, res) /\ no_http res.
Proof using.
  induction n as [|n IH]; intros sent x L; [eexists; split; [reflexivity|split; discriminate]|]. rewrite descend_S, (open_silent sent x L). destruct L as [i m d l Ld]. cbn [lz_kids].
  assert (E : exists res, each (descend server r pages n) sent d = (sent, d, res) /\ no_http res).
  { clear -IH Ld. induction d as [|[k y] d IHd]; [eexists; split; [reflexivity|split; discriminate]|]. rewrite each_cons.
    destruct (IH sent y (Ld k y (or_introl eq_refl))) as (res & -> & N). destruct res as [ps|e]; [|eexists; split; [reflexivity|exact (no_http_other _ N)]].
    destruct (IHd (fun k' y' X => Ld k' y' (or_intror X))) as (res & -> & N2). eexists. split; [reflexivity|]. destruct res; [split; discriminate|]. exact N2. }
  destruct E as (res & -> & N). eexists. split; [reflexivity|]. destruct res as [ps|e]; [split; discriminate|]. cbn [bind]. exact (no_http_other _ N).
Qed.

Lemma ask_silent : forall q sent x, loaded x -> exists res, ask server r pages limit q sent x = (sent, x, res) /\ no_http res.
Proof using.
  intros q sent x L. destruct (descend_silent limit sent x L) as (res & E & N).
  assert (M : members_of server r pages sent x = (sent, x, Ok (map (fun kx => [fst kx]) (lz_kids x)))) by (unfold members_of; rewrite (open_silent sent x L); reflexivity).
  assert (N' : forall {A} (f : list path -> result A), (forall l, no_http (f l)) -> no_http (l <- res ;; f l)).
  { intros A f H. destruct res as [l|e]; [apply H|]. cbn [bind]. exact (no_http_other _ N). }
  destruct q as [| | |k|k|k| |]; cbn [ask]; unfold map_act.
  - rewrite M. eexists. split; [reflexivity|split; discriminate].
  - rewrite E. eexists. split; [reflexivity|]. apply N'. split; discriminate.
  - unfold readable_descendants. rewrite E. eexists. split; [reflexivity|]. destruct res as [l|e]; [split; discriminate|]. cbn [bind]. exact (no_http_other _ N).
  - unfold contains. rewrite E. eexists. split; [reflexivity|]. destruct res as [l|e]; [split; discriminate|]. cbn [bind]. exact (no_http_other _ N).
  - unfold getitem. destruct (str_eqb k (lz_id x)); [eexists; split; [reflexivity|split; discriminate]|]. rewrite M.
    destruct (find _ _); [eexists; split; [reflexivity|split; discriminate]|]. rewrite E. eexists. split; [reflexivity|].
    destruct res as [l|e]; cbn [bind]; [destruct (find _ _); split; discriminate|]. exact (no_http_other _ N).
  - unfold has_key. rewrite (open_silent sent x L). eexists. split; [reflexivity|split; discriminate].
  - unfold count_children. destruct L as [i m d l Ld]. eexists. split; [reflexivity|split; discriminate].
  - unfold children_empty. destruct L as [i m d l Ld]. eexists. split; [reflexivity|split; discriminate].
Qed.

Lemma at_path_silent : forall q p sent x, loaded x ->
  exists res, at_path server r pages p (ask server r pages limit q) sent x = (sent, x, res) /\ no_http res.
Proof using.
  intros q. induction p as [|k p IH]; intros sent x L; cbn [at_path]; [apply ask_silent; exact L|].
  assert (O : open_for server r pages k sent x = (sent, x, Ok tt)) by (destruct L; reflexivity). rewrite O.
  destruct (dget k (lz_kids x)) as [y|] eqn:Y; [|eexists; split; [reflexivity|split; discriminate]].
  destruct L as [i m d l Ld]. cbn [lz_kids] in Y. destruct (IH sent y (Ld k y (dget_In _ _ _ _ Y))) as (res & -> & N).
  eexists. split; [|exact N]. cbn [put]. rewrite (dset_same _ _ _ _ Y). reflexivity.
Qed.

Lemma deeds_silent : forall h sent x, loaded x ->
  exists outs, do_deeds server r pages limit sent x h = (sent, x, outs) /\ Forall no_http outs.
Proof using.
  induction h as [|[p q] h IH]; intros sent x L; cbn [do_deeds]; [eexists; split; [reflexivity|constructor]|].
  destruct (at_path_silent q p sent x L) as (res & -> & N). destruct (IH sent x L) as (outs & -> & F). eexists. split; [reflexivity|]. constructor; assumption.
Qed.

(** Searching everything loads everything. *)
Lemma open_parsed : forall sent x s x', open server r pages sent x = (s, x', Ok tt) -> lz_parsed x' = true.
Proof using.
  assert (F : forall fuel sent x q s x', fetch_from server r fuel sent x q = (s, x', Ok tt) -> lz_parsed x' = true).
  { induction fuel as [|fuel IH]; intros sent x q s x'; cbn [fetch_from]; destruct (q =? 0)%Z.
    - intros X. injection X as _ <-. destruct x. reflexivity.
    - discriminate.
    - intros X. injection X as _ <-. destruct x. reflexivity.
    - destruct (server sent _) as [[|data rest]|e]; try discriminate.
      destruct (cs <- parse_member data ;; v <- jhas data (hydra_term #"view") ;; Ok (cs, v)) as [[cs v]|e]; [|discriminate].
      destruct (next_page_number data) as [[n|]|e]; [apply IH| |discriminate]. intros X. injection X as _ <-. destruct x. reflexivity. }
  intros sent x s x'. unfold open, fetch. destruct (lz_parsed x) eqn:P; [intros X; injection X as _ <-; exact P|].
  destruct (negb (size_of (lz_meta x) =? 0)%Z); [apply F|]. intros X. injection X as _ <-. destruct x. reflexivity.
Qed.

Lemma descend_loads : forall n sent x s x' ps, descend server r pages n sent x = (s, x', Ok ps) -> loaded x'.
Proof using.
  induction n as [|n IH]; intros sent x s x' ps; [discriminate|]. rewrite descend_S. destruct (open server r pages sent x) as [[s1 x1] res] eqn:O.
  destruct res as [[]|e]; [|discriminate]. apply open_parsed in O. destruct (each (descend server r pages n) s1 (lz_kids x1)) as [[s2 d] res] eqn:E.
  destruct x1 as [i m own p l]. cbn in O. subst p. destruct res as [qs|e]; [|discriminate]. cbn [bind lz_kids] in *. intros X. injection X as _ <- _. constructor.
  clear -E IH. revert s1 s2 d qs E. induction own as [|[k y] own IHo]; intros s1 s2 d qs E.
  - injection E as _ <- _. intros k y [].
  - rewrite each_cons in E. destruct (descend server r pages n s1 y) as [[s3 y'] res] eqn:D. destruct res as [ps|e]; [|discriminate].
    destruct (each (descend server r pages n) s3 own) as [[s4 l'] res] eqn:E2. destruct res as [qs2|e]; [|discriminate]. injection E as _ <- _.
    intros k0 y0 [X|X]; [injection X as _ <-; apply (IH _ _ _ _ _ D)|]. apply (IHo _ _ _ _ E2 k0). exact X.
Qed.

Definition searches (q : question) : Prop := match q with Descendants | Readable | Has _ => True | _ => False end.

Lemma ask_loads : forall q sent x s x' a, searches q -> ask server r pages limit q sent x = (s, x', Ok a) -> loaded x'.
Proof using.
  intros q sent x s x' a Q. destruct q as [| | |k|k|k| |]; try destruct Q; cbn [ask]; unfold map_act, readable_descendants, contains;
    destruct (descend server r pages limit sent x) as [[s1 x1] res] eqn:E; destruct res as [ps|e]; try discriminate; cbn [bind]; intros X; injection X as _ <- _;
    apply (descend_loads _ _ _ _ _ _ E).
Qed.

Lemma deeds_load : forall h sent x s x' outs, do_deeds server r pages limit sent x h = (s, x', outs) ->
  (exists q a, searches q /\ In (([], q), Ok a) (combine h outs)) -> loaded x'.
Proof using.
  induction h as [|[p q] h IH]; intros sent x s x' outs E (q0 & a & Q & H); cbn [do_deeds] in E.
  - injection E as _ _ <-. destruct H.
  - destruct (at_path server r pages p (ask server r pages limit q) sent x) as [[s1 x1] res] eqn:A.
    destruct (do_deeds server r pages limit s1 x1 h) as [[s2 x2] outs2] eqn:D. injection E as _ <- <-. destruct H as [H|H].
    + injection H as -> -> ->. cbn [at_path] in A. pose proof (ask_loads _ _ _ _ _ _ Q A) as L. destruct (deeds_silent h s1 x1 L) as (o & X & _).
      rewrite X in D. injection D as _ <- _. exact L.
    + apply (IH _ _ _ _ _ D). exists q0, a. auto.
Qed.
End Silent.

(** ** The collection first received *)

Lemma opened_good : forall server r cat (known : str -> Prop) c,
  (forall i, known i -> (exists ans, steady server r i Children ans /\ cpages ans 1 (cat i)) /\ consistent (cat i) /\
    forall k m, is_member (cat i) k m -> sized cat m) ->
  (forall i k m, known i -> is_member (cat i) k m -> known k) ->
  known (co_id c) -> received_first cat c -> good server r cat known (opened c).
Proof.
  intros server r cat known c Hserve Hdown Hk ((z & Ez & Hz) & more & El & Hv). unfold opened.
  assert (In0 : In (co_members c) (cat (co_id c))) by (rewrite El; left; reflexivity).
  assert (K1 : keys (add_members (co_members c) []) = ids_of (firstn 1 (cat (co_id c)))).
  { rewrite add_keys, El. cbn [keys map app firstn]. unfold ids_of. cbn [concat]. rewrite app_nil_r.
    rewrite (filter_ext _ (fun _ => true)) by reflexivity. induction (firsts (map co_id (co_members c))) as [|y l IHl]; [reflexivity|]. cbn. f_equal. exact IHl. }
  apply good_intro with (n := 1); auto.
  - unfold size_of. rewrite Ez. exact Hz.
  - apply (kids_added server r cat known Hserve Hdown (co_id c) []); auto. intros k y [].
  - intros X. rewrite K1. unfold co_closed, closes in X. destruct (co_members c) as [|m0 ms] eqn:Em; [discriminate|]. unfold size_of in X. rewrite Ez in X. cbn [andb] in X. apply orb_true_iff in X.
    destruct X as [X|X]; [apply negb_true_iff in X; rewrite El, (Hv X); reflexivity|]. apply Z.eqb_eq in X.
    elim (Hz X (co_id m0) m0). split; [reflexivity|]. exists (m0 :: ms). split; [exact In0|left; reflexivity].
  - discriminate.
Qed.

(** What [top] leads to. *)
Definition found_from (cat : catalogue) (top i : str) : Prop := exists p, way cat top p /\ target top p = i.

Lemma way_snoc : forall cat i p k m, way cat i p -> is_member (cat (target i p)) k m -> way cat i (p ++ [k]) /\ target i (p ++ [k]) = k.
Proof.
  intros cat i p k m W. unfold target. rewrite last_last. intros M. split; [|reflexivity]. revert M. induction W as [i|i k0 m0 p M0 W IH]; intros M; cbn [app].
  - cbn in M. apply way_down with (m := m); [exact M|constructor].
  - apply way_down with (m := m0); [exact M0|]. apply IH. rewrite last_cons in M. exact M.
Qed.
