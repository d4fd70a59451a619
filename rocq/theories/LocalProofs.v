(** Proofs about the local resolver. *)

From Coq Require Import List NArith ZArith Arith Bool Lia.
From Verif Require Import PyStr PyStrFacts RefModel UrnModel UrnSpec UrnProofs MetaModel CollModel CollSpec CollProofs CollHist LocalModel LocalSpec.
Import ListNotations.

(** ** Dispatching *)

Lemma registered_methods : forall filters d,
  registered d filters = MkDispatcher (d_root d) (d_methods d ++ map (fun x => (snd x, fst x)) filters).
Proof.
  induction filters as [|x l IH]; intros d; cbn [registered fold_left map].
  - rewrite app_nil_r. destruct d. reflexivity.
  - fold (registered (add_filter d (fst x) (snd x)) l). rewrite IH. cbn. rewrite <- app_assoc. reflexivity.
Qed.

Lemma dispatch_goes : forall st root default c path filters d, new_dispatcher st root (Some default) = Ok d ->
  exists r, goes (fun f => f st c path) default filters r /\
    dispatch st (registered d filters) c path =
      match r with
      | Err e => (st, Err e)
      | Ok name => let '(st1, i) := child st root name in
                   match i with Ok i => (set_parent st1 c i, Ok tt) | Err e => (st1, Err e) end
      end.
Proof.
  intros st root default c path filters d H. cbn in H. injection H as <-. rewrite registered_methods. unfold dispatch. cbn [d_root d_methods app].
  induction filters as [|[f name] l IH] using rev_ind.
  - exists (Ok default). split; [apply go_default; constructor|]. reflexivity.
  - cbn [map]. rewrite map_app. cbn [map snd fst]. rewrite app_comm_cons, rev_app_distr. cbn [rev app].
    cbn [dispatch_in]. destruct (f st c path) as [b|e] eqn:E.
    + destruct b.
      * exists (Ok name). split; [|reflexivity]. apply (go_filter _ _ _ l f name []); [reflexivity|exact E|constructor].
      * destruct IH as (r & G & IH). exists r. split; [|exact IH].
        assert (F : forall a, Forall (fun x => fst x st c path = Ok false) a -> Forall (fun x => fst x st c path = Ok false) (a ++ [(f, name)])).
        { intros a Ha. apply Forall_app. split; [exact Ha|]. constructor; [exact E|constructor]. }
        destruct G as [b g n a -> Hg Ha|Ha|b g n a e -> Hg Ha].
        -- apply (go_filter _ _ _ b g n (a ++ [(f, name)])); [rewrite <- app_assoc; reflexivity|exact Hg|apply F; exact Ha].
        -- apply go_default. apply F. exact Ha.
        -- apply (go_error _ _ _ b g n (a ++ [(f, name)])); [rewrite <- app_assoc; reflexivity|exact Hg|apply F; exact Ha].
    + exists (Err e). split; [|reflexivity]. apply (go_error _ _ _ l f name []); [reflexivity|exact E|constructor].
Qed.

(** ** Pagination *)

Lemma ceil_pages : forall n len p, 0 < n -> pages n len p -> ceil_div (Z.of_nat len) (Z.of_nat n) = Z.of_nat p.
Proof.
  intros n len p Hn [H1 H2]. unfold ceil_div.
  assert (E : (- Z.of_nat len / Z.of_nat n = - Z.of_nat p)%Z); [|rewrite E; lia].
  destruct p as [|p].
  - assert (len = 0) by lia. subst. reflexivity.
  - assert (H3 : p * n < len).
    { destruct (le_lt_dec len (p * n)) as [X|X]; [|exact X]. specialize (H2 p X). lia. }
    symmetry. apply Z.div_unique with (r := (Z.of_nat (S p) * Z.of_nat n - Z.of_nat len)%Z); nia.
Qed.

Lemma pages_exist : forall n len, 0 < n -> exists p, pages n len p.
Proof.
  intros n len Hn. induction len as [|len [p [H1 H2]]].
  - exists 0. split; [lia|]. intros; lia.
  - destruct (le_lt_dec (S len) (p * n)) as [X|X].
    + exists p. split; [exact X|]. intros q Hq. apply H2. lia.
    + exists (S p). split; [nia|]. intros q Hq. destruct (le_lt_dec (S p) q) as [Y|Y]; [exact Y|]. nia.
Qed.

Definition eff (limit : option Z) : Z :=
  let l := or_default limit 10 in if (l <? 1)%Z || (100 <? l)%Z then 10%Z else l.
Lemma eff_size : forall limit n, page_size limit n -> eff limit = Z.of_nat n /\ 1 <= n.
Proof.
  intros limit n [(z & -> & Hz & ->)|[H ->]]; unfold eff, or_default.
  - destruct (Z.eqb_spec z 0); [lia|]. destruct (Z.ltb_spec z 1); [lia|]. destruct (Z.ltb_spec 100 z); [lia|]. cbn. lia.
  - split; [|lia]. destruct H as [->|(z & -> & Hz)]; [reflexivity|]. destruct (Z.eqb_spec z 0); [reflexivity|].
    destruct (Z.ltb_spec z 1); [reflexivity|]. destruct (Z.ltb_spec 100 z); [reflexivity|]. lia.
Qed.

Lemma pagination_eff : forall page limit len, pagination page limit len =
  (let limit := eff limit in
   let start := ((or_default page 1 - 1) * limit)%Z in
   let '(start, real, count) :=
     if (len <? start)%Z then
       let real := ceil_div len limit in ((limit * (real - 1))%Z, Some real, (len - 1)%Z)
     else if (limit - 1 + start <? len)%Z then (start, page, (limit - 1 + start)%Z)
     else (start, page, (len - 1)%Z) in
   (start, (count + 1)%Z, real, (count - start + 1)%Z)).
Proof. reflexivity. Qed.

Lemma pred_mul : forall p n, 1 <= p -> p * n = (p - 1) * n + n.
Proof. intros [|p] n H; [lia|]. replace (S p - 1) with p by lia. lia. Qed.

Lemma slice_page : forall {A} (l : list A) n p a b, 1 <= n -> 1 <= p ->
  a = Z.of_nat ((p - 1) * n) -> b = Z.of_nat (Nat.min (p * n) (length l)) ->
  slice a b l = page_of n p l.
Proof.
  intros A l n p a b Hn Hp -> ->. unfold slice, page_of, bound.
  destruct (Z.ltb_spec (Z.of_nat ((p - 1) * n)) 0); [pose proof (Nat2Z.is_nonneg ((p - 1) * n)); lia|]. destruct (Z.ltb_spec (Z.of_nat (Nat.min (p * n) (length l))) 0);
    [pose proof (Nat2Z.is_nonneg (Nat.min (p * n) (length l))); lia|].
  rewrite !Nat2Z.id.
  destruct (le_lt_dec ((p - 1) * n) (length l)) as [X|X].
  - rewrite (Nat.min_l ((p - 1) * n)) by exact X. set (s := (p - 1) * n) in *.
    assert (p * n = s + n) by (apply pred_mul; lia).
    destruct (le_lt_dec (p * n) (length l)) as [Y|Y].
    + rewrite !Nat.min_l by lia. f_equal. lia.
    + rewrite (Nat.min_r (p * n)) by lia. rewrite Nat.min_id. rewrite !firstn_all2; [reflexivity| |]; rewrite skipn_length; lia.
  - rewrite (Nat.min_r ((p - 1) * n)) by lia. rewrite !(skipn_all2 l) by lia. rewrite !firstn_nil. reflexivity.
Qed.

(** A page that exists. *)
Lemma pagination_in : forall {A} (l : list A) limit n p total, page_size limit n -> pages n (length l) total -> 1 <= p <= total ->
  let '(a, b, page, count) := pagination (Some (Z.of_nat p)) limit (Z.of_nat (length l)) in
  slice a b l = page_of n p l /\ page = Some (Z.of_nat p) /\ count = Z.of_nat (length (page_of n p l)).
Proof.
  intros A l limit n p total Hs Ht Hp. rewrite pagination_eff. destruct (eff_size _ _ Hs) as [-> Hn]. cbv zeta.
  unfold or_default. destruct (Z.eqb_spec (Z.of_nat p) 0); [lia|].
  destruct Ht as [Ht1 Ht2]. assert (S1 : (p - 1) * n < length l).
  { destruct (le_lt_dec (length l) ((p - 1) * n)) as [X|X]; [|exact X]. specialize (Ht2 _ X). lia. }
  assert (L : length (page_of n p l) = Nat.min n (length l - (p - 1) * n)).
  { unfold page_of. rewrite firstn_length, skipn_length. reflexivity. }
  rewrite L. assert (E : ((Z.of_nat p - 1) * Z.of_nat n = Z.of_nat ((p - 1) * n))%Z) by nia. rewrite E.
  assert (P : p * n = (p - 1) * n + n) by (apply pred_mul; lia). set (s := (p - 1) * n) in *.
  destruct (Z.ltb_spec (Z.of_nat (length l)) (Z.of_nat s)); [lia|].
  destruct (Z.ltb_spec (Z.of_nat n - 1 + Z.of_nat s) (Z.of_nat (length l))).
  - split; [|split; [reflexivity|lia]]. apply slice_page; fold s; try lia.
  - split; [|split; [reflexivity|lia]]. apply slice_page; fold s; try lia.
Qed.

Lemma skipn_plus : forall {A} (l : list A) a b, skipn a (skipn b l) = skipn (b + a) l.
Proof. intros A l a b. revert l. induction b as [|b IH]; intros l; [reflexivity|]. destruct l; [rewrite skipn_nil; destruct a; reflexivity|]. cbn. apply IH. Qed.

Lemma concat_pages : forall {A} n (l : list A) total, 1 <= n -> pages n (length l) total ->
  concat (map (fun p => page_of n p l) (seq 1 total)) = l.
Proof.
  intros A n l total Hn [H1 _].
  assert (G : forall k s, concat (map (fun p => page_of n p l) (seq (S s) k)) = firstn (k * n) (skipn (s * n) l)).
  { induction k as [|k IH]; intros s; [reflexivity|]. cbn [seq map concat]. rewrite IH. unfold page_of.
    replace (S s - 1) with s by lia. replace (S s * n) with (s * n + n) by lia. rewrite <- skipn_plus.
    set (m := skipn (s * n) l). replace (S k * n) with (n + k * n) by lia.
    rewrite <- (firstn_skipn n m) at 3. rewrite firstn_app, firstn_firstn.
    destruct (le_lt_dec n (length m)) as [X|X].
    - rewrite Nat.min_r by lia. f_equal. f_equal. rewrite firstn_length. lia.
    - rewrite (skipn_all2 m) by lia. rewrite !firstn_nil, !app_nil_r. rewrite Nat.min_r by lia. reflexivity. }
  rewrite (G total 0). cbn [skipn Nat.mul]. apply firstn_all2. exact H1.
Qed.

(** A page beyond the end gives the last page, when there is one. *)
Lemma pagination_beyond : forall {A} (l : list A) limit n p total, page_size limit n -> pages n (length l) total ->
  l <> [] -> length l < (p - 1) * n ->
  let '(a, b, page, count) := pagination (Some (Z.of_nat p)) limit (Z.of_nat (length l)) in
  slice a b l = page_of n total l /\ page = Some (Z.of_nat total) /\ count = Z.of_nat (length (page_of n total l)).
Proof.
  intros A l limit n p total Hs Ht Hl Hp. rewrite pagination_eff. destruct (eff_size _ _ Hs) as [-> Hn]. cbv zeta.
  unfold or_default. destruct (Z.eqb_spec (Z.of_nat p) 0); [nia|].
  assert (E : ((Z.of_nat p - 1) * Z.of_nat n = Z.of_nat ((p - 1) * n))%Z) by nia. rewrite E.
  destruct (Z.ltb_spec (Z.of_nat (length l)) (Z.of_nat ((p - 1) * n))); [|lia].
  rewrite (ceil_pages n _ total) by (exact Ht || lia).
  assert (T : 1 <= total). { destruct Ht as [Ht1 _]. destruct total; [|lia]. destruct l; [congruence|]. cbn in Ht1. lia. }
  destruct Ht as [Ht1 Ht2]. assert (S1 : (total - 1) * n < length l).
  { destruct (le_lt_dec (length l) ((total - 1) * n)) as [X|X]; [|exact X]. specialize (Ht2 _ X). lia. }
  assert (L : length (page_of n total l) = length l - (total - 1) * n).
  { unfold page_of. rewrite firstn_length, skipn_length. nia. }
  rewrite L. split; [|split; [reflexivity|nia]]. apply slice_page; nia.
Qed.

(** ** Inventories *)

Lemma write_urn_inj : forall ns cts p ns' cts' p', plain_ns ns -> plain_ns cts -> plain_part p ->
  plain_ns ns' -> plain_ns cts' -> plain_part p' ->
  write_urn ns cts p None = write_urn ns' cts' p' None -> ns = ns' /\ cts = cts' /\ p = p'.
Proof.
  intros ns cts p ns' cts' p' H1 H2 H3 H4 H5 H6 E.
  pose proof (urn_parse_written ns cts p None None H1 H2 H3 eq_refl) as A.
  pose proof (urn_parse_written ns' cts' p' None None H4 H5 H6 eq_refl) as B.
  rewrite E, B in A. unfold parsed_urn in A. injection A as _ E1 E2 E3 E4 E5.
  split; [congruence|]. split; [congruence|]. destruct p, p'; cbn in *; congruence.
Qed.

Lemma kind_text : forall st x s, c_kind (obj st x) = KText s -> text st x.
Proof. intros st x s H. exists s. exact H. Qed.

Lemma not_text : forall st x k, c_kind (obj st x) = k -> (forall s, k <> KText s) -> ~ text st x.
Proof. intros st x k E H [s X]. apply (H s). congruence. Qed.

Lemma text_childless : forall st x m, text st x -> ~ member st x m.
Proof. intros st x m T [N _]. exact (N T). Qed.

Lemma below_text : forall st x m, text st x -> ~ below st x m.
Proof. intros st x m T B. inversion B; subst; eapply text_childless; eassumption. Qed.

(** What is below the layers. *)
Lemma below_work : forall st w x, work_layer st w -> below st w x -> member st w x /\ text st x.
Proof.
  intros st w x [K A] B. inversion B as [c m M|c m d M B']; subst.
  - split; [exact M|]. destruct M as [_ [k M]]. exact (A _ _ M).
  - destruct M as [_ [k M]]. apply A in M. destruct (below_text _ _ _ M B').
Qed.
Lemma below_textgroup : forall st g x, textgroup_layer st g -> below st g x ->
  (member st g x /\ work_layer st x) \/ exists w, member st g w /\ work_layer st w /\ member st w x /\ text st x.
Proof.
  intros st g x [K A] B. inversion B as [c m M|c m d M B']; subst; pose proof M as [_ [k M']]; apply A in M'.
  - left. auto.
  - right. destruct (below_work _ _ _ M' B'). exists m. auto.
Qed.
Lemma below_inventory : forall st i x, inventory_layer st i -> below st i x ->
  (member st i x /\ textgroup_layer st x) \/
  (exists g, member st i g /\ textgroup_layer st g /\ member st g x /\ work_layer st x) \/
  exists g w, member st i g /\ textgroup_layer st g /\ member st g w /\ work_layer st w /\ member st w x /\ text st x.
Proof.
  intros st i x [K A] B. inversion B as [c m M|c m d M B']; subst; pose proof M as [_ [k M']]; apply A in M'.
  - left. auto.
  - right. destruct (below_textgroup _ _ _ M' B') as [[? ?]|(w & ? & ? & ? & ?)]; [left; exists m; auto|right; exists m, w; auto 10].
Qed.

Lemma member_in : forall st p m, member st p m <-> ~ text st p /\ exists k, In (k, m) (c_children (obj st p)).
Proof. reflexivity. Qed.

Lemma library_placed : forall st root x, library st root -> below st root x -> text st x ->
  exists w g i, placed st root x w g /\ c_parent (obj st x) = Some w /\ c_parent (obj st w) = Some g /\ c_parent (obj st g) = Some i.
Proof.
  intros st root x L B T. pose proof (lib_layers _ _ L) as [K A]. pose proof (lib_tree _ _ L) as TR.
  inversion B as [c i M|c i d M B']; subst; pose proof M as [_ [k M']]; apply A in M'.
  - destruct M' as [K' _]. destruct T as [s T]. congruence.
  - destruct (below_inventory _ _ _ M' B') as [[M2 [K2 _]]|[(g & M2 & [K2 _] & M3 & [K3 _])|(g & w & M2 & L2 & M3 & L3 & M4 & _)]].
    + destruct T as [s T]. congruence.
    + destruct T as [s T]. congruence.
    + exists w, g, i. split; [exists i; auto|].
      assert (Bi : below st root i) by (constructor; exact M).
      assert (Bg : below st root g) by (eapply below_more; [exact M|constructor; exact M2]).
      assert (Bw : below st root w) by (eapply below_more; [exact M|]; eapply below_more; [exact M2|constructor; exact M3]).
      split; [apply (tree_parent _ _ TR w x (or_intror Bw) M4)|]. split; [apply (tree_parent _ _ TR g w (or_intror Bg) M3)|].
      apply (tree_parent _ _ TR i g (or_intror Bi) M2).
Qed.

Lemma placed_below : forall st root x w g, placed st root x w g -> below st root x.
Proof. intros st root x w g (i & A & B & C & D). eapply below_more; [exact A|]. eapply below_more; [exact B|]. eapply below_more; [exact C|]. constructor. exact D. Qed.

(** Filters that never fail. *)
Lemma filterM_ok : forall {A} (f : A -> result bool) (g : A -> bool) l, (forall a, In a l -> f a = Ok (g a)) -> filterM f l = Ok (filter g l).
Proof.
  intros A f g l. induction l as [|a l IH]; intros H; [reflexivity|]. cbn. rewrite (H a (or_introl eq_refl)). cbn.
  rewrite IH by (intros b Hb; apply H; right; exact Hb). reflexivity.
Qed.

Lemma part_urn : forall ns cts p r o, 1 <= part_size p -> urn_len (parsed_urn ns cts p r o) = 2 + part_size p.
Proof. intros ns cts [|tg|tg wk|tg wk vs] r o H; reflexivity. Qed.

Lemma category_spec : forall st cat x, category_test st cat x = true <->
  (forall c s, cat = Some c -> category_of c = Some s -> c_kind (obj st x) = KText s).
Proof.
  intros st cat x. unfold category_test, category_of. destruct cat as [c|]; [|split; [intros _ c s H; discriminate|reflexivity]].
  cbn [existsb]. destruct (str_eqb c #"edition") eqn:E1; [|destruct (str_eqb c #"translation") eqn:E2; [|destruct (str_eqb c #"commentary") eqn:E3]]; cbn [orb].
  4:{ split; [|reflexivity]. intros _ c' s [= <-]. rewrite E1, E2, E3. discriminate. }
  all: match goal with E : str_eqb _ _ = true |- _ => apply str_eqb_eq in E; subst end; rewrite str_eqb_eq; split;
    [intros H c' s [= <-]; cbn; intros [= <-]; destruct (c_kind (obj st x)) as [|[| | |]| | | |]; cbn in H; (discriminate H || reflexivity)
    |intros H; rewrite (H _ _ eq_refl eq_refl); reflexivity].
Qed.


Lemma find_kept : forall limit order st root cited urn lang cat, library st root ->
  (forall u, urn = Some u -> plain_urn u) ->
  exists l texts, find_texts (5 + limit) order st root cited (MkQuery (option_map urn_text urn) lang cat) = Ok l /\
    readable_descendants (5 + limit) st root = Ok texts /\ (exists f, l = filter f texts) /\
    forall x, In x l <-> kept order st root urn lang cat x /\ cited x = true.
Proof.
  intros limit order st root cited urn lang cat L HU. unfold find_texts. cbn [q_urn].
  destruct (collection_layer_texts limit st root (lib_layers _ _ L)) as (d & Hd & _).
  assert (RD : readable_descendants (5 + limit) st root = Ok (filter (readable st) d)).
  { unfold readable_descendants. change (5 + limit) with (S (S (S (S (S limit))))). rewrite Hd. reflexivity. }
  assert (PX : forall x, In x (filter (readable st) d) <-> below st root x /\ text st x).
  { intros x. rewrite filter_In, (descendants_below _ _ _ _ Hd x). unfold readable. rewrite is_text_spec. reflexivity. }
  assert (LT : forall x, text st x -> exists b, lang_test order st lang x = Ok b /\ (b = true <-> forall l, lang = Some l -> get_lang order st x = Ok l)).
  { intros x [s K]. unfold lang_test. destruct lang as [l|]; [|exists true; split; [reflexivity|]; split; [intros _ l [=]|reflexivity]].
    assert (G : exists y, get_lang order st x = Ok y) by (unfold get_lang; rewrite K; eexists; reflexivity). destruct G as [y G]. rewrite G. cbn [bind].
    exists (str_eqb l y). split; [reflexivity|]. rewrite str_eqb_eq. split; [intros -> l' [= <-]; reflexivity|]. intros H. specialize (H l eq_refl). congruence. }
  assert (UT : exists part, match option_map urn_text urn with Some s => u <- urn_parse s ;; part_of (urn_len u) | None => Ok COMPLETE end = Ok part /\
    forall x, below st root x -> text st x -> exists b, urn_test st part (option_map urn_text urn) x = Ok b /\
      (b = true <-> forall ns cts p, urn = Some (ns, cts, p) -> within st root ns cts p x)).
  { destruct urn as [[[ns cts] p]|]; cbn [option_map urn_text].
    2:{ exists COMPLETE. split; [reflexivity|]. intros x _ _. exists true. split; [reflexivity|]. split; [intros _ ns cts p [=]|reflexivity]. }
    destruct (HU _ eq_refl) as (Hns & Hcts & Hp).
    rewrite (urn_parse_written ns cts p None None Hns Hcts Hp eq_refl). cbn [bind].
    set (k := match part_size p with 0 => NAMESPACE | 1 => TEXTGROUP | 2 => WORK | _ => VERSION end).
    exists k. split; [unfold k; destruct p; reflexivity|]. intros x B T.
    destruct (library_placed st root x L B T) as (w & g & i & P & _).
    destruct (lib_names _ _ L x w g P) as (ns' & cts' & tg & wk & vs & H1 & H2 & H3 & _ & _ & Ex & _).
    unfold urn_test. rewrite Ex. rewrite (urn_parse_written ns' cts' (Version tg wk vs) None None H1 H2 H3 eq_refl). cbn [bind].
    assert (U : urn_upto k (parsed_urn ns' cts' (Version tg wk vs) None None) = Ok (write_urn ns' cts' (cut_part (part_size p) (Version tg wk vs)) None)).
    { unfold k. destruct p; [rewrite upto_namespace; reflexivity|apply upto_textgroup; [exact H3|discriminate]|apply upto_work; [exact H3|cbn; lia]|apply upto_version; [exact H3|reflexivity]]. }
    rewrite U. cbn [bind]. eexists. split; [reflexivity|]. rewrite str_eqb_eq. split.
    - intros E ns0 cts0 p0 [= <- <- <-]. apply write_urn_inj in E; try assumption; [|apply cut_part_plain; exact H3]. destruct E as (-> & -> & E).
      split; [exact B|]. split; [exact T|]. exists (Version tg wk vs). auto.
    - intros W. destruct (W _ _ _ eq_refl) as (_ & _ & p' & Hp' & E & C). rewrite Ex in E. apply write_urn_inj in E; try assumption. destruct E as (-> & -> & <-). rewrite C. reflexivity. }
  destruct UT as (part & -> & UT). cbn [bind]. rewrite RD. cbn [bind].
  set (okb := fun r : result bool => match r with Ok b => b | Err _ => false end).
  set (f := fun x => okb (lang_test order st lang x) && okb (urn_test st part (option_map urn_text urn) x) && (cited x && category_test st cat x)).
  exists (filter f (filter (readable st) d)), (filter (readable st) d). split; [|split; [reflexivity|split; [exists f; reflexivity|]]].
  - apply filterM_ok. intros x Hx. apply PX in Hx. destruct Hx as [B T]. unfold keep_text, f. cbn [q_lang q_urn q_category].
    destruct (LT x T) as (b1 & -> & _). destruct (UT x B T) as (b2 & -> & _). cbn [bind okb]. destruct b1; [|reflexivity]. destruct b2; reflexivity.
  - intros x. rewrite filter_In, PX. unfold f, kept. rewrite !andb_true_iff, category_spec. split.
    + intros ([B T] & [H1 H2] & [H3 H4]). destruct (LT x T) as (b1 & E1 & X1). destruct (UT x B T) as (b2 & E2 & X2). rewrite E1 in H1. rewrite E2 in H2.
      cbn [okb] in *. rewrite X1 in H1. rewrite X2 in H2. auto 10.
    + intros ((B & T & H1 & H2 & H3) & H4). destruct (LT x T) as (b1 & E1 & X1). destruct (UT x B T) as (b2 & E2 & X2). rewrite E1, E2. cbn [okb]. rewrite X1, X2. auto 10.
Qed.

Lemma find_within : forall limit order st root cited ns cts p, library st root ->
  plain_ns ns -> plain_ns cts -> plain_part p ->
  exists l, find_texts (5 + limit) order st root cited (MkQuery (Some (write_urn ns cts p None)) None None) = Ok l /\
    forall x, In x l <-> within st root ns cts p x /\ cited x = true.
Proof.
  intros limit order st root cited ns cts p L Hns Hcts Hp.
  destruct (find_kept limit order st root cited (Some (ns, cts, p)) None None L) as (l & texts & E & _ & _ & H).
  { intros u [= <-]. cbn. auto. }
  exists l. split; [exact E|]. intros x. rewrite H. unfold kept. split.
  - intros ((_ & _ & W & _) & C). split; [apply W; reflexivity|exact C].
  - intros [W C]. split; [|exact C]. pose proof W as (B & T & _). split; [exact B|]. split; [exact T|]. split; [intros ? ? ? [= <- <- <-]; exact W|].
    split; [intros l0 [=]|intros c0 s0 [=]].
Qed.

(** ** Rebuilding an inventory *)

Lemma NoDup_snoc : forall A (l : list A) a, NoDup l -> ~ In a l -> NoDup (l ++ [a]).
Proof.
  intros A l a H N. induction H as [|b l Hb H IH]; cbn; [repeat constructor; intros []|]. constructor.
  - rewrite in_app_iff. intros [X|[->|[]]]; [contradiction|apply N; left; reflexivity].
  - apply IH. intros X. apply N. right. exact X.
Qed.

Lemma objs_set_lang : forall st c l x, obj (set_lang st c l) x = obj st x.
Proof. intros. unfold set_lang. apply obj_with_graph. Qed.
Lemma len_set_lang : forall st c l, length (objs (set_lang st c l)) = length (objs st).
Proof. reflexivity. Qed.

Definition attached (st : state) (k : kind) (urn : str) (p x : nat) : coll :=
  if Nat.eqb x (length (objs st)) then MkColl k urn urn (Some p) [] 0
  else let y := obj st x in
       MkColl (c_kind y) (c_id y) (c_urn y) (c_parent y)
         (if Nat.eqb p x && negb (existsb (str_eqb urn) (keys (c_children y)))
          then c_children y ++ [(urn, length (objs st))] else c_children y) (c_graph y).

Definition needs_lang (k : kind) (l : option str) : bool :=
  match k, l with KText _, None => true | _, _ => false end.

Lemma get_lang_ok : forall order st p, text st p \/ c_kind (obj st p) = KWork -> exists l, get_lang order st p = Ok l.
Proof. intros order st p [[s E]|E]; unfold get_lang; rewrite E; eexists; reflexivity. Qed.

Lemma new_cts_ok : forall order st k ns cts q p lang, plain_ns ns -> plain_ns cts -> plain_part q ->
  p < length (objs st) -> (needs_lang k lang = true -> c_kind (obj st p) = KWork) ->
  exists st', new_cts order st k (write_urn ns cts q None) (Some p) lang = (st', Ok (length (objs st))) /\
    length (objs st') = S (length (objs st)) /\ forall x, obj st' x = attached st k (write_urn ns cts q None) p x.
Proof.
  intros order st k ns cts q p lang Hns Hcts Hq Hp Hl. unfold new_cts.
  rewrite (urn_parse_written ns cts q None None Hns Hcts Hq eq_refl). cbn [bind].
  change (parsed_urn ns cts q None None) with (urn_run (parsed_urn ns cts q None None) []).
  rewrite (reassign_str ns cts q None None [] Hns Hcts Hq eq_refl (Forall_nil _)). set (urn := write_urn ns cts q None).
  destruct (new_object st k urn urn) as [st1 c] eqn:N.
  assert (c = length (objs st)) by (unfold new_object in N; injection N as <- <-; reflexivity). subst c.
  assert (O1 : forall x, obj st1 x = if Nat.eqb x (length (objs st)) then MkColl k urn urn None [] 0 else obj st x).
  { intros x. rewrite <- (obj_new st k urn urn x), N. reflexivity. }
  assert (L1 : length (objs st1) = S (length (objs st))).
  { unfold new_object in N. injection N as <-. cbn [objs]. rewrite app_length. cbn. lia. }
  clear N. set (n := length (objs st)) in *.
  set (st2 := match k, lang with KText _, Some l => set_lang st1 n l | _, _ => st1 end).
  assert (O2 : forall x, obj st2 x = obj st1 x).
  { intros x. unfold st2. destruct k; try reflexivity. destruct lang; [apply objs_set_lang|reflexivity]. }
  assert (L2 : length (objs st2) = S n).
  { unfold st2. destruct k; try exact L1. destruct lang; exact L1. }
  assert (O3 : forall x, obj (set_parent st2 n p) x = attached st k urn p x).
  { intros x. rewrite obj_set_parent by lia. cbv zeta. rewrite !O2, !O1. unfold attached. fold n. rewrite (Nat.eqb_refl n). cbn [c_id].
    destruct (Nat.eqb_spec x n) as [->|X].
    - rewrite Nat.eqb_refl. destruct (Nat.eqb_spec p n); [lia|]. reflexivity.
    - destruct (Nat.eqb_spec n x); [congruence|]. reflexivity. }
  assert (L3 : length (objs (set_parent st2 n p)) = S n) by (rewrite length_set_parent; exact L2).
  assert (OK : needs_lang k lang = false -> exists st', (set_parent st2 n p, Ok n) = (st', Ok n) /\ length (objs st') = S n /\ forall x, obj st' x = attached st k urn p x).
  { intros _. eexists. split; [reflexivity|]. auto. }
  destruct k; try (apply OK; reflexivity). destruct lang; [apply OK; reflexivity|].
  destruct (get_lang_ok order (set_parent st2 n p) p) as [l El].
  { right. rewrite O3. unfold attached. fold n. destruct (Nat.eqb_spec p n); [lia|]. cbn. apply Hl. reflexivity. }
  rewrite El. eexists. split; [reflexivity|]. split; [exact L3|]. intros x. rewrite objs_set_lang. apply O3.
Qed.

Definition lev (k : kind) : nat :=
  match k with KInventory => 0 | KTextgroup => 1 | KWork => 2 | KText _ => 3 | _ => 4 end.

(** The URNs of a textgroup, a work and a text. *)
Definition names (G W T : str) : Prop :=
  exists ns cts tg wk vs, plain_ns ns /\ plain_ns cts /\ plain_part (Version tg wk vs) /\
    G = write_urn ns cts (Group tg) None /\ W = write_urn ns cts (Work tg wk) None /\ T = write_urn ns cts (Version tg wk vs) None.

Definition fits (n : nat) (id k : str) : Prop :=
  exists G W T, names G W T /\
    match n with 0 => k = G | 1 => id = G /\ k = W | _ => id = W /\ k = T end.

Record shape (st : state) (inv : nat) : Prop := {
  sh_len : inv < length (objs st);
  sh_inv : c_kind (obj st inv) = KInventory;
  sh_dict : forall p, inv <= p -> NoDup (keys (c_children (obj st p)));
  sh_child : forall p k c, inv <= p -> In (k, c) (c_children (obj st p)) ->
    p < c < length (objs st) /\ lev (c_kind (obj st c)) = S (lev (c_kind (obj st p))) /\ lev (c_kind (obj st p)) <= 2 /\
    c_id (obj st c) = k /\ c_urn (obj st c) = k /\ c_parent (obj st c) = Some p /\ fits (lev (c_kind (obj st p))) (c_id (obj st p)) k }.

Lemma attached_children : forall st k urn p x key m, p < length (objs st) ->
  In (key, m) (c_children (attached st k urn p x)) <->
  x <> length (objs st) /\
  (In (key, m) (c_children (obj st x)) \/ x = p /\ ~ In urn (keys (c_children (obj st p))) /\ key = urn /\ m = length (objs st)).
Proof.
  intros st k urn p x key m Hp. unfold attached. destruct (Nat.eqb_spec x (length (objs st))) as [->|X]; cbn [c_children].
  - split; [intros []|intros [[] _]; reflexivity].
  - destruct (Nat.eqb_spec p x) as [->|Y]; cbn [andb].
    + destruct (existsb (str_eqb urn) (keys (c_children (obj st x)))) eqn:E; cbn [negb].
      * apply existsb_str in E. split; [auto|]. intros [_ [H|(_ & N & _)]]; [exact H|contradiction].
      * apply existsb_str_false in E. rewrite in_app_iff. cbn [In]. split.
        -- intros [H|[H|[]]]; [auto|]. injection H as <- <-. auto 10.
        -- intros [_ [H|(_ & _ & -> & ->)]]; auto.
    + split; [auto|]. intros [_ [H|(-> & _)]]; [exact H|congruence].
Qed.

Lemma attached_old : forall st k urn p x, x <> length (objs st) ->
  c_kind (attached st k urn p x) = c_kind (obj st x) /\ c_id (attached st k urn p x) = c_id (obj st x) /\
  c_urn (attached st k urn p x) = c_urn (obj st x) /\ c_parent (attached st k urn p x) = c_parent (obj st x).
Proof. intros st k urn p x X. unfold attached. destruct (Nat.eqb_spec x (length (objs st))); [contradiction|]. cbn. auto. Qed.

Lemma obj_beyond : forall st x, length (objs st) <= x -> c_children (obj st x) = [].
Proof. intros st x H. unfold obj. rewrite nth_overflow by exact H. reflexivity. Qed.

Lemma shape_grow : forall st inv k urn p st', shape st inv -> inv <= p < length (objs st) ->
  lev (c_kind (obj st p)) <= 2 -> lev k = S (lev (c_kind (obj st p))) -> fits (lev (c_kind (obj st p))) (c_id (obj st p)) urn ->
  length (objs st') = S (length (objs st)) -> (forall x, obj st' x = attached st k urn p x) -> shape st' inv.
Proof.
  intros st inv k urn p st' H Hp L2 Lk F Hlen O. pose proof (sh_len _ _ H) as HL. split.
  - lia.
  - rewrite O. rewrite (proj1 (attached_old st k urn p inv ltac:(lia))). apply (sh_inv _ _ H).
  - intros q Hq. rewrite O. unfold attached. destruct (Nat.eqb_spec q (length (objs st))); [constructor|]. cbn [c_children].
    destruct (Nat.eqb_spec p q) as [->|]; cbn [andb]; [|apply (sh_dict _ _ H); exact Hq].
    destruct (existsb (str_eqb urn) (keys (c_children (obj st q)))) eqn:E; cbn [negb]; [apply (sh_dict _ _ H); exact Hq|].
    apply existsb_str_false in E. unfold keys in *. rewrite map_app. cbn [map fst].
    apply NoDup_snoc; [apply (sh_dict _ _ H); exact Hq|exact E].
  - intros q key c Hq I. rewrite O in I. apply attached_children in I; [|lia]. destruct I as [Xq [I|(-> & N & -> & ->)]].
    + destruct (sh_child _ _ H q key c Hq I) as (C1 & C2 & C3 & C4 & C5 & C6 & C7).
      rewrite !O. destruct (attached_old st k urn p q Xq) as (-> & -> & _ & _).
      destruct (attached_old st k urn p c ltac:(lia)) as (-> & -> & -> & ->). repeat split; try assumption; lia.
    + rewrite !O. destruct (attached_old st k urn p p Xq) as (-> & -> & _ & _). unfold attached. rewrite Nat.eqb_refl. cbn.
      repeat split; try assumption; lia.
Qed.

Record grows (st st' : state) (p : nat) : Prop := {
  gr_len : length (objs st) <= length (objs st');
  gr_keep : forall x, x < length (objs st) -> c_kind (obj st' x) = c_kind (obj st x) /\ c_id (obj st' x) = c_id (obj st x);
  gr_other : forall x, x < length (objs st) -> x <> p -> obj st' x = obj st x;
  gr_mono : forall key m, In (key, m) (c_children (obj st p)) -> In (key, m) (c_children (obj st' p));
  gr_new : forall key m, In (key, m) (c_children (obj st' p)) -> In (key, m) (c_children (obj st p)) \/ c_children (obj st' m) = [] }.

Lemma grows_refl : forall st p, grows st st p.
Proof. intros st p. split; auto. Qed.

Lemma grows_attached : forall st st' k urn p, p < length (objs st) -> length (objs st') = S (length (objs st)) ->
  (forall x, obj st' x = attached st k urn p x) -> grows st st' p.
Proof.
  intros st st' k urn p Hp L O. split.
  - lia.
  - intros x Hx. rewrite O. destruct (attached_old st k urn p x ltac:(lia)) as (-> & -> & _). auto.
  - intros x Hx X. rewrite O. unfold attached. destruct (Nat.eqb_spec x (length (objs st))); [lia|]. destruct (Nat.eqb_spec p x); [congruence|].
    cbn [andb]. destruct (obj st x); reflexivity.
  - intros key m I. rewrite O. apply attached_children; [exact Hp|]. split; [lia|auto].
  - intros key m I. rewrite O in I. apply attached_children in I; [|exact Hp]. destruct I as [_ [I|(_ & _ & _ & ->)]]; [auto|].
    right. rewrite O. unfold attached. rewrite Nat.eqb_refl. reflexivity.
Qed.

Lemma names_plain : forall G W T, names G W T -> exists ns cts a b c, plain_ns ns /\ plain_ns cts /\
  plain_part a /\ plain_part b /\ plain_part c /\ G = write_urn ns cts a None /\ W = write_urn ns cts b None /\ T = write_urn ns cts c None.
Proof.
  intros G W T (ns & cts & tg & wk & vs & H1 & H2 & H3 & -> & -> & ->).
  exists ns, cts, (Group tg), (Work tg wk), (Version tg wk vs).
  pose proof (cut_part_plain 1 _ H3) as A. pose proof (cut_part_plain 2 _ H3) as B. cbn in A, B. auto 10.
Qed.

Lemma fits_plain : forall n id k, fits n id k -> exists ns cts q, plain_ns ns /\ plain_ns cts /\ plain_part q /\ k = write_urn ns cts q None.
Proof.
  intros n id k (G & W & T & N & F). destruct (names_plain _ _ _ N) as (ns & cts & a & b & c & H1 & H2 & H3 & H4 & H5 & -> & -> & ->).
  destruct n as [|[|n]]; [|destruct F as [_ F]|destruct F as [_ F]]; subst k; exists ns, cts; eauto 10.
Qed.

Lemma ensure_ok : forall order st inv k p urn, shape st inv -> inv <= p < length (objs st) ->
  lev (c_kind (obj st p)) <= 1 -> lev k = S (lev (c_kind (obj st p))) -> fits (lev (c_kind (obj st p))) (c_id (obj st p)) urn ->
  exists st' c, ensure order st k p urn = (st', Ok c) /\ shape st' inv /\ grows st st' p /\ In (urn, c) (c_children (obj st' p)).
Proof.
  intros order st inv k p urn H Hp L Lk F. unfold ensure. destruct (dget urn (c_children (obj st p))) as [c|] eqn:D.
  - exists st, c. split; [reflexivity|]. split; [exact H|]. split; [apply grows_refl|]. apply dget_In. exact D.
  - destruct (fits_plain _ _ _ F) as (ns & cts & q & H1 & H2 & H3 & ->).
    destruct (new_cts_ok order st k ns cts q p None H1 H2 H3 (proj2 Hp)) as (st' & E & LS & O).
    { destruct k; cbn in Lk |- *; try discriminate. lia. }
    rewrite E. assert (I : In (write_urn ns cts q None, length (objs st)) (c_children (obj st' p))).
    { rewrite O. apply attached_children; [lia|]. split; [lia|]. right. apply dget_none in D. auto. }
    assert (SH : shape st' inv) by (eapply shape_grow; eauto; lia).
    unfold child. rewrite (In_dget_NoDup _ _ _ _ (sh_dict _ _ SH p (proj1 Hp)) I).
    exists st', (length (objs st)). split; [reflexivity|]. split; [exact SH|]. split; [|exact I].
    eapply grows_attached; eauto; lia.
Qed.

Definition path (st : state) (inv : nat) (G : str) (g : nat) (W : str) (w : nat) (T : str) (t : nat) : Prop :=
  In (G, g) (c_children (obj st inv)) /\ In (W, w) (c_children (obj st g)) /\ In (T, t) (c_children (obj st w)).

Lemma path_levels : forall st inv G g W w T t, shape st inv -> path st inv G g W w T t ->
  lev (c_kind (obj st g)) = 1 /\ lev (c_kind (obj st w)) = 2 /\ lev (c_kind (obj st t)) = 3 /\
  inv < g /\ g < w /\ w < t < length (objs st) /\ c_id (obj st g) = G /\ c_id (obj st w) = W /\ c_id (obj st t) = T.
Proof.
  intros st inv G g W w T t H (A & B & C).
  destruct (sh_child _ _ H inv G g (le_n _) A) as (A1 & A2 & _ & A4 & _). rewrite (sh_inv _ _ H) in A2.
  destruct (sh_child _ _ H g W w ltac:(lia) B) as (B1 & B2 & _ & B4 & _).
  destruct (sh_child _ _ H w T t ltac:(lia) C) as (C1 & C2 & _ & C4 & _).
  cbn in A2. repeat split; try assumption; lia.
Qed.

Lemma grows_children : forall st st' p x key m, grows st st' p -> x < length (objs st) ->
  In (key, m) (c_children (obj st x)) -> In (key, m) (c_children (obj st' x)).
Proof.
  intros st st' p x key m G Hx I. destruct (Nat.eq_dec x p) as [->|X]; [apply (gr_mono _ _ _ G); exact I|].
  rewrite (gr_other _ _ _ G x Hx X). exact I.
Qed.
Lemma grows_back : forall st st' p x key m, grows st st' p -> x < length (objs st) ->
  In (key, m) (c_children (obj st' x)) -> In (key, m) (c_children (obj st x)) \/ x = p /\ c_children (obj st' m) = [].
Proof.
  intros st st' p x key m G Hx I. destruct (Nat.eq_dec x p) as [->|X]; [destruct (gr_new _ _ _ G _ _ I); auto|].
  rewrite (gr_other _ _ _ G x Hx X) in I. auto.
Qed.

Lemma path_grows : forall st st' inv p G g W w T t, shape st inv -> grows st st' p ->
  path st inv G g W w T t -> path st' inv G g W w T t.
Proof.
  intros st st' inv p G g W w T t H R P. pose proof (path_levels _ _ _ _ _ _ _ _ H P) as X. destruct P as (A & B & C).
  pose proof (sh_len _ _ H). split; [|split]; eapply grows_children; eauto; lia.
Qed.

Lemma path_back : forall st st' inv p G g W w T t, shape st inv -> grows st st' p -> lev (c_kind (obj st p)) <= 1 ->
  path st' inv G g W w T t -> path st inv G g W w T t.
Proof.
  intros st st' inv p G g W w T t H R L (A & B & C). pose proof (sh_len _ _ H) as HL.
  destruct (grows_back _ _ _ _ _ _ R HL A) as [A'|[_ X]]; [|rewrite X in B; destruct B].
  destruct (sh_child _ _ H inv G g (le_n _) A') as (A1 & A2 & _). rewrite (sh_inv _ _ H) in A2. cbn in A2.
  destruct (grows_back _ _ _ _ _ _ R (proj2 A1) B) as [B'|[_ X]]; [|rewrite X in C; destruct C].
  destruct (sh_child _ _ H g W w ltac:(lia) B') as (B1 & B2 & _).
  destruct (grows_back _ _ _ _ _ _ R (proj2 B1) C) as [C'|[X _]]; [split; auto|]. subst w. lia.
Qed.

Record built (st0 : state) (inv : nat) (name : str) (st : state) (done : list nat) : Prop := {
  b_shape : shape st inv;
  b_old : forall x, x < inv -> obj st x = obj st0 x;
  b_id : c_id (obj st inv) = name;
  b_sound : forall G g W w T t, path st inv G g W w T t ->
    exists x, In x done /\ c_urn (obj st0 x) = T /\ c_kind (obj st0 x) = c_kind (obj st t);
  b_complete : forall x w g, In x done -> c_parent (obj st0 x) = Some w -> c_parent (obj st0 w) = Some g ->
    exists g' w' t', path st inv (c_urn (obj st0 g)) g' (c_urn (obj st0 w)) w' (c_urn (obj st0 x)) t' /\
      c_kind (obj st t') = c_kind (obj st0 x) }.

Lemma built_grows : forall st0 inv name st st' p done, built st0 inv name st done -> grows st st' p -> shape st' inv ->
  inv <= p -> lev (c_kind (obj st p)) <= 1 -> built st0 inv name st' done.
Proof.
  intros st0 inv name st st' p done B R SH Hp L. pose proof (b_shape _ _ _ _ _ B) as H. pose proof (sh_len _ _ H) as HL. split.
  - exact SH.
  - intros x Hx. rewrite (gr_other _ _ _ R x) by lia. apply (b_old _ _ _ _ _ B). exact Hx.
  - rewrite (proj2 (gr_keep _ _ _ R inv HL)). apply (b_id _ _ _ _ _ B).
  - intros G g W w T t P. pose proof (path_back _ _ _ _ _ _ _ _ _ _ H R L P) as P'.
    destruct (b_sound _ _ _ _ _ B _ _ _ _ _ _ P') as (x & X1 & X2 & X3). exists x. split; [exact X1|]. split; [exact X2|].
    rewrite X3. symmetry. apply (gr_keep _ _ _ R). pose proof (path_levels _ _ _ _ _ _ _ _ H P'). lia.
  - intros x w g Hx E1 E2. destruct (b_complete _ _ _ _ _ B x w g Hx E1 E2) as (g' & w' & t' & P & K).
    exists g', w', t'. split; [eapply path_grows; eauto|]. rewrite <- K. apply (gr_keep _ _ _ R).
    pose proof (path_levels _ _ _ _ _ _ _ _ H P). lia.
Qed.

Lemma has_children : forall st p k m, In (k, m) (c_children (obj st p)) -> p < length (objs st).
Proof. intros st p k m I. destruct (le_lt_dec (length (objs st)) p) as [X|X]; [|exact X]. rewrite obj_beyond in I by exact X. destruct I. Qed.
Lemma text_exists : forall st t, text st t -> t < length (objs st).
Proof.
  intros st t [s K]. destruct (le_lt_dec (length (objs st)) t) as [X|X]; [|exact X]. unfold obj in K. rewrite nth_overflow in K by exact X. discriminate.
Qed.

(** The texts found in a library, one after the other. *)
Lemma rebuild_step : forall order st0 root inv name st done t, library st0 root -> inv = length (objs st0) ->
  built st0 inv name st done -> (forall x, In x done -> below st0 root x /\ text st0 x) ->
  below st0 root t -> text st0 t ->
  exists st', rebuild order inv (st, Ok tt) t = (st', Ok tt) /\ built st0 inv name st' (t :: done).
Proof.
  intros order st0 root inv name st done t L Einv B HD Bt Tt.
  destruct (library_placed st0 root t L Bt Tt) as (w & g & i & P & P1 & P2 & P3).
  destruct (lib_names _ _ L t w g P) as (ns & cts & tg & wk & vs & H1 & H2 & H3 & Eg & Ew & Et & Eid).
  assert (N : names (c_urn (obj st0 g)) (c_urn (obj st0 w)) (c_urn (obj st0 t))).
  { exists ns, cts, tg, wk, vs. auto 10. }
  assert (Bw : below st0 root w). { destruct P as (j & A1 & A2 & A3 & A4). eapply below_more; [exact A1|]. eapply below_more; [exact A2|]. constructor. exact A3. }
  assert (Bg : below st0 root g). { destruct P as (j & A1 & A2 & A3 & A4). eapply below_more; [exact A1|]. constructor. exact A2. }
  pose proof (b_old _ _ _ _ _ B) as OLD.
  assert (Lw : w < inv). { destruct P as (j & _ & _ & _ & [_ [k A4]]). subst inv. exact (has_children _ _ _ _ A4). }
  assert (Lg : g < inv). { destruct P as (j & _ & _ & [_ [k A3]] & _). subst inv. exact (has_children _ _ _ _ A3). }
  assert (Lt : t < inv) by (subst inv; apply text_exists; exact Tt).
  assert (Ot : obj st t = obj st0 t) by (apply OLD; exact Lt).
  assert (Ow : obj st w = obj st0 w) by (apply OLD; exact Lw).
  assert (Og : obj st g = obj st0 g) by (apply OLD; exact Lg).
  unfold rebuild, up. rewrite Ot, P1. cbn [bind]. rewrite Ow, P2. cbn [bind]. rewrite Og.
  pose proof (b_shape _ _ _ _ _ B) as SH. pose proof (sh_len _ _ SH) as HL.
  destruct (ensure_ok order st inv KTextgroup inv (c_urn (obj st0 g)) SH (conj (le_n _) HL)) as (st1 & g' & E1 & SH1 & R1 & I1).
  { rewrite (sh_inv _ _ SH). cbn. lia. }
  { rewrite (sh_inv _ _ SH). reflexivity. }
  { rewrite (sh_inv _ _ SH). do 3 eexists. split; [exact N|]. reflexivity. }
  rewrite E1. assert (B1 : built st0 inv name st1 done).
  { eapply built_grows; eauto. rewrite (sh_inv _ _ SH). cbn. lia. }
  pose proof (b_old _ _ _ _ _ B1) as OLD1.
  destruct (sh_child _ _ SH1 inv _ g' (le_n _) I1) as (G1 & G2 & _ & G4 & G5 & _). rewrite (sh_inv _ _ SH1) in G2. cbn in G2.
  destruct (ensure_ok order st1 inv KWork g' (c_urn (obj st0 w)) SH1 ltac:(lia)) as (st2 & w' & E2 & SH2 & R2 & I2).
  { lia. } { rewrite G2. reflexivity. }
  { rewrite G2, G4. do 3 eexists. split; [exact N|]. auto. }
  rewrite ?Ow. rewrite E2. assert (B2 : built st0 inv name st2 done) by (eapply built_grows; eauto; lia).
  pose proof (b_old _ _ _ _ _ B2) as OLD2.
  assert (I1' : In (c_urn (obj st0 g), g') (c_children (obj st2 inv))).
  { rewrite (gr_other _ _ _ R2 inv) by (pose proof (sh_len _ _ SH1); lia). exact I1. }
  destruct (sh_child _ _ SH2 g' _ w' ltac:(lia) I2) as (W1 & W2 & _ & W4 & W5 & _).
  assert (Kw : c_kind (obj st2 w') = KWork).
  { rewrite (proj1 (gr_keep _ _ _ R2 g' (proj2 G1))), G2 in W2. destruct (c_kind (obj st2 w')) as [|[| | |]| | | |]; cbn in W2; congruence. }
  assert (STEP : forall lang, exists st3, new_cts order st2 (c_kind (obj st0 t)) (c_urn (obj st0 t)) (Some w') lang = (st3, Ok (length (objs st2))) /\ built st0 inv name st3 (t :: done)).
  { intros lang. rewrite Et.
    destruct (new_cts_ok order st2 (c_kind (obj st0 t)) ns cts (Version tg wk vs) w' lang H1 H2 H3 (proj2 W1) (fun _ => Kw)) as (st3 & E3 & L3 & O3).
    exists st3. split; [exact E3|]. rewrite <- Et in O3.
    assert (SH3 : shape st3 inv).
    { eapply (shape_grow st2 inv _ _ w' st3 SH2); [lia| | | |exact L3|exact O3]; rewrite Kw.
      - cbn. lia.
      - destruct Tt as [s ->]. reflexivity.
      - do 3 eexists. split; [exact N|]. cbn. auto. }
    assert (R3 : grows st2 st3 w') by (eapply grows_attached; eauto; lia).
    split.
    - exact SH3.
    - intros x Hx. rewrite (gr_other _ _ _ R3 x) by lia. apply OLD2. exact Hx.
    - rewrite (proj2 (gr_keep _ _ _ R3 inv (sh_len _ _ SH2))). apply (b_id _ _ _ _ _ B2).
    - intros Gs gi Ws wi Ts ti (A & C & D). pose proof (sh_len _ _ SH2) as HL2.
      destruct (grows_back _ _ _ _ _ _ R3 HL2 A) as [A'|[X _]]; [|lia].
      destruct (sh_child _ _ SH2 inv _ _ (le_n _) A') as (A1 & A2 & _). rewrite (sh_inv _ _ SH2) in A2. cbn in A2.
      destruct (grows_back _ _ _ _ _ _ R3 (proj2 A1) C) as [C'|[X _]]; [|subst gi; rewrite Kw in A2; discriminate].
      destruct (sh_child _ _ SH2 gi _ _ ltac:(lia) C') as (C1 & C2 & _).
      rewrite O3 in D. apply attached_children in D; [|lia]. destruct D as [_ [D|(-> & _ & -> & ->)]].
      + destruct (b_sound _ _ _ _ _ B2 Gs gi Ws wi Ts ti) as (x & X1 & X2 & X3); [split; auto|].
        exists x. split; [right; exact X1|]. split; [exact X2|]. rewrite X3. symmetry. apply (gr_keep _ _ _ R3).
        destruct (sh_child _ _ SH2 wi _ _ ltac:(lia) D). lia.
      + exists t. split; [left; reflexivity|]. split; [reflexivity|]. rewrite O3. unfold attached. rewrite Nat.eqb_refl. reflexivity.
    - intros x wx gx [<-|Hx] X1 X2.
      + rewrite P1 in X1. injection X1 as <-. rewrite P2 in X2. injection X2 as <-.
        destruct (in_dec str_eq_dec (c_urn (obj st0 t)) (keys (c_children (obj st2 w')))) as [Y|Y].
        * apply in_map_iff in Y. destruct Y as ([k t1] & Y1 & Y2). cbn in Y1. subst k.
          assert (P' : path st2 inv (c_urn (obj st0 g)) g' (c_urn (obj st0 w)) w' (c_urn (obj st0 t)) t1) by (split; auto).
          exists g', w', t1. split; [exact (path_grows _ _ _ _ _ _ _ _ _ _ SH2 R3 P')|].
          destruct (b_sound _ _ _ _ _ B2 _ _ _ _ _ _ P') as (x & D1 & D2 & D3).
          assert (x = t); [|subst x; rewrite D3; apply (gr_keep _ _ _ R3); pose proof (path_levels _ _ _ _ _ _ _ _ SH2 P'); lia].
          destruct (HD x D1) as [Bx Tx]. apply (tree_ids _ _ (lib_tree _ _ L)); [auto|auto|].
          destruct (library_placed st0 root x L Bx Tx) as (w1 & g1 & i1 & Px & _).
          destruct (lib_names _ _ L x w1 g1 Px) as (? & ? & ? & ? & ? & _ & _ & _ & _ & _ & _ & Ex). congruence.
        * exists g', w', (length (objs st2)). split.
          -- split; [exact (grows_children _ _ _ _ _ _ R3 (sh_len _ _ SH2) I1')|]. split; [refine (grows_children _ _ _ _ _ _ R3 _ I2); lia|].
             rewrite O3. apply attached_children; [lia|]. split; [lia|]. right. auto.
          -- rewrite O3. unfold attached. rewrite Nat.eqb_refl. reflexivity.
      + destruct (b_complete _ _ _ _ _ B2 x wx gx Hx X1 X2) as (ga & wa & ta & Pa & Ka). exists ga, wa, ta.
        split; [exact (path_grows _ _ _ _ _ _ _ _ _ _ SH2 R3 Pa)|]. rewrite <- Ka. apply (gr_keep _ _ _ R3).
        pose proof (path_levels _ _ _ _ _ _ _ _ SH2 Pa). lia. }
  pose proof (lib_kinds _ _ L t w g P) as UK. destruct Tt as [s Ks]. rewrite ?Ot. rewrite Ks in *.
  destruct (get_lang_ok order st2 t) as [lg Elg]. { left. exists s. rewrite (OLD2 t Lt). exact Ks. }
  destruct s; [congruence| | |].
  - destruct (STEP None) as (st3 & E3 & B3). rewrite E3. exists st3. auto.
  - rewrite Elg. destruct (STEP (Some lg)) as (st3 & E3 & B3). rewrite E3. exists st3. auto.
  - rewrite Elg. destruct (STEP (Some lg)) as (st3 & E3 & B3). rewrite E3. exists st3. auto.
Qed.

Lemma rebuild_all : forall order st0 root inv name l st done, library st0 root -> inv = length (objs st0) ->
  built st0 inv name st done -> (forall x, In x done \/ In x l -> below st0 root x /\ text st0 x) ->
  exists st', fold_left (rebuild order inv) l (st, Ok tt) = (st', Ok tt) /\
    built st0 inv name st' (rev l ++ done).
Proof.
  intros order st0 root inv name l. induction l as [|t l IH]; intros st done L E B HD.
  - exists st. auto.
  - destruct (HD t (or_intror (or_introl eq_refl))) as [Bt Tt].
    destruct (rebuild_step order st0 root inv name st done t L E B (fun x Hx => HD x (or_introl Hx)) Bt Tt) as (st1 & E1 & B1).
    cbn [fold_left]. rewrite E1. destruct (IH st1 (t :: done) L E B1) as (st2 & E2 & B2).
    + intros x [[<-|Hx]|Hx]; [auto|apply HD; auto|apply HD; right; right; exact Hx].
    + exists st2. split; [exact E2|]. cbn [rev]. rewrite <- app_assoc. exact B2.
Qed.

Lemma shape_layers : forall st inv, shape st inv -> inventory_layer st inv.
Proof.
  intros st inv H. split; [apply (sh_inv _ _ H)|]. intros k1 g I1.
  destruct (sh_child _ _ H inv k1 g (le_n _) I1) as (A1 & A2 & _). rewrite (sh_inv _ _ H) in A2. cbn in A2.
  split; [destruct (c_kind (obj st g)) as [|[| | |]| | | |]; cbn in A2; congruence|]. intros k2 w I2.
  destruct (sh_child _ _ H g k2 w ltac:(lia) I2) as (B1 & B2 & _). rewrite A2 in B2.
  split; [destruct (c_kind (obj st w)) as [|[| | |]| | | |]; cbn in B2; congruence|]. intros k3 t I3.
  destruct (sh_child _ _ H w k3 t ltac:(lia) I3) as (C1 & C2 & _). rewrite B2 in C2.
  unfold text. destruct (c_kind (obj st t)) as [|s| | | |] eqn:E; cbn in C2; try congruence. exists s. reflexivity.
Qed.

Lemma below_last : forall st c x, below st c x -> exists q, (q = c \/ below st c q) /\ member st q x.
Proof.
  intros st c x B. induction B as [c m M|c m d M B (q & [->|Q] & M')].
  - exists c. auto.
  - exists m. split; [right; constructor; exact M|exact M'].
  - exists q. split; [right; eapply below_more; eauto|exact M'].
Qed.

Lemma below_ge : forall st inv, shape st inv -> forall c x, below st c x -> inv <= c -> c < x < length (objs st).
Proof.
  intros st inv H c x B. induction B as [c m [_ [k M]]|c m d [_ [k M]] B IH]; intros L.
  - apply (sh_child _ _ H _ _ _ L M).
  - destruct (sh_child _ _ H _ _ _ L M) as [X _]. specialize (IH ltac:(lia)). lia.
Qed.

Lemma below_trans : forall st a b c, below st a b -> below st b c -> below st a c.
Proof. intros st a b c A B. induction A; eapply below_more; eauto. Qed.

(** The place of something under the new inventory. *)
Lemma below_fits : forall st inv x, shape st inv -> below st inv x ->
  exists q, (q = inv \/ below st inv q) /\ inv <= q /\ In (c_id (obj st x), x) (c_children (obj st q)) /\
    lev (c_kind (obj st x)) = S (lev (c_kind (obj st q))) /\ lev (c_kind (obj st q)) <= 2 /\
    c_parent (obj st x) = Some q /\ fits (lev (c_kind (obj st q))) (c_id (obj st q)) (c_id (obj st x)).
Proof.
  intros st inv x H B. destruct (below_last _ _ _ B) as (q & Q & [_ [k I]]). exists q. split; [exact Q|].
  assert (Lq : inv <= q) by (destruct Q as [->|Q]; [lia|apply (below_ge _ _ H) in Q; lia]).
  destruct (sh_child _ _ H q k x Lq I) as (A1 & A2 & A3 & A4 & A5 & A6 & A7). rewrite A4. auto 10.
Qed.

Lemma fits_same : forall n id k n' id', n <= 2 -> n' <= 2 -> fits n id k -> fits n' id' k -> n = n' /\ (n <> 0 -> id = id').
Proof.
  intros n id k n' id' L L' (G & W & T & (ns & cts & tg & wk & vs & H1 & H2 & H3 & -> & -> & ->) & F) (G' & W' & T' & (ns' & cts' & tg' & wk' & vs' & H1' & H2' & H3' & -> & -> & ->) & F').
  assert (A : plain_part (Group tg)) by exact (cut_part_plain 1 _ H3). assert (B : plain_part (Work tg wk)) by exact (cut_part_plain 2 _ H3).
  assert (A' : plain_part (Group tg')) by exact (cut_part_plain 1 _ H3'). assert (B' : plain_part (Work tg' wk')) by exact (cut_part_plain 2 _ H3').
  destruct n as [|[|[|n]]]; try lia; destruct n' as [|[|[|n']]]; try lia;
    try (match type of F with _ /\ _ => destruct F as [F0 F] end); try (match type of F' with _ /\ _ => destruct F' as [F0' F'] end); rewrite F in F';
    apply write_urn_inj in F'; try assumption; destruct F' as (<- & <- & E); try discriminate E; injection E; intros; subst; split; auto; congruence.
Qed.

Lemma below_unique : forall st inv, shape st inv -> forall n x y, lev (c_kind (obj st x)) <= n -> below st inv x -> below st inv y ->
  c_id (obj st x) = c_id (obj st y) -> x = y.
Proof.
  intros st inv H n. induction n as [|n IH]; intros x y L Bx By E;
    destruct (below_fits _ _ _ H Bx) as (q & Q & Lq & I & S1 & S2 & _ & F);
    destruct (below_fits _ _ _ H By) as (q' & Q' & Lq' & I' & S1' & S2' & _ & F'); [lia|].
  rewrite E in F. destruct (fits_same _ _ _ _ _ S2 S2' F F') as [E1 E2].
  assert (LEV : forall z, below st inv z -> lev (c_kind (obj st z)) <> 0).
  { intros z Z. destruct (below_fits _ _ _ H Z) as (? & _ & _ & _ & X & _). lia. }
  assert (q = q').
  { destruct Q as [->|Q]; destruct Q' as [->|Q']; [reflexivity| | |].
    - rewrite (sh_inv _ _ H) in E1. symmetry in E1. apply LEV in Q'. contradiction.
    - rewrite (sh_inv _ _ H) in E1. apply LEV in Q. contradiction.
    - apply IH; auto; lia. }
  subst q'. rewrite E in I.
  pose proof (In_dget_NoDup _ _ _ _ (sh_dict _ _ H q Lq) I) as D. pose proof (In_dget_NoDup _ _ _ _ (sh_dict _ _ H q Lq) I') as D'. congruence.
Qed.

Lemma shape_tree : forall st inv c, shape st inv -> below st inv c -> tree st c.
Proof.
  intros st inv c H B. assert (IN : forall x, x = c \/ below st c x -> below st inv x).
  { intros x [->|X]; [exact B|eapply below_trans; eauto]. }
  assert (GE : forall x, x = c \/ below st c x -> inv <= x).
  { intros x X. apply IN in X. apply (below_ge _ _ H) in X; lia. }
  split.
  - intros x X. apply (sh_dict _ _ H). auto.
  - intros x k m X _ I. destruct (sh_child _ _ H x k m (GE x X) I) as (_ & _ & _ & E & _). congruence.
  - intros x m X [_ [k I]]. apply (sh_child _ _ H x k m (GE x X) I).
  - intros x y X Y E. apply (below_unique _ _ H (lev (c_kind (obj st x)))); auto.
Qed.

Lemma shape_path : forall st inv t, shape st inv -> below st inv t -> text st t -> exists G g W w T, path st inv G g W w T t.
Proof.
  intros st inv t H B [s K]. destruct (below_inventory _ _ _ (shape_layers _ _ H) B) as [[_ [X _]]|[(g & _ & _ & _ & [X _])|(g & w & [_ [G A]] & _ & [_ [W C]] & _ & [_ [T D]] & _)]]; try congruence.
  exists G, g, W, w, T. split; auto.
Qed.
Lemma path_members : forall st inv G g W w T t, shape st inv -> path st inv G g W w T t ->
  member st inv g /\ member st g w /\ member st w t.
Proof.
  intros st inv G g W w T t H P. pose proof (path_levels _ _ _ _ _ _ _ _ H P) as (K1 & K2 & K3 & _). destruct P as (A & B & C).
  split; [|split]; (split; [intros [s X]|eexists; eassumption]).
  - rewrite (sh_inv _ _ H) in X. discriminate.
  - rewrite X in K1. discriminate.
  - rewrite X in K2. discriminate.
Qed.

Lemma mapM_each : forall {A B} (f : A -> result B) (R : A -> B -> Prop) l, (forall a, In a l -> exists b, f a = Ok b /\ R a b) ->
  exists bs, mapM f l = Ok bs /\ Forall2 R l bs.
Proof.
  intros A B f R l. induction l as [|a l IH]; intros H; [exists []; split; [reflexivity|constructor]|].
  destruct (H a (or_introl eq_refl)) as (b & E & Rb). destruct IH as (bs & E' & F); [intros x Hx; apply H; right; exact Hx|].
  exists (b :: bs). cbn. rewrite E. cbn. rewrite E'. cbn. auto.
Qed.

Lemma inventory_name_one : forall names n, names <> [] -> (forall m, In m names -> m = n) -> inventory_name names = n.
Proof.
  intros [|a l] n H A; [congruence|]. assert (a = n) by (apply A; left; reflexivity). subst a. cbn.
  assert (E : forallb (str_eqb n) l = true); [|rewrite E; reflexivity]. apply forallb_forall. intros m Hm. apply str_eqb_eq. symmetry. apply A. right. exact Hm.
Qed.
Lemma inventory_name_two : forall names a b, In a names -> In b names -> a <> b -> inventory_name names = #"defaultInventory".
Proof.
  intros [|n l] a b A B N; [reflexivity|]. cbn. destruct (forallb (str_eqb n) l) eqn:E; [|reflexivity]. exfalso. rewrite forallb_forall in E.
  assert (X : forall m, In m (n :: l) -> m = n) by (intros m [->|Hm]; [reflexivity|]; symmetry; apply str_eqb_eq, E, Hm). apply N. rewrite (X a A), (X b B). reflexivity.
Qed.
Lemma inventory_name_any : forall names, inventory_name names = #"defaultInventory" \/ In (inventory_name names) names.
Proof. intros [|n l]; [left; reflexivity|]. cbn. destruct (forallb (str_eqb n) l); auto. Qed.

Lemma write_urn_default : forall ns cts p r, write_urn ns cts p r <> #"defaultInventory".
Proof. intros ns cts p r. unfold write_urn. destruct p; cbn; discriminate. Qed.

(** What [get_metadata] does when the key is not an inventory's name. *)

Lemma rebuilt : forall limit order st root cited ns cts p, library st root ->
  plain_ns ns -> plain_ns cts -> plain_part p -> ~ In (write_urn ns cts p None) (keys (c_children (obj st root))) ->
  exists st' inv, get_metadata (5 + limit) order st root cited (Some (write_urn ns cts p None)) = (st', getitem (5 + limit) st' inv (write_urn ns cts p None)) /\
    shape st' inv /\ c_id (obj st' inv) <> write_urn ns cts p None /\ inv = length (objs st) /\
    (forall x, x < inv -> obj st' x = obj st x) /\
    ((forall x, within st root ns cts p x -> cited x = false) -> c_children (obj st' inv) = []) /\
    (forall t, below st' inv t -> text st' t -> exists x, within st root ns cts p x /\ cited x = true /\ c_id (obj st x) = c_id (obj st' t) /\ c_kind (obj st x) = c_kind (obj st' t)) /\
    (forall x, within st root ns cts p x -> cited x = true -> exists G g W w T t, path st' inv G g W w T t /\ c_kind (obj st' t) = c_kind (obj st x) /\
       names G W T /\ T = c_urn (obj st x) /\ T = c_id (obj st x)) /\
    (forall n x, within st root ns cts p x -> cited x = true ->
      (forall x i, within st root ns cts p x -> cited x = true -> lies_in st root x i -> c_id (obj st i) = n) -> c_id (obj st' inv) = n) /\
    (forall x i y j, within st root ns cts p x -> cited x = true -> lies_in st root x i ->
       within st root ns cts p y -> cited y = true -> lies_in st root y j -> i <> j -> c_id (obj st' inv) = #"defaultInventory").
Proof.
  intros limit order st root cited ns cts p L Hns Hcts Hp NK. unfold get_metadata. set (key := write_urn ns cts p None) in *.
  assert (E : existsb (str_eqb key) (map fst (c_children (obj st root))) = false) by (apply existsb_str_false; exact NK). rewrite E. clear E.
  destruct (find_within limit order st root cited ns cts p L Hns Hcts Hp) as (l & El & Hl). fold key in El. rewrite El. cbn [bind].
  destruct (mapM_each (fun t => w <- up st t ;; g <- up st w ;; i <- up st g ;; Ok (c_id (obj st i)))
    (fun x n => exists i, lies_in st root x i /\ n = c_id (obj st i)) l) as (ns' & En & Fn).
  { intros x Hx. apply Hl in Hx. destruct Hx as [(B & T & _) _]. destruct (library_placed st root x L B T) as (w & g & i & P & P1 & P2 & P3).
    exists (c_id (obj st i)). unfold up. rewrite P1. cbn. rewrite P2. cbn. rewrite P3. split; [reflexivity|]. exists i. split; [|reflexivity].
    destruct P as (j & A1 & A2 & A3 & A4).
    assert (Bj : below st root j) by (constructor; exact A1).
    pose proof (tree_parent _ _ (lib_tree _ _ L) j g (or_intror Bj) A2) as X. rewrite P3 in X. injection X as ->.
    split; [exact A1|]. eapply below_more; [exact A2|]. eapply below_more; [exact A3|]. constructor. exact A4. }
  rewrite En. cbn [bind]. set (name := inventory_name ns').
  assert (UQ : forall x i j, lies_in st root x i -> lies_in st root x j -> i = j).
  { intros x i j [M1 B1] [M2 B2]. pose proof (lib_tree _ _ L) as TR.
    assert (G : forall y, below st root y -> forall i j, member st root i -> (i = y \/ below st i y) -> member st root j -> (j = y \/ below st j y) -> i = j).
    { clear - TR L. pose proof (lib_layers _ _ L) as [KR AR].
      assert (NR : ~ below st root root).
      { intros B. inversion B as [c m M|c m d M B']; subst.
        - destruct M as [_ [k M]]. apply AR in M. destruct M as [M _]. congruence.
        - pose proof M as [_ [k M']]. apply AR in M'. destruct (below_inventory _ _ _ M' B') as [[_ [X _]]|[(g & _ & _ & _ & [X _])|(g & w & _ & _ & _ & _ & _ & [s X])]]; congruence. }
      assert (PR : forall i, member st root i -> c_parent (obj st i) = Some root) by (intros i M; apply (tree_parent _ _ TR root i (or_introl eq_refl) M)).
      assert (ST : forall i y, member st root i -> below st i y ->
        exists d1, c_parent (obj st y) = Some d1 /\ (d1 = i \/ exists d2, c_parent (obj st d1) = Some d2 /\ (d2 = i \/ c_parent (obj st d2) = Some i /\ d2 <> root) /\ d2 <> root) /\ d1 <> root).
      { intros i y M B. pose proof M as [_ [k M']]. apply AR in M'. pose proof (PR i M) as Pi.
        assert (Bi : below st root i) by (constructor; exact M). assert (Ni : i <> root) by (intros ->; exact (NR Bi)).
        destruct (below_inventory _ _ _ M' B) as [[A _]|[(g & A1 & _ & A2 & _)|(g & w & A1 & _ & A2 & _ & A3 & _)]].
        - exists i. split; [apply (tree_parent _ _ TR i y (or_intror Bi) A)|]. auto.
        - assert (Bg : below st root g) by (eapply below_more; [exact M|constructor; exact A1]).
          exists g. split; [apply (tree_parent _ _ TR g y (or_intror Bg) A2)|]. split; [|intros ->; exact (NR Bg)]. right. exists i.
          split; [apply (tree_parent _ _ TR i g (or_intror Bi) A1)|]. auto.
        - assert (Bg : below st root g) by (eapply below_more; [exact M|constructor; exact A1]).
          assert (Bw : below st root w) by (eapply below_more; [exact M|]; eapply below_more; [exact A1|constructor; exact A2]).
          exists w. split; [apply (tree_parent _ _ TR w y (or_intror Bw) A3)|]. split; [|intros ->; exact (NR Bw)]. right. exists g.
          split; [apply (tree_parent _ _ TR g w (or_intror Bg) A2)|]. split; [|intros ->; exact (NR Bg)]. right. split; [apply (tree_parent _ _ TR i g (or_intror Bi) A1)|intros ->; exact (NR Bg)]. }
      intros y By i j Mi Qi Mj Qj. pose proof (PR i Mi) as Pi. pose proof (PR j Mj) as Pj.
      assert (Ni : i <> root) by (intros ->; apply NR; constructor; exact Mi). assert (Nj : j <> root) by (intros ->; apply NR; constructor; exact Mj).
      destruct Qi as [->|Qi]; destruct Qj as [->|Qj]; [reflexivity| | |].
      - destruct (ST _ _ Mj Qj) as (d & D1 & _ & D2). congruence.
      - destruct (ST _ _ Mi Qi) as (d & D1 & _ & D2). congruence.
      - destruct (ST _ _ Mi Qi) as (a1 & X1 & X2 & X3). destruct (ST _ _ Mj Qj) as (b1 & Y1 & Y2 & Y3).
        assert (a1 = b1) by congruence. subst b1.
        destruct X2 as [->|(a2 & X4 & X5 & X6)]; destruct Y2 as [->|(b2 & Y4 & Y5 & Y6)]; try congruence.
        assert (a2 = b2) by congruence. subst b2. destruct X5 as [->|[X5 _]]; destruct Y5 as [->|[Y5 _]]; congruence. }
    assert (B : below st root x) by (eapply below_more; eauto). exact (G x B i j M1 (or_intror B1) M2 (or_intror B2)). }
  destruct (new_object st KInventory name []) as [st1 inv] eqn:N.
  assert (inv = length (objs st)) by (unfold new_object in N; injection N as <- <-; reflexivity).
  assert (O1 : forall x, obj st1 x = if Nat.eqb x (length (objs st)) then MkColl KInventory name [] None [] 0 else obj st x).
  { intros x. rewrite <- (obj_new st KInventory name [] x), N. reflexivity. }
  assert (L1 : length (objs st1) = S (length (objs st))).
  { unfold new_object in N. injection N as <-. cbn [objs]. rewrite app_length. cbn. lia. }
  clear N. subst inv. set (inv := length (objs st)) in *.
  assert (NOCH : forall q, inv <= q -> c_children (obj st1 q) = []).
  { intros q Hq. rewrite O1. destruct (Nat.eqb_spec q inv); [reflexivity|]. apply obj_beyond. exact Hq. }
  assert (B0 : built st inv name st1 []).
  { split.
    - split.
      + lia.
      + rewrite O1, Nat.eqb_refl. reflexivity.
      + intros q Hq. rewrite NOCH by exact Hq. constructor.
      + intros q k c Hq I. rewrite NOCH in I by exact Hq. destruct I.
    - intros x Hx. rewrite O1. destruct (Nat.eqb_spec x inv); [lia|reflexivity].
    - rewrite O1, Nat.eqb_refl. reflexivity.
    - intros G g W w T t (A & _). rewrite NOCH in A by lia. destruct A.
    - intros x w g []. }
  destruct (rebuild_all order st root inv name l st1 [] L eq_refl B0) as (st' & E' & B').
  { intros x [[]|Hx]. apply Hl in Hx. destruct Hx as [(B & T & _) _]. auto. }
  rewrite E'. rewrite app_nil_r in B'. pose proof (b_shape _ _ _ _ _ B') as SH.
  exists st', inv. split; [reflexivity|]. split; [exact SH|].
  assert (NM : forall m, In m ns' -> exists x i, In x l /\ lies_in st root x i /\ m = c_id (obj st i)).
  { clear - Fn. induction Fn as [|x n l ns' (i & A & B) Fn IH]; intros m; [intros []|]. intros [<-|Hm].
    - exists x, i. split; [left; reflexivity|auto].
    - destruct (IH m Hm) as (y & j & X1 & X2). exists y, j. split; [right; exact X1|exact X2]. }
  assert (MN : forall x i, In x l -> lies_in st root x i -> In (c_id (obj st i)) ns').
  { clear - Fn UQ. induction Fn as [|x n l ns' (i & A & B) Fn IH]; intros y j; [intros []|]. intros [<-|Hm] Y.
    - left. rewrite B, (UQ _ _ _ A Y). reflexivity.
    - right. eapply IH; eauto. }
  rewrite (b_id _ _ _ _ _ B'). split.
  { unfold name. destruct (inventory_name_any ns') as [->|I]; [apply not_eq_sym; apply write_urn_default|]. intros X. rewrite X in I.
    destruct (NM _ I) as (x & i & _ & [M _] & Ek). apply NK. destruct M as [M0 [k M]]. pose proof (tree_key _ _ (lib_tree _ _ L) root k i (or_introl eq_refl) M0 M) as Kk.
    unfold keys. apply in_map_iff. exists (k, i). split; [cbn [fst]; rewrite Kk; symmetry; exact Ek|exact M]. }
  split; [reflexivity|]. split; [exact (b_old _ _ _ _ _ B')|]. split; [|split; [|split; [|split]]].
  - intros NF. assert (l = []).
    { destruct l as [|x l']; [reflexivity|]. exfalso. destruct (proj1 (Hl x) (or_introl eq_refl)) as [X1 X2]. rewrite (NF x X1) in X2. discriminate. }
    subst l. cbn [fold_left] in E'. injection E' as <-. apply NOCH. lia.
  - intros t Bt Tt. destruct (shape_path _ _ _ SH Bt Tt) as (G & g & W & w & T & P).
    destruct (b_sound _ _ _ _ _ B' _ _ _ _ _ _ P) as (x & X1 & X2 & X3). rewrite <- in_rev in X1. apply Hl in X1. destruct X1 as [X1 X4].
    exists x. split; [exact X1|]. split; [exact X4|]. split; [|exact X3]. pose proof (path_levels _ _ _ _ _ _ _ _ SH P) as (_ & _ & _ & _ & _ & _ & _ & _ & ->).
    destruct X1 as (B & T' & _). destruct (library_placed st root x L B T') as (w1 & g1 & i1 & Px & _).
    destruct (lib_names _ _ L x w1 g1 Px) as (? & ? & ? & ? & ? & _ & _ & _ & _ & _ & _ & Ex). congruence.
  - intros x Wx Cx. destruct Wx as (B & T & Wx). destruct (library_placed st root x L B T) as (w & g & i & P & P1 & P2 & P3).
    destruct (b_complete _ _ _ _ _ B' x w g) as (g' & w' & t' & Pt & Kt); auto.
    { rewrite <- in_rev. apply Hl. split; [split; auto|exact Cx]. }
    do 6 eexists. split; [exact Pt|]. split; [exact Kt|].
    destruct (lib_names _ _ L x w g P) as (ns1 & cts1 & tg & wk & vs & H1 & H2 & H3 & Eg & Ew & Et & Eid).
    split; [exists ns1, cts1, tg, wk, vs; auto 10|]. split; [reflexivity|congruence].
  - intros n x Wx Cx A. apply inventory_name_one.
    + assert (Ix : In x l) by (apply Hl; auto). destruct Fn; [destruct Ix|discriminate].
    + intros m Hm. destruct (NM m Hm) as (y & i & Y1 & Y2 & ->). apply Hl in Y1. destruct Y1. eapply A; eauto.
  - intros x i y j Wx Cx Lx Wy Cy Ly NE. apply (inventory_name_two ns' (c_id (obj st i)) (c_id (obj st j))).
    + apply (MN x); [apply Hl; auto|exact Lx].
    + apply (MN y); [apply Hl; auto|exact Ly].
    + intros X. apply NE. apply (tree_ids _ _ (lib_tree _ _ L)); [right; constructor; apply Lx|right; constructor; apply Ly|exact X].
Qed.

Lemma shape_contains : forall limit st inv key, shape st inv -> exists b, contains (5 + limit) st inv key = Ok b.
Proof.
  intros limit st inv key H. destruct (inventory_layer_texts (S limit) st inv (shape_layers _ _ H)) as (_ & d & E & _).
  unfold contains. change (5 + limit) with (S (S (S (S (S limit))))). rewrite E. eexists. reflexivity.
Qed.

Lemma shape_getitem : forall limit st inv key, shape st inv ->
  (exists x, getitem (5 + limit) st inv key = Ok x /\ (x = inv \/ below st inv x) /\ c_id (obj st x) = key) \/
  (getitem (5 + limit) st inv key = Err UnknownCollection /\ forall x, x = inv \/ below st inv x -> c_id (obj st x) <> key).
Proof.
  intros limit st inv key H. destruct (shape_contains limit st inv key H) as [b E]. pose proof (getitem_contains _ _ _ _ _ E) as G. destruct b.
  - left. destruct G as [x G]. exists x. split; [exact G|]. eapply getitem_ok; eauto.
  - right. split; [exact G|]. destruct (getitem_err _ _ _ _ _ G) as [[_ X]|[X _]]; [exact X|discriminate].
Qed.

Lemma metadata_found : forall limit order st root cited ns cts p, library st root ->
  plain_ns ns -> plain_ns cts -> plain_part p -> 1 <= part_size p -> ~ In (write_urn ns cts p None) (keys (c_children (obj st root))) ->
  (exists x, within st root ns cts p x /\ cited x = true) ->
  exists st' c inv, get_metadata (5 + limit) order st root cited (Some (write_urn ns cts p None)) = (st', Ok c) /\
    c_id (obj st' c) = write_urn ns cts p None /\ kind_at (part_size p) (c_kind (obj st' c)) /\ tree st' c /\
    (forall x, x < length (objs st) -> obj st' x = obj st x) /\ length (objs st) <= c /\
    (forall x, within st root ns cts p x -> cited x = true ->
       exists t, (t = c \/ below st' c t) /\ c_id (obj st' t) = c_id (obj st x) /\ c_kind (obj st' t) = c_kind (obj st x)) /\
    (forall t, (t = c \/ below st' c t) -> text st' t ->
       exists x, within st root ns cts p x /\ cited x = true /\ c_id (obj st' t) = c_id (obj st x) /\ c_kind (obj st' t) = c_kind (obj st x)) /\
    below st' inv c /\ c_kind (obj st' inv) = KInventory /\
    (forall n, (forall x i, within st root ns cts p x -> cited x = true -> lies_in st root x i -> c_id (obj st i) = n) -> c_id (obj st' inv) = n) /\
    (forall x i y j, within st root ns cts p x -> cited x = true -> lies_in st root x i ->
       within st root ns cts p y -> cited y = true -> lies_in st root y j -> i <> j -> c_id (obj st' inv) = #"defaultInventory").
Proof.
  intros limit order st root cited ns cts p L Hns Hcts Hp Hs NK (x0 & W0 & C0).
  destruct (rebuilt limit order st root cited ns cts p L Hns Hcts Hp NK) as (st' & inv & E & SH & NI & EI & OLD & _ & SO & CO & N1 & N2).
  assert (FD : forall x, within st root ns cts p x -> cited x = true -> exists c t, below st' inv c /\ c_id (obj st' c) = write_urn ns cts p None /\
    kind_at (part_size p) (c_kind (obj st' c)) /\ (t = c \/ below st' c t) /\ c_id (obj st' t) = c_id (obj st x) /\ c_kind (obj st' t) = c_kind (obj st x)).
  { intros x Wx Cx. destruct (CO x Wx Cx) as (G & g & W & w & T & t & P & K & Nm & ET & EI').
    pose proof (path_members _ _ _ _ _ _ _ _ SH P) as (M1 & M2 & M3).
    pose proof (path_levels _ _ _ _ _ _ _ _ SH P) as (K1 & K2 & K3 & _ & _ & _ & I1 & I2 & I3).
    destruct Nm as (ns1 & cts1 & tg & wk & vs & H1 & H2 & H3 & Eg & Ew & Et).
    destruct Wx as (_ & _ & p' & Hp' & Eu & Ep). rewrite <- ET, Et in Eu. apply write_urn_inj in Eu; try assumption. destruct Eu as (-> & -> & <-).
    assert (Kg : c_kind (obj st' g) = KTextgroup) by (destruct (c_kind (obj st' g)) as [|[| | |]| | | |]; cbn in K1; congruence).
    assert (Kw : c_kind (obj st' w) = KWork) by (destruct (c_kind (obj st' w)) as [|[| | |]| | | |]; cbn in K2; congruence).
    assert (Kt : exists s, c_kind (obj st' t) = KText s) by (destruct (c_kind (obj st' t)) as [|s| | | |]; cbn in K3; try congruence; exists s; reflexivity).
    assert (Bg : below st' inv g) by (constructor; exact M1).
    assert (Bw : below st' inv w) by (eapply below_more; [exact M1|constructor; exact M2]).
    assert (Bt : below st' inv t) by (eapply below_more; [exact M1|]; eapply below_more; [exact M2|constructor; exact M3]).
    destruct p as [|tg0|tg0 wk0|tg0 wk0 vs0]; cbn [part_size] in *; [lia| | |]; cbn in Ep; injection Ep; intros; subst.
    - exists g, t. split; [exact Bg|]. split; [exact I1|]. split; [exact Kg|]. split; [right; eapply below_more; [exact M2|constructor; exact M3]|]. split; congruence.
    - exists w, t. split; [exact Bw|]. split; [exact I2|]. split; [exact Kw|]. split; [right; constructor; exact M3|]. split; congruence.
    - exists t, t. split; [exact Bt|]. split; [congruence|]. split; [exact Kt|]. split; [left; reflexivity|]. split; congruence. }
  destruct (FD x0 W0 C0) as (c & t0 & Bc & Ic & Kc & _).
  assert (UN : forall y, below st' inv y -> c_id (obj st' y) = write_urn ns cts p None -> y = c).
  { intros y By Ey. apply (below_unique _ _ SH (lev (c_kind (obj st' y)))); auto; congruence. }
  exists st', c, inv. split.
  { rewrite E. f_equal. destruct (shape_getitem limit st' inv (write_urn ns cts p None) SH) as [(y & G & [->|Y] & Ey)|[_ X]].
    - contradiction.
    - rewrite G. f_equal. apply UN; assumption.
    - exfalso. exact (X c (or_intror Bc) Ic). }
  split; [exact Ic|]. split; [exact Kc|]. split; [eapply shape_tree; eauto|]. rewrite <- EI. split; [exact OLD|].
  pose proof (below_ge _ _ SH _ _ Bc (le_n _)). split; [lia|]. split.
  { intros x Wx Cx. destruct (FD x Wx Cx) as (c' & t & B' & I' & _ & Q & Q1 & Q2). rewrite (UN c' B' I') in Q. exists t. auto. }
  split.
  { intros t Q Tt. destruct (SO t) as (x & X1 & X2 & X3 & X4).
    - destruct Q as [->|Q]; [exact Bc|eapply below_trans; eauto].
    - exact Tt.
    - exists x. auto. }
  split; [exact Bc|]. split; [apply (sh_inv _ _ SH)|]. split; [|exact N2]. intros n. exact (N1 n x0 W0 C0).
Qed.

Lemma metadata_missing : forall limit order st root cited ns cts p, library st root ->
  plain_ns ns -> plain_ns cts -> plain_part p -> ~ In (write_urn ns cts p None) (keys (c_children (obj st root))) ->
  (part_size p = 0 \/ forall x, within st root ns cts p x -> cited x = false) ->
  exists st', get_metadata (5 + limit) order st root cited (Some (write_urn ns cts p None)) = (st', Err UnknownCollection) /\
    (forall x, x < length (objs st) -> obj st' x = obj st x).
Proof.
  intros limit order st root cited ns cts p L Hns Hcts Hp NK H.
  destruct (rebuilt limit order st root cited ns cts p L Hns Hcts Hp NK) as (st' & inv & E & SH & NI & EI & OLD & NC & SO & CO & _).
  exists st'. rewrite E. split; [|rewrite <- EI; exact OLD]. f_equal.
  destruct (shape_getitem limit st' inv (write_urn ns cts p None) SH) as [(y & G & [->|Y] & Ey)|[X _]]; [contradiction| |exact X].
  exfalso.
  destruct (below_fits _ _ _ SH Y) as (q & _ & _ & _ & _ & _ & _ & (G1 & W1 & T1 & (ns1 & cts1 & tg & wk & vs & H1 & H2 & H3 & -> & -> & ->) & F)).
  assert (A : plain_part (Group tg)) by exact (cut_part_plain 1 _ H3). assert (B : plain_part (Work tg wk)) by exact (cut_part_plain 2 _ H3).
  destruct H as [Hz|H].
  - rewrite Ey in F. destruct p; try discriminate Hz.
    destruct (lev (c_kind (obj st' q))) as [|[|n]]; [|destruct F as [_ F]|destruct F as [_ F]]; apply write_urn_inj in F; try assumption; destruct F as (_ & _ & F); discriminate F.
  - specialize (NC H). inversion Y as [a b [_ [k M]]|a b d [_ [k M]] _]; subst; rewrite NC in M; destruct M.
Qed.

(** ** Looking up a text *)

Lemma library_contains : forall limit st root key, library st root -> exists b, contains (5 + limit) st root key = Ok b.
Proof.
  intros limit st root key L. destruct (collection_layer_texts limit st root (lib_layers _ _ L)) as (d & E & _).
  unfold contains. change (5 + limit) with (S (S (S (S (S limit))))). rewrite E. eexists. reflexivity.
Qed.

Lemma library_getitem : forall limit st root key, library st root ->
  (exists x, getitem (5 + limit) st root key = Ok x /\ (x = root \/ below st root x) /\ c_id (obj st x) = key) \/
  (getitem (5 + limit) st root key = Err UnknownCollection /\ forall x, x = root \/ below st root x -> c_id (obj st x) <> key).
Proof.
  intros limit st root key L. destruct (library_contains limit st root key L) as [b E]. pose proof (getitem_contains _ _ _ _ _ E) as G. destruct b.
  - left. destruct G as [x G]. exists x. split; [exact G|]. eapply getitem_ok; eauto.
  - right. split; [exact G|]. destruct (getitem_err _ _ _ _ _ G) as [[_ X]|[X _]]; [exact X|discriminate].
Qed.

Lemma parse_read : forall ns cts p r o, plain_ns ns -> plain_ns cts -> plain_part p -> 1 <= part_size p -> ref_read r o ->
  urn_parse (write_urn ns cts p r) = Ok (parsed_urn ns cts p r o).
Proof.
  intros ns cts p r o H1 H2 H3 H4 H5. apply urn_parse_written; auto. destruct r as [r|]; [|exact H5].
  split; [|exact H5]. intros ->. cbn in H4. lia.
Qed.

Lemma get_text_eq : forall limit st root urn, get_text limit st root urn =
  (u <- urn_parse urn ;;
   match urn_len u with
   | 5 => s <- to_str u ;; getitem limit st root s
   | 4 =>
       p <- urn_upto WORK u ;;
       l <- readable_descendants limit st root ;;
       match filter (fun t => startswith (c_id (obj st t)) p && is_edition (c_kind (obj st t))) l with
       | [] => Err UnknownObjectError
       | t :: _ => u' <- urn_parse (c_id (obj st t)) ;; s <- to_str u' ;; getitem limit st root s
       end
   | _ => Err InvalidURN
   end).
Proof.
  intros limit st root urn. unfold get_text, read_urn. destruct (urn_parse urn) as [u|e]; [|reflexivity]. cbn [bind].
  destruct (urn_len u) as [|[|[|[|[|[|n]]]]]]; try reflexivity.
  destruct (urn_upto WORK u) as [p|e]; [|reflexivity]. cbn [bind].
  destruct (readable_descendants limit st root) as [l|e]; [|reflexivity]. cbn [bind].
  destruct (filter _ l); reflexivity.
Qed.

Lemma get_text_version : forall limit st root ns cts tg wk vs r o, library st root ->
  plain_ns ns -> plain_ns cts -> plain_part (Version tg wk vs) -> ref_read r o ->
  get_text limit st root (write_urn ns cts (Version tg wk vs) r) = getitem limit st root (write_urn ns cts (Version tg wk vs) r).
Proof.
  intros limit st root ns cts tg wk vs r o L H1 H2 H3 H4. rewrite get_text_eq.
  pose proof (parse_read ns cts _ r o H1 H2 H3 ltac:(cbn; lia) H4) as P.
  assert (X : to_str (parsed_urn ns cts (Version tg wk vs) r o) = Ok (write_urn ns cts (Version tg wk vs) r)).
  { rewrite (urn_parse_str _ _ P). f_equal. apply not_hash_split. apply write_urn_no_hash; auto. destruct r; [apply H4|exact I]. }
  rewrite P. cbn [bind]. rewrite part_urn by (cbn; lia). cbn [part_size Nat.add]. rewrite X. reflexivity.
Qed.

Lemma prefix_sep : forall (c : char) a a' x y, ~ In c a -> ~ In c a' -> (exists t, a' ++ c :: y = (a ++ c :: x) ++ t) -> a = a' /\ exists t, y = x ++ t.
Proof.
  intros c a. induction a as [|b a IH]; intros a' x y N N' [t E].
  - destruct a' as [|b' a']; cbn in E; [injection E as ->; split; [reflexivity|eauto]|]. injection E as -> _. destruct N'. left. reflexivity.
  - destruct a' as [|b' a']; cbn in E; [injection E as -> _; destruct N; left; reflexivity|]. injection E as -> E.
    destruct (IH a' x y) as [-> T]; [intros I; apply N; right; exact I|intros I; apply N'; right; exact I|eauto|]. auto.
Qed.
Lemma prefix_short : forall (c : char) a a' y, ~ In c a -> (exists t, a' ++ c :: y = a ++ t) -> exists t, a' = a ++ t.
Proof.
  intros c a. induction a as [|b a IH]; intros a' y N [t E]; [exists a'; reflexivity|].
  destruct a' as [|b' a']; cbn in E; [injection E as -> _; destruct N; left; reflexivity|]. injection E as -> E.
  destruct (IH a' y) as [u ->]; [intros I; apply N; right; exact I|eauto|]. exists u. reflexivity.
Qed.

(** Texts whose identifier begins like the URN of a work. *)
Lemma work_prefix : forall ns cts tg wk ns' cts' tg' wk' vs', plain_ns ns -> plain_ns cts -> plain_part (Work tg wk) ->
  plain_ns ns' -> plain_ns cts' -> plain_part (Version tg' wk' vs') ->
  startswith (write_urn ns' cts' (Version tg' wk' vs') None) (write_urn ns cts (Work tg wk) None) = true <->
  ns' = ns /\ cts' = cts /\ tg' = tg /\ exists z, wk' = wk ++ z.
Proof.
  intros ns cts tg wk ns' cts' tg' wk' vs' (_ & A1 & _) (_ & A2 & _) [(_ & _ & _ & A3) (_ & _ & _ & A4)] (_ & B1 & _) (_ & B2 & _) ((_ & _ & _ & B3) & (_ & _ & _ & B4) & _).
  rewrite startswith_spec. unfold write_urn, write_part. rewrite !app_nil_r. split.
  - intros [t E]. rewrite <- (app_assoc #"urn") in E. apply app_inv_head in E. cbn [app] in E. injection E as E.
    destruct (prefix_sep _ ns ns' _ _ A1 B1 (ex_intro _ t E)) as [<- [t1 E1]].
    destruct (prefix_sep _ cts cts' _ _ A2 B2 (ex_intro _ t1 E1)) as [<- [t2 E2]].
    destruct (prefix_sep _ tg tg' _ _ A3 B3 (ex_intro _ t2 E2)) as [<- [t3 E3]].
    destruct (prefix_short c_dot wk wk' vs' A4 (ex_intro _ t3 E3)) as [z Z]. eauto 10.
  - intros (-> & -> & -> & z & ->). exists (z ++ c_dot :: vs'). repeat (rewrite <- app_assoc; cbn [app]). reflexivity.
Qed.

Lemma get_text_work : forall limit st root ns cts tg wk r o, library st root ->
  plain_ns ns -> plain_ns cts -> plain_part (Work tg wk) -> ref_read r o ->
  exists l, readable_descendants (5 + limit) st root = Ok l /\ (forall x, In x l <-> below st root x /\ text st x) /\
    let good x := c_kind (obj st x) = KText Edition /\ exists wk' vs, c_id (obj st x) = write_urn ns cts (Version tg wk' vs) None /\
    plain_part (Version tg wk' vs) /\ exists z, wk' = wk ++ z in
    (exists before x after, l = before ++ x :: after /\ good x /\ Forall (fun y => ~ good y) before /\
    get_text (5 + limit) st root (write_urn ns cts (Work tg wk) r) = Ok x) \/
    (Forall (fun y => ~ good y) l /\ get_text (5 + limit) st root (write_urn ns cts (Work tg wk) r) = Err UnknownObjectError).
Proof.
  intros limit st root ns cts tg wk r o L H1 H2 H3 H4. rewrite get_text_eq.
  rewrite (parse_read ns cts _ r o H1 H2 H3 ltac:(cbn; lia) H4). cbn [bind]. rewrite part_urn by (cbn; lia). cbn [part_size Nat.add].
  rewrite upto_work by (exact H3 || (cbn; lia)). cbn [bind cut_part].
  destruct (collection_layer_texts limit st root (lib_layers _ _ L)) as (d & Hd & _).
  assert (RD : readable_descendants (5 + limit) st root = Ok (filter (readable st) d)).
  { unfold readable_descendants. change (5 + limit) with (S (S (S (S (S limit))))). rewrite Hd. reflexivity. }
  change (S (S (S (S (S limit))))) with (5 + limit) in *.
  assert (PX : forall x, In x (filter (readable st) d) <-> below st root x /\ text st x).
  { intros x. rewrite filter_In, (descendants_below _ _ _ _ Hd x). unfold readable. rewrite is_text_spec. reflexivity. }
  set (l := filter (readable st) d) in *. exists l. split; [exact RD|]. split; [exact PX|]. cbv zeta.
  set (good := fun x => c_kind (obj st x) = KText Edition /\ exists wk' vs, c_id (obj st x) = write_urn ns cts (Version tg wk' vs) None /\
       plain_part (Version tg wk' vs) /\ exists z, wk' = wk ++ z).
  set (test := fun t => startswith (c_id (obj st t)) (write_urn ns cts (Work tg wk) None) && is_edition (c_kind (obj st t))).
  assert (GT : forall x, In x l -> (test x = true <-> good x) /\ exists ns' cts' tg' wk' vs', plain_ns ns' /\ plain_ns cts' /\ plain_part (Version tg' wk' vs') /\ c_id (obj st x) = write_urn ns' cts' (Version tg' wk' vs') None).
  { intros x Hx. apply PX in Hx. destruct Hx as [B T]. destruct (library_placed st root x L B T) as (w & g & i & P & _).
    destruct (lib_names _ _ L x w g P) as (ns' & cts' & tg' & wk' & vs' & X1 & X2 & X3 & _ & _ & Ex & Eid). rewrite Ex in Eid. split.
    - unfold test, good. rewrite andb_true_iff, Eid, work_prefix by assumption. split.
      + intros [(-> & -> & -> & z & ->) K]. split; [destruct (c_kind (obj st x)) as [|[| | |]| | | |]; cbn in K; congruence|]. exists (wk ++ z), vs'. eauto.
      + intros [K (wk1 & vs1 & E & Pl & z & ->)]. apply write_urn_inj in E; try assumption. destruct E as (-> & -> & E). injection E as -> -> ->.
        rewrite K. split; [eauto 10|reflexivity].
    - exists ns', cts', tg', wk', vs'. auto. }
  rewrite RD. cbn [bind]. fold test.
  assert (SP : forall m, (forall x, In x m -> In x l) -> (filter test m = [] /\ Forall (fun y => ~ good y) m) \/
    exists b x a r', m = b ++ x :: a /\ filter test m = x :: r' /\ good x /\ Forall (fun y => ~ good y) b).
  { induction m as [|y m IH]; intros Hm; [left; auto|]. destruct (GT y (Hm y (or_introl eq_refl))) as [G _].
    cbn [filter]. destruct (test y) eqn:E.
    - right. exists [], y, m, (filter test m). split; [reflexivity|]. split; [reflexivity|]. split; [apply G; reflexivity|constructor].
    - assert (N : ~ good y) by (intros X; apply G in X; congruence).
      destruct (IH (fun x Hx => Hm x (or_intror Hx))) as [[F1 F2]|(b & x & a & r' & -> & F1 & F2 & F3)].
      + left. auto.
      + right. exists (y :: b), x, a, r'. auto. }
  destruct (SP l (fun x Hx => Hx)) as [[F1 F2]|(b & x & a & r' & E & F1 & F2 & F3)]; rewrite F1.
  - right. auto.
  - left. exists b, x, a. split; [exact E|]. split; [exact F2|]. split; [exact F3|].
    assert (Ix : In x l) by (rewrite E, in_app_iff; right; left; reflexivity).
    destruct (GT x Ix) as [_ (ns' & cts' & tg' & wk' & vs' & X1 & X2 & X3 & Ex)]. rewrite Ex.
    pose proof (urn_parse_written ns' cts' _ None None X1 X2 X3 eq_refl) as P. rewrite P. cbn [bind].
    rewrite (urn_parse_str _ _ P). cbn [bind]. rewrite not_hash_split by (apply write_urn_no_hash; auto). rewrite <- Ex.
    apply PX in Ix. destruct Ix as [Bx Tx].
    destruct (library_getitem limit st root (c_id (obj st x)) L) as [(y & G & Y & Ey)|[_ X]]; [|exfalso; exact (X x (or_intror Bx) eq_refl)].
    rewrite G. f_equal. apply (tree_ids _ _ (lib_tree _ _ L)); auto.
Qed.
