(** Properties C34 to C37: the local resolver. *)

From Coq Require Import List NArith ZArith Arith Bool Lia.
From Verif Require Import PyStr PyStrFacts RefModel UrnModel UrnSpec UrnProofs MetaModel CollModel CollSpec CollProofs CollHist
  LocalModel LocalSpec LocalProofs.
Import ListNotations.

(** A collection to try the statements on: two inventories; the work w10 has an
    edition, the work w1 a translation. *)
Definition name_tg : str := #"urn:cts:x:tg".
Definition name_w10 : str := #"urn:cts:x:tg.w10".
Definition name_w1 : str := #"urn:cts:x:tg.w1".
Definition name_e : str := #"urn:cts:x:tg.w10.e".
Definition name_t : str := #"urn:cts:x:tg.w1.t".
Definition name_og : str := #"urn:cts:x:og".
Definition name_ow : str := #"urn:cts:x:og.w".
Definition name_oc : str := #"urn:cts:x:og.w.c".
Definition shelf_objs : list coll :=
  [ MkColl KInventoryCollection #"root" [] None [(#"a", 1); (#"b", 7)] 0;
    MkColl KInventory #"a" [] (Some 0) [(name_tg, 2)] 0;
    MkColl KTextgroup name_tg name_tg (Some 1) [(name_w10, 3); (name_w1, 4)] 0;
    MkColl KWork name_w10 name_w10 (Some 2) [(name_e, 5)] 0;
    MkColl KWork name_w1 name_w1 (Some 2) [(name_t, 6)] 0;
    MkColl (KText Edition) name_e name_e (Some 3) [] 0;
    MkColl (KText Translation) name_t name_t (Some 4) [] 0;
    MkColl KInventory #"b" [] (Some 0) [(name_og, 8)] 0;
    MkColl KTextgroup name_og name_og (Some 7) [(name_ow, 9)] 0;
    MkColl KWork name_ow name_ow (Some 8) [(name_oc, 10)] 0;
    MkColl (KText Commentary) name_oc name_oc (Some 9) [] 0 ].
Definition shelf_with (gs : list graph) : state := MkState shelf_objs gs.
Definition shelf : state := shelf_with [[]].

Lemma shelf_member : forall gs c m, member (shelf_with gs) c m ->
  In (c, m) [(0, 1); (0, 7); (1, 2); (2, 3); (2, 4); (3, 5); (4, 6); (7, 8); (8, 9); (9, 10)].
Proof.
  intros gs c m [_ [k I]].
  do 11 (destruct c as [|c]; [cbn in I; repeat (destruct I as [I|I]; [injection I as <- <-; cbn; tauto|]); destruct I|]).
  unfold obj in I. rewrite nth_overflow in I by (cbn; lia). destruct I.
Qed.
Lemma shelf_below : forall gs c x, below (shelf_with gs) c x -> In x [1; 2; 3; 4; 5; 6; 7; 8; 9; 10].
Proof.
  intros gs c x B. induction B as [c m M|c m d M B IH]; [|exact IH]. apply shelf_member in M. cbn in M.
  repeat (destruct M as [M|M]; [injection M as <- <-; cbn; tauto|]). destruct M.
Qed.

Lemma shelf_placed : forall gs x w g, placed (shelf_with gs) 0 x w g -> In (g, w, x) [(2, 3, 5); (2, 4, 6); (8, 9, 10)].
Proof.
  intros gs x w g (i & A & B & C & D).
  apply shelf_member in A. apply shelf_member in B. apply shelf_member in C. apply shelf_member in D. cbn in A, B, C, D |- *.
  repeat (destruct A as [A|A]; [injection A; intros; try discriminate; subst|]); try contradiction;
  repeat (destruct B as [B|B]; [injection B; intros; try discriminate; subst|]); try contradiction;
  repeat (destruct C as [C|C]; [injection C; intros; try discriminate; subst|]); try contradiction;
  repeat (destruct D as [D|D]; [injection D; intros; try discriminate; subst|]); try contradiction; tauto.
Qed.

Ltac plain_now := repeat split; try discriminate; cbn; intros X; repeat (destruct X as [X|X]; [discriminate X|]); exact X.

Lemma plain_cts : plain_ns #"cts". Proof. plain_now. Qed.
Lemma plain_x : plain_ns #"x". Proof. plain_now. Qed.
Lemma plain_e : plain_part (Version #"tg" #"w10" #"e"). Proof. plain_now. Qed.
Lemma plain_t : plain_part (Version #"tg" #"w1" #"t"). Proof. plain_now. Qed.
Lemma plain_c : plain_part (Version #"og" #"w" #"c"). Proof. plain_now. Qed.

Example shelf_library : forall gs, library (shelf_with gs) 0.
Proof.
  intros gs. split.
  - split; [reflexivity|]. intros k m I. cbn in I.
    repeat (destruct I as [I|I]; [injection I as <- <-|]); try destruct I;
    (split; [reflexivity|]; intros k' m' I; cbn in I; repeat (destruct I as [I|I]; [injection I as <- <-|]); try destruct I;
     (split; [reflexivity|]; intros k'' m'' I; cbn in I; repeat (destruct I as [I|I]; [injection I as <- <-|]); try destruct I;
      (split; [reflexivity|]; intros k3 m3 I; cbn in I; repeat (destruct I as [I|I]; [injection I as <- <-|]); try destruct I; eexists; reflexivity))).
  - assert (R : forall x, x = 0 \/ below (shelf_with gs) 0 x -> In x [0; 1; 2; 3; 4; 5; 6; 7; 8; 9; 10]).
    { intros x [->|B]; [left; reflexivity|right; exact (shelf_below _ _ _ B)]. }
    split.
    + intros x X. apply R in X. cbn in X. repeat (destruct X as [<-|X]; [cbn; repeat constructor; cbn; intros Y; repeat (destruct Y as [Y|Y]; [discriminate Y|]); exact Y|]). destruct X.
    + intros x k m _ N I. assert (M : member (shelf_with gs) x m) by (split; [exact N|eauto]). apply shelf_member in M. cbn in M.
      repeat (destruct M as [M|M]; [injection M as <- <-; cbn in I; repeat (destruct I as [I|I]; [inversion I; reflexivity|]); destruct I|]). destruct M.
    + intros x m _ M. apply shelf_member in M. cbn in M. repeat (destruct M as [M|M]; [injection M as <- <-; reflexivity|]). destruct M.
    + intros x y X Y E. apply R in X. apply R in Y. cbn in X, Y.
      repeat (destruct X as [<-|X]; [repeat (destruct Y as [<-|Y]; [first [reflexivity | discriminate E]|]); destruct Y|]). destruct X.
  - intros x w g P. apply shelf_placed in P. cbn in P.
    destruct P as [P|[P|[P|[]]]]; injection P as <- <- <-.
    + exists #"cts", #"x", #"tg", #"w10", #"e". split; [exact plain_cts|]. split; [exact plain_x|]. split; [exact plain_e|]. repeat split.
    + exists #"cts", #"x", #"tg", #"w1", #"t". split; [exact plain_cts|]. split; [exact plain_x|]. split; [exact plain_t|]. repeat split.
    + exists #"cts", #"x", #"og", #"w", #"c". split; [exact plain_cts|]. split; [exact plain_x|]. split; [exact plain_c|]. repeat split.
  - intros x w g P. apply shelf_placed in P. cbn in P. destruct P as [P|[P|[P|[]]]]; injection P as <- <- <-; discriminate.
Qed.

(** ** C34: dispatching *)

(** A collection goes to the inventory of the last registered filter that says
    True, else to the default one; an unknown inventory is a KeyError; the error of
    a filter is passed on. *)
Theorem C34_dispatch : forall st root default c path filters d, new_dispatcher st root (Some default) = Ok d ->
  c_kind (obj st root) = KInventoryCollection -> c < length (objs st) ->
  exists r, goes (fun f => f st c path) default filters r /\
    match r with
    | Err e => dispatch st (registered d filters) c path = (st, Err e)
    | Ok name =>
        (~ In name (keys (c_children (obj st root))) /\ dispatch st (registered d filters) c path = (st, Err KeyError)) \/
        (exists i, dget name (c_children (obj st root)) = Some i /\
          forall st' r, i < length (objs st) -> i <> c -> dispatch st (registered d filters) c path = (st', r) ->
            r = Ok tt /\ c_parent (obj st' c) = Some i /\ c_children (obj st' c) = c_children (obj st c) /\
            (forall x, x <> c -> x <> i -> obj st' x = obj st x) /\
            c_children (obj st' i) = (if in_dec str_eq_dec (c_id (obj st c)) (keys (c_children (obj st i)))
                                      then c_children (obj st i) else c_children (obj st i) ++ [(c_id (obj st c), c)]))
    end.
Proof.
  intros st root default c path filters d Hd K Hc. destruct (dispatch_goes st root default c path filters d Hd) as (r & G & E).
  exists r. split; [exact G|]. destruct r as [name|e]; [|exact E]. rewrite E. unfold child.
  destruct (dget name (c_children (obj st root))) as [i|] eqn:D.
  - right. exists i. split; [reflexivity|]. intros st' r Hi NE H. injection H as <- <-. split; [reflexivity|].
    rewrite !obj_set_parent by assumption. cbv zeta. cbn [c_parent c_children]. rewrite Nat.eqb_refl.
    destruct (Nat.eqb_spec i c); [contradiction|]. cbn [andb]. split; [reflexivity|]. split; [reflexivity|]. split.
    + intros x X1 X2. rewrite obj_set_parent by assumption. cbv zeta. destruct (Nat.eqb_spec c x); [congruence|]. destruct (Nat.eqb_spec i x); [congruence|].
      cbn [andb]. destruct (obj st x); reflexivity.
    + rewrite Nat.eqb_refl. cbn [andb].
      destruct (in_dec str_eq_dec (c_id (obj st c)) (keys (c_children (obj st i)))) as [I|I].
      * apply existsb_str in I. rewrite I. reflexivity.
      * apply existsb_str_false in I. rewrite I. reflexivity.
  - left. split; [apply dget_none; exact D|]. rewrite K. reflexivity.
Qed.
Print Assumptions C34_dispatch.

(** There is only one place to go, whatever the filters. *)
Theorem C34_one : forall says default filters r r', goes says default filters r -> goes says default filters r' -> r = r'.
Proof.
  intros says default filters.
  assert (U : forall (b b' : list (filter_fun * str)) x x' a a', b ++ x :: a = b' ++ x' :: a' ->
    says (fst x) <> Ok false -> says (fst x') <> Ok false -> Forall (fun y => says (fst y) = Ok false) a -> Forall (fun y => says (fst y) = Ok false) a' -> x = x').
  { induction b as [|y b IH]; intros [|y' b'] x x' a a' E N N' F F'; cbn in E; injection E as E1 E2.
    - exact E1.
    - subst. rewrite Forall_app in F. destruct F as [_ F]. inversion F; congruence.
    - subst. rewrite Forall_app in F'. destruct F' as [_ F']. inversion F'; congruence.
    - eauto. }
  intros r r' [b f n a E H F|F|b f n a e E H F] [b' f' n' a' E' H' F'|F'|b' f' n' a' e' E' H' F']; try reflexivity; subst.
  - assert (X : (f, n) = (f', n')) by (eapply U; try exact E'; cbn; congruence || assumption). injection X as _ ->. reflexivity.
  - rewrite Forall_app in F'. destruct F' as [_ F']. inversion F' as [|? ? X]. cbn in X. congruence.
  - assert (X : (f, n) = (f', n')) by (eapply U; try exact E'; cbn; congruence || assumption). injection X as -> ->. congruence.
  - rewrite Forall_app in F. destruct F as [_ F]. inversion F as [|? ? X]. cbn in X. congruence.
  - rewrite Forall_app in F. destruct F as [_ F]. inversion F as [|? ? X]. cbn in X. congruence.
  - assert (X : (f, n) = (f', n')) by (eapply U; try exact E'; cbn; congruence || assumption). injection X as -> ->. congruence.
  - rewrite Forall_app in F'. destruct F' as [_ F']. inversion F' as [|? ? X]. cbn in X. congruence.
  - assert (X : (f, n) = (f', n')) by (eapply U; try exact E'; cbn; congruence || assumption). injection X as -> ->. congruence.
Qed.
Print Assumptions C34_one.

(** Without a name the default inventory is the first one; there must be one. *)
Theorem C34_default : forall st root,
  (forall k i l, c_children (obj st root) = (k, i) :: l -> new_dispatcher st root None = new_dispatcher st root (Some (c_id (obj st i)))) /\
  (c_children (obj st root) = [] -> new_dispatcher st root None = Err IndexError).
Proof. intros st root. unfold new_dispatcher. split; [intros k i l ->|intros ->]; reflexivity. Qed.
Print Assumptions C34_default.

Definition is_tg (st : state) (c : nat) (path : option str) : result bool := Ok (str_eqb (c_id (obj st c)) #"urn:cts:x:new").
Definition shelf_new : state := fst (new_object shelf KTextgroup #"urn:cts:x:new" #"urn:cts:x:new").
Example C34_sample : forall d, new_dispatcher shelf_new 0 None = Ok d ->
  c_parent (obj (fst (dispatch shelf_new (registered d [(is_tg, #"b"); (fun _ _ _ => Ok false, #"a")]) 11 None)) 11) = Some 7 /\
  c_parent (obj (fst (dispatch shelf_new (registered d [(is_tg, #"b"); (fun _ _ _ => Ok true, #"a")]) 11 None)) 11) = Some 1 /\
  c_parent (obj (fst (dispatch shelf_new d 11 None)) 11) = Some 1 /\
  snd (dispatch shelf_new (registered d [(is_tg, #"z")]) 11 None) = Err KeyError.
Proof. intros d H. injection H as <-. vm_compute. auto. Qed.

(** ** C35: pages *)

Theorem C35_page : forall limit order st root cited q l size n p total,
  find_texts limit order st root cited q = Ok l -> page_size size n -> pages n (length l) total -> 1 <= p <= total ->
  list_texts limit order st root cited q (Some (Some (Z.of_nat p), size)) =
    Ok (page_of n p l, Some (Z.of_nat p), Z.of_nat (length (page_of n p l))).
Proof.
  intros limit order st root cited q l size n p total E Hs Ht Hp. unfold list_texts. rewrite E. cbn [bind].
  pose proof (pagination_in l size n p total Hs Ht Hp) as H.
  destruct (pagination (Some (Z.of_nat p)) size (Z.of_nat (length l))) as [[[a b] page] count]. destruct H as (-> & -> & ->). reflexivity.
Qed.
Print Assumptions C35_page.

(** The pages together are the list. *)
Theorem C35_partition : forall {A} n (l : list A) total, 1 <= n -> pages n (length l) total ->
  concat (map (fun p => page_of n p l) (seq 1 total)) = l /\
  forall p, 1 <= p <= total -> page_of n p l <> [] /\ length (page_of n p l) <= n /\ (p < total -> length (page_of n p l) = n).
Proof.
  intros A n l total Hn Ht. split; [apply concat_pages; assumption|]. intros p Hp. destruct Ht as [H1 H2].
  assert (S1 : (p - 1) * n < length l).
  { destruct (le_lt_dec (length l) ((p - 1) * n)) as [X|X]; [|exact X]. specialize (H2 _ X). lia. }
  assert (L : length (page_of n p l) = Nat.min n (length l - (p - 1) * n)) by (unfold page_of; rewrite firstn_length, skipn_length; reflexivity).
  split; [intros X; rewrite X in L; cbn in L; lia|]. split; [lia|]. intros X.
  assert (S2 : p * n < length l).
  { destruct (le_lt_dec (length l) (p * n)) as [Y|Y]; [|exact Y]. specialize (H2 _ Y). lia. }
  pose proof (pred_mul p n (proj1 Hp)). lia.
Qed.
Print Assumptions C35_partition.

(** Any list has a number of pages. *)
Theorem C35_pages : forall n len, 1 <= n -> exists total, pages n len total.
Proof. intros. apply pages_exist. lia. Qed.
Print Assumptions C35_pages.

(** A page further than the next one gives the last page. *)
Theorem C35_beyond : forall limit order st root cited q l size n p total,
  find_texts limit order st root cited q = Ok l -> page_size size n -> pages n (length l) total ->
  l <> [] -> length l < (p - 1) * n ->
  list_texts limit order st root cited q (Some (Some (Z.of_nat p), size)) =
    Ok (page_of n total l, Some (Z.of_nat total), Z.of_nat (length (page_of n total l))).
Proof.
  intros limit order st root cited q l size n p total E Hs Ht Hl Hp. unfold list_texts. rewrite E. cbn [bind].
  pose proof (pagination_beyond l size n p total Hs Ht Hl Hp) as H.
  destruct (pagination (Some (Z.of_nat p)) size (Z.of_nat (length l))) as [[[a b] page] count]. destruct H as (-> & -> & ->). reflexivity.
Qed.
Print Assumptions C35_beyond.

(** Without pagination the whole list is given. *)
Theorem C35_whole : forall limit order st root cited q l, find_texts limit order st root cited q = Ok l ->
  list_texts limit order st root cited q None = Ok (l, Some 0%Z, Z.of_nat (length l)).
Proof. intros limit order st root cited q l E. unfold list_texts. rewrite E. reflexivity. Qed.
Print Assumptions C35_whole.

(** Without a page number, or with the number 0, the first page is given; the number is
    handed back as it is. *)
Theorem C35_first : forall limit order st root cited q l size n page,
  find_texts limit order st root cited q = Ok l -> page_size size n -> page = None \/ page = Some 0%Z ->
  list_texts limit order st root cited q (Some (page, size)) = Ok (page_of n 1 l, page, Z.of_nat (length (page_of n 1 l))).
Proof.
  intros limit order st root cited q l size n page E Hs Hp. unfold list_texts. rewrite E. cbn [bind].
  rewrite pagination_eff. destruct (eff_size _ _ Hs) as [-> Hn]. cbv zeta.
  assert (O : or_default page 1 = 1%Z) by (destruct Hp as [->| ->]; reflexivity). rewrite O.
  replace ((1 - 1) * Z.of_nat n)%Z with 0%Z by lia.
  assert (L : length (page_of n 1 l) = Nat.min n (length l)) by (unfold page_of; cbn [Nat.sub Nat.mul skipn]; apply firstn_length).
  destruct (Z.ltb_spec (Z.of_nat (length l)) 0); [lia|].
  destruct (Z.ltb_spec (Z.of_nat n - 1 + 0) (Z.of_nat (length l))).
  - rewrite (slice_page l n 1 0 (Z.of_nat n - 1 + 0 + 1)%Z) by lia. f_equal. f_equal. rewrite L. lia.
  - rewrite (slice_page l n 1 0 (Z.of_nat (length l) - 1 + 1)%Z) by lia. f_equal. f_equal. rewrite L. lia.
Qed.
Print Assumptions C35_first.

(** Finding: the page after a full last page is empty, and is not the last page as any
    page further away is. *)
Theorem C35_after_full_refuted : forall limit order st root cited q l size n p,
  find_texts limit order st root cited q = Ok l -> page_size size n -> 1 <= p -> length l = (p - 1) * n ->
  list_texts limit order st root cited q (Some (Some (Z.of_nat p), size)) = Ok ([], Some (Z.of_nat p), 0%Z).
Proof.
  intros limit order st root cited q l size n p E Hs Hp Hl. unfold list_texts. rewrite E. cbn [bind].
  rewrite pagination_eff. destruct (eff_size _ _ Hs) as [-> Hn]. cbv zeta.
  unfold or_default. destruct (Z.eqb_spec (Z.of_nat p) 0); [lia|].
  assert (X : ((Z.of_nat p - 1) * Z.of_nat n = Z.of_nat (length l))%Z) by (rewrite Hl; nia). rewrite X.
  destruct (Z.ltb_spec (Z.of_nat (length l)) (Z.of_nat (length l))); [lia|].
  destruct (Z.ltb_spec (Z.of_nat n - 1 + Z.of_nat (length l)) (Z.of_nat (length l))); [lia|].
  rewrite (slice_page l n p) by nia. unfold page_of. rewrite <- Hl, skipn_all, firstn_nil. f_equal. f_equal. lia.
Qed.
Print Assumptions C35_after_full_refuted.

(** Finding: of no texts, every page after the first is page 0 with as many texts as a
    page can have, though none is given. *)
Theorem C35_none_refuted : forall limit order st root cited q size n p,
  find_texts limit order st root cited q = Ok [] -> page_size size n -> 2 <= p ->
  list_texts limit order st root cited q (Some (Some (Z.of_nat p), size)) = Ok ([], Some 0%Z, Z.of_nat n).
Proof.
  intros limit order st root cited q size n p E Hs Hp. unfold list_texts. rewrite E. cbn [bind length].
  rewrite pagination_eff. destruct (eff_size _ _ Hs) as [-> Hn]. cbv zeta.
  unfold or_default. destruct (Z.eqb_spec (Z.of_nat p) 0); [lia|].
  destruct (Z.ltb_spec (Z.of_nat 0) ((Z.of_nat p - 1) * Z.of_nat n)); [|nia].
  assert (C : ceil_div (Z.of_nat 0) (Z.of_nat n) = 0%Z) by (unfold ceil_div; cbn; reflexivity || (rewrite Zdiv_0_l; reflexivity)).
  rewrite C. unfold slice. rewrite skipn_nil, firstn_nil. f_equal. f_equal. lia.
Qed.
Print Assumptions C35_none_refuted.

(** Finding: a negative page [-k] gives the texts before the last [k * n] ones, up to
    [n] of them, and always says that they are [n]. *)
Theorem C35_from_end_refuted : forall limit order st root cited q l size n k,
  find_texts limit order st root cited q = Ok l -> page_size size n -> 1 <= k ->
  exists before texts after, l = before ++ texts ++ after /\
    length after = Nat.min (k * n) (length l) /\ length (texts ++ after) = Nat.min (k * n + n) (length l) /\
    list_texts limit order st root cited q (Some (Some (- Z.of_nat k)%Z, size)) = Ok (texts, Some (- Z.of_nat k)%Z, Z.of_nat n).
Proof.
  intros limit order st root cited q l size n k E Hs Hk. unfold list_texts. rewrite E. cbn [bind].
  rewrite pagination_eff. destruct (eff_size _ _ Hs) as [-> Hn]. cbv zeta.
  unfold or_default. destruct (Z.eqb_spec (- Z.of_nat k) 0); [lia|].
  set (a := length l - (k * n + n)). set (b := length l - k * n).
  assert (S1 : ((- Z.of_nat k - 1) * Z.of_nat n = - Z.of_nat (k * n + n))%Z) by nia. rewrite S1.
  destruct (Z.ltb_spec (Z.of_nat (length l)) (- Z.of_nat (k * n + n))); [lia|].
  destruct (Z.ltb_spec (Z.of_nat n - 1 + - Z.of_nat (k * n + n)) (Z.of_nat (length l))); [|lia].
  assert (K1 : 1 <= k * n) by nia.
  exists (firstn a l), (firstn (b - a) (skipn a l)), (skipn b l).
  assert (A : skipn b l = skipn (b - a) (skipn a l)) by (rewrite skipn_plus; f_equal; lia).
  split; [rewrite A, firstn_skipn, firstn_skipn; reflexivity|].
  split; [rewrite skipn_length; lia|]. split; [rewrite A, firstn_skipn, skipn_length; lia|].
  unfold slice, bound.
  destruct (Z.ltb_spec (- Z.of_nat (k * n + n)) 0); [|lia].
  destruct (Z.ltb_spec (Z.of_nat n - 1 + - Z.of_nat (k * n + n) + 1) 0); [|lia].
  replace (Z.to_nat (Z.of_nat (length l) + - Z.of_nat (k * n + n))) with a by lia.
  replace (Z.to_nat (Z.of_nat (length l) + (Z.of_nat n - 1 + - Z.of_nat (k * n + n) + 1))) with b by lia.
  f_equal. f_equal. lia.
Qed.
Print Assumptions C35_from_end_refuted.

(** The page after a full last page is empty, not the last page. *)
Theorem C35_next_refuted : exists page limit length n, page_size (Some limit) n /\ pages n length 2 /\ (page > 2)%Z /\
  pagination (Some page) (Some limit) (Z.of_nat length) = (4%Z, 4%Z, Some page, 0%Z).
Proof.
  exists 3%Z, 2%Z, 4, 2. split; [left; exists 2%Z; repeat split; lia|]. split; [split; [lia|intros q Hq; lia]|]. split; [lia|reflexivity].
Qed.
Print Assumptions C35_next_refuted.

(** An empty list with a page after the first: a negative start, a page 0 and a
    count that is not the length of the slice. *)
Theorem C35_empty_refuted : exists page, (1 < page)%Z /\ pagination (Some page) None 0 = ((-10)%Z, 0%Z, Some 0%Z, 10%Z).
Proof. exists 2%Z. split; [lia|reflexivity]. Qed.
Print Assumptions C35_empty_refuted.

(** A negative page takes a slice from the end. *)
Theorem C35_negative_refuted : exists page (l : list nat), (page < 0)%Z /\
  let '(a, b, p, count) := pagination (Some page) (Some 1%Z) (Z.of_nat (length l)) in
  slice a b l = [8] /\ l = [7; 8; 9] /\ p = Some page.
Proof. exists (-1)%Z, [7; 8; 9]. split; [lia|]. vm_compute. repeat split. Qed.
Print Assumptions C35_negative_refuted.

Definition any_order (l : list term) : list term := l.
Example C35_sample :
  find_texts 10 any_order shelf 0 (fun _ => true) (MkQuery None None None) = Ok [5; 6; 10] /\ pages 2 3 2 /\ page_size (Some 2%Z) 2 /\
  list_texts 10 any_order shelf 0 (fun _ => true) (MkQuery None None None) (Some (Some 2%Z, Some 2%Z)) = Ok ([10], Some 2%Z, 1%Z).
Proof. split; [reflexivity|]. split; [split; [lia|intros q Hq; lia]|]. split; [left; exists 2%Z; repeat split; lia|reflexivity]. Qed.

Example C35_odd_sample :
  let texts p n := list_texts 10 any_order shelf 0 (fun _ => true) (MkQuery None None None) (Some (p, Some n)) in
  texts None 2%Z = Ok ([5; 6], None, 2%Z) /\ texts (Some 0%Z) 2%Z = Ok ([5; 6], Some 0%Z, 2%Z) /\
  texts (Some 2%Z) 3%Z = Ok ([], Some 2%Z, 0%Z) /\ texts (Some 3%Z) 3%Z = Ok ([5; 6; 10], Some 1%Z, 3%Z) /\
  texts (Some (-1)%Z) 2%Z = Ok ([5], Some (-1)%Z, 2%Z) /\
  list_texts 10 any_order shelf 0 (fun _ => false) (MkQuery None None None) (Some (Some 2%Z, Some 3%Z)) = Ok ([], Some 0%Z, 3%Z).
Proof. vm_compute. auto 10. Qed.

(** ** C36: metadata *)

(** A listing keeps the texts of the collection that have a citation and pass the
    restrictions, in the order of the texts. *)
Theorem C36_listing : forall limit order st root cited urn lang cat, library st root -> (forall u, urn = Some u -> plain_urn u) ->
  exists l texts, find_texts (5 + limit) order st root cited (MkQuery (option_map urn_text urn) lang cat) = Ok l /\
    readable_descendants (5 + limit) st root = Ok texts /\ (exists f, l = filter f texts) /\
    forall x, In x l <-> kept order st root urn lang cat x /\ cited x = true.
Proof. exact find_kept. Qed.
Print Assumptions C36_listing.

(** The metadata of a textgroup, work or text hold exactly the texts whose URN has
    the same components, under a new inventory; nothing else changes. *)
Theorem C36_metadata : forall limit order st root cited ns cts p, library st root ->
  plain_ns ns -> plain_ns cts -> plain_part p -> 1 <= part_size p -> ~ In (write_urn ns cts p None) (keys (c_children (obj st root))) ->
  (exists x, within st root ns cts p x /\ cited x = true) ->
  exists st' c inv, get_metadata (5 + limit) order st root cited (Some (write_urn ns cts p None)) = (st', Ok c) /\
    c_id (obj st' c) = write_urn ns cts p None /\ kind_at (part_size p) (c_kind (obj st' c)) /\ tree st' c /\
    (forall x, x < length (objs st) -> obj st' x = obj st x) /\ length (objs st) <= c /\
    (forall x, within st root ns cts p x -> cited x = true ->
       exists t, (t = c \/ below st' c t) /\ c_id (obj st' t) = c_id (obj st x) /\ c_kind (obj st' t) = c_kind (obj st x)) /\
    (forall t, (t = c \/ below st' c t) -> text st' t ->
       exists x, within st root ns cts p x /\ cited x = true /\ c_id (obj st' t) = c_id (obj st x) /\ c_kind (obj st' t) = c_kind (obj st x)) /\
    below st' inv c /\ c_kind (obj st' inv) = KInventory /\
    (forall n, (forall x i, within st root ns cts p x -> cited x = true -> lies_in st root x i -> c_id (obj st i) = n) -> c_id (obj st' inv) = n) /\
    (forall x i y j, within st root ns cts p x -> cited x = true -> lies_in st root x i ->
       within st root ns cts p y -> cited y = true -> lies_in st root y j -> i <> j -> c_id (obj st' inv) = #"defaultInventory").
Proof. exact metadata_found. Qed.
Print Assumptions C36_metadata.

(** When there is none, UnknownCollection; also, always, for a namespace. *)
Theorem C36_unknown : forall limit order st root cited ns cts p, library st root ->
  plain_ns ns -> plain_ns cts -> plain_part p -> ~ In (write_urn ns cts p None) (keys (c_children (obj st root))) ->
  (part_size p = 0 \/ forall x, within st root ns cts p x -> cited x = false) ->
  exists st', get_metadata (5 + limit) order st root cited (Some (write_urn ns cts p None)) = (st', Err UnknownCollection) /\
    (forall x, x < length (objs st) -> obj st' x = obj st x).
Proof. exact metadata_missing. Qed.
Print Assumptions C36_unknown.

(** Without identifier the whole collection, with the name of an inventory that
    inventory. *)
Theorem C36_inventories : forall limit order st root cited, library st root ->
  get_metadata (5 + limit) order st root cited None = (st, Ok root) /\
  forall k i, In (k, i) (c_children (obj st root)) -> get_metadata (5 + limit) order st root cited (Some k) = (st, Ok i).
Proof.
  intros limit order st root cited L. split; [reflexivity|]. intros k i I. unfold get_metadata.
  assert (E : existsb (str_eqb k) (map fst (c_children (obj st root))) = true).
  { apply existsb_str. apply in_map_iff. exists (k, i). auto. }
  rewrite E. f_equal. pose proof (lib_layers _ _ L) as [K _].
  assert (NT : ~ text st root) by (intros [s X]; congruence).
  assert (Ek : k = c_id (obj st i)) by (apply (tree_key _ _ (lib_tree _ _ L) root k i (or_introl eq_refl) NT I)).
  assert (Bi : below st root i) by (constructor; split; [exact NT|eauto]).
  destruct (library_getitem limit st root k L) as [(x & G & X & Ex)|[_ X]].
  - rewrite G. f_equal. apply (tree_ids _ _ (lib_tree _ _ L)); [exact X|right; exact Bi|congruence].
  - destruct (X i (or_intror Bi)). congruence.
Qed.
Print Assumptions C36_inventories.

(** The texts of a namespace are found, their metadata are not given. *)
Theorem C36_namespace_refuted : exists st root cited ns cts, library st root /\
  (exists x, within st root ns cts NoWork x /\ cited x = true) /\
  snd (get_metadata 10 any_order st root cited (Some (write_urn ns cts NoWork None))) = Err UnknownCollection.
Proof.
  exists shelf, 0, (fun _ => true), #"cts", #"x". split; [apply shelf_library|]. split.
  - exists 5. split; [|reflexivity]. split.
    + eapply below_more with (m := 1); [|eapply below_more with (m := 2); [|eapply below_more with (m := 3); [|constructor]]];
        (split; [intros [s X]; discriminate|eexists; cbn; eauto]).
    + split; [eexists; reflexivity|]. exists (Version #"tg" #"w10" #"e"). split; [exact plain_e|]. split; reflexivity.
  - reflexivity.
Qed.
Print Assumptions C36_namespace_refuted.

(** Asking for metadata changes what the texts of the collection say about
    themselves: rebuilding an edition sets its language, in the graph they share, to
    the one of the rebuilt work. *)
Definition shelf_fr : state := shelf_with (graphs (set_lang shelf 5 #"fr")).
Theorem C36_language_refuted : exists st root cited id x, library st root /\ below st root x /\
  get_lang any_order st x = Ok #"fr" /\ get_lang any_order (fst (get_metadata 10 any_order st root cited (Some id))) x = Ok #"None".
Proof.
  exists shelf_fr, 0, (fun _ => true), name_e, 5. split.
  - apply shelf_library.
  - split.
    + eapply below_more with (m := 1); [|eapply below_more with (m := 2); [|eapply below_more with (m := 3); [|constructor]]];
        (split; [intros [s X]; discriminate|eexists; cbn; eauto]).
    + split; reflexivity.
Qed.
Print Assumptions C36_language_refuted.

Example C36_sample : let '(st', r) := get_metadata 10 any_order shelf 0 (fun _ => true) (Some name_tg) in
  r = Ok 12 /\ c_id (obj st' 12) = name_tg /\ texts_listed st' 12 = Ok [14; 16] /\ c_id (obj st' 14) = name_e /\ c_id (obj st' 16) = name_t /\
  c_id (obj st' 11) = #"a" /\
  snd (get_metadata 10 any_order shelf 0 (fun _ => true) (Some #"urn:cts:x:zz")) = Err UnknownCollection /\
  snd (get_metadata 10 any_order shelf 0 (fun _ => true) (Some #"a")) = Ok 1.
Proof. vm_compute. repeat split. Qed.

(** ** C37: texts *)

(** The URN of a version: the collection that has it as identifier, with the
    reference, if any. *)
Theorem C37_version : forall limit st root ns cts tg wk vs r o, library st root ->
  plain_ns ns -> plain_ns cts -> plain_part (Version tg wk vs) -> ref_read r o ->
  (forall x, get_text (5 + limit) st root (write_urn ns cts (Version tg wk vs) r) = Ok x <->
     (x = root \/ below st root x) /\ c_id (obj st x) = write_urn ns cts (Version tg wk vs) r) /\
  ((forall x, (x = root \/ below st root x) -> c_id (obj st x) <> write_urn ns cts (Version tg wk vs) r) ->
     get_text (5 + limit) st root (write_urn ns cts (Version tg wk vs) r) = Err UnknownCollection).
Proof.
  intros limit st root ns cts tg wk vs r o L H1 H2 H3 H4. rewrite (get_text_version _ st root ns cts tg wk vs r o L H1 H2 H3 H4).
  destruct (library_getitem limit st root (write_urn ns cts (Version tg wk vs) r) L) as [(y & G & Y & Ey)|[G N]]; rewrite G.
  - split.
    + intros x. split; [intros [= <-]; auto|]. intros [X Ex]. f_equal. apply (tree_ids _ _ (lib_tree _ _ L)); congruence || assumption.
    + intros N. destruct (N y Y Ey).
  - split; [|reflexivity]. intros x. split; [discriminate|]. intros [X Ex]. destruct (N x X Ex).
Qed.
Print Assumptions C37_version.

(** So a text is never found by its URN with a reference. *)
Theorem C37_reference : forall limit st root ns cts tg wk vs r o x, library st root ->
  plain_ns ns -> plain_ns cts -> plain_part (Version tg wk vs) -> ref_read (Some r) o -> text st x ->
  get_text (5 + limit) st root (write_urn ns cts (Version tg wk vs) (Some r)) <> Ok x.
Proof.
  intros limit st root ns cts tg wk vs r o x L H1 H2 H3 H4 T E.
  apply (proj1 (C37_version limit st root ns cts tg wk vs (Some r) o L H1 H2 H3 H4)) in E. destruct E as [X Ex].
  destruct X as [->|B]; [destruct T as [s T]; pose proof (lib_layers _ _ L) as [K _]; congruence|].
  destruct (library_placed st root x L B T) as (w & g & i & P & _).
  destruct (lib_names _ _ L x w g P) as (ns' & cts' & tg' & wk' & vs' & X1 & X2 & X3 & _ & _ & E1 & E2). rewrite E1, Ex in E2.
  pose proof (parse_read ns cts _ (Some r) o H1 H2 H3 ltac:(cbn; lia) H4) as A.
  pose proof (urn_parse_written ns' cts' _ None None X1 X2 X3 eq_refl) as B'. rewrite <- E2, A in B'. unfold parsed_urn in B'. injection B'.
  intros. subst. destruct H4 as [(R & _) Ho]. cbn in *. unfold cts_reference in Ho. destruct r as [|ch r]; [congruence|].
  cbn [val_truthy val_str negb] in Ho. destruct (cts_reference_string (ch :: r)); cbn in Ho; discriminate.
Qed.
Print Assumptions C37_reference.

(** The URN of a work, with or without reference: the first edition whose URN begins
    with the same characters. *)
Theorem C37_work : forall limit st root ns cts tg wk r o, library st root ->
  plain_ns ns -> plain_ns cts -> plain_part (Work tg wk) -> ref_read r o ->
  exists l, readable_descendants (5 + limit) st root = Ok l /\ (forall x, In x l <-> below st root x /\ text st x) /\
    ((exists before x after, l = before ++ x :: after /\ edition_like st ns cts tg wk x /\
        Forall (fun y => ~ edition_like st ns cts tg wk y) before /\
        get_text (5 + limit) st root (write_urn ns cts (Work tg wk) r) = Ok x) \/
     (Forall (fun y => ~ edition_like st ns cts tg wk y) l /\
        get_text (5 + limit) st root (write_urn ns cts (Work tg wk) r) = Err UnknownObjectError)).
Proof. exact get_text_work. Qed.
Print Assumptions C37_work.

(** Shorter URNs are rejected. *)
Theorem C37_short : forall limit st root ns cts p r o, plain_ns ns -> plain_ns cts -> plain_part p ->
  part_size p = 1 /\ ref_read r o \/ part_size p = 0 /\ r = None ->
  get_text limit st root (write_urn ns cts p r) = Err InvalidURN.
Proof.
  intros limit st root ns cts p r o H1 H2 H3 [[H4 H5]|[H4 ->]]; rewrite get_text_eq.
  - rewrite (parse_read ns cts p r o H1 H2 H3) by (exact H5 || lia). cbn [bind]. rewrite part_urn by lia. rewrite H4. reflexivity.
  - rewrite (urn_parse_written ns cts p None None H1 H2 H3 eq_refl). destruct p; try discriminate H4. reflexivity.
Qed.
Print Assumptions C37_short.

(** The edition found may be of another work; the texts of the work itself, if they
    are translations, are not considered. *)
Theorem C37_other_work_refuted : exists st root x, library st root /\
  get_text 10 st root #"urn:cts:x:tg.w1" = Ok x /\ c_id (obj st x) = #"urn:cts:x:tg.w10.e" /\
  exists y, get_text 10 st root #"urn:cts:x:tg.w1.t" = Ok y.
Proof. exists shelf, 0, 5. split; [apply shelf_library|]. split; [reflexivity|]. split; [reflexivity|]. exists 6. reflexivity. Qed.
Print Assumptions C37_other_work_refuted.

Theorem C37_translation_refuted : exists st root y, library st root /\
  get_text 10 st root #"urn:cts:x:og.w" = Err UnknownObjectError /\ get_text 10 st root #"urn:cts:x:og.w.c" = Ok y.
Proof. exists shelf, 0, 10. split; [apply shelf_library|]. split; reflexivity. Qed.
Print Assumptions C37_translation_refuted.

Example C37_sample : get_text 10 shelf 0 #"urn:cts:x:tg.w10.e" = Ok 5 /\ get_text 10 shelf 0 #"urn:cts:x:tg.w10:1.1" = Ok 5 /\
  get_text 10 shelf 0 #"urn:cts:x:tg.w10.e:1.1" = Err UnknownCollection /\ get_text 10 shelf 0 #"urn:cts:x:tg" = Err InvalidURN /\
  (exists o, ref_read (Some #"1.1") o).
Proof.
  repeat split; try reflexivity. eexists. split; [|reflexivity]. plain_now.
Qed.
