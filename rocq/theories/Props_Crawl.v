(** C80: searching the collections of an endpoint in depth. *)

From Coq Require Import List NArith ZArith Arith Bool Lia.
From Verif Require Import PyStr PyStrFacts Json HttpModel HttpSpec DtsModel DtsSpec DtsProofs Props_Dts CrawlModel CrawlSpec CrawlProofs CrawlAsks.
Import ListNotations.

(** Whatever is asked, of the collection and of anything below it, in any order, and
    however often requests fail: every answer is the truth about the catalogue, or a
    request failed, or there are more levels than Python allows. *)
Theorem C80_answers : forall server r pages limit cat c sent h,
  NoDup (map fst (rt_query r)) -> serves server r cat (co_id c) -> received_first cat c ->
  (forall p, way cat (co_id c) p -> length (cat (target (co_id c) p)) <= pages) ->
  Forall2 (right_reply server cat limit (co_id c)) h (snd (do_deeds server r pages limit sent (opened c) h)).
Proof.
  intros server r pages limit cat c sent h Hr Hs Hf Hp.
  assert (H1 : forall i, found_from cat (co_id c) i -> (exists ans, steady server r i Children ans /\ cpages ans 1 (cat i)) /\ consistent (cat i) /\
    forall k m, is_member (cat i) k m -> sized cat m) by (intros i (p & W & <-); apply Hs; exact W).
  assert (H2 : forall i k m, found_from cat (co_id c) i -> is_member (cat i) k m -> found_from cat (co_id c) k).
  { intros i k m (p & W & <-) M. exists (p ++ [k]). apply (way_snoc cat (co_id c) p k m W M). }
  assert (H3 : forall i, found_from cat (co_id c) i -> length (cat i) <= pages) by (intros i (p & W & <-); apply Hp; exact W).
  assert (G : good server r cat (found_from cat (co_id c)) (opened c)).
  { apply opened_good; auto. exists []. split; [constructor|reflexivity]. }
  destruct (deeds_right server r pages limit cat (found_from cat (co_id c)) Hr H1 H2 H3 h sent (opened c) G) as (s & x & outs & E & _ & F).
  rewrite E. exact F.
Qed.
Print Assumptions C80_answers.

(** What is listed below a collection: each way down once, and no other. *)
Theorem C80_below : forall cat n i, within cat n i ->
  NoDup (below cat n i) /\ forall p, In p (below cat n i) <-> p <> [] /\ way cat i p.
Proof.
  intros cat n i W. split.
  - clear W. revert i. induction n as [|n IH]; intros i; cbn [below]; [constructor|].
    assert (N : NoDup (listed_in cat i)) by apply firsts_NoDup. induction N as [|k l K N IHl]; [constructor|]. cbn [map flat_map app].
    constructor.
    + intros X. apply in_app_or in X. destruct X as [X|X].
      * apply in_map_iff in X. destruct X as (k' & X & Y). injection X as ->. contradiction.
      * apply in_app_or in X. destruct X as [X|X].
        -- apply in_map_iff in X. destruct X as (p & X & Y). injection X as ->. apply (proj1 (below_In cat n k [])) in Y. destruct Y as (Y & _). apply Y. reflexivity.
        -- apply in_flat_map in X. destruct X as (k' & Y & X). apply in_map_iff in X. destruct X as (p & X & _). injection X as -> _. contradiction.
    + assert (Perm : forall (A : Type) (a b c : list A), NoDup (a ++ c) -> NoDup b -> (forall x, In x b -> ~ In x a /\ ~ In x c) -> NoDup (a ++ b ++ c)).
      { clear. intros A a b c Hac Hb D. induction a as [|x a IHa]; cbn [app] in *.
        - induction Hb as [|y b Y Hb IHb]; [exact Hac|]. cbn [app]. constructor; [|apply IHb; intros z Hz; apply D; right; exact Hz].
          intros X. apply in_app_or in X. destruct X as [X|X]; [contradiction|]. apply (proj2 (D y (or_introl eq_refl))). exact X.
        - inversion Hac as [|? ? X1 X2]; subst. constructor; [|apply IHa; [exact X2|]; intros z Hz; split; [intros X; apply (proj1 (D z Hz)); right; exact X|apply D; exact Hz]].
          intros X. apply in_app_or in X. destruct X as [X|X]; [apply X1; apply in_or_app; left; exact X|]. apply in_app_or in X. destruct X as [X|X]; [|apply X1; apply in_or_app; right; exact X].
          apply (proj1 (D x X)). left. reflexivity. }
      apply Perm; [exact IHl| |].
      * apply FinFun.Injective_map_NoDup; [intros a b X; injection X as ->; reflexivity|apply IH].
      * intros p X. apply in_map_iff in X. destruct X as (q & <- & Q). split.
        -- intros Y. apply in_map_iff in Y. destruct Y as (k' & Y & Z). injection Y as -> _. contradiction.
        -- intros Y. apply in_flat_map in Y. destruct Y as (k' & Z & Y). apply in_map_iff in Y. destruct Y as (q' & Y & _). injection Y as -> _. contradiction.
  - intros p. rewrite below_In. split.
    + intros (A & B & _). auto.
    + intros (A & B). split; [exact A|]. split; [exact B|]. specialize (W p B). lia.
Qed.
Print Assumptions C80_below.

(** Whatever is asked, only pages that the catalogue has are asked for, of the
    collection and of what is below it; what was sent before stays as it was. *)
Theorem C80_requests : forall server r pages limit cat c sent h,
  NoDup (map fst (rt_query r)) -> serves server r cat (co_id c) -> received_first cat c ->
  (forall p, way cat (co_id c) p -> length (cat (target (co_id c) p)) <= pages) ->
  exists l, fst (fst (do_deeds server r pages limit sent (opened c) h)) = sent ++ l /\ Forall (asks_below server r cat (co_id c)) l.
Proof.
  intros server r pages limit cat c sent h Hr Hs Hf Hp.
  assert (H1 : forall i, found_from cat (co_id c) i -> (exists ans, steady server r i Children ans /\ cpages ans 1 (cat i)) /\ consistent (cat i) /\
    forall k m, is_member (cat i) k m -> sized cat m) by (intros i (p & W & <-); apply Hs; exact W).
  assert (H2 : forall i k m, found_from cat (co_id c) i -> is_member (cat i) k m -> found_from cat (co_id c) k).
  { intros i k m (p & W & <-) M. exists (p ++ [k]). apply (way_snoc cat (co_id c) p k m W M). }
  assert (H3 : forall i, found_from cat (co_id c) i -> length (cat i) <= pages) by (intros i (p & W & <-); apply Hp; exact W).
  assert (G : good server r cat (found_from cat (co_id c)) (opened c)).
  { apply opened_good; auto. exists []. split; [constructor|reflexivity]. }
  destruct (deeds_more server r pages limit cat (found_from cat (co_id c)) Hr H1 H2 H3 h sent (opened c) G) as (l & E & F).
  exists l. split; [exact E|]. apply (Forall_impl _) with (2 := F). intros q (i & n & ans & m & (p & W & <-) & A & B & C & D). exists p, n, ans, m. auto.
Qed.
Print Assumptions C80_requests.

(** Once descendants, readableDescendants or [in] gave an answer, nothing that is asked
    afterwards sends a request, whatever the endpoint would say, no answer is a failed
    request, and [len] counts. *)
Theorem C80_once : forall server r pages limit c sent h s x outs q a,
  do_deeds server r pages limit sent (opened c) h = (s, x, outs) ->
  In (([], q), Ok a) (combine h outs) -> (q = Descendants \/ q = Readable \/ exists k, q = Has k) ->
  forall server' r' pages' limit' h', exists outs',
    do_deeds server' r' pages' limit' s x h' = (s, x, outs') /\ forall o, In o outs' -> o <> Err HTTPError /\ o <> Err TypeError.
Proof.
  intros server r pages limit c sent h s x outs q a E H Q server' r' pages' limit' h'.
  assert (L : loaded x).
  { apply (deeds_load server r pages limit h sent (opened c) s x outs E). exists q, a. split; [|exact H]. destruct Q as [-> |[-> |(k & ->)]]; exact I. }
  destruct (deeds_silent server' r' pages' limit' h' s x L) as (outs' & E' & F). exists outs'. split; [exact E'|]. intros o O. rewrite Forall_forall in F. exact (F o O).
Qed.
Print Assumptions C80_once.

(** ... and then [len] and [==] tell the truth, of the collection and of anything below
    it. *)
Theorem C80_settled : forall server r pages limit cat c sent h s x outs q a p,
  NoDup (map fst (rt_query r)) -> serves server r cat (co_id c) -> received_first cat c ->
  (forall p, way cat (co_id c) p -> length (cat (target (co_id c) p)) <= pages) ->
  do_deeds server r pages limit sent (opened c) h = (s, x, outs) ->
  In (([], q), Ok a) (combine h outs) -> (q = Descendants \/ q = Readable \/ exists k, q = Has k) ->
  way cat (co_id c) p ->
  exists b, snd (do_deeds server r pages limit s x [(p, Count); (p, Empty)]) = [Ok (Number (length (listed_in cat (target (co_id c) p)))); Ok (Truth b)] /\
    (b = true <-> forall k m, ~ is_member (cat (target (co_id c) p)) k m).
Proof.
  intros server r pages limit cat c sent h s x outs q a p Hr Hs Hf Hp E H Q W.
  assert (L : loaded x).
  { apply (deeds_load server r pages limit h sent (opened c) s x outs E). exists q, a. split; [|exact H]. destruct Q as [-> |[-> |(k & ->)]]; exact I. }
  assert (H1 : forall i, found_from cat (co_id c) i -> (exists ans, steady server r i Children ans /\ cpages ans 1 (cat i)) /\ consistent (cat i) /\
    forall k m, is_member (cat i) k m -> sized cat m) by (intros i (w & W' & <-); apply Hs; exact W').
  assert (H2 : forall i k m, found_from cat (co_id c) i -> is_member (cat i) k m -> found_from cat (co_id c) k).
  { intros i k m (w & W' & <-) M. exists (w ++ [k]). apply (way_snoc cat (co_id c) w k m W' M). }
  assert (H3 : forall i, found_from cat (co_id c) i -> length (cat i) <= pages) by (intros i (w & W' & <-); apply Hp; exact W').
  assert (G : good server r cat (found_from cat (co_id c)) (opened c)).
  { apply opened_good; auto. exists []. split; [constructor|reflexivity]. }
  destruct (deeds_right server r pages limit cat (found_from cat (co_id c)) Hr H1 H2 H3 h sent (opened c) G) as (s' & x' & outs' & E' & (G' & I' & _) & _).
  rewrite E in E'. injection E' as <- <- <-. change (lz_id (opened c)) with (co_id c) in I'. rewrite <- I' in W.
  destruct (settled server r pages limit cat (found_from cat (co_id c)) p s x L G' W) as (A & b & B & C). rewrite I' in *.
  exists b. split; [|exact C]. cbn [do_deeds]. rewrite A, B. reflexivity.
Qed.
Print Assumptions C80_settled.

(** Finding: collections that lead back to themselves are never searched to the end,
    and [in] raises even for the collection itself. *)
Theorem C80_cycle_refuted : forall server r pages limit cat c sent k p,
  NoDup (map fst (rt_query r)) -> serves server r cat (co_id c) -> received_first cat c ->
  (forall p, way cat (co_id c) p -> length (cat (target (co_id c) p)) <= pages) ->
  way cat (co_id c) p -> p <> [] -> target (co_id c) p = co_id c ->
  forall d, In d [Descendants; Readable; Has k; Has (co_id c)] ->
  exists e, snd (do_deeds server r pages limit sent (opened c) [([], d)]) = [Err e] /\ (e = RecursionError \/ e = HTTPError).
Proof.
  intros server r pages limit cat c sent k p Hr Hs Hf Hp W N T d D.
  pose proof (C80_answers server r pages limit cat c sent [([], d)] Hr Hs Hf Hp) as F. inversion F as [|? res ? l R F2]. inversion F2. subst. clear F F2.
  assert (Far : forall n, exists q, way cat (co_id c) q /\ target (co_id c) q = co_id c /\ n <= length q).
  { induction n as [|n (q & Q1 & Q2 & Q3)]; [exists []; split; [constructor|]; split; [reflexivity|lia]|].
    exists (p ++ q). assert (A : forall i a b, way cat i a -> way cat (target i a) b -> way cat i (a ++ b) /\ target i (a ++ b) = target (target i a) b).
    { clear. intros i a b Wa. induction Wa as [i|i k m a M Wa IH]; intros Wb; [split; [exact Wb|reflexivity]|]. rewrite target_cons in Wb. destruct (IH Wb) as (A & B).
      cbn [app]. rewrite !target_cons. split; [apply way_down with (m := m); assumption|exact B]. }
    destruct (A (co_id c) p q W) as (A1 & A2); [rewrite T; exact Q1|]. split; [exact A1|]. split; [rewrite A2, T; exact Q2|].
    rewrite app_length. destruct p; [elim N; reflexivity|cbn; lia]. }
  assert (NW : ~ within cat limit (co_id c)).
  { intros X. destruct (Far limit) as (q & Q1 & _ & Q3). specialize (X q Q1). lia. }
  destruct R as [(-> & _)|[(X & _)|(_ & R)]]; [exists HTTPError; auto|elim X; constructor|]. cbn [fst snd target last] in R.
  destruct D as [<-|[<-|[<-|[<-|[]]]]]; cbn [right_of] in R; (destruct R as [(X & _)|(_ & ->)]; [contradiction|]); exists RecursionError; auto.
Qed.
Print Assumptions C80_cycle_refuted.

(** *** An endpoint *)

(** A server that looks at the identifier and the page; it fails as often as [down]
    says. *)
Definition tree_server (down : list request -> bool) (kids : str -> Z -> result (list json)) (sent : list request) (q : request) : result (list json) :=
  if down sent then Err HTTPError else
  let page := match dget #"page" (snd q) with Some [v] => Z.of_N (N_of_digits v) | _ => 1%Z end in
  match dget #"id" (snd q) with Some [id] => kids id page | _ => Err HTTPError end.

Lemma tree_steady : forall down kids path id, steady (tree_server down kids) (MkRoute path []) id Children (kids id).
Proof.
  intros down kids path id sent q p Hp (_ & HN & H1 & _ & H2). cbn [rt_query] in *. unfold tree_server. destruct (down sent); [right; reflexivity|left].
  assert (A : (match dget #"page" (snd q) with Some [v] => Z.of_N (N_of_digits v) | _ => 1%Z end) = p).
  { destruct (dget #"page" (snd q)) as [vs|] eqn:E.
    - apply dget_In in E. destruct (H2 _ _ E) as [[]|(_ & x & v & Hx & _ & Hs & ->)].
      destruct Hx as [Hx|[Hx|[Hx|[]]]]; try discriminate Hx. injection Hx as <-. cbn in Hs. destruct Hs as (ds & _ & _ & Hv & ->).
      destruct (Z.ltb_spec p 0); [lia|]. cbn [app]. rewrite Hv. lia.
    - destruct (Z.eq_dec p 1) as [->|Hne]; [reflexivity|]. exfalso.
      assert (X : In #"page" (map fst (snd q))).
      { apply (H1 _ (IntParam p)); [right; right; left; reflexivity|discriminate|]. intros [X|[X|[]]]; [discriminate X|congruence]. }
      apply in_map_iff in X. destruct X as ([k vs] & Hk & X). cbn [fst] in Hk. subst k. apply In_dget_NoDup in X; [|exact HN].
      pose proof (eq_trans (eq_sym E) X) as Y. discriminate Y. }
  rewrite A.
  assert (B : dget #"id" (snd q) = Some [id]).
  { assert (X : In #"id" (map fst (snd q))).
    { apply (H1 _ (StrParam id)); [left; reflexivity|discriminate|]. intros [X|[X|[]]]; discriminate X. }
    apply in_map_iff in X. destruct X as ([k vs] & Hk & X). cbn [fst] in Hk. subst k.
    destruct (H2 _ _ X) as [[]|(_ & x & v & Hx & _ & Hs & ->)]. destruct Hx as [Hx|[Hx|[Hx|[]]]]; try discriminate Hx. injection Hx as <-. cbn in Hs. subst v.
    apply In_dget_NoDup in X; [exact X|exact HN]. }
  rewrite B. reflexivity.
Qed.

(** A text: its type is Resource. *)
Definition jtext (id : str) : json :=
  JObj [(#"@id", JStr id); (#"@type", JList [JStr #"https://www.w3.org/ns/hydra/core#Resource"]);
        (#"https://www.w3.org/ns/hydra/core#title", jval (JStr id));
        (#"https://www.w3.org/ns/hydra/core#totalItems", jval (JInt 0))].
Definition text (id : str) : coll :=
  Coll id (MkCMeta [JStr id] [JStr #"https://www.w3.org/ns/hydra/core#Resource"] None None [JInt 0] [] []) [] false.
Definition node (id : str) (n : Z) : coll := Coll id (coll_meta id n) [] false.

Lemma jtext_says : forall id, says_coll (jtext id) (text id).
Proof.
  intros id. unfold jtext. eapply says_coll_intro with (ms := []); [reflexivity| |left; split; reflexivity|constructor|reflexivity].
  unfold says_meta. cbn [cm_labels cm_types cm_citation cm_depth cm_totals cm_descriptions cm_about gives_opt].
  split; [eexists; split; [reflexivity|]; constructor; [eexists; split; reflexivity|constructor]|].
  split; [reflexivity|]. split; [left; split; reflexivity|]. split; [reflexivity|].
  split; [eexists; split; [reflexivity|]; constructor; [eexists; split; reflexivity|constructor]|].
  split; [left; split; reflexivity|]. exists [], []. split; [left; split; reflexivity|]. split; [left; split; reflexivity|reflexivity].
Qed.

Lemma jnode_says : forall id n, says_coll (jcoll id n [] []) (node id n).
Proof. intros id n. exact (jcoll_says_only id n [] [] None (Forall2_nil _)). Qed.

(** One page. *)
Lemma one_page : forall ans id n ms cs, ans 1%Z = Ok [jcoll id n ms []] -> Forall2 says_coll ms cs -> Forall lists_none cs -> cpages ans 1 [cs].
Proof.
  intros ans id n ms cs E F N. destruct (jcoll_says id n ms cs None F N) as (fs & E2 & M & X & _).
  eapply cpages_last; [lia| |exact M|exact X]. rewrite E. cbn [app] in E2 |- *. rewrite E2. reflexivity.
Qed.

(** A list of members in which each identifier occurs once. *)
Lemma distinct_consistent : forall l, NoDup (map co_id (concat l)) -> consistent l.
Proof.
  intros l N k c c' (<- & cs & A & B) (E & cs' & A' & B').
  assert (X : In c (concat l)) by (apply in_concat; exists cs; auto). assert (X' : In c' (concat l)) by (apply in_concat; exists cs'; auto).
  clear A B A' B' cs cs'. induction (concat l) as [|d m IH]; [contradiction|]. cbn [map] in N. inversion N as [|? ? N1 N2]; subst.
  destruct X as [-> |X]; destruct X' as [-> |X']; [reflexivity| | |auto].
  - elim N1. rewrite <- E. apply in_map. exact X'.
  - elim N1. rewrite E. apply in_map. exact X.
Qed.

(** *** A catalogue: a collection with two pages, and a member with a text *)

Definition shelf : catalogue := fun i =>
  if str_eqb i #"c" then [[node #"a" 1; leaf #"k2"]; [text #"k3"]]
  else if str_eqb i #"a" then [[text #"t"]]
  else [[]].
Definition shelf_answers (i : str) (p : Z) : result (list json) :=
  if str_eqb i #"c" then
    (if (p =? 1)%Z then Ok [jcoll #"c" 3 [jcoll #"a" 1 [] []; jleaf #"k2"] (jview (Some #"/c?id=c&page=2"))]
     else Ok [jcoll #"c" 3 [jtext #"k3"] (jview None)])
  else if str_eqb i #"a" then Ok [jcoll #"a" 1 [jtext #"t"] []]
  else Ok [jcoll i 0 [] []].
Definition shelf_top : coll := Coll #"c" (coll_meta #"c" 3) [node #"a" 1; leaf #"k2"] true.

Lemma shelf_pages : forall i, cpages (shelf_answers i) 1 (shelf i).
Proof.
  intros i. unfold shelf, shelf_answers. destruct (str_eqb i #"c").
  - destruct (jcoll_says #"c" 3 [jcoll #"a" 1 [] []; jleaf #"k2"] [node #"a" 1; leaf #"k2"] (Some (Some #"/c?id=c&page=2"))
      ltac:(repeat constructor; [apply jnode_says|apply jleaf_says]) ltac:(repeat constructor)) as (fs & E & M & N & _).
    destruct (jcoll_says #"c" 3 [jtext #"k3"] [text #"k3"] (Some None) ltac:(repeat constructor; apply jtext_says) ltac:(repeat constructor)) as (fs2 & E2 & M2 & N2 & _).
    eapply cpages_more with (m := 2%Z); [lia| |exact M|exact N|exact coll_number|apply (decimal_total #"2")|].
    + cbn [Z.eqb Pos.eqb]. rewrite E. reflexivity.
    + eapply cpages_last; [lia| |exact M2|exact N2]. cbn [Z.eqb Pos.eqb]. rewrite E2. reflexivity.
  - destruct (str_eqb i #"a").
    + eapply one_page; [reflexivity| |repeat constructor]. repeat constructor. apply jtext_says.
    + eapply one_page; [reflexivity|constructor|constructor].
Qed.

Lemma shelf_member : forall i k m, is_member (shelf i) k m ->
  (i = #"c" /\ (m = node #"a" 1 \/ m = leaf #"k2" \/ m = text #"k3")) \/ (i = #"a" /\ m = text #"t").
Proof.
  intros i k m (_ & cs & A & B). unfold shelf in A. destruct (str_eqb i #"c") eqn:E; [|destruct (str_eqb i #"a") eqn:E2].
  - apply str_eqb_eq in E. left. split; [exact E|]. destruct A as [<-|[<-|[]]]; [destruct B as [<-|[<-|[]]]|destruct B as [<-|[]]]; auto.
  - apply str_eqb_eq in E2. right. split; [exact E2|]. destruct A as [<-|[]]. destruct B as [<-|[]]. reflexivity.
  - destruct A as [<-|[]]. destruct B.
Qed.

Lemma shelf_none : forall i k m, i <> #"c" -> i <> #"a" -> ~ is_member (shelf i) k m.
Proof. intros i k m A B H. destruct (shelf_member i k m H) as [(X & _)|(X & _)]; auto. Qed.

Lemma shelf_serves : forall down r, rt_query r = [] -> serves (tree_server down shelf_answers) r shelf #"c".
Proof.
  intros down [path query] E p _. cbn [rt_query] in E. subst query. split; [|split].
  - exists (shelf_answers (target #"c" p)). split; [apply tree_steady|apply shelf_pages].
  - apply distinct_consistent. unfold shelf. destruct (str_eqb _ #"c"); [|destruct (str_eqb _ #"a")]; cbn [concat app map co_id node leaf text];
      repeat constructor; cbn [In]; intros H; repeat destruct H as [H|H]; try discriminate H; contradiction.
  - intros k m H. destruct (shelf_member _ k m H) as [(_ & [-> |[-> | ->]])|(_ & ->)]; (eexists; split; [reflexivity|]); intros Z; try discriminate Z; intros; apply shelf_none; discriminate.
Qed.

Lemma shelf_first : received_first shelf shelf_top.
Proof.
  split; [|exists [[text #"k3"]]; split; [reflexivity|discriminate]].
  exists 3%Z. split; [reflexivity|discriminate].
Qed.

(** The endpoint fails now and then. *)
Definition now_and_then (sent : list request) : bool := existsb (Nat.eqb (length sent)) [1; 3; 6].

Example C80_example :
  NoDup (map fst (rt_query sample_route)) /\
  serves (tree_server now_and_then shelf_answers) sample_route shelf (co_id shelf_top) /\ received_first shelf shelf_top /\
  (forall p, way shelf (co_id shelf_top) p -> length (shelf (target (co_id shelf_top) p)) <= 2) /\
  within shelf 3 (co_id shelf_top) /\
  let '(sent, _, outs) := do_deeds (tree_server now_and_then shelf_answers) sample_route 2 3 [] (opened shelf_top)
    [([#"a"], Descendants); ([], Descendants); ([], Members); ([], Item #"t"); ([], Item #"t"); ([], Has #"t"); ([], Has #"x"); ([], Readable);
     ([#"a"], Readable); ([#"x"], Members); ([], Item #"x"); ([], Item #"c"); ([#"a"; #"t"], Has #"t");
     ([], Key #"k3"); ([], Key #"t"); ([], Count)] in
  length sent = 8 /\
  outs = [Ok (Objects [[#"t"]]); Err HTTPError; Err HTTPError; Err HTTPError; Ok (Object [#"a"; #"t"]); Ok (Truth true); Ok (Truth false);
          Ok (Objects [[#"k3"]; [#"a"; #"t"]]); Ok (Objects [[#"t"]]); Err KeyError; Err UnknownCollection; Ok (Object []); Ok (Truth true);
          Ok (Truth true); Ok (Truth false); Ok (Number 3)].
Proof.
  split; [constructor|]. split; [apply shelf_serves; reflexivity|]. split; [exact shelf_first|]. split.
  - intros p _. unfold shelf. destruct (str_eqb _ #"c"); [cbn; lia|]. destruct (str_eqb _ #"a"); cbn; lia.
  - split; [|vm_compute; split; reflexivity].
    intros p W. change (co_id shelf_top) with #"c" in W. inversion W as [|i k m q M W2]; subst; [cbn; lia|].
    inversion W2 as [|i k' m' q' M' W3]; subst; [cbn; lia|]. inversion W3 as [|i k'' m'' q'' M'' W4]; subst; [cbn; lia|]. exfalso.
    destruct (shelf_member _ _ _ M) as [(_ & X)|(X & _)]; [|discriminate X]. destruct M as (<- & _).
    destruct (shelf_member _ _ _ M') as [(Y & _)|(Y & Y2)]; [destruct X as [-> |[-> | ->]]; discriminate Y|].
    destruct M' as (<- & _). subst m'. revert M''. apply shelf_none; discriminate.
Qed.

(** *** Findings *)

(** Catalogues of one page each: members and their sizes. *)
Definition listing := list (str * list (str * Z)).
Definition members_in (l : listing) (i : str) : list (str * Z) := match dget i l with Some ms => ms | None => [] end.
Definition cat_of (l : listing) : catalogue := fun i => [map (fun kn => node (fst kn) (snd kn)) (members_in l i)].
Definition answers_of (l : listing) (i : str) (p : Z) : result (list json) :=
  Ok [jcoll i (Z.of_nat (length (members_in l i))) (map (fun kn => jcoll (fst kn) (snd kn) [] []) (members_in l i)) []].
Definition listing_server (l : listing) := tree_server (fun _ => false) (answers_of l).
Definition listing_top (l : listing) (i : str) : coll :=
  Coll i (coll_meta i (Z.of_nat (length (members_in l i)))) (map (fun kn => node (fst kn) (snd kn)) (members_in l i)) false.

Lemma listing_pages : forall l i, cpages (answers_of l i) 1 (cat_of l i).
Proof.
  intros l i. eapply one_page; [reflexivity| |].
  - induction (members_in l i) as [|[k n] ms IH]; constructor; [apply jnode_says|exact IH].
  - induction (members_in l i) as [|[k n] ms IH]; constructor; [reflexivity|exact IH].
Qed.

Lemma listing_member : forall l i k m, is_member (cat_of l i) k m <-> exists n, In (k, n) (members_in l i) /\ m = node k n.
Proof.
  intros l i k m. split.
  - intros (<- & cs & [<-|[]] & B). apply in_map_iff in B. destruct B as ([k n] & <- & B). exists n. auto.
  - intros (n & A & ->). split; [reflexivity|]. eexists. split; [left; reflexivity|]. apply in_map_iff. exists (k, n). auto.
Qed.

Lemma listing_consistent : forall l i, NoDup (map fst (members_in l i)) -> consistent (cat_of l i).
Proof.
  intros l i N. apply distinct_consistent. unfold cat_of. cbn [concat]. rewrite app_nil_r, map_map. cbn [node co_id]. exact N.
Qed.

Lemma listing_serves : forall l r top, rt_query r = [] ->
  (forall i ms, In (i, ms) l -> NoDup (map fst ms) /\ forall k n, In (k, n) ms -> n = 0%Z -> members_in l k = []) ->
  serves (listing_server l) r (cat_of l) top.
Proof.
  intros l r top E H.
  assert (N : forall i, NoDup (map fst (members_in l i))).
  { intros i. unfold members_in. destruct (dget i l) as [ms|] eqn:D; [|constructor]. apply dget_In in D. apply (H i ms D). }
  assert (Z : forall i k n, In (k, n) (members_in l i) -> n = 0%Z -> members_in l k = []).
  { intros i k n. unfold members_in at 1. destruct (dget i l) as [ms|] eqn:D; [|intros []]. apply dget_In in D. apply (H i ms D). }
  clear H. revert l r top E N Z.
  intros l [path query] top E N Z p _. cbn [rt_query] in E. subst query. split; [|split].
  - exists (answers_of l (target top p)). split; [apply tree_steady|apply listing_pages].
  - apply listing_consistent. apply N.
  - intros k m M. apply listing_member in M. destruct M as (n & M & ->). exists n. split; [reflexivity|].
    intros X k' m' M'. apply listing_member in M'. destruct M' as (n' & M' & _). cbn [node co_id] in M'. rewrite (Z _ _ _ M X) in M'. exact M'.
Qed.

Lemma listing_first : forall l i, members_in l i <> [] -> received_first (cat_of l) (listing_top l i).
Proof.
  intros l i N. split; [|exists []; split; [reflexivity|reflexivity]].
  eexists. split; [reflexivity|]. cbn [listing_top co_id]. intros Z. destruct (members_in l i); [elim N; reflexivity|discriminate Z].
Qed.

Lemma pages_one : forall l i p, length (cat_of l (target i p)) <= 1.
Proof. intros. cbn. lia. Qed.

(** Finding: a collection that contains one it is contained in.  Whether something is in
    it cannot be told, not even of a member. *)
Definition circle : listing := [(#"c", [(#"a", 1%Z)]); (#"a", [(#"c", 1%Z)])].
Example C80_cycle_example :
  serves (listing_server circle) sample_route (cat_of circle) #"c" /\ received_first (cat_of circle) (listing_top circle #"c") /\
  way (cat_of circle) #"c" [#"a"; #"c"] /\ target #"c" [#"a"; #"c"] = #"c" /\
  forall sent, snd (do_deeds (listing_server circle) sample_route 1 4 sent (opened (listing_top circle #"c")) [([], Has #"a"); ([], Item #"a"); ([], Members)]) =
  [Err RecursionError; Ok (Object [#"a"]); Ok (Objects [[#"a"]])].
Proof.
  assert (S : serves (listing_server circle) sample_route (cat_of circle) #"c").
  { apply listing_serves; [reflexivity|]. intros i ms [H|[H|[]]]; injection H as <- <-; (split; [repeat constructor; intros []|]);
      intros k n [H|[]] Z; injection H as <- <-; discriminate Z. }
  split; [exact S|]. split; [apply listing_first; discriminate|]. split; [|split; [reflexivity|intros sent; vm_compute; reflexivity]].
  eapply way_down; [apply listing_member; exists 1%Z; split; [left; reflexivity|reflexivity]|].
  eapply way_down; [apply listing_member; exists 1%Z; split; [left; reflexivity|reflexivity]|constructor].
Qed.

(** Finding: what is in two collections is two objects, and is loaded twice. *)
Definition diamond : listing := [(#"c", [(#"a", 1%Z); (#"b", 1%Z)]); (#"a", [(#"s", 1%Z)]); (#"b", [(#"s", 1%Z)]); (#"s", [(#"t", 0%Z)])].
Theorem C80_diamond_refuted : exists server r pages limit cat c sent x ps q,
  serves server r cat (co_id c) /\ received_first cat c /\
  (forall p, way cat (co_id c) p -> length (cat (target (co_id c) p)) <= pages) /\
  do_deeds server r pages limit [] (opened c) [([], Descendants)] = (sent, x, [Ok (Objects ps)]) /\
  ~ NoDup (map (target (co_id c)) ps) /\ exists a b d, sent = a ++ q :: b ++ q :: d.
Proof.
  exists (listing_server diamond), sample_route, 1, 4, (cat_of diamond), (listing_top diamond #"c"). do 2 eexists.
  exists [[#"a"]; [#"b"]; [#"a"; #"s"]; [#"a"; #"s"; #"t"]; [#"b"; #"s"]; [#"b"; #"s"; #"t"]]. eexists.
  split.
  { apply listing_serves; [reflexivity|]. intros i ms [H|[H|[H|[H|[]]]]]; injection H as <- <-;
      (split; [repeat constructor; cbn [In fst map]; intros H; repeat destruct H as [H|H]; try discriminate H; contradiction|]);
      intros k n H Z; repeat destruct H as [H|H]; try (injection H as <- <-; discriminate Z); try (injection H as <- <-; reflexivity); contradiction. }
  split; [apply listing_first; discriminate|]. split; [intros; apply pages_one|]. split; [vm_compute; reflexivity|]. split.
  - intros N. change (NoDup [#"a"; #"b"; #"s"; #"t"; #"s"; #"t"]) in N. inversion N as [|? ? _ N1]; subst. inversion N1 as [|? ? _ N2]; subst. inversion N2 as [|? ? X _]; subst.
    apply X. right. left. reflexivity.
  - match goal with |- exists a b d, [?x; ?y; ?z; ?w] = _ => exists [x], [z], [] end. reflexivity.
Qed.
Print Assumptions C80_diamond_refuted.

(** Finding: what was loaded of a member is lost when its collection is loaded, and is
    asked for again, although no request failed. *)
Theorem C80_again_refuted : exists server r pages limit cat c h sent x outs q,
  serves server r cat (co_id c) /\ received_first cat c /\
  (forall p, way cat (co_id c) p -> length (cat (target (co_id c) p)) <= pages) /\
  do_deeds server r pages limit [] (opened c) h = (sent, x, outs) /\ (forall e, ~ In (Err e) outs) /\
  (forall ps, In (Ok (Objects ps)) outs -> NoDup (map (target (co_id c)) ps)) /\
  exists a b d, sent = a ++ q :: b ++ q :: d.
Proof.
  exists (tree_server (fun _ => false) shelf_answers), sample_route, 2, 3, shelf, shelf_top, [([#"a"], Descendants); ([], Descendants)].
  do 2 eexists. exists [Ok (Objects [[#"t"]]); Ok (Objects [[#"a"]; [#"k2"]; [#"k3"]; [#"a"; #"t"]])]. eexists.
  split; [apply shelf_serves; reflexivity|]. split; [exact shelf_first|]. split.
  { intros p _. unfold shelf. destruct (str_eqb _ #"c"); [cbn; lia|]. destruct (str_eqb _ #"a"); cbn; lia. }
  split; [vm_compute; reflexivity|]. split; [intros e [X|[X|[]]]; discriminate X|]. split.
  - intros ps [X|[X|[]]]; injection X as <-; repeat constructor; cbn [map target last In]; intros H; repeat destruct H as [H|H]; try discriminate H; contradiction.
  - match goal with |- exists a b d, [?x; ?y; ?z; ?w] = _ => exists [], [y; z], [] end. reflexivity.
Qed.
Print Assumptions C80_again_refuted.

(** Finding: members of a collection that says it has none are passed over in silence. *)
Definition understated : listing := [(#"c", [(#"a", 0%Z)]); (#"a", [(#"t", 0%Z)])].
Theorem C80_size_refuted : exists server r pages limit cat c p,
  (forall p, way cat (co_id c) p -> (exists ans, steady server r (target (co_id c) p) Children ans /\ cpages ans 1 (cat (target (co_id c) p))) /\
     consistent (cat (target (co_id c) p)) /\ length (cat (target (co_id c) p)) <= pages) /\
  received_first cat c /\ within cat limit (co_id c) /\ way cat (co_id c) p /\
  snd (do_deeds server r pages limit [] (opened c) [([], Has (target (co_id c) p)); ([], Item (target (co_id c) p))]) = [Ok (Truth false); Err UnknownCollection].
Proof.
  exists (listing_server understated), sample_route, 1, 4, (cat_of understated), (listing_top understated #"c"), [#"a"; #"t"].
  assert (W : forall i k m, is_member (cat_of understated i) k m -> (i = #"c" /\ k = #"a") \/ (i = #"a" /\ k = #"t")).
  { intros i k m H. apply listing_member in H. destruct H as (n & H & _). unfold members_in, understated in H. cbn [dget] in H.
    destruct (str_eqb #"c" i) eqn:E; [apply str_eqb_eq in E; destruct H as [H|[]]; injection H as <- _; left; auto|].
    destruct (str_eqb #"a" i) eqn:E2; [apply str_eqb_eq in E2; destruct H as [H|[]]; injection H as <- _; right; auto|destruct H]. }
  split; [|split; [apply listing_first; discriminate|split; [|split; [|vm_compute; reflexivity]]]].
  - intros p _. split; [|split; [|apply pages_one]].
    + exists (answers_of understated (target #"c" p)). split; [apply tree_steady|apply listing_pages].
    + apply listing_consistent. unfold members_in, understated. cbn [dget]. destruct (str_eqb #"c" _); [repeat constructor; intros []|].
      destruct (str_eqb #"a" _); [repeat constructor; intros []|constructor].
  - intros p H. change (co_id (listing_top understated #"c")) with #"c" in H. inversion H as [|i k m q M H2]; subst; [cbn; lia|].
    inversion H2 as [|i k' m' q' M' H3]; subst; [cbn; lia|]. inversion H3 as [|i k'' m'' q'' M'' H4]; subst; [cbn; lia|]. exfalso.
    apply W in M. apply W in M'. apply W in M''. destruct M as [(_ & ->)|(X & _)]; [|discriminate X]. destruct M' as [(X & _)|(_ & ->)]; [discriminate X|].
    destruct M'' as [(X & _)|(X & _)]; discriminate X.
  - eapply way_down; [apply listing_member; exists 0%Z; split; [left; reflexivity|reflexivity]|].
    eapply way_down; [apply listing_member; exists 0%Z; split; [left; reflexivity|reflexivity]|constructor].
Qed.
Print Assumptions C80_size_refuted.

(** Finding: [len] of the children is a TypeError until they are loaded. *)
Theorem C80_len_refuted : forall server r pages limit c sent, co_closed c = false -> size_of (co_meta c) <> 0%Z ->
  snd (do_deeds server r pages limit sent (opened c) [([], Count)]) = [Err TypeError].
Proof.
  intros server r pages limit c sent H Z. cbn. unfold map_act, count_children, opened. cbn [lz_parsed lz_meta]. rewrite H.
  destruct (Z.eqb_spec (size_of (co_meta c)) 0); [contradiction|]. reflexivity.
Qed.
Print Assumptions C80_len_refuted.
Example C80_len_example : co_closed shelf_top = false /\ size_of (co_meta shelf_top) <> 0%Z /\
  snd (do_deeds (tree_server (fun _ => false) shelf_answers) sample_route 2 3 [] (opened shelf_top) [([], Count); ([], Members); ([], Count)]) =
  [Err TypeError; Ok (Objects [[#"a"]; [#"k2"]; [#"k3"]]); Ok (Number 3)].
Proof. split; [reflexivity|]. split; [discriminate|]. vm_compute. reflexivity. Qed.

(** Finding: the children of a member that has not been loaded equal the empty
    dictionary, whatever members it has. *)
Theorem C80_empty_refuted : forall server r pages limit c m sent,
  In m (co_members c) -> size_of (co_meta m) <> 0%Z ->
  (forall m', In m' (co_members c) -> co_id m' = co_id m -> m' = m) ->
  snd (do_deeds server r pages limit sent (opened c) [([co_id m], Empty)]) = [Ok (Truth true)].
Proof.
  intros server r pages limit c m sent H Z U. cbn [do_deeds at_path].
  assert (D : dget (co_id m) (lz_kids (opened c)) = Some (member m)).
  { unfold opened. cbn [lz_kids]. destruct (dget (co_id m) (add_members (co_members c) [])) as [y|] eqn:E.
    - apply dget_In, add_In in E. destruct E as [[]|(m' & M & X & ->)]. rewrite (U m' M (eq_sym X)). reflexivity.
    - apply dget_None in E. elim E. unfold keys in *. fold (keys (add_members (co_members c) [])). rewrite add_keys. cbn [keys map app].
      apply filter_In. split; [|reflexivity]. apply firsts_In. apply in_map. exact H. }
  assert (O : exists x, open_for server r pages (co_id m) sent (opened c) = (sent, x, Ok tt) /\ lz_kids x = lz_kids (opened c)).
  { unfold open_for. rewrite D. destruct (lz_parsed (opened c)); [eexists; split; reflexivity|]. destruct (negb _); eexists; split; reflexivity. }
  destruct O as (x & -> & Kx). rewrite Kx, D. cbn [ask]. unfold map_act, children_empty, member. cbn [lz_kids lz_parsed lz_meta].
  destruct (Z.eqb_spec (size_of (co_meta m)) 0); [contradiction|]. reflexivity.
Qed.
Print Assumptions C80_empty_refuted.
Example C80_empty_example : In (node #"a" 1) (co_members shelf_top) /\ size_of (co_meta (node #"a" 1)) <> 0%Z /\
  (forall m', In m' (co_members shelf_top) -> co_id m' = #"a" -> m' = node #"a" 1) /\ is_member (shelf #"a") #"t" (text #"t") /\
  snd (do_deeds (tree_server (fun _ => false) shelf_answers) sample_route 2 3 [] (opened shelf_top)
    [([#"a"], Empty); ([], Empty); ([], Descendants); ([#"a"], Empty); ([#"k2"], Empty); ([#"a"], Count)]) =
  [Ok (Truth true); Ok (Truth false); Ok (Objects [[#"a"]; [#"k2"]; [#"k3"]; [#"a"; #"t"]]); Ok (Truth false); Ok (Truth true); Ok (Number 1)].
Proof.
  split; [left; reflexivity|]. split; [discriminate|]. split; [intros m' [<-|[<-|[]]] X; [reflexivity|discriminate X]|].
  split; [split; [reflexivity|]; exists [text #"t"]; split; left; reflexivity|]. vm_compute. reflexivity.
Qed.
