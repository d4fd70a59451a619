(** Properties C38, C39 and C56: reference listings, lazily loaded collections and
    collection descriptions of DTS endpoints. *)

From Coq Require Import List NArith ZArith Arith Bool Lia.
From Verif Require Import PyStr PyStrFacts Json TreeModel HttpModel HttpSpec HttpProofs DtsModel DtsSpec DtsProofs DtsLazy Props_Http.
Import ListNotations.

(** ** A server for the examples *)

Definition jval (v : json) : json := JList [JObj [(#"@value", v)]].
Definition jview (next : option str) : list (str * json) :=
  [(#"https://www.w3.org/ns/hydra/core#view",
    JList [JObj (match next with Some u => [(#"https://www.w3.org/ns/hydra/core#next", jval (JStr u))] | None => [] end)])].
Definition jref (s : str) : json := JObj [(#"https://w3id.org/dts/api#ref", jval (JStr s))].
Definition jnav (refs : list str) (next : option str) : json :=
  JObj ([(#"https://w3id.org/dts/api#level", jval (JInt 1)); (#"https://w3id.org/dts/api#citeType", jval (JStr #"book"));
         (#"https://www.w3.org/ns/hydra/core#member", JList (map jref refs))] ++ jview next).
Definition nav_sample (refs : list str) (next : option str) : nav_page :=
  MkNavPage (Some 1%Z) (Some #"book") (map (fun s => MkNavRef s None None []) refs) next.

Lemma jnav_says : forall refs next, exists fs, jnav refs next = JObj fs /\ says_page fs (nav_sample refs next).
Proof.
  intros refs next. eexists. split; [reflexivity|]. unfold says_page, nav_sample. cbn [np_level np_type np_refs np_next option_map gives_opt].
  split; [eexists; eexists; split; reflexivity|]. split; [eexists; eexists; split; reflexivity|]. split.
  - exists (map jref refs). split; [right; reflexivity|]. induction refs as [|s refs IH]; [constructor|]. cbn [map]. constructor; [|exact IH].
    eexists. split; [reflexivity|]. split; [eexists; eexists; split; reflexivity|]. split; [reflexivity|].
    exists [], []. split; [left; split; reflexivity|]. split; [left; split; reflexivity|reflexivity].
  - destruct next as [u|].
    + eexists; eexists. split; [reflexivity|]. eexists; eexists. split; reflexivity.
    + right. eexists; eexists. split; reflexivity.
Qed.

(** A server that looks at the page alone. *)
Definition page_of (q : request) : option str :=
  match dget #"page" (snd q) with Some [v] => Some v | _ => None end.

Lemma paged_answers : forall path text level group exclude ref ans,
  answers (fun q => ans (page_of q)) (MkRoute path []) text level group exclude ref ans.
Proof.
  intros path text level group exclude ref ans q p fs HF (_ & HN & H1 & _ & H2). cbn [rt_query] in *. f_equal. unfold page_of.
  assert (K : forall x, In (#"page", x) ([(#"id", text); (#"level", level); (#"groupBy", group); (#"max", NoParam); (#"exclude", exclude);
               (#"page", match p with None => NoParam | Some n => StrParam n end)] ++ fs) -> x = match p with None => NoParam | Some n => StrParam n end).
  { intros x X. apply in_app_or in X. destruct X as [X|X].
    - cbn in X. repeat (destruct X as [X|X]; [inversion X; try reflexivity|]). destruct X.
    - exfalso. destruct HF; cbn in X; repeat (destruct X as [X|X]; [discriminate X|]); exact X. }
  destruct (dget #"page" (snd q)) as [vs|] eqn:E.
  - apply dget_In in E. destruct (H2 _ _ E) as [[]|(_ & x & v & Hx & _ & Hs & ->)]. apply K in Hx. subst x.
    destruct p as [n|]; cbn in Hs; [subst v; reflexivity|destruct Hs].
  - destruct p as [n|]; [|reflexivity]. exfalso.
    assert (X : In #"page" (map fst (snd q))).
    { apply (H1 _ (StrParam n)); [|discriminate|intros []]. apply in_or_app. left. cbn. tauto. }
    apply in_map_iff in X. destruct X as ([k vs] & Hk & X). cbn in Hk. subst k. apply In_dget_NoDup in X; [|exact HN]. pose proof (eq_trans (eq_sym E) X) as Y. discriminate Y.
Qed.

(** ** C38 *)

(** The listing is that of all pages, in order; its level and its citation are
    those of the last page; each reference has its own type or that of its page. *)
Theorem C38_pages : forall server r text level group exclude ref ans l fuel,
  NoDup (map fst (rt_query r)) -> answers server r text level group exclude ref ans ->
  pages ans None l -> length l <= fuel -> length (all_references l) <> 1 ->
  exists before pg, l = before ++ [pg] /\
    get_reffs server r text level exclude group ref fuel =
    Ok (MkReffs (map Whole (all_references l)) (match np_level pg with Some z => JInt z | None => JNull end) (type_given (np_type pg))).
Proof.
  intros server r text level group exclude ref ans l fuel Hr Ha Hp Hf Hl.
  assert (Hne : l <> []) by (inversion Hp; discriminate).
  destruct (exists_last Hne) as (before & pg & E). exists before, pg. split; [exact E|].
  unfold get_reffs. rewrite (loop_pages server r text level exclude group ref ans Hr Ha None l Hp fuel [] Hf pg).
  replace (last l pg) with pg by (rewrite E, last_last; reflexivity). cbn [app].
  replace (make_set (all_references l)) with (map Whole (all_references l)); [reflexivity|].
  destruct (all_references l) as [|a [|b refs]]; try reflexivity. cbn in Hl. lia.
Qed.
Print Assumptions C38_pages.

Definition two_pages (p : option str) : result (list json) :=
  match p with
  | None => Ok [jnav [#"1"; #"2"] (Some #"/nav?id=t&page=2")]
  | Some n => if str_eqb n #"2" then Ok [jnav [#"3"] None] else Err HTTPError
  end.

Lemma sample_number : page_number #"/nav?id=t&page=2" #"2".
Proof.
  exists #"/nav?id=t&", []. split; [reflexivity|]. split; [repeat constructor; cbn; lia|]. split; [discriminate|]. split; [discriminate|].
  intros a' d b' E Hd. destruct (Nat.le_gt_cases (length #"/nav?id=t&") (length a')) as [H|H]; [exact H|exfalso].
  cbn in H. do 10 (destruct a' as [|? a']; [discriminate E|]; try (injection E as <- E)). cbn in H. lia.
Qed.

Example C38_sample :
  pages two_pages None [nav_sample [#"1"; #"2"] (Some #"/nav?id=t&page=2"); nav_sample [#"3"] None] /\
  get_reffs (fun q => two_pages (page_of q)) (MkRoute #"/nav" []) (StrParam #"t") (IntParam 1) NoParam (IntParam 1) None 2 =
    Ok (MkReffs (map (fun s => Whole (MkDR (JStr s) JNull (Some (JStr #"book")) [])) [#"1"; #"2"; #"3"]) (JInt 1) (Some (JStr #"book"))).
Proof.
  split; [|vm_compute; reflexivity].
  destruct (jnav_says [#"1"; #"2"] (Some #"/nav?id=t&page=2")) as (fs & E & S1). destruct (jnav_says [#"3"] None) as (fs2 & E2 & S2).
  eapply pages_more; [cbn [two_pages]; rewrite E; reflexivity|exact S1|reflexivity|exact sample_number|].
  eapply pages_last; [change (two_pages (Some #"2")) with (Ok [jnav [#"3"] None]); rewrite E2; reflexivity|exact S2|reflexivity].
Qed.

(** A page that cannot be had, or read, is an error, however many come before. *)
Theorem C38_breaks : forall server r text level group exclude ref ans e,
  NoDup (map fst (rt_query r)) -> answers server r text level group exclude ref ans -> breaks ans None e ->
  exists n, forall fuel, n <= fuel -> get_reffs server r text level exclude group ref fuel = Err e.
Proof.
  intros server r text level group exclude ref ans e Hr Ha Hb.
  destruct (loop_breaks server r text level exclude group ref ans Hr Ha None e Hb) as (k & H). exists k. intros fuel Hf. apply H. exact Hf.
Qed.
Print Assumptions C38_breaks.

Definition broken_pages (p : option str) : result (list json) :=
  match p with None => Ok [jnav [#"1"; #"2"] (Some #"/nav?id=t&page=2")] | Some _ => Err HTTPError end.

Example C38_breaks_sample : breaks broken_pages None HTTPError.
Proof.
  eapply breaks_later; [|apply breaks_http; reflexivity].
  destruct (jnav_says [#"1"; #"2"] (Some #"/nav?id=t&page=2")) as (fs & E & S1).
  exists fs, [], (nav_sample [#"1"; #"2"] (Some #"/nav?id=t&page=2")), #"/nav?id=t&page=2".
  split; [cbn [broken_pages]; rewrite E; reflexivity|]. split; [exact S1|]. split; [reflexivity|exact sample_number].
Qed.

(** It ends only if the chain of pages does. *)
Theorem C38_endless : forall server r text level group exclude ref ans (P : option str -> Prop),
  NoDup (map fst (rt_query r)) -> answers server r text level group exclude ref ans ->
  P None -> (forall p, P p -> exists n, leads ans p n /\ P (Some n)) ->
  forall fuel, get_reffs server r text level exclude group ref fuel = Err OutOfFuel.
Proof.
  intros server r text level group exclude ref ans P Hr Ha H0 HP fuel.
  exact (loop_endless server r text level exclude group ref ans Hr Ha P HP fuel None [] H0).
Qed.
Print Assumptions C38_endless.

Example C38_endless_sample : forall fuel,
  get_reffs (fun q => Ok [jnav [#"1"] (Some #"/nav?id=t&page=2")]) (MkRoute #"/nav" []) (StrParam #"t") (IntParam 1) NoParam (IntParam 1) None fuel = Err OutOfFuel.
Proof.
  apply (C38_endless (fun q => Ok [jnav [#"1"] (Some #"/nav?id=t&page=2")]) (MkRoute #"/nav" []) (StrParam #"t") (IntParam 1) (IntParam 1) NoParam None
    (fun _ => Ok [jnav [#"1"] (Some #"/nav?id=t&page=2")]) (fun _ => True)).
  - constructor.
  - intros q p fs _ _. reflexivity.
  - exact I.
  - intros p _. exists #"2". split; [|exact I].
    destruct (jnav_says [#"1"] (Some #"/nav?id=t&page=2")) as (fs & E & S1).
    exists fs, [], (nav_sample [#"1"] (Some #"/nav?id=t&page=2")), #"/nav?id=t&page=2".
    split; [rewrite E; reflexivity|]. split; [exact S1|]. split; [reflexivity|exact sample_number].
Qed.

(** Finding: a listing of one reference is not a set of one reference, but of the
    two halves of that reference. *)
Theorem C38_single_refuted : forall server r text level group exclude ref ans l fuel d,
  NoDup (map fst (rt_query r)) -> answers server r text level group exclude ref ans ->
  pages ans None l -> length l <= fuel -> all_references l = [d] ->
  exists out, get_reffs server r text level exclude group ref fuel = Ok out /\ rs_items out = [Half (dr_start d); Half (dr_end d)].
Proof.
  intros server r text level group exclude ref ans l fuel d Hr Ha Hp Hf Hl. eexists. split.
  - unfold get_reffs. apply (loop_pages server r text level exclude group ref ans Hr Ha None l Hp fuel [] Hf (nav_sample [] None)).
  - cbn [rs_items app]. rewrite Hl. reflexivity.
Qed.
Print Assumptions C38_single_refuted.

Example C38_single_sample : exists pg, pages (fun _ => Ok [jnav [#"1"] None]) None [pg] /\
  all_references [pg] = [MkDR (JStr #"1") JNull (Some (JStr #"book")) []].
Proof.
  exists (nav_sample [#"1"] None). split; [|reflexivity]. destruct (jnav_says [#"1"] None) as (fs & E & S1).
  eapply pages_last; [rewrite E; reflexivity|exact S1|reflexivity].
Qed.

(** Finding: the number is that of the first field whose name ends in "page", so
    that a server with a "perpage" field before "page" is asked for another page. *)
Theorem C38_number_refuted : exists u q, parse_qs (fun s => s) (url_query u) = q /\ dget #"page" q = Some [#"2"] /\
  page_number u #"10".
Proof.
  exists #"/nav?perpage=10&page=2". eexists. split; [reflexivity|]. split; [vm_compute; reflexivity|].
  exists #"/nav?per", #"&page=2". split; [reflexivity|]. split; [repeat constructor; cbn; lia|]. split; [discriminate|]. split.
  - intros c b' X. injection X as <- _. lia.
  - intros a' d b' E Hd. destruct (Nat.le_gt_cases (length #"/nav?per") (length a')) as [H|H]; [exact H|exfalso].
    cbn in H. do 8 (destruct a' as [|? a']; [discriminate E|]; try (injection E as <- E)). cbn in H. lia.
Qed.
Print Assumptions C38_number_refuted.

(** ** C39 *)

(** Whatever is asked of the children, in any order, through the collection or
    through an object it gave before, and however often requests fail: every
    answer is the truth about all the pages, or a failed request. *)
Theorem C39_children : forall server r id ans c sent l fuel h,
  NoDup (map fst (rt_query r)) -> steady server r id Children ans -> cpages ans 1 l -> consistent l ->
  co_id c = id -> first_reply c l -> length l <= fuel ->
  (forall a, In a h -> ~ reads_parents a) ->
  Forall2 (right_answer l) h (snd (do_all server r fuel (open_lazy c sent) h)).
Proof.
  intros server r id ans c sent l fuel h Hr Hs Hp HL Hid Hfirst Hf Hh.
  pose proof Hfirst as (more & z & El & Ez & Hm).
  assert (Hz : size_of (co_meta c) = 0%Z -> length l <= 1).
  { unfold size_of. rewrite Ez. cbn. intros ->. rewrite El, (Hm (or_intror eq_refl)). cbn. lia. }
  apply (history_right server r id ans l (size_of (co_meta c)) Hr Hs Hp HL Hz fuel h); [exact Hf| |left; exact Hh].
  apply (open_inv id ans l _ Hp HL); auto.
Qed.
Print Assumptions C39_children.

(** Once the children were read, the parents may be read too. *)
Theorem C39_after : forall server r id ans c sent l fuel h1 h2 st outs d,
  NoDup (map fst (rt_query r)) -> steady server r id Children ans -> cpages ans 1 l -> consistent l ->
  co_id c = id -> first_reply c l -> length l <= fuel ->
  (forall a, In a h1 -> ~ reads_parents a) ->
  do_all server r fuel (open_lazy c sent) h1 = (st, outs) -> In (Ok (Kids d)) outs ->
  Forall2 (right_answer l) h2 (snd (do_all server r fuel st h2)).
Proof.
  intros server r id ans c sent l fuel h1 h2 st outs d Hr Hs Hp HL Hid Hfirst Hf Hh E Hd.
  pose proof Hfirst as (more & z & El & Ez & Hm).
  assert (Hz : size_of (co_meta c) = 0%Z -> length l <= 1).
  { unfold size_of. rewrite Ez. cbn. intros ->. rewrite El, (Hm (or_intror eq_refl)). cbn. lia. }
  destruct (history_right server r id ans l (size_of (co_meta c)) Hr Hs Hp HL Hz fuel h1 (open_lazy c sent) Hf
    (open_inv id ans l _ Hp HL c sent Hid eq_refl Hfirst) (or_introl Hh)) as (A & _ & C).
  rewrite E in A, C. cbn [fst snd] in A, C.
  apply (history_right server r id ans l (size_of (co_meta c)) Hr Hs Hp HL Hz fuel h2); [exact Hf|exact A|]. right. apply C. right. exists d. exact Hd.
Qed.
Print Assumptions C39_after.

(** After the children were read once, reading them through the collection asks
    nothing of the server, whatever it would say. *)
Theorem C39_once : forall server r c sent fuel h st outs d a,
  (forall a, In a h -> ~ reads_parents a) ->
  do_all server r fuel (open_lazy c sent) h = (st, outs) -> In (Ok (Kids d)) outs ->
  (a = ReadKids \/ exists k, a = GetKid k) ->
  z_sent (fst (do_access server r fuel st a)) = z_sent st.
Proof.
  intros server r c sent fuel h st outs d a Hh E Hd Ha. apply parsed_silent; [|exact Ha].
  pose proof (history_parsed server r fuel h (open_lazy c sent) Hh eq_refl) as X. cbv zeta in X. rewrite E in X. cbn [fst snd] in X.
  apply X. right. exists d. exact Hd.
Qed.
Print Assumptions C39_once.

(** The parents are all there whatever was done before: those of every page, and,
    for a member, the collection it was listed by. *)
Theorem C39_parents : forall server r id ans l fuel h st known,
  NoDup (map fst (rt_query r)) -> steady server r id Parents ans -> cpages ans 1 l -> length l <= fuel ->
  (exists c, co_id c = id /\ (known = [] /\ (exists sent, st = open_lazy c sent) \/ exists up, known = [up] /\ st = member_lazy up c)) ->
  Forall2 (right_parents known l) h (snd (do_all server r fuel st h)).
Proof.
  intros server r id ans l fuel h st known Hr Hs Hp Hf (c & Hid & Hst).
  assert (I0 : uinv id ans l known st).
  { destruct Hst as [(-> & sent & ->)|(up & -> & ->)]; unfold uinv; cbn; (split; [exact Hid|]).
    - split; [intros x []|]. split; [intros x []|]. split; [discriminate|exact I].
    - split; [apply incl_refl|]. split; [intros x [<-|[]]; left; reflexivity|]. split; [discriminate|exact I]. }
  pose proof (parents_history server r id ans l known Hr Hs Hp fuel h st Hf I0) as F.
  eapply Forall2_imp; [|exact F]. intros a x H Ha. destruct (H Ha) as [X|(out & X & A & B)]; [left; exact X|]. right. exists out. split; [exact X|].
  intros y. split.
  - intros Hy. apply B in Hy. apply in_app_or in Hy. destruct Hy as [Hy|Hy]; [left; exact Hy|right]. apply in_concat in Hy. destruct Hy as (cs & H1 & H2). eauto.
  - intros Hy. apply A. apply in_or_app. destruct Hy as [Hy|(cs & H1 & H2)]; [left; exact Hy|right]. apply in_concat. eauto.
Qed.
Print Assumptions C39_parents.

(** A collection is opened with the members of the first reply. *)
Theorem C39_open : forall server r name j rest c, NoDup (map fst (rt_query r)) -> says_coll j c -> Forall lists_none (co_members c) ->
  (forall q, asks q r [(#"id", StrParam name)] [] -> server [] q = Ok (j :: rest)) ->
  exists q, asks q r [(#"id", StrParam name)] [] /\ get_metadata server r name = Ok (open_lazy c [q]).
Proof.
  intros server r name j rest c Hr Hj Hn Hs. exists (get_collection r (StrParam name) (StrParam #"children") NoParam).
  assert (A : asks (get_collection r (StrParam name) (StrParam #"children") NoParam) r [(#"id", StrParam name)] []).
  { destruct (proj1 (C40_dts_requests r (StrParam name) (StrParam #"children") NoParam NoParam NoParam NoParam NoParam None [] Hr rf_none)) as (B1 & B2 & B3 & B4 & B5).
    split; [exact B1|]. split; [exact B2|]. split; [|split; [exact B4|]].
    - intros k p [E|[]] Hp _. inversion E; subst. apply (B3 _ (StrParam name)); [left; reflexivity|exact Hp|]. intros X. cbn in X. repeat (destruct X as [X|X]; [discriminate|]); exact X.
    - intros k vs X. destruct (B5 k vs X) as [Y|(Y & p & v & Z1 & Z2 & Z3 & Z4)]; [left; exact Y|right]. split; [exact Y|].
      cbn in Z1. destruct Z1 as [Z1|[Z1|[Z1|[]]]]; inversion Z1; subst.
      + exists (StrParam name), v. split; [left; reflexivity|]. split; [intros []|]. split; [exact Z3|reflexivity].
      + destruct Z2. left. reflexivity.
      + destruct Z3. }
  split; [exact A|]. unfold get_metadata. rewrite (Hs _ A). cbn [bind]. rewrite (says_http _ _ Hj Hn). reflexivity.
Qed.
Print Assumptions C39_open.

(** *** Examples and findings *)

(** A server that looks at the direction and the page. *)
Definition coll_server (kids ups : Z -> result (list json)) (sent : list request) (q : request) : result (list json) :=
  let page := match dget #"page" (snd q) with Some [v] => Z.of_N (N_of_digits v) | _ => 1%Z end in
  match dget #"nav" (snd q) with Some _ => ups page | None => kids page end.

Lemma coll_steady : forall kids ups path id d,
  steady (coll_server kids ups) (MkRoute path []) id d (match d with Children => kids | Parents => ups end).
Proof.
  intros kids ups path id d sent q p Hp (_ & HN & H1 & _ & H2). cbn [rt_query] in *. left. unfold coll_server.
  assert (A : (match dget #"page" (snd q) with Some [v] => Z.of_N (N_of_digits v) | _ => 1%Z end) = p).
  { destruct (dget #"page" (snd q)) as [vs|] eqn:E.
    - apply dget_In in E. destruct (H2 _ _ E) as [[]|(_ & x & v & Hx & _ & Hs & ->)].
      destruct Hx as [Hx|[Hx|[Hx|[]]]]; try discriminate Hx. injection Hx as <-. cbn in Hs. destruct Hs as (ds & _ & _ & Hv & ->).
      destruct (Z.ltb_spec p 0); [lia|]. cbn [app]. rewrite Hv. lia.
    - destruct (Z.eq_dec p 1) as [->|Hne]; [reflexivity|]. exfalso.
      assert (X : In #"page" (map fst (snd q))).
      { apply (H1 _ (IntParam p)); [right; right; left; reflexivity|discriminate|]. intros [X|[X|[]]]; [discriminate X|congruence]. }
      apply in_map_iff in X. destruct X as ([k vs] & Hk & X). cbn [fst] in Hk. subst k. apply In_dget_NoDup in X; [|exact HN].
      pose proof (eq_trans (eq_sym E) X) as Y. discriminate Y. }
  rewrite A. destruct (dget #"nav" (snd q)) as [vs|] eqn:E.
  - destruct d; [exfalso|reflexivity]. apply dget_In in E. destruct (H2 _ _ E) as [[]|(_ & x & v & Hx & Ho & _)].
    destruct Hx as [Hx|[Hx|[Hx|[]]]]; try discriminate Hx. injection Hx as <-. apply Ho. left. reflexivity.
  - destruct d; [reflexivity|exfalso].
    assert (X : In #"nav" (map fst (snd q))).
    { apply (H1 _ (StrParam #"parents")); [right; left; reflexivity|discriminate|]. intros [X|[X|[]]]; discriminate X. }
    apply in_map_iff in X. destruct X as ([k vs] & Hk & X). cbn [fst] in Hk. subst k. apply In_dget_NoDup in X; [|exact HN].
    pose proof (eq_trans (eq_sym E) X) as Y. discriminate Y.
Qed.

(** A collection with a title and a number of items. *)
Definition jcoll (id : str) (total : Z) (ms : list json) (view : list (str * json)) : json :=
  JObj ([(#"@id", JStr id); (#"@type", JList [JStr #"https://www.w3.org/ns/hydra/core#Collection"]);
         (#"https://www.w3.org/ns/hydra/core#title", jval (JStr id));
         (#"https://www.w3.org/ns/hydra/core#totalItems", jval (JInt total));
         (#"https://www.w3.org/ns/hydra/core#member", JList ms)] ++ view).
Definition coll_meta (id : str) (total : Z) : cmeta :=
  MkCMeta [JStr id] [JStr #"https://www.w3.org/ns/hydra/core#Collection"] None None [JInt total] [] [].
Definition leaf (id : str) : coll := Coll id (coll_meta id 0) [] false.
Definition jleaf (id : str) : json := jcoll id 0 [] [].

Lemma jcoll_says_only : forall id total ms cs next, Forall2 says_coll ms cs ->
  says_coll (jcoll id total ms (match next with Some n => jview n | None => [] end))
    (Coll id (coll_meta id total) cs (match next with Some _ => true | None => false end)).
Proof.
  intros id total ms cs next F. unfold jcoll.
  eapply says_coll_intro with (ms := ms); [reflexivity| |right; reflexivity|exact F|].
    + unfold says_meta, coll_meta. cbn [cm_labels cm_types cm_citation cm_depth cm_totals cm_descriptions cm_about gives_opt].
      split; [eexists; split; [reflexivity|]; constructor; [eexists; split; reflexivity|constructor]|].
      split; [reflexivity|]. split; [left; split; destruct next; reflexivity|]. split; [destruct next; reflexivity|].
      split; [eexists; split; [reflexivity|]; constructor; [eexists; split; reflexivity|constructor]|].
      split; [left; split; destruct next; reflexivity|].
      exists [], []. split; [left; split; destruct next; reflexivity|]. split; [left; split; destruct next; reflexivity|reflexivity].
    + destruct next; [eexists; reflexivity|reflexivity].
Qed.

Lemma jcoll_says : forall id total ms cs next, Forall2 says_coll ms cs -> Forall lists_none cs ->
  exists fs, jcoll id total ms (match next with Some n => jview n | None => [] end) = JObj fs /\
    says_members fs cs /\ next_address fs (match next with Some n => n | None => None end) /\
    says_coll (JObj fs) (Coll id (coll_meta id total) cs (match next with Some _ => true | None => false end)).
Proof.
  intros id total ms cs next F N. eexists. split; [reflexivity|]. split; [|split].
  - exists ms. split; [right; reflexivity|split; [exact F|exact N]].
  - destruct next as [[u|]|]; cbn [next_address].
    + eexists; eexists. split; [reflexivity|]. eexists; eexists. split; reflexivity.
    + right. eexists; eexists. split; reflexivity.
    + left. reflexivity.
  - exact (jcoll_says_only id total ms cs next F).
Qed.

Lemma jleaf_says : forall id, says_coll (jleaf id) (leaf id).
Proof.
  intros id. destruct (jcoll_says id 0 [] [] None (Forall2_nil _) (Forall_nil _)) as (fs & E & _ & _ & H). unfold jleaf. cbn [app] in E |- *.
  unfold leaf. rewrite E. exact H.
Qed.

Definition sample_kids (p : Z) : result (list json) :=
  if (p =? 1)%Z then Ok [jcoll #"c" 3 [jleaf #"k1"; jleaf #"k2"] (jview (Some #"/c?id=c&page=2"))]
  else if (p =? 2)%Z then Ok [jcoll #"c" 3 [jleaf #"k3"] (jview None)] else Err HTTPError.
Definition sample_ups (p : Z) : result (list json) :=
  if (p =? 1)%Z then Ok [jcoll #"c" 3 [jleaf #"u"] []] else Err HTTPError.
Definition sample_coll : coll := Coll #"c" (coll_meta #"c" 3) [leaf #"k1"; leaf #"k2"] true.
Definition sample_pages : list (list coll) := [[leaf #"k1"; leaf #"k2"]; [leaf #"k3"]].
Definition sample_route := MkRoute #"/c" [].

Lemma coll_number : page_number #"/c?id=c&page=2" #"2".
Proof.
  exists #"/c?id=c&", []. split; [reflexivity|]. split; [repeat constructor; cbn; lia|]. split; [discriminate|]. split; [discriminate|].
  intros a' d b' E Hd. destruct (Nat.le_gt_cases (length #"/c?id=c&") (length a')) as [H|H]; [exact H|exfalso].
  cbn in H. do 8 (destruct a' as [|? a']; [discriminate E|]; try (injection E as <- E)). cbn in H. lia.
Qed.

Lemma sample_cpages : cpages sample_kids 1 sample_pages.
Proof.
  destruct (jcoll_says #"c" 3 [jleaf #"k1"; jleaf #"k2"] [leaf #"k1"; leaf #"k2"] (Some (Some #"/c?id=c&page=2"))
    ltac:(repeat constructor; apply jleaf_says) ltac:(repeat constructor)) as (fs & E & M & N & _).
  destruct (jcoll_says #"c" 3 [jleaf #"k3"] [leaf #"k3"] (Some None) ltac:(repeat constructor; apply jleaf_says) ltac:(repeat constructor)) as (fs2 & E2 & M2 & N2 & _).
  eapply cpages_more with (m := 2%Z); [lia| |exact M|exact N|exact coll_number|apply (decimal_total #"2")|].
  - change (sample_kids 1) with (Ok [jcoll #"c" 3 [jleaf #"k1"; jleaf #"k2"] (jview (Some #"/c?id=c&page=2"))]). rewrite E. reflexivity.
  - eapply cpages_last; [lia| |exact M2|exact N2].
    change (sample_kids 2) with (Ok [jcoll #"c" 3 [jleaf #"k3"] (jview None)]). rewrite E2. reflexivity.
Qed.

Lemma sample_up_pages : cpages sample_ups 1 [[leaf #"u"]].
Proof.
  destruct (jcoll_says #"c" 3 [jleaf #"u"] [leaf #"u"] None ltac:(repeat constructor; apply jleaf_says) ltac:(repeat constructor)) as (fs & E & M & N & _).
  eapply cpages_last; [lia| |exact M|exact N]. change (sample_ups 1) with (Ok [jcoll #"c" 3 [jleaf #"u"] []]). rewrite E. reflexivity.
Qed.

Lemma sample_consistent : consistent sample_pages.
Proof.
  intros k c c' [<- (cs & H1 & H2)] [E (cs' & H1' & H2')].
  destruct H1 as [<-|[<-|[]]]; destruct H1' as [<-|[<-|[]]];
    repeat match goal with H : In _ _ |- _ => destruct H as [<-|H] | H : In _ [] |- _ => destruct H end; try reflexivity; discriminate E.
Qed.

Lemma sample_first : first_reply sample_coll sample_pages.
Proof. exists [[leaf #"k3"]], 3%Z. split; [reflexivity|]. split; [reflexivity|]. intros [H|H]; discriminate H. Qed.

Example C39_sample :
  steady (coll_server sample_kids sample_ups) sample_route #"c" Children sample_kids /\
  cpages sample_kids 1 sample_pages /\ consistent sample_pages /\ first_reply sample_coll sample_pages /\
  (exists st, get_metadata (coll_server sample_kids sample_ups) sample_route #"c" = Ok st /\ z_kids st = [(#"k1", leaf #"k1"); (#"k2", leaf #"k2")] /\
     snd (do_all (coll_server sample_kids sample_ups) sample_route 2 st [GetKid #"k1"; GetKid #"k3"; ReadKids; ReadUps; GetKid #"x"]) =
     [Ok (Kid (leaf #"k1")); Ok (Kid (leaf #"k3")); Ok (Kids [(#"k1", leaf #"k1"); (#"k2", leaf #"k2"); (#"k3", leaf #"k3")]);
      Ok (Ups [leaf #"u"]); Err KeyError]).
Proof.
  split; [apply (coll_steady sample_kids sample_ups #"/c" #"c" Children)|]. split; [exact sample_cpages|]. split; [exact sample_consistent|]. split; [exact sample_first|].
  eexists. split; [vm_compute; reflexivity|]. split; [reflexivity|]. vm_compute. reflexivity.
Qed.

(** Finding: both proxies look at the flag of the parents.  Once the parents have
    been read, the children that were not loaded never are. *)
Theorem C39_parents_first_refuted : exists server r id ans c sent l fuel h d,
  NoDup (map fst (rt_query r)) /\ steady server r id Children ans /\ cpages ans 1 l /\ consistent l /\
  co_id c = id /\ first_reply c l /\ length l <= fuel /\
  In (Ok (Kids d)) (snd (do_all server r fuel (open_lazy c sent) h)) /\ ~ is_dictionary_of d l.
Proof.
  exists (coll_server sample_kids sample_ups), sample_route, #"c", sample_kids, sample_coll, [], sample_pages, 2, [ReadUps; ReadKids].
  exists [(#"k1", leaf #"k1"); (#"k2", leaf #"k2")].
  split; [constructor|]. split; [apply (coll_steady sample_kids sample_ups #"/c" #"c" Children)|]. split; [exact sample_cpages|].
  split; [exact sample_consistent|]. split; [reflexivity|]. split; [exact sample_first|]. split; [cbn; lia|]. split.
  - right. left. vm_compute. reflexivity.
  - intros [_ H]. assert (X : In (#"k3", leaf #"k3") [(#"k1", leaf #"k1"); (#"k2", leaf #"k2")]).
    { apply H. split; [reflexivity|]. exists [leaf #"k3"]. split; [right; left; reflexivity|left; reflexivity]. }
    destruct X as [X|[X|[]]]; discriminate X.
Qed.
Print Assumptions C39_parents_first_refuted.

(** Finding: an object obtained before the children were loaded asks the server
    again each time it is read. *)
Theorem C39_held_refuted : exists server r c sent fuel st d,
  do_all server r fuel (open_lazy c sent) [ReadKids] = (st, [Ok (Kids d)]) /\
  (forall n, length (z_sent (fst (do_all server r fuel st (repeat HeldKids n)))) = n + length (z_sent st)).
Proof.
  exists (coll_server sample_kids sample_ups), sample_route, sample_coll, [], 2. eexists. eexists. split; [vm_compute; reflexivity|].
  (* from the last page on, one request each *)
  assert (G : forall n sent, length (z_sent (fst (do_all (coll_server sample_kids sample_ups) sample_route 2
      (MkLazy #"c" 3 [(#"k1", leaf #"k1"); (#"k2", leaf #"k2"); (#"k3", leaf #"k3")] [] true false (Some 2%Z) None sent) (repeat HeldKids n)))) = n + length sent).
  { induction n as [|n IH]; intros sent; [reflexivity|]. cbn [repeat do_all].
    assert (E : exists q, do_access (coll_server sample_kids sample_ups) sample_route 2
      (MkLazy #"c" 3 [(#"k1", leaf #"k1"); (#"k2", leaf #"k2"); (#"k3", leaf #"k3")] [] true false (Some 2%Z) None sent) HeldKids =
      (MkLazy #"c" 3 [(#"k1", leaf #"k1"); (#"k2", leaf #"k2"); (#"k3", leaf #"k3")] [] true false (Some 2%Z) None (sent ++ [q]),
       Ok (Kids [(#"k1", leaf #"k1"); (#"k2", leaf #"k2"); (#"k3", leaf #"k3")]))) by (eexists; vm_compute; reflexivity).
    destruct E as (q & ->). specialize (IH (sent ++ [q])).
    destruct (do_all (coll_server sample_kids sample_ups) sample_route 2 _ (repeat HeldKids n)) as [st' rs]. cbn [fst] in *. rewrite IH, app_length. cbn. lia. }
  intros n. apply G.
Qed.
Print Assumptions C39_held_refuted.

(** Finding: the parents of a member hold the collection that listed it and, once
    loaded, another object for the same collection. *)
Theorem C39_twice_refuted : exists server r fuel up c l,
  snd (do_all server r fuel (member_lazy up c) [ReadUps]) = [Ok (Ups l)] /\ ~ NoDup (map co_id l).
Proof.
  exists (coll_server sample_kids (fun p => if (p =? 1)%Z then Ok [jcoll #"k1" 0 [jcoll #"c" 3 [] []] []] else Err HTTPError)), sample_route, 1, sample_coll, (leaf #"k1").
  eexists. split; [vm_compute; reflexivity|]. cbn. intros H. inversion H as [|? ? H1 _]. apply H1. left. reflexivity.
Qed.
Print Assumptions C39_twice_refuted.

(** Finding: a server that counts its pages from 0 is asked for its first page for
    ever, since page 1 is asked for without a number. *)
Definition from_zero (sent : list request) (q : request) : result (list json) :=
  match dget #"page" (snd q) with
  | None => Ok [jcoll #"c" 2 [jleaf #"k1"] (jview (Some #"/c?id=c&page=1"))]
  | Some _ => Ok [jcoll #"c" 2 [jleaf #"k2"] (jview None)]
  end.

Theorem C39_zero_based_refuted : exists server r c,
  (forall sent q, dget #"page" (snd q) = None -> server sent q = Ok [jcoll #"c" 2 [jleaf #"k1"] (jview (Some #"/c?id=c&page=1"))]) /\
  (forall sent q, dget #"page" (snd q) = Some [#"1"] -> server sent q = Ok [jcoll #"c" 2 [jleaf #"k2"] (jview None)]) /\
  says_coll (jcoll #"c" 2 [jleaf #"k1"] (jview (Some #"/c?id=c&page=1"))) c /\
  forall fuel, snd (do_all server r fuel (open_lazy c []) [ReadKids]) = [Err OutOfFuel].
Proof.
  exists from_zero, sample_route, (Coll #"c" (coll_meta #"c" 2) [leaf #"k1"] true).
  split; [intros sent q H; unfold from_zero; rewrite H; reflexivity|]. split; [intros sent q H; unfold from_zero; rewrite H; reflexivity|]. split.
  { destruct (jcoll_says #"c" 2 [jleaf #"k1"] [leaf #"k1"] (Some (Some #"/c?id=c&page=1")) ltac:(repeat constructor; apply jleaf_says) ltac:(repeat constructor)) as (fs & E & _ & _ & H).
    cbn match in E. rewrite E. exact H. }
  assert (G : forall fuel last sent, snd (load_from from_zero sample_route fuel
     (MkLazy #"c" 2 [(#"k1", leaf #"k1")] [] false false last None sent) Children 1) = Err OutOfFuel).
  { induction fuel as [|fuel IH]; intros lst sent; [reflexivity|].
    transitivity (snd (load_from from_zero sample_route fuel (MkLazy #"c" 2 [(#"k1", leaf #"k1")] [] false false (Some 1%Z) None
      (sent ++ [get_collection sample_route (StrParam #"c") (StrParam #"children") NoParam])) Children 1)); [|apply IH].
    vm_compute. reflexivity. }
  intros fuel. cbn [do_all do_access]. unfold kids_property. cbn [open_lazy z_parsed_kids co_closed closes co_members co_meta co_view size_of coll_meta cm_totals negb orb andb z_size Z.eqb].
  unfold iter_proxy, run_proxy, load. cbn [z_parsed_ups z_last_kids].
  specialize (G fuel None []). change (open_lazy (Coll #"c" (coll_meta #"c" 2) [leaf #"k1"] true) []) with (MkLazy #"c" 2 [(#"k1", leaf #"k1")] [] false false None None []).
  cbn [z_parsed_ups z_last_kids].
  destruct (load_from from_zero sample_route fuel _ Children 1) as [st res]. cbn [snd] in *. rewrite G. reflexivity.
Qed.
Print Assumptions C39_zero_based_refuted.

(** ** C56 *)

(** A collection is read as its description says, members of members included.
    [parse_coll] is [DtsCollection.parse]. *)
Theorem C56_collection : forall j c, says_coll j c -> parse_coll j = Ok c.
Proof. exact says_parse. Qed.
Print Assumptions C56_collection.

Example C56_sample : says_coll (jcoll #"c" 3 [jleaf #"k1"; jleaf #"k2"] (jview None)) (Coll #"c" (coll_meta #"c" 3) [leaf #"k1"; leaf #"k2"] true).
Proof.
  destruct (jcoll_says #"c" 3 [jleaf #"k1"; jleaf #"k2"] [leaf #"k1"; leaf #"k2"] (Some None) ltac:(repeat constructor; apply jleaf_says) ltac:(repeat constructor)) as (fs & E & _ & _ & H).
  rewrite E. exact H.
Qed.

(** The collections of a resolver, which ask for more when needed, are read in the
    same way when the members listed list no members. *)
Theorem C56_http : forall j c, says_coll j c -> Forall lists_none (co_members c) -> http_coll j = Ok c.
Proof. exact says_http. Qed.
Print Assumptions C56_http.

Example C56_http_sample : exists j c, says_coll j c /\ co_members c <> [] /\ Forall lists_none (co_members c) /\ http_coll j = Ok c.
Proof.
  eexists. eexists. split; [exact C56_sample|]. split; [discriminate|]. split; [repeat constructor|]. apply C56_http; [exact C56_sample|repeat constructor].
Qed.

(** Finding: a member that lists members is an error there, whatever it lists. *)
Theorem C56_nested_error : forall j c, says_coll j c -> ~ Forall lists_none (co_members c) -> http_coll j = Err TypeError.
Proof. exact says_http_nested. Qed.
Print Assumptions C56_nested_error.

Theorem C56_nested_refuted : exists j c, says_coll j c /\ parse_coll j = Ok c /\ http_coll j <> Ok c /\
  forall server r id, (forall sent q, server sent q = Ok [j]) -> get_metadata server r id = Err TypeError.
Proof.
  assert (S : exists j c, says_coll j c /\ ~ Forall lists_none (co_members c)).
  { exists (jcoll #"top" 1 [jcoll #"c" 3 [jleaf #"k1"; jleaf #"k2"] (jview None)] []),
      (Coll #"top" (coll_meta #"top" 1) [Coll #"c" (coll_meta #"c" 3) [leaf #"k1"; leaf #"k2"] true] false).
    split; [|intros H; inversion H as [|? ? X _]; discriminate X].
    apply (jcoll_says_only #"top" 1 _ _ None). constructor; [exact C56_sample|constructor]. }
  destruct S as (j & c & S & N). exists j, c. split; [exact S|]. split; [apply C56_collection, S|].
  pose proof (C56_nested_error j c S N) as E. split; [rewrite E; discriminate|].
  intros server r id H. unfold get_metadata. rewrite H. cbn [bind]. rewrite E. reflexivity.
Qed.
Print Assumptions C56_nested_refuted.

(** The description determines the collection. *)
Theorem C56_unique : forall j c c', says_coll j c -> says_coll j c' -> c = c'.
Proof. intros j c c' H H'. apply says_parse in H. apply says_parse in H'. congruence. Qed.
Print Assumptions C56_unique.

(** Without an identifier, a title, a type or a number of items there is no
    collection; in particular one bad member, however deep, spoils the whole. *)
Theorem C56_required : forall fs,
  (field #"@id" fs = None -> parse_coll (JObj fs) = Err KeyError) /\
  (forall id, field #"@id" fs = Some (JStr id) -> lacks fs #"https://www.w3.org/ns/hydra/core#title" -> parse_coll (JObj fs) = Err KeyError) /\
  (forall id vs, field #"@id" fs = Some (JStr id) -> listed fs #"https://www.w3.org/ns/hydra/core#title" vs -> field #"@type" fs = None ->
     parse_coll (JObj fs) = Err KeyError) /\
  (forall id vs ts, field #"@id" fs = Some (JStr id) -> listed fs #"https://www.w3.org/ns/hydra/core#title" vs -> field #"@type" fs = Some (JList ts) ->
     lacks fs #"https://w3id.org/dts/api#citeStructure" -> lacks fs #"https://w3id.org/dts/api#citeDepth" ->
     lacks fs #"https://www.w3.org/ns/hydra/core#totalItems" -> parse_coll (JObj fs) = Err KeyError) /\
  (forall id meta good bad more cs e, field #"@id" fs = Some (JStr id) -> says_meta fs meta ->
     field #"https://www.w3.org/ns/hydra/core#member" fs = Some (JList (good ++ bad :: more)) ->
     Forall2 says_coll good cs -> parse_coll bad = Err e -> parse_coll (JObj fs) = Err e).
Proof.
  intros fs. rewrite parse_coll_eq. unfold parse_cmeta.
  change (hydra_term #"title") with #"https://www.w3.org/ns/hydra/core#title".
  change (hydra_term #"totalItems") with #"https://www.w3.org/ns/hydra/core#totalItems".
  change (hydra_term #"member") with #"https://www.w3.org/ns/hydra/core#member".
  change (dts_term #"citeStructure") with #"https://w3id.org/dts/api#citeStructure".
  change (dts_term #"citeDepth") with #"https://w3id.org/dts/api#citeDepth".
  split; [|split; [|split; [|split]]].
  - intros E. unfold get_key at 1. rewrite E. reflexivity.
  - intros id E L. unfold get_key. rewrite E. cbn [bind as_id]. rewrite L. reflexivity.
  - intros id vs E H T. unfold get_key. rewrite E. cbn [bind as_id]. destruct (listed_values _ _ _ H) as (x & Ex & Vx). rewrite Ex. cbn [bind]. rewrite Vx. cbn [bind].
    rewrite T. reflexivity.
  - intros id vs ts E H T L1 L2 L3. unfold get_key. rewrite E. cbn [bind as_id]. destruct (listed_values _ _ _ H) as (x & Ex & Vx). rewrite Ex. cbn [bind]. rewrite Vx. cbn [bind].
    rewrite T. cbn [bind iter_json]. unfold jget at 1. rewrite L1. cbn [bind jtruthy]. unfold jget at 1. rewrite L2. cbn [bind jtruthy]. rewrite L3. reflexivity.
  - intros id meta good bad more cs e E M Em F B. pose proof (says_meta_parse _ _ M) as P. unfold parse_cmeta in P.
    change (hydra_term #"title") with #"https://www.w3.org/ns/hydra/core#title" in P.
    change (hydra_term #"totalItems") with #"https://www.w3.org/ns/hydra/core#totalItems" in P.
    change (dts_term #"citeStructure") with #"https://w3id.org/dts/api#citeStructure" in P.
    change (dts_term #"citeDepth") with #"https://w3id.org/dts/api#citeDepth" in P.
    rewrite P. unfold get_key. rewrite E. cbn [bind as_id]. rewrite Em.
    assert (G : mapM parse_coll (good ++ bad :: more) = Err e).
    { clear -F B. induction F as [|j c good cs H F IH]; cbn [app mapM]; [rewrite B; reflexivity|]. rewrite (says_parse _ _ H). cbn [bind]. rewrite IH. reflexivity. }
    rewrite G. reflexivity.
Qed.
Print Assumptions C56_required.

(** Nor for a resolver. *)
Theorem C56_http_required : forall fs,
  (field #"@id" fs = None -> http_coll (JObj fs) = Err KeyError) /\
  (forall id, field #"@id" fs = Some (JStr id) -> lacks fs #"https://www.w3.org/ns/hydra/core#title" -> http_coll (JObj fs) = Err KeyError) /\
  (forall id vs, field #"@id" fs = Some (JStr id) -> listed fs #"https://www.w3.org/ns/hydra/core#title" vs -> field #"@type" fs = None ->
     http_coll (JObj fs) = Err KeyError) /\
  (forall id vs ts, field #"@id" fs = Some (JStr id) -> listed fs #"https://www.w3.org/ns/hydra/core#title" vs -> field #"@type" fs = Some (JList ts) ->
     lacks fs #"https://w3id.org/dts/api#citeStructure" -> lacks fs #"https://w3id.org/dts/api#citeDepth" ->
     lacks fs #"https://www.w3.org/ns/hydra/core#totalItems" -> http_coll (JObj fs) = Err KeyError).
Proof.
  intros fs. unfold http_coll, parse_cmeta.
  change (hydra_term #"title") with #"https://www.w3.org/ns/hydra/core#title".
  change (hydra_term #"totalItems") with #"https://www.w3.org/ns/hydra/core#totalItems".
  change (dts_term #"citeStructure") with #"https://w3id.org/dts/api#citeStructure".
  change (dts_term #"citeDepth") with #"https://w3id.org/dts/api#citeDepth".
  split; [|split; [|split]].
  - intros E. unfold get_key at 1. rewrite E. reflexivity.
  - intros id E L. unfold get_key. rewrite E. cbn [bind as_id]. rewrite L. reflexivity.
  - intros id vs E H T. unfold get_key. rewrite E. cbn [bind as_id]. destruct (listed_values _ _ _ H) as (x & Ex & Vx). rewrite Ex. cbn [bind]. rewrite Vx. cbn [bind].
    rewrite T. reflexivity.
  - intros id vs ts E H T L1 L2 L3. unfold get_key. rewrite E. cbn [bind as_id]. destruct (listed_values _ _ _ H) as (x & Ex & Vx). rewrite Ex. cbn [bind]. rewrite Vx. cbn [bind].
    rewrite T. cbn [bind iter_json]. unfold jget at 1. rewrite L1. cbn [bind jtruthy]. unfold jget at 1. rewrite L2. cbn [bind jtruthy]. rewrite L3. reflexivity.
Qed.
Print Assumptions C56_http_required.

(** Finding: a Dublin Core field that points to a resource, rather than holding a
    text, makes the collection unreadable. *)
Theorem C56_resource_refuted : exists fs groups j, field #"https://w3id.org/dts/api#dublincore" fs = Some (JList [JObj groups]) /\
  In (#"http://purl.org/dc/terms/creator", JList [j]) groups /\ j = JObj [(#"@id", JStr #"http://viaf.org/1")] /\
  parse_coll (JObj fs) = Err KeyError.
Proof.
  exists [(#"@id", JStr #"c"); (#"@type", JList []); (#"https://www.w3.org/ns/hydra/core#title", jval (JStr #"c"));
     (#"https://www.w3.org/ns/hydra/core#totalItems", jval (JInt 0));
     (#"https://w3id.org/dts/api#dublincore", JList [JObj [(#"http://purl.org/dc/terms/creator", JList [JObj [(#"@id", JStr #"http://viaf.org/1")]])]])].
  eexists. eexists. split; [reflexivity|]. split; [left; reflexivity|]. split; [reflexivity|]. vm_compute. reflexivity.
Qed.
Print Assumptions C56_resource_refuted.
