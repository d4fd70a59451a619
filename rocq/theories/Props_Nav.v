(** Property C69: walking through a text that is read from a CTS endpoint.  The
    vocabulary is in NavSpec.v, with XmlSpec.v, RemoteSpec.v and TextMetaSpec.v. *)

From Coq Require Import List NArith ZArith Arith Bool Lia.
From Verif Require Import PyStr PyStrFacts RefModel RefSpec RefProofs UrnModel UrnSpec UrnProofs XmlModel XmlSpec InvModel PassageModel HttpModel.
From Verif Require Import RemoteModel RemoteSpec RemoteProofs TextMetaModel TextMetaSpec TextMetaProofs NavModel NavSpec NavProofs NavMemory.
Import ListNotations.

(** ** Travelling *)

(** Whatever is read, and however often, by identifiers or as objects, from the text
    and from every passage met on the way: each move answers what the contents say,
    and each new object has the URN of its reference and the element that the
    endpoint sent for it. *)
Theorem C69_travels : forall ns cts p E c u cs h ps l,
  plain_ns ns -> plain_ns cts -> plain_part p -> 2 <= part_size p ->
  let text := write_urn ns cts p None in
  readable c -> serves E text c -> urn_parse text = Ok u ->
  travels c [TheText] h ps l ->
  exists w, make_moves E (MkWorld [new_text u cs] []) h = (w, l) /\ Forall2 (stands E text) ps (w_objs w).
Proof.
  intros ns cts p E c u cs h ps l Hns Hcts Hp Hs text RC SV Hu T.
  assert (U : urn_parse text = Ok (parsed_urn ns cts p None None)) by (apply urn_parse_written; auto; exact I).
  assert (u = parsed_urn ns cts p None None) by congruence. subst u.
  assert (H : holds ns cts p E c [TheText] (MkWorld [new_text (parsed_urn ns cts p None None) cs] [])).
  { constructor; [|constructor]. apply text_fits. }
  destruct (travels_run ns cts p E c Hns Hcts Hp Hs RC SV h _ _ _ _ H T) as (w & Q & HW). exists w. split; [exact Q|].
  clear - HW Hns Hcts Hp Hs RC SV. unfold holds in HW. induction HW; constructor; [|assumption]. eapply fits_stands; eassumption.
Qed.
Print Assumptions C69_travels.

(** Reading on from the first reference of a level, or back from the last, meets
    every reference of the level, once, in order, and then stops. *)
Definition onwards (n : nat) (m : move) : list (nat * move) := map (fun i => (i, m)) (seq 1 n).

Lemma after_split : forall a r b, NoDup (a ++ r :: b) -> after r (a ++ r :: b) = hd_error b.
Proof.
  induction a as [|x a IH]; intros r b N; cbn [app after].
  - destruct (same_ref r r) eqn:E; [reflexivity|]. rewrite (proj2 (same_ref_eq r r) eq_refl) in E. discriminate.
  - destruct (same_ref x r) eqn:E.
    + apply same_ref_eq in E. subst x. inversion N as [|? ? H _]. destruct H. apply in_or_app. right. left. reflexivity.
    + apply IH. inversion N. assumption.
Qed.
Lemma walk : forall c m next b pre r, let l := pre ++ r :: b in
  (forall q, In q l -> expected c (Passage q) m (match next q with Some q' => Moves [Passage q'] | None => Moves [] end)) ->
  (forall a q d, l = a ++ q :: d -> next q = hd_error d) ->
  travels c (TheText :: map Passage (pre ++ [r])) (map (fun i => (i, m)) (seq (S (length pre)) (S (length b))))
    (TheText :: map Passage l) (map (fun i => ANew [i]) (seq (S (S (length pre))) (length b)) ++ [ANew []]).
Proof.
  intros c m next b. induction b as [|q b IH]; intros pre r l X H; (assert (Ir : In r l) by (apply in_or_app; right; left; reflexivity)).
  - cbn [length seq map app]. change (ANew []) with (shown (length (TheText :: map Passage (pre ++ [r]))) (Moves [])).
    eapply tv_move with (p := Passage r).
    + cbn [nth_error]. rewrite map_app, nth_error_app2 by (rewrite map_length; lia). rewrite map_length, Nat.sub_diag. reflexivity.
    + specialize (X r Ir). rewrite (H pre r [] eq_refl) in X. exact X.
    + cbn [arrivals]. rewrite app_nil_r. constructor.
  - specialize (IH (pre ++ [r]) q). cbn zeta in IH. rewrite <- app_assoc in IH. cbn [app] in IH. specialize (IH X H).
    cbn [length seq map app] in IH |- *. rewrite app_length in IH. cbn [length] in IH. rewrite Nat.add_1_r in IH.
    set (o := Moves [Passage q]).
    replace (ANew [S (S (length pre))]) with (shown (length (TheText :: map Passage (pre ++ [r]))) o)
      by (cbn [shown length o seq]; rewrite map_length, app_length; cbn [length]; repeat f_equal; lia).
    eapply tv_move with (p := Passage r).
    + cbn [nth_error]. rewrite map_app, nth_error_app2 by (rewrite map_length; lia). rewrite map_length, Nat.sub_diag. reflexivity.
    + specialize (X r Ir). rewrite (H pre r (q :: b) eq_refl) in X. exact X.
    + cbn [arrivals o app]. rewrite map_app in IH. cbn [map] in IH. exact IH.
Qed.

Theorem C69_walk : forall ns cts p E c u cs k,
  plain_ns ns -> plain_ns cts -> plain_part p -> 2 <= part_size p ->
  let text := write_urn ns cts p None in
  readable c -> serves E text c -> urn_parse text = Ok u -> 1 <= k ->
  let n := length (c k) in
  (forall first rest, c k = first :: rest ->
    exists w, make_moves E (MkWorld [new_text u cs] []) ((0, Get (write_levels first)) :: onwards n Next) =
        (w, map (fun i => ANew [i]) (seq 1 n) ++ [ANew []]) /\
      Forall2 (stands E text) (TheText :: map Passage (c k)) (w_objs w)) /\
  (forall last rest, rev (c k) = last :: rest ->
    exists w, make_moves E (MkWorld [new_text u cs] []) ((0, Get (write_levels last)) :: onwards n Prev) =
        (w, map (fun i => ANew [i]) (seq 1 n) ++ [ANew []]) /\
      Forall2 (stands E text) (TheText :: map Passage (rev (c k))) (w_objs w)).
Proof.
  intros ns cts p E c u cs k Hns Hcts Hp Hs text RC SV Hu Hk n.
  assert (Start : forall r, In r (c k) -> expected c TheText (Get (write_levels r)) (Moves [Passage r])).
  { intros r I. cbn. exists r. pose proof (rd_length c RC k r I) as L. split; [intros ->; cbn in L; lia|]. rewrite L. auto. }
  split; intros r rest Ec; (eapply C69_travels; try eassumption).
  - unfold n. rewrite Ec. cbn [length seq map app].
    change (ANew [1]) with (shown (length [TheText]) (Moves [Passage r])). eapply tv_move with (p := TheText); [reflexivity| |].
    + apply Start. rewrite Ec. left. reflexivity.
    + cbn [arrivals app]. unfold onwards. change [TheText; Passage r] with (TheText :: map Passage ([] ++ [r])).
      apply (walk c Next (fun q => after q (c k)) rest [] r).
      * intros q I. cbn [app] in I. rewrite <- Ec in I. cbn [expected]. unfold next_of. rewrite (rd_length c RC k q I). reflexivity.
      * intros a q d X. cbn [app] in X. rewrite <- Ec in X. rewrite X. apply after_split. rewrite <- X. apply (rd_once c RC).
  - unfold n. rewrite <- rev_length, Ec. cbn [length seq map app].
    change (ANew [1]) with (shown (length [TheText]) (Moves [Passage r])). eapply tv_move with (p := TheText); [reflexivity| |].
    + apply Start. apply in_rev. rewrite Ec. left. reflexivity.
    + cbn [arrivals app]. unfold onwards. change [TheText; Passage r] with (TheText :: map Passage ([] ++ [r])).
      apply (walk c Prev (fun q => before q (c k)) rest [] r).
      * intros q I. cbn [app] in I. rewrite <- Ec in I. apply in_rev in I. cbn [expected]. unfold previous_of. rewrite (rd_length c RC k q I). reflexivity.
      * intros a q d X. cbn [app] in X. rewrite <- Ec in X. unfold before. rewrite X. apply after_split. rewrite <- X. apply NoDup_rev. apply (rd_once c RC).
Qed.
Print Assumptions C69_walk.

(** ** What was told stays *)

(** Whatever the endpoint replies, however its replies change: after identifiers have
    been told, the same question to the same object is answered in the same way at
    any later time, without a call. *)
Theorem C69_remembered : forall E u cs h w before i m a w1 h' w2 later,
  make_moves E (MkWorld [new_text u cs] []) h = (w, before) -> i < length (w_objs w) ->
  tells_ids m -> definite a -> make_move E w i m = (w1, a) ->
  make_moves E w1 h' = (w2, later) -> make_move E w2 i m = (w2, a).
Proof.
  intros E u cs h w before i m a w1 h' w2 later H L T D Q H'.
  assert (F0 : fine (MkWorld [new_text u cs] [])).
  { intros [|[|j]]; split; cbn; try (split; reflexivity); discriminate. }
  pose proof (moves_onward E h _ F0) as (F & _). rewrite H in F. cbn [fst] in F.
  eapply remembered; eassumption.
Qed.
Print Assumptions C69_remembered.

(** ** An endpoint *)

Definition poem_urn : str := #"urn:cts:latinLit:phi1294.phi002.perseus-lat2".
Definition poem_part : work_part := Version #"phi1294" #"phi002" #"perseus-lat2".
Definition poem_contents : contents := fun k =>
  match k with
  | 1 => [[#"1"]; [#"2"]]
  | 2 => [[#"1"; #"1"]; [#"1"; #"2"]; [#"2"; #"1"]]
  | _ => []
  end.
Definition poem_refs : list (list str) := [] :: poem_contents 1 ++ poem_contents 2.

Definition c_el (name : str) (text : str) (kids : list XmlModel.node) : XmlModel.node := Elem (tag_of name) [] text [] kids.
Definition c_urns (l : list (list str)) : list XmlModel.node := map (fun r => c_el #"urn" (address poem_urn r) []) l.
Definition c_one (o : option (list str)) : list XmlModel.node := match o with Some r => c_urns [r] | None => [] end.
Definition c_reply (name : str) (kids : list XmlModel.node) : XmlModel.node := c_el name [] [c_el #"request" [] []; c_el #"reply" [] kids].
Definition c_prevnext (r : list str) : XmlModel.node :=
  c_el #"prevnext" [] [c_el #"prev" [] (c_one (previous_of poem_contents r)); c_el #"next" [] (c_one (next_of poem_contents r))].
Definition c_tei (r : list str) : XmlModel.node := Elem #"{http://www.tei-c.org/ns/1.0}TEI" [] (write_levels r) [] [].

(** The replies about a reference; every other passage comes with its siblings. *)
Definition poem_reply (n : nat) (r : list str) (name : str) (level : option Z) : result XmlModel.node :=
  if str_eqb name #"GetValidReff" then
    match level with
    | Some z => Ok (c_reply name [c_el #"reff" [] (c_urns (below poem_contents r (Z.to_nat z)))])
    | None => Err HTTPError
    end
  else if str_eqb name #"GetPassage" then
    Ok (c_reply name (c_el #"passage" [] [c_tei r] :: if Nat.even n && negb (same_ref r []) then [c_prevnext r] else []))
  else if str_eqb name #"GetPrevNextUrn" then Ok (c_reply name [c_prevnext r])
  else if str_eqb name #"GetFirstUrn" then Ok (c_reply name (c_one (hd_error (children_of poem_contents r))))
  else Err HTTPError.
Definition poem_server (n : nat) (q : call) : result XmlModel.node :=
  match find (fun r => str_eqb (address poem_urn r) (call_urn q)) poem_refs with
  | Some r => poem_reply n r (call_name q) (call_level q)
  | None => Err HTTPError
  end.

Lemma poem_known : forall r, known_ref poem_contents r -> In r poem_refs.
Proof.
  intros r [->|I]; [left; reflexivity|]. unfold poem_refs. right. apply in_or_app.
  destruct (length r) as [|[|[|k]]]; [destruct I|left; exact I|right; exact I|destruct I].
Qed.
Lemma poem_answers : forall n r q, In r poem_refs -> call_urn q = address poem_urn r ->
  poem_server n q = poem_reply n r (call_name q) (call_level q).
Proof.
  intros n r q I E. unfold poem_server. rewrite E.
  assert (X : find (fun r' => str_eqb (address poem_urn r') (address poem_urn r)) poem_refs = Some r);
    [|rewrite X; reflexivity].
  unfold poem_refs in I. cbn [poem_contents app] in I. repeat (destruct I as [<-|I]; [vm_compute; reflexivity|]). destruct I.
Qed.
Lemma reply_repeats : forall name kids, ~ has_tag (c_reply name kids) (tag_of #"citation") -> tag_of name <> tag_of #"request" ->
  repeats_request (c_reply name kids).
Proof.
  intros name kids N D. exists [0], (c_el #"request" [] []). split; [|left; exact N].
  exists [([], c_reply name kids)]. eexists. split; [cbn [c_reply c_el positions map app fst snd]; reflexivity|]. split.
  - exists [tag_of name; tag_of #"request"]. split; [|exists [tag_of name]; reflexivity].
    unfold c_reply, c_el. econstructor; [reflexivity|]. constructor.
  - constructor; [|constructor]. intros ts T [l E]. assert (Z : ts = [tag_of name]) by (inversion T; reflexivity).
    rewrite Z in E. destruct l as [|a [|b l]]; [|discriminate|discriminate]. apply D. change ([tag_of name] = [tag_of #"request"]) in E. congruence.
Qed.
Lemma no_tag : forall x t, forallb (fun pe => negb (str_eqb (n_tag (snd pe)) t)) (positions x) = true -> ~ has_tag x t.
Proof.
  intros x t H (p & e & A & E). apply positions_at in A. rewrite forallb_forall in H. specialize (H _ A). cbn [snd] in H.
  rewrite E, str_eqb_refl in H. discriminate.
Qed.

Lemma sib : forall x p n, read_prevnext x = (Known p, Known n) -> siblings_of x p n.
Proof.
  intros x p n E. destruct (read_prevnext_spec x) as [(p' & n' & E' & S)|[_ E']]; rewrite E in E'; [|discriminate].
  injection E' as <- <-. exact S.
Qed.
Lemma poem_readable : readable poem_contents.
Proof.
  assert (N : forall s d, s = [d] -> mem d #".-:#@" = false -> name_of_unit s).
  { intros s d -> H. repeat split; try discriminate; intros [X|[]]; subst d; discriminate H. }
  split.
  - intros [|[|[|k]]] r I; cbn in I; repeat (destruct I as [<-|I]; [reflexivity|]); destruct I.
  - intros [|[|[|k]]] r I; cbn in I; repeat (destruct I as [<-|I]; [repeat constructor; eapply N; reflexivity|]); destruct I.
  - intros [|[|[|k]]]; cbn; repeat constructor; cbn; intuition discriminate.
  - intros r s Hr I. destruct (length r) as [|[|[|k]]] eqn:L; cbn in I; try (destruct I; fail).
    + destruct r; [congruence|discriminate].
    + destruct r as [|a [|b r]]; try discriminate L. cbn [app] in I.
      destruct I as [E|[E|[E|[]]]]; injection E as <- <-; cbn; auto.
Qed.

Lemma poem_serves : serves poem_server poem_urn poem_contents.
Proof.
  assert (NT : forall t name, tag_of name = t -> t <> tag_of #"request" -> tag_of name <> tag_of #"request") by congruence.
  split.
  - intros n r k K L. apply poem_known in K. rewrite (poem_answers n r) by (exact K || reflexivity). cbn [call_name call_level].
    unfold poem_reply. cbn [str_eqb]. rewrite Nat2Z.id. eexists. split; [reflexivity|].
    set (x := c_reply _ _). assert (R : repeats_request x).
    { apply reply_repeats; [|discriminate]. apply no_tag. 
      destruct k as [|[|[|k]]]; [lia|..]; repeat (destruct K as [<-|K]; [vm_compute; reflexivity|]); destruct K. }
    split; [exact R|]. destruct (proj1 (read_reffs_spec x) (request_there x R)) as (l & E & I).
    replace (map write_levels (below poem_contents r k)) with l; [exact I|]. symmetry.
    assert (Y : read_reffs x = Ok (map write_levels (below poem_contents r k))); [|congruence]. clear E I R. unfold x.
    destruct k as [|[|[|k]]]; [lia|..]; repeat (destruct K as [<-|K]; [vm_compute; reflexivity|]); destruct K.
  - intros n r K. apply poem_known in K. rewrite (poem_answers n r) by (exact K || reflexivity). cbn [call_name call_level].
    eexists. split; [reflexivity|].
    set (tail := if Nat.even n && negb (same_ref r []) then [c_prevnext r] else []).
    set (x := c_reply #"GetPassage" (c_el #"passage" [] [c_tei r] :: tail)).
    split; [|split].
    + apply reply_repeats; [|discriminate]. apply no_tag. unfold x, tail.
      repeat (destruct K as [<-|K]; [destruct (Nat.even n); vm_compute; reflexivity|]); destruct K.
    + pose proof (first_element (tag_in (ServeModel.tei #"TEI") (RemoteModel.ti #"passage")) passage_tei x (test_two _ _)) as F.
      destruct (filter _ _) as [|e l] eqn:Q; [exfalso|destruct F as (q & F & _); eauto]. clear F. revert Q. unfold x, tail.
      repeat (destruct K as [<-|K]; [destruct (Nat.even n); vm_compute; discriminate|]); destruct K.
    + intros Hr. unfold x, tail. destruct (Nat.even n); [right|left].
      * apply sib. repeat (destruct K as [<-|K]; [first [vm_compute; reflexivity|congruence]|]); destruct K.
      * cbn [andb]. apply no_tag. repeat (destruct K as [<-|K]; [vm_compute; reflexivity|]); destruct K.
  - intros n r K Hr. apply poem_known in K. rewrite (poem_answers n r) by (exact K || reflexivity). cbn [call_name call_level].
    eexists. split; [reflexivity|].
    apply sib. repeat (destruct K as [<-|K]; [first [vm_compute; reflexivity|congruence]|]); destruct K.
  - intros n r K. apply poem_known in K. rewrite (poem_answers n r) by (exact K || reflexivity). cbn [call_name call_level].
    eexists. split; [reflexivity|].
    set (x := c_reply _ _). replace (option_map write_levels (hd_error (children_of poem_contents r))) with (read_first x); [apply read_first_spec|].
    unfold x. repeat (destruct K as [<-|K]; [vm_compute; reflexivity|]); destruct K.
Qed.

Lemma poem_parts : poem_urn = write_urn #"cts" #"latinLit" poem_part None /\
  plain_ns #"cts" /\ plain_ns #"latinLit" /\ plain_part poem_part /\ 2 <= part_size poem_part.
Proof.
  assert (N : forall c s, mem c s = false -> ~ In c s) by (intros c s H X; apply mem_In in X; congruence).
  split; [reflexivity|]. repeat split; try discriminate; try (apply N; reflexivity). cbn. lia.
Qed.

(** The text, its first passage, the last line of that, the lines around it, and the
    way up and on; a passage that came without its siblings asks for them. *)
Definition poem_journey : list (nat * move) :=
  [(0, ChildIds); (0, First); (1, Last); (2, NextId); (2, PrevId); (2, Next); (3, SiblingsId); (3, Next); (3, Parent);
   (4, Children); (4, Reffs 1); (4, PrevId); (0, Reffs 2); (0, GetAll); (6, LastId); (5, LastId)].
Definition poem_answers_shown : list answer :=
  [AnIds [#"1"; #"2"]; ANew [1]; ANew [2]; AnId (Some #"2.1"); AnId (Some #"1.1"); ANew [3];
   APair (Known (Some #"1.2")) (Known None); ANew []; ANew [4]; ANew [5]; AnIds [#"2.1"]; AnId (Some #"1");
   AnIds [#"1.1"; #"1.2"; #"2.1"]; ANew [6]; AnId (Some #"2"); ARaised IndexError].
Lemma tv_shown : forall c p o ps i m h ps' a l, nth_error ps i = Some p -> a = shown (length ps) o -> expected c p m o ->
  travels c (ps ++ arrivals o) h ps' l -> travels c ps ((i, m) :: h) ps' (a :: l).
Proof. intros c p o ps i m h ps' a l N -> X T. eapply tv_move; eassumption. Qed.
Local Ltac go p o :=
  apply (tv_shown _ p o); [reflexivity|reflexivity|first [reflexivity|exists 1; split; [reflexivity|split; [lia|reflexivity]]|exists 2; split; [reflexivity|split; [lia|reflexivity]]]|cbn [arrivals app]].
Lemma poem_travels : travels poem_contents [TheText] poem_journey
  [TheText; Passage [#"1"]; Passage [#"1"; #"2"]; Passage [#"2"; #"1"]; Passage [#"2"]; Passage [#"2"; #"1"]; Everything] poem_answers_shown.
Proof.
  unfold poem_journey, poem_answers_shown.
  go TheText (Ids [[#"1"]; [#"2"]]).
  go TheText (Moves [Passage [#"1"]]).
  go (Passage [#"1"]) (Moves [Passage [#"1"; #"2"]]).
  go (Passage [#"1"; #"2"]) (Id (Some [#"2"; #"1"])).
  go (Passage [#"1"; #"2"]) (Id (Some [#"1"; #"1"])).
  go (Passage [#"1"; #"2"]) (Moves [Passage [#"2"; #"1"]]).
  go (Passage [#"2"; #"1"]) (Two (Some [#"1"; #"2"]) None).
  go (Passage [#"2"; #"1"]) (Moves []).
  go (Passage [#"2"; #"1"]) (Moves [Passage [#"2"]]).
  go (Passage [#"2"]) (Moves [Passage [#"2"; #"1"]]).
  go (Passage [#"2"]) (Ids [[#"2"; #"1"]]).
  go (Passage [#"2"]) (Id (Some [#"1"])).
  go TheText (Ids [[#"1"; #"1"]; [#"1"; #"2"]; [#"2"; #"1"]]).
  go TheText (Moves [Everything]).
  go Everything (Id (Some [#"2"])).
  go (Passage [#"2"; #"1"]) (Raises IndexError).
  constructor.
Qed.
Example C69_meets : readable poem_contents /\ serves poem_server poem_urn poem_contents /\
  exists u ps w, urn_parse poem_urn = Ok u /\ travels poem_contents [TheText] poem_journey ps poem_answers_shown /\
    make_moves poem_server (MkWorld [new_text u unset] []) poem_journey = (w, poem_answers_shown) /\
    Forall2 (stands poem_server poem_urn) ps (w_objs w).
Proof.
  split; [exact poem_readable|]. split; [exact poem_serves|]. eexists _, _.
  destruct poem_parts as (EU & H1 & H2 & H3 & H4). rewrite EU.
  destruct (C69_travels #"cts" #"latinLit" poem_part poem_server poem_contents (parsed_urn #"cts" #"latinLit" poem_part None None) unset poem_journey _ _
    H1 H2 H3 H4 poem_readable poem_serves (urn_parse_written _ _ _ None None H1 H2 H3 eq_refl) poem_travels) as (w & Q & F).
  exists w. split; [exact (urn_parse_written _ _ _ None None H1 H2 H3 eq_refl)|]. split; [exact poem_travels|]. split; [exact Q|exact F].
Qed.

Example C69_walk_meets : exists u w, urn_parse poem_urn = Ok u /\
  make_moves poem_server (MkWorld [new_text u unset] []) ((0, Get #"1.1") :: onwards 3 Next) = (w, [ANew [1]; ANew [2]; ANew [3]; ANew []]) /\
  map (fun o => to_str (r_urn o)) (w_objs w) = map Ok [poem_urn; poem_urn ++ #":1.1"; poem_urn ++ #":1.2"; poem_urn ++ #":2.1"].
Proof. eexists _, _. split; [vm_compute; reflexivity|]. split; [vm_compute; reflexivity|vm_compute; reflexivity]. Qed.

(** ** Findings *)

(** An endpoint whose replies tell no siblings: the identifiers of the siblings are
    False and not None, and the siblings are the passage itself. *)
Definition silent_server (n : nat) (q : call) : result XmlModel.node :=
  Ok (c_reply #"GetPassage" [c_el #"passage" [] [c_tei []]]).
Theorem C69_unknown_refuted : exists u w, urn_parse poem_urn = Ok u /\
  make_moves silent_server (MkWorld [new_text u unset] []) [(0, Get #"1.2"); (1, PrevId); (1, NextId); (1, Next); (1, Prev)] =
    (w, [ANew [1]; AFalse; AFalse; ANew [2]; ANew [3]]) /\
  map (fun o => to_str (r_urn o)) (w_objs w) = map Ok (poem_urn :: repeat (poem_urn ++ #":1.2") 3).
Proof. eexists _, _. split; [vm_compute; reflexivity|]. split; [vm_compute; reflexivity|vm_compute; reflexivity]. Qed.
Print Assumptions C69_unknown_refuted.

(** The parent of a passage of the first level is called None, the word, and this is
    what the endpoint is asked for. *)
Theorem C69_parent_refuted : exists u w l, urn_parse poem_urn = Ok u /\
  make_moves poem_server (MkWorld [new_text u unset] []) [(0, Get #"2"); (1, ParentId); (1, Parent)] =
    (w, [ANew [1]; AnId (Some #"None"); ARaised HTTPError]) /\
  w_log w = l ++ [MkCall #"GetPassage" (poem_urn ++ #":None") None].
Proof. eexists _, _, [_]. split; [vm_compute; reflexivity|]. split; [vm_compute; reflexivity|vm_compute; reflexivity]. Qed.
Print Assumptions C69_parent_refuted.

(** Where there is nothing below, the first identifier is None but the last is an
    error; the text has no parent, which is an error too. *)
Theorem C69_last_refuted : exists u w, urn_parse poem_urn = Ok u /\
  make_moves poem_server (MkWorld [new_text u unset] []) [(0, Get #"2.1"); (1, ChildIds); (1, FirstId); (1, First); (1, LastId); (1, Last); (0, ParentId)] =
    (w, [ANew [1]; AnIds []; AnId None; ANew []; ARaised IndexError; ARaised IndexError; ARaised AttributeError]).
Proof. eexists _, _. split; [vm_compute; reflexivity|vm_compute; reflexivity]. Qed.
Print Assumptions C69_last_refuted.

(** What was told is kept even when the endpoint says something else later. *)
Definition fickle_server (n : nat) (q : call) : result XmlModel.node :=
  if Nat.ltb n 3 then poem_server n q else Ok (c_reply (call_name q) [c_el #"urn" (poem_urn ++ #":7") []]).
Example C69_remembered_meets : exists u w w1 w2, urn_parse poem_urn = Ok u /\
  make_moves fickle_server (MkWorld [new_text u unset] []) [(0, Get #"1.2")] = (w, [ANew [1]]) /\
  make_move fickle_server w 0 ChildIds = (w1, AnIds [#"1"; #"2"]) /\ tells_ids ChildIds /\ definite (AnIds [#"1"; #"2"]) /\
  make_moves fickle_server w1 [(0, FirstId); (0, Reffs 1)] = (w2, [AnId (Some #"1"); AnIds [#"7"]]) /\
  make_move fickle_server w2 0 ChildIds = (w2, AnIds [#"1"; #"2"]).
Proof. eexists _, _, _, _. split; [vm_compute; reflexivity|]. split; [vm_compute; reflexivity|]. split; [vm_compute; reflexivity|].
  split; [left; reflexivity|]. split; [exact I|]. split; [vm_compute; reflexivity|vm_compute; reflexivity]. Qed.
