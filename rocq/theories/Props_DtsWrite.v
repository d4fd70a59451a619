(** Property C82: what a caller writes into the members of a DTS collection. *)

From Coq Require Import List NArith ZArith Arith Bool Lia.
From Verif Require Import PyStr PyStrFacts Json HttpModel HttpSpec DtsModel DtsSpec DtsProofs DtsLazy Props_Dts DtsWriteModel DtsWriteSpec DtsWriteProofs.
Import ListNotations.

(** Whatever is read, updated and assigned, in any order, through the collection or through an
    object it gave before, and however often requests fail: what is read has all the
    members of all the pages, all that was written, and nothing else, or a request
    failed.  What was written is changed only by a member of the same identifier. *)
Theorem C82_update : forall server r id ans c sent l fuel h,
  NoDup (map fst (rt_query r)) -> steady server r id Children ans -> cpages ans 1 l -> consistent l ->
  co_id c = id -> first_reply c l -> length l <= fuel ->
  (forall a, In a h -> ~ sets a /\ ~ removes a) ->
  right_history l [] h (snd (do_deeds server r fuel (open_owned c sent) h)).
Proof.
  intros server r id ans c sent l fuel h Hr Hs Hp HL Hid Hfirst Hf Hh.
  pose proof Hfirst as (more & z & El & Ez & Hm).
  assert (Hz : size_of (co_meta c) = 0%Z -> length l <= 1).
  { unfold size_of. rewrite Ez. cbn. intros ->. rewrite El, (Hm (or_intror eq_refl)). cbn. lia. }
  eapply (deeds_good server r id ans l (size_of (co_meta c)) Hr Hs Hp HL Hz fuel Hf h); [|exact Hh].
  apply (open_good id ans l (size_of (co_meta c)) Hp HL); auto.
Qed.
Print Assumptions C82_update.

(** Once all was read, the collection is a plain dictionary: whatever is done through
    it, what is written replaces what was there, the rest stays, another dictionary is
    refused, and no request is sent. *)
Theorem C82_after : forall server r c sent fuel h o xs v o1 d h2,
  do_deeds server r fuel (open_owned c sent) h = (o, xs) -> do_deed server r fuel o (ReadAll v) = (o1, Ok (All d)) ->
  (forall a, In a h -> ~ sets a) -> NoDup (map fst d) -> (forall a, In a h2 -> through_collection a) ->
  plain_history d h2 (snd (do_deeds server r fuel o1 h2)) /\
  z_sent (o_lazy (fst (do_deeds server r fuel o1 h2))) = z_sent (o_lazy o1).
Proof.
  intros server r c sent fuel h o xs v o1 d h2 E1 E2 Hh Hd H2.
  (* everything stays in the dictionary 0 *)
  assert (Z : forall o, o_held o = 0 -> target o = 0 -> o_dicts o <> [] -> forall a, ~ sets a ->
    let o' := fst (do_deed server r fuel o a) in o_held o' = 0 /\ target o' = 0 /\ o_dicts o' <> []).
  { clear. intros o H1 H2 H3 a Ha.
    assert (R : forall v o, o_held o = 0 -> target o = 0 -> o_dicts o <> [] ->
      let o' := fst (reach v o) in o_held o' = 0 /\ target o' = 0 /\ o_dicts o' <> []).
    { clear. intros [] o H1 H2 H3; [|repeat split; assumption]. cbn [reach]. unfold children_of. destruct (kids_property (o_lazy o)) as [st []]; cbn; repeat split; auto. }
    assert (Q : forall o d n, o_dicts o <> [] -> o_dicts (store o n d) <> []).
    { clear. intros [st [|x l] hh a] d n H; [destruct H; reflexivity|]. destruct n; discriminate. }
    assert (U : forall o, o_held o = 0 -> target o = 0 -> o_dicts o <> [] ->
      let o' := fst (run_owned server r fuel o) in o_held o' = 0 /\ target o' = 0 /\ o_dicts o' <> []).
    { clear -Q. intros o H1 H2 H3. cbv zeta. unfold run_owned. destruct (z_parsed_ups (o_lazy o)); [repeat split; assumption|].
      destruct (load server r fuel (with_kids (o_lazy o) (dict_at o (target o))) Children) as [st res]. cbn [fst o_held o_dicts]. split; [exact H1|].
      split; [unfold target in *; cbn [o_attr o_held]; match goal with |- match (if ?b then _ else _) with _ => _ end = _ => destruct b; [exact H2|exact H2] end|].
      apply (Q o). exact H3. }
    assert (P : forall o n k, o_held o = 0 -> target o = 0 -> o_dicts o <> [] ->
      let o' := fst (pop_from o n k) in o_held o' = 0 /\ target o' = 0 /\ o_dicts o' <> []).
    { clear -Q. intros o n k H1 H2 H3. cbv zeta. unfold pop_from. destruct (dget k (dict_at o n)); [|repeat split; assumption].
      cbn [fst]. split; [exact H1|]. split; [exact H2|]. apply Q. exact H3. }
    destruct a as [v|v k|v e|d|v n|n|v k m|v k]; cbn [do_deed]; cbv zeta.
    - destruct (R v o H1 H2 H3) as (A & B & C). destruct (reach v o) as [o1 [n|]]; cbn [fst] in *; [repeat split; assumption|].
      destruct (U o1 A B C) as (A' & B' & C'). destruct (run_owned server r fuel o1); cbn [fst] in *. repeat split; assumption.
    - destruct (R v o H1 H2 H3) as (A & B & C). destruct (reach v o) as [o1 [n|]]; cbn [fst] in *; [repeat split; assumption|].
      destruct (dget k (dict_at o1 (o_held o1))); [repeat split; assumption|].
      destruct (U o1 A B C) as (A' & B' & C'). destruct (run_owned server r fuel o1); cbn [fst] in *. repeat split; assumption.
    - destruct (R v o H1 H2 H3) as (A & B & C). destruct (reach v o) as [o1 d]. cbn [fst] in *. split; [exact A|]. split; [exact B|]. apply Q. exact C.
    - cbn [fst o_held o_dicts]. split; [exact H1|]. split; [exact H2|]. destruct (o_dicts o); discriminate.
    - destruct Ha. exact I.
    - cbn [fst]. repeat split; assumption.
    - destruct (R v o H1 H2 H3) as (A & B & C). destruct (reach v o) as [o1 [n|]]; cbn [fst] in *; [|repeat split; assumption].
      split; [exact A|]. split; [exact B|]. apply Q. exact C.
    - destruct (R v o H1 H2 H3) as (A & B & C). destruct (reach v o) as [o1 [n|]]; cbn [fst] in *; [apply P; assumption|].
      destruct (U o1 A B C) as (A' & B' & C'). destruct (run_owned server r fuel o1) as [o2 [u|x]]; cbn [fst] in *; [apply P; assumption|repeat split; assumption]. }
  assert (ZZ : forall h o, o_held o = 0 -> target o = 0 -> o_dicts o <> [] -> (forall a, In a h -> ~ sets a) ->
    let o' := fst (do_deeds server r fuel o h) in o_held o' = 0 /\ target o' = 0 /\ o_dicts o' <> []).
  { clear -Z. induction h as [|a h IH]; intros o H1 H2 H3 Hh; [repeat split; assumption|]. cbn [do_deeds].
    destruct (Z o H1 H2 H3 a (Hh a (or_introl eq_refl))) as (A & B & C). destruct (do_deed server r fuel o a) as [o1 x]. cbn [fst] in *.
    pose proof (IH o1 A B C (fun y Hy => Hh y (or_intror Hy))) as X. destruct (do_deeds server r fuel o1 h). exact X. }
  destruct (ZZ h (open_owned c sent) eq_refl eq_refl ltac:(discriminate) Hh) as (A & B & C). rewrite E1 in A, B, C. cbn [fst] in A, B, C.
  destruct (Z o A B C (ReadAll v) (fun x => x)) as (A1 & B1 & C1).
  assert (F0 : z_parsed_ups (o_lazy o) = false).
  { pose proof (deeds_flags server r fuel h (open_owned c sent) eq_refl) as X. rewrite E1 in X. exact X. }
  destruct (deed_flags server r fuel o (ReadAll v) F0) as (_ & F). rewrite E2 in A1, B1, C1, F. cbn [fst snd] in A1, B1, C1, F. specialize (F v d eq_refl eq_refl).
  assert (D : dict_at o1 0 = d).
  { cbn [do_deed] in E2. destruct (reach v o) as [o0 [n|]] eqn:Er.
    - injection E2 as -> D0. rewrite <- D0. f_equal. assert (X : n = target o1).
      { destruct v; [|discriminate]. cbn [reach] in Er. unfold children_of in Er. destruct (kids_property (o_lazy o)) as [st []]; [discriminate|]. injection Er as <- <-. reflexivity. }
      rewrite X. symmetry. exact B1.
    - destruct (run_owned server r fuel o0) as [o2 [[]|x]]; [|discriminate]. cbn [bind] in E2. injection E2 as -> D0. rewrite A1 in D0. exact D0. }
  assert (K : forall o', z_parsed_kids (o_lazy o') = true -> target o' = 0 -> children_of o' = (MkOwned (o_lazy o') (o_dicts o') (o_held o') (Some 0), Some 0)).
  { intros o' X Y. unfold children_of, kids_property. rewrite X, Y. reflexivity. }
  clear E1 E2 A A1 B C F0 Hh. revert o1 d F B1 C1 D Hd H2. induction h2 as [|a h2 IH]; intros o1 d F B1 C1 D Hd H2; [split; [constructor|reflexivity]|].
  assert (Ha : through_collection a) by (apply H2; left; reflexivity). assert (Hh2 : forall x, In x h2 -> through_collection x) by (intros x Hx; apply H2; right; exact Hx).
  set (o' := MkOwned (o_lazy o1) (o_dicts o1) (o_held o1) (Some 0)).
  destruct a as [v'|v' k|v' e|d'|v' n|n|v' k m|v' k]; cbn in Ha; try contradiction; subst v'; cbn [do_deeds do_deed reach]; rewrite (K o1 F B1); fold o'.
  - destruct (IH o' d F eq_refl C1 D Hd Hh2) as (X & Y). destruct (do_deeds server r fuel o' h2) as [o2 xs2]. cbn [fst snd] in *. split; [|exact Y].
    change (dict_at o' 0) with (dict_at o1 0). rewrite D. constructor. exact X.
  - destruct (IH o' d F eq_refl C1 D Hd Hh2) as (X & Y). destruct (do_deeds server r fuel o' h2) as [o2 xs2]. cbn [fst snd] in *. split; [|exact Y].
    change (dict_at o' 0) with (dict_at o1 0). rewrite D. unfold look_up. destruct (dget k d) as [m|] eqn:E.
    + constructor; [apply dget_In; exact E|exact X].
    + apply plain_none; [|exact X]. intros m Hm. apply In_dget_NoDup in Hm; [congruence|exact Hd].
  - change (dict_at o' 0) with (dict_at o1 0). rewrite D. pose proof (update_overwritten e d Hd) as O.
    destruct (IH (store o' 0 (dict_update d e)) (dict_update d e) F eq_refl (store_some o' _ C1) (at_store o' _ C1) (proj1 O) Hh2) as (X & Y).
    destruct (do_deeds server r fuel (store o' 0 (dict_update d e)) h2) as [o2 xs2]. cbn [fst snd] in *. split; [|exact Y]. econstructor; [exact O|exact X].
  - destruct (IH o' d F eq_refl C1 D Hd Hh2) as (X & Y). destruct (do_deeds server r fuel o' h2) as [o2 xs2]. cbn [fst snd] in *. split; [|exact Y]. constructor. exact X.
  - change (dict_at o' 0) with (dict_at o1 0). rewrite D. pose proof (update_overwritten [(k, m)] d Hd) as O.
    destruct (IH (store o' 0 (dset k m d)) (dset k m d) F eq_refl (store_some o' _ C1) (at_store o' _ C1) (proj1 O) Hh2) as (X & Y).
    destruct (do_deeds server r fuel (store o' 0 (dset k m d)) h2) as [o2 xs2]. cbn [fst snd] in *. split; [|exact Y]. econstructor; [exact O|exact X].
  - unfold pop_from. change (dict_at o' 0) with (dict_at o1 0). rewrite D. destruct (dget k d) as [m|] eqn:E.
    + destruct (remove_key_right k d Hd) as [N M].
      destruct (IH (store o' 0 (remove_key k d)) (remove_key k d) F eq_refl (store_some o' _ C1) (at_store o' _ C1) N Hh2) as (X & Y).
      destruct (do_deeds server r fuel (store o' 0 (remove_key k d)) h2) as [o2 xs2]. cbn [fst snd] in *. split; [|exact Y].
      econstructor; [apply dget_In; exact E|exact N|exact M|exact X].
    + destruct (IH o' d F eq_refl C1 D Hd Hh2) as (X & Y). destruct (do_deeds server r fuel o' h2) as [o2 xs2]. cbn [fst snd] in *. split; [|exact Y].
      apply plain_pop_none; [|exact X]. intros m Hm. apply In_dget_NoDup in Hm; [congruence|exact Hd].
Qed.
Print Assumptions C82_after.

(** Finding: what was written under the identifier of a member before the members
    were read is lost when they are. *)
Theorem C82_early_refuted : forall server r id ans c sent l fuel e o xs d,
  NoDup (map fst (rt_query r)) -> steady server r id Children ans -> cpages ans 1 l -> consistent l ->
  co_id c = id -> length l <= fuel -> co_closed c = false -> size_of (co_meta c) <> 0%Z ->
  do_deeds server r fuel (open_owned c sent) [Update Property e; ReadAll Property] = (o, xs) -> In (Ok (All d)) xs ->
  forall k m, is_member l k m -> In (k, m) d.
Proof.
  intros server r id ans c sent l fuel e o xs d Hr Hs Hp HL Hid Hf Hc Hz E Hd k m Hm.
  set (o1 := store (open_owned c sent) 0 (dict_update (dict_at (open_owned c sent) 0) e)).
  assert (E1 : do_deed server r fuel (open_owned c sent) (Update Property e) = (o1, Ok Done)).
  { cbn [do_deed reach]. rewrite still_proxy by assumption. reflexivity. }
  destruct (read_first server r id ans Hr Hs l Hp fuel o1 Property Hf Hid Hc Hz eq_refl eq_refl eq_refl ltac:(cbn; lia)) as (o2 & x & E2 & X).
  cbn [do_deeds] in E. rewrite E1, E2 in E. injection E as _ <-. destruct Hd as [Hd|[Hd|[]]]; [discriminate|].
  destruct X as [->|(-> & _)]; [discriminate|]. injection Hd as <-.
  destruct (kupdate_get (concat l) k (dict_at o1 (o_held o1))) as [(y & H1 & H2 & H3)|(H1 & H2)].
  - apply dget_In. rewrite (HL k m y Hm); [exact H3|]. apply member_concat. auto.
  - apply member_concat in Hm. destruct (H1 m (proj1 Hm) (proj2 Hm)).
Qed.
Print Assumptions C82_early_refuted.

(** A dictionary put in the place of the members before they were read gets all of
    them: it is the dictionary of the caller itself that is written into, members come
    before what it had under their identifiers, and the rest of it stays. *)
Theorem C82_set : forall server r id ans c sent l fuel d v,
  NoDup (map fst (rt_query r)) -> steady server r id Children ans -> cpages ans 1 l -> consistent l ->
  co_id c = id -> length l <= fuel -> co_closed c = false -> size_of (co_meta c) <> 0%Z -> NoDup (map fst d) ->
  exists x y, snd (do_deeds server r fuel (open_owned c sent) [Make d; SetTo v 1; ReadAll v; Look 1]) = [Ok Done; Ok Done; x; y] /\
    (x = Err HTTPError \/
     exists d', x = Ok (All d') /\ y = x /\ NoDup (map fst d') /\
       forall k m, In (k, m) d' <-> is_member l k m \/ (In (k, m) d /\ forall m', ~ is_member l k m')).
Proof.
  intros server r id ans c sent l fuel d v Hr Hs Hp HL Hid Hf Hc Hz Hd.
  set (o0 := MkOwned (open_lazy c sent) [z_kids (open_lazy c sent); d] 0 None).
  set (o1 := MkOwned (open_lazy c sent) [z_kids (open_lazy c sent); d] 1 None).
  destruct (read_first server r id ans Hr Hs l Hp fuel o1 v Hf Hid Hc Hz eq_refl eq_refl eq_refl ltac:(cbn; lia)) as (o2 & x & E2 & X).
  assert (R : reach v o0 = (o0, None)) by (destruct v; [apply still_proxy; assumption|reflexivity]).
  exists x, (Ok (All (dict_at o2 1))). split.
  - assert (E0 : do_deed server r fuel (open_owned c sent) (Make d) = (o0, Ok Done)) by reflexivity.
    assert (E1 : do_deed server r fuel o0 (SetTo v 1) = (o1, Ok Done)) by (cbn [do_deed]; rewrite R; reflexivity).
    cbn [do_deeds]. rewrite E0, E1, E2. reflexivity.
  - destruct X as [->|(-> & Y)]; [left; reflexivity|]. right. exists (kupdate (concat l) d). split; [reflexivity|].
    split; [f_equal; f_equal; exact Y|]. exact (kupdate_members l d HL Hd).
Qed.
Print Assumptions C82_set.

(** Once the members were read, the collection refuses another dictionary. *)
Theorem C82_set_after : forall server r c sent fuel h o xs v o1 d n,
  do_deeds server r fuel (open_owned c sent) h = (o, xs) -> do_deed server r fuel o (ReadAll v) = (o1, Ok (All d)) ->
  snd (do_deed server r fuel o1 (SetTo Property n)) = Err AttributeError.
Proof.
  intros server r c sent fuel h o xs v o1 d n E1 E2.
  assert (F0 : z_parsed_ups (o_lazy o) = false).
  { pose proof (deeds_flags server r fuel h (open_owned c sent) eq_refl) as X. rewrite E1 in X. exact X. }
  destruct (deed_flags server r fuel o (ReadAll v) F0) as (_ & F). rewrite E2 in F. specialize (F v d eq_refl eq_refl). cbn [fst] in F.
  cbn [do_deed reach]. unfold children_of, kids_property. rewrite F. reflexivity.
Qed.
Print Assumptions C82_set_after.

(** ** Examples and findings *)

Definition mine (id : str) : coll := Coll id (coll_meta id 7) [] false.

Example C82_update_sample :
  snd (do_deeds (coll_server sample_kids sample_ups) sample_route 2 (open_owned sample_coll [])
    [Update Property [(#"x", mine #"x")]; ReadOne Property #"x"; ReadAll Property; Update Property [(#"k1", mine #"k1")]; ReadAll Property]) =
  [Ok Done; Ok (One (mine #"x"));
   Ok (All [(#"k1", leaf #"k1"); (#"k2", leaf #"k2"); (#"x", mine #"x"); (#"k3", leaf #"k3")]); Ok Done;
   Ok (All [(#"k1", mine #"k1"); (#"k2", leaf #"k2"); (#"x", mine #"x"); (#"k3", leaf #"k3")])].
Proof. vm_compute. reflexivity. Qed.

Example C82_update_applies : steady (coll_server sample_kids sample_ups) sample_route #"c" Children sample_kids /\
  cpages sample_kids 1 sample_pages /\ consistent sample_pages /\ first_reply sample_coll sample_pages /\
  co_closed sample_coll = false /\ size_of (co_meta sample_coll) <> 0%Z.
Proof.
  split; [apply (coll_steady sample_kids sample_ups #"/c" #"c" Children)|]. split; [exact sample_cpages|]. split; [exact sample_consistent|].
  split; [exact sample_first|]. split; [reflexivity|discriminate].
Qed.

Example C82_set_sample :
  snd (do_deeds (coll_server sample_kids sample_ups) sample_route 2 (open_owned sample_coll [])
    [Make [(#"k3", mine #"k3"); (#"x", mine #"x")]; SetTo Property 1; ReadAll Property; Look 1; SetTo Property 1]) =
  [Ok Done; Ok Done; Ok (All [(#"k3", leaf #"k3"); (#"x", mine #"x"); (#"k1", leaf #"k1"); (#"k2", leaf #"k2")]);
   Ok (All [(#"k3", leaf #"k3"); (#"x", mine #"x"); (#"k1", leaf #"k1"); (#"k2", leaf #"k2")]); Err AttributeError].
Proof. vm_compute. reflexivity. Qed.

(** Finding: an object that the collection gave before still accepts another
    dictionary after the members were read; then the collection has lost them. *)
Theorem C82_held_set_refuted : exists server r c sent fuel d0 l, is_dictionary_of d0 l /\ l <> [] /\ d0 <> [] /\
  snd (do_deeds server r fuel (open_owned c sent) [ReadAll Property; Make []; SetTo Proxy 1; ReadAll Property]) =
  [Ok (All d0); Ok Done; Ok Done; Ok (All [])].
Proof.
  exists (coll_server sample_kids sample_ups), sample_route, sample_coll, [], 2, [(#"k1", leaf #"k1"); (#"k2", leaf #"k2"); (#"k3", leaf #"k3")], sample_pages.
  split; [|split; [discriminate|split; [discriminate|vm_compute; reflexivity]]].
  split; [repeat constructor; cbn; intuition discriminate|]. intros k c. split.
  - intros [H|[H|[H|[]]]]; injection H as <- <-; (split; [reflexivity|]); [exists [leaf #"k1"; leaf #"k2"]|exists [leaf #"k1"; leaf #"k2"]|exists [leaf #"k3"]]; cbn; auto.
  - intros (<- & cs & [<-|[<-|[]]] & H); cbn [In] in H; [destruct H as [<-|[<-|[]]]|destruct H as [<-|[]]]; cbn; auto.
Qed.
Print Assumptions C82_held_set_refuted.

(** Finding: what was written after the members were read is lost too, if the object
    that the collection gave before is read again and the identifier is on the last
    page; elsewhere it stays. *)
Theorem C82_held_update_refuted : exists server r c sent fuel,
  snd (do_deeds server r fuel (open_owned c sent)
    [ReadAll Property; Update Property [(#"k1", mine #"k1"); (#"k3", mine #"k3")]; ReadAll Property; ReadAll Proxy; ReadAll Property]) =
  [Ok (All [(#"k1", leaf #"k1"); (#"k2", leaf #"k2"); (#"k3", leaf #"k3")]); Ok Done;
   Ok (All [(#"k1", mine #"k1"); (#"k2", leaf #"k2"); (#"k3", mine #"k3")]);
   Ok (All [(#"k1", mine #"k1"); (#"k2", leaf #"k2"); (#"k3", leaf #"k3")]);
   Ok (All [(#"k1", mine #"k1"); (#"k2", leaf #"k2"); (#"k3", leaf #"k3")])].
Proof. exists (coll_server sample_kids sample_ups), sample_route, sample_coll, [], 2. vm_compute. reflexivity. Qed.
Print Assumptions C82_held_update_refuted.

(** Finding: read once more before that, through the collection or through the object,
    the collection keeps its members, but the object no longer stands for it: what it
    gives is the other dictionary, and what it loads goes into the collection. *)
Theorem C82_detached_refuted : exists server r c sent fuel d0, length d0 = 3 /\
  (forall v, snd (do_deeds server r fuel (open_owned c sent)
     [ReadAll Proxy; ReadAll v; Make []; SetTo Proxy 1; ReadAll Property; Update Property [(#"k3", mine #"k3")]; ReadAll Proxy; ReadAll Property; Pop Proxy #"k1"; ReadAll Property]) =
   [Ok (All d0); Ok (All d0); Ok Done; Ok Done; Ok (All d0); Ok Done; Ok (All []); Ok (All d0); Err KeyError; Ok (All d0)]).
Proof.
  exists (coll_server sample_kids sample_ups), sample_route, sample_coll, [], 2, [(#"k1", leaf #"k1"); (#"k2", leaf #"k2"); (#"k3", leaf #"k3")].
  split; [reflexivity|]. intros []; vm_compute; reflexivity.
Qed.
Print Assumptions C82_detached_refuted.

(** Finding: but if that reading got an answer without a document, the members are lost
    as if it had not taken place. *)
Theorem C82_no_document_refuted : exists server r c sent fuel d0, length d0 = 3 /\
  snd (do_deeds server r fuel (open_owned c sent) [ReadAll Proxy; ReadAll Proxy; Make []; SetTo Proxy 1; ReadAll Property; Look 0]) =
  [Ok (All d0); Err IndexError; Ok Done; Ok Done; Ok (All []); Ok (All d0)].
Proof.
  exists (fun sent q => if 2 <=? length sent then Ok [] else coll_server sample_kids sample_ups sent q), sample_route, sample_coll, [], 2,
    [(#"k1", leaf #"k1"); (#"k2", leaf #"k2"); (#"k3", leaf #"k3")].
  split; [reflexivity|]. vm_compute. reflexivity.
Qed.
Print Assumptions C82_no_document_refuted.

(** Finding: assigning one member is a TypeError until the members are read, however
    often it is tried, and works after. *)
Theorem C82_assign_refuted : forall server r c sent fuel n k m, co_closed c = false -> size_of (co_meta c) <> 0%Z ->
  snd (do_deeds server r fuel (open_owned c sent) (repeat (PutOne Property k m) n)) = repeat (Err TypeError) n.
Proof.
  intros server r c sent fuel n k m Hc Hz. induction n as [|n IH]; [reflexivity|]. cbn [repeat do_deeds].
  assert (E : do_deed server r fuel (open_owned c sent) (PutOne Property k m) = (open_owned c sent, Err TypeError))
    by (cbn [do_deed reach]; rewrite still_proxy by assumption; reflexivity).
  rewrite E. destruct (do_deeds server r fuel (open_owned c sent) (repeat (PutOne Property k m) n)) as [o xs]. cbn [snd] in *. rewrite IH. reflexivity.
Qed.
Print Assumptions C82_assign_refuted.

(** Finding: a member that was taken out comes back if it is on the last page and the
    object that the collection gave before is read again. *)
Theorem C82_pop_refuted : exists server r c sent fuel,
  snd (do_deeds server r fuel (open_owned c sent)
    [Pop Property #"k3"; Pop Property #"k2"; PutOne Property #"x" (mine #"x"); ReadAll Property; ReadAll Proxy; ReadAll Property; Pop Proxy #"k4"]) =
  [Ok (One (leaf #"k3")); Ok (One (leaf #"k2")); Ok Done;
   Ok (All [(#"k1", leaf #"k1"); (#"x", mine #"x")]);
   Ok (All [(#"k1", leaf #"k1"); (#"x", mine #"x"); (#"k3", leaf #"k3")]);
   Ok (All [(#"k1", leaf #"k1"); (#"x", mine #"x"); (#"k3", leaf #"k3")]); Err KeyError].
Proof. exists (coll_server sample_kids sample_ups), sample_route, sample_coll, [], 2. vm_compute. reflexivity. Qed.
Print Assumptions C82_pop_refuted.

(** The parents: whatever is added to them and read, in any order and however often
    requests fail, what is read has those of all the pages, those that were added, for
    a member the collection it was listed by, and nothing else. *)
Theorem C82_parents : forall server r id ans l fuel h st known,
  NoDup (map fst (rt_query r)) -> steady server r id Parents ans -> cpages ans 1 l -> length l <= fuel ->
  (exists c, co_id c = id /\ (known = [] /\ (exists sent, st = open_lazy c sent) \/ exists up, known = [up] /\ st = member_lazy up c)) ->
  right_parents_history l known h (snd (do_updeeds server r fuel st h)).
Proof.
  intros server r id ans l fuel h st known Hr Hs Hp Hf (c & Hid & Hst).
  apply (ups_history server r id ans l Hr Hs Hp); [exact Hf|].
  destruct Hst as [(-> & sent & ->)|(up & -> & ->)]; unfold uinv; cbn; (split; [exact Hid|]).
  - split; [intros x []|]. split; [intros x []|]. split; [discriminate|exact I].
  - split; [apply incl_refl|]. split; [intros x [<-|[]]; left; reflexivity|]. split; [discriminate|exact I].
Qed.
Print Assumptions C82_parents.

(** Once the parents were read, nothing is requested any more, whatever is added and
    read, of the parents or of the children. *)
Theorem C82_parents_after : forall server r fuel st h a out, reads_parents a ->
  snd (do_access server r fuel st a) = Ok (Ups out) ->
  let st' := fst (do_access server r fuel st a) in z_sent (fst (do_updeeds server r fuel st' h)) = z_sent st'.
Proof.
  intros server r fuel st h a out Ha Hx. cbv zeta.
  assert (F : z_parsed_ups (fst (do_access server r fuel st a)) = true).
  { assert (P : forall f o, iter_proxy server r fuel st Parents f = o -> snd o = Ok (Ups out) -> z_parsed_ups (fst o) = true).
    { intros f o <- H. unfold iter_proxy, run_proxy in *. destruct (z_parsed_ups st) eqn:E; [exact E|]. unfold load in *.
      pose proof (fun p => load_from_ups server r fuel st p) as L.
      match type of H with context [load_from server r fuel st Parents ?p] => specialize (L p); destruct (load_from server r fuel st Parents p) as [s [[]|x]] end;
        cbn [fst snd bind] in *; [apply L; reflexivity|discriminate]. }
    destruct a; cbn in Ha; try contradiction; cbn [do_access] in *.
    - destruct (z_parsed_ups st) eqn:E; [exact E|]. exact (P _ _ eq_refl Hx).
    - exact (P _ _ eq_refl Hx). }
  revert F. generalize (fst (do_access server r fuel st a)). clear. intros st.
  revert st. induction h as [|b h IH]; intros st F; [reflexivity|]. cbn [do_updeeds].
  assert (G : z_sent (fst (do_updeed server r fuel st b)) = z_sent st /\ z_parsed_ups (fst (do_updeed server r fuel st b)) = true).
  { destruct b as [b|e]; cbn [do_updeed]; [|split; [reflexivity|exact F]].
    destruct (silent_access server r fuel st b F) as [X Y]. destruct (do_access server r fuel st b) as [s x]. split; assumption. }
  destruct (do_updeed server r fuel st b) as [s x]. cbn [fst] in G. destruct G as [G1 G2]. specialize (IH s G2).
  destruct (do_updeeds server r fuel s h) as [s2 xs]. cbn [fst] in *. congruence.
Qed.
Print Assumptions C82_parents_after.

(** The parents of the sample: one on its page, one added before it was read, one after. *)
Example C82_parents_sample :
  steady (coll_server sample_kids sample_ups) sample_route #"c" Parents sample_ups /\
  cpages sample_ups 1 [[leaf #"u"]] /\
  let out := do_updeeds (coll_server sample_kids sample_ups) sample_route 2 (open_lazy sample_coll [])
    [AddUps [mine #"a"]; Access ReadUps; AddUps [mine #"b"]; Access HeldUps; Access ReadUps] in
  snd out = [None; Some (Ok (Ups (mine #"a" :: [leaf #"u"])));
    None; Some (Ok (Ups (mine #"a" :: leaf #"u" :: [mine #"b"])));
    Some (Ok (Ups (mine #"a" :: leaf #"u" :: [mine #"b"])))] /\ length (z_sent (fst out)) = 1.
Proof.
  split; [apply (coll_steady sample_kids sample_ups #"/c" #"c" Parents)|]. split; [exact sample_up_pages|]. vm_compute. auto.
Qed.
