(** Property C47: remote CTS texts and passages.  The vocabulary is in RemoteSpec.v,
    UrnSpec.v and HttpSpec.v. *)

From Coq Require Import List NArith ZArith Arith Bool Lia.
From Verif Require Import PyStr PyStrFacts RefModel RefSpec RefProofs UrnModel UrnSpec UrnProofs XmlModel XmlSpec TeiSpec.
From Verif Require Import PassageModel HttpModel HttpSpec HttpProofs RemoteModel RemoteSpec RemoteProofs.
Import ListNotations.

(** ** What is asked *)

(** From a text without a reference, whatever is called, the URN that is asked is
    the text's, a colon and the reference: given as a text, as a reference or as a
    list of levels; the text's own URN when nothing is given; and a full URN is
    asked as it is. *)
Theorem C47_text_requests : forall ns cts p u, plain_ns ns -> plain_ns cts -> plain_part p -> 2 <= part_size p ->
  urn_parse (write_urn ns cts p None) = Ok u ->
  let text := write_urn ns cts p None in
  asked_node u ByNothing = Ok text /\ asked_below u None = Ok text /\ asked_first u None = Ok text /\
  (forall s, s <> [] -> ~ In c_colon s ->
    asked_node u (ByText s) = Ok (text ++ #":" ++ s) /\ asked_below u (Some (SubText s)) = Ok (text ++ #":" ++ s) /\
    asked_first u (Some (SubText s)) = Ok (text ++ #":" ++ s) /\ asked_sibling u s = Ok (text ++ #":" ++ s)) /\
  (forall q, r_start q <> #":" -> r_end q <> Some #":" ->
    asked_node u (ByRef q) = Ok (text ++ #":" ++ r_str q) /\ asked_below u (Some (SubRef q)) = Ok (text ++ #":" ++ r_str q) /\
    asked_first u (Some (SubRef q)) = Ok (text ++ #":" ++ r_str q)) /\
  (forall l, l <> [] -> asked_node u (ByList l) = Ok (text ++ #":" ++ write_levels l)) /\
  (forall a b, asked_node u (ByText (a ++ #":" ++ b)) = Ok (a ++ #":" ++ b) /\
    asked_first u (Some (SubText (a ++ #":" ++ b))) = Ok (a ++ #":" ++ b)) /\
  (forall ns' cts' p' r' v, plain_ns ns' -> plain_ns cts' -> plain_part p' -> written_ref p' r' ->
    urn_parse (write_urn ns' cts' p' r') = Ok v -> asked_node u (ByUrn v) = Ok (write_urn ns' cts' p' r')).
Proof.
  intros ns cts p u Hns Hcts Hp Hs Hu text. assert (Hr : written_ref p None) by exact I. unfold text.
  split; [exact (addr_str ns cts p None u Hns Hcts Hp Hr Hu)|]. split; [exact (addr_str ns cts p None u Hns Hcts Hp Hr Hu)|].
  split; [exact (addr_str ns cts p None u Hns Hcts Hp Hr Hu)|]. split; [|split; [|split; [|split]]].
  - intros s Hn Hc. rewrite !write_colon. split; [|split; [|split]].
    + eapply addr_text; eassumption.
    + rewrite (addr_valid ns cts p None u) by assumption. destruct s; [congruence|]. rewrite write_colon. reflexivity.
    + eapply addr_first_text; eassumption.
    + eapply addr_sibling; eassumption.
  - intros q H1 H2. split; [|split].
    + cbn [asked_node]. eapply addr_below; eassumption.
    + eapply addr_valid_ref; eassumption.
    + rewrite write_colon. eapply addr_first_ref; eassumption.
  - intros l Hl. cbn [asked_node]. rewrite (addr_below ns cts p None u) by assumption. repeat f_equal.
    induction l as [|a [|b l] IH]; [congruence|reflexivity|]. rewrite join_cons by discriminate. rewrite IH by discriminate. reflexivity.
  - intros a b. assert (M : mem c_colon (a ++ #":" ++ b) = true) by (apply mem_In; apply in_or_app; right; left; reflexivity).
    cbn [asked_node asked_first]. rewrite M. split; reflexivity.
  - intros ns' cts' p' r' v H1 H2 H3 H4 Hv. cbn [asked_node]. eapply addr_str; eassumption.
Qed.
Print Assumptions C47_text_requests.

(** From a passage, a text and the siblings are asked with the passage's own
    reference replaced; a reference or a list of levels is added after it. *)
Theorem C47_passage_requests : forall ns cts p r u, plain_ns ns -> plain_ns cts -> plain_part p -> 2 <= part_size p ->
  written_ref p (Some r) -> urn_parse (write_urn ns cts p (Some r)) = Ok u ->
  (forall s, ~ In c_colon s -> asked_node u (ByText s) = Ok (write_urn ns cts p (Some s)) /\
    asked_first u (Some (SubText s)) = Ok (write_urn ns cts p (Some s))) /\
  (forall s, asked_sibling u s = Ok (write_urn ns cts p (Some s))) /\
  passage_request u = Ok (write_urn ns cts p (Some r)) /\
  asked_node u ByNothing = Ok (write_urn ns cts p (Some r)) /\
  (forall q, asked_node u (ByRef q) = Ok (write_urn ns cts p (Some r) ++ #":" ++ r_str q)) /\
  (forall q, asked_below u (Some (SubRef q)) = Ok (write_urn ns cts p (Some r) ++ #":" ++ r_str q)) /\
  (forall s, s <> [] -> asked_below u (Some (SubText s)) = Ok (write_urn ns cts p (Some r) ++ #":" ++ s)).
Proof.
  intros ns cts p r u Hns Hcts Hp Hs Hr Hu. split; [|split; [|split; [|split; [|split; [|split]]]]].
  - intros s Hc. split; [eapply addr_text|eapply addr_first_text]; eassumption.
  - intros s. eapply addr_sibling; eassumption.
  - unfold passage_request. destruct (parsed_form ns cts p (Some r) u Hns Hcts Hp Hr Hu) as (o & Eu & x & Eo & Ex & _).
    assert (E : item_str (u_ref u) = r) by (subst u o; exact Ex). rewrite E. eapply addr_sibling; eassumption.
  - exact (addr_str ns cts p (Some r) u Hns Hcts Hp Hr Hu).
  - intros q. cbn [asked_node]. eapply addr_below; eassumption.
  - intros q. eapply addr_valid_ref; eassumption.
  - intros s Hn. rewrite (addr_valid ns cts p (Some r) u) by assumption. destruct s; [congruence|reflexivity].
Qed.
Print Assumptions C47_passage_requests.

Definition remote_text : str := #"urn:cts:latinLit:phi1294.phi002.perseus-lat2".
Definition remote_passage : str := #"urn:cts:latinLit:phi1294.phi002.perseus-lat2:1.1".
Lemma remote_parts :
  remote_text = write_urn #"cts" #"latinLit" (Version #"phi1294" #"phi002" #"perseus-lat2") None /\
  remote_passage = write_urn #"cts" #"latinLit" (Version #"phi1294" #"phi002" #"perseus-lat2") (Some #"1.1") /\
  plain_ns #"cts" /\ plain_ns #"latinLit" /\ plain_part (Version #"phi1294" #"phi002" #"perseus-lat2") /\
  written_ref (Version #"phi1294" #"phi002" #"perseus-lat2") (Some #"1.1").
Proof.
  assert (N : forall c s, mem c s = false -> ~ In c s) by (intros c s H X; apply mem_In in X; congruence).
  split; [reflexivity|]. split; [reflexivity|].
  repeat split; try discriminate; apply N; reflexivity.
Qed.
Example C47_requests_sample : exists u v, urn_parse remote_text = Ok u /\ urn_parse remote_passage = Ok v /\
  asked_node u (ByText #"1.2") = Ok #"urn:cts:latinLit:phi1294.phi002.perseus-lat2:1.2" /\
  asked_node u (ByList [#"1"; #"2"]) = Ok #"urn:cts:latinLit:phi1294.phi002.perseus-lat2:1.2" /\
  asked_node v (ByText #"1.2") = Ok #"urn:cts:latinLit:phi1294.phi002.perseus-lat2:1.2" /\
  passage_request v = Ok remote_passage.
Proof. eexists _, _. repeat split; vm_compute; reflexivity. Qed.

(** Findings: from a passage, a reference object is added after the passage's own
    reference, and a URN read from that has none of them; from a text, the siblings
    are asked of the passage called None. *)
Theorem C47_second_reference_refuted : exists u q s v, urn_parse remote_passage = Ok u /\
  cts_reference_string #"1.2" = Ok q /\ asked_node u (ByRef q) = Ok s /\
  s = #"urn:cts:latinLit:phi1294.phi002.perseus-lat2:1.1:1.2" /\ urn_parse s = Ok v /\ u_ref v = None.
Proof. eexists _, _, _, _. repeat split; vm_compute; reflexivity. Qed.
Print Assumptions C47_second_reference_refuted.
Theorem C47_text_siblings_refuted : exists u, urn_parse remote_text = Ok u /\
  passage_request u = Ok #"urn:cts:latinLit:phi1294.phi002.perseus-lat2:None".
Proof. eexists. split; vm_compute; reflexivity. Qed.
Print Assumptions C47_text_siblings_refuted.

(** References are asked at the given level, counted from the passage's own
    reference; the level -1 that comes out of this is the number of citation
    levels.  The subreference does not count. *)
Theorem C47_levels : forall ns cts p r u cites level sub, plain_ns ns -> plain_ns cts -> plain_part p -> written_ref p r ->
  urn_parse (write_urn ns cts p r) = Ok u ->
  forall n s z, asked_reffs u cites level sub = Ok (s, z) ->
    match r with None => n = 0 | Some t => deep (SubText t) n end ->
    z = (if (level + Z.of_nat n =? -1)%Z then Z.of_nat cites else level + Z.of_nat n)%Z.
Proof.
  intros ns cts p r u cites level sub Hns Hcts Hp Hr Hu n s z H Hn. unfold asked_reffs in H.
  destruct (asked_below u sub) as [s'|]; [|discriminate]. cbn [bind] in H. injection H as _ <-.
  rewrite (addr_level ns cts p r u) by assumption. unfold valid_level.
  assert (E : match r with Some _ => match u_ref u with Some q => (level + Z.of_nat (ref_depth q))%Z | None => level end | None => level end = (level + Z.of_nat n)%Z).
  { destruct (parsed_form ns cts p r u Hns Hcts Hp Hr Hu) as (o & Eu & Ho). destruct r as [t|]; [|subst n; lia].
    destruct Ho as (x & Eo & Ex & Hx). assert (E : u_ref u = Some x) by (subst u o; reflexivity). rewrite E.
    pose proof (deep_depth _ _ Hn) as [_ D]. unfold cts_reference in Hx. cbn [val_truthy val_str] in Hx.
    destruct (truthy t); [|discriminate]. cbn [negb] in Hx. destruct (cts_reference_string t) as [q|]; [|discriminate]. cbn [bind] in Hx, D.
    assert (q = x) by congruence. assert (ref_depth q = n) by congruence. subst. reflexivity. }
  rewrite E. reflexivity.
Qed.
Print Assumptions C47_levels.

Example C47_levels_sample :
  deep (SubText #"1.1") 2 /\
  (exists v, urn_parse remote_passage = Ok v /\ asked_reffs v 3 1 None = Ok (remote_passage, 3%Z)) /\
  exists u, urn_parse remote_text = Ok u /\ asked_reffs u 3 (-1) (Some (SubText #"1")) = Ok (remote_text ++ #":1", 3%Z) /\
    asked_reffs u 3 1 (Some (SubText #"1")) = Ok (remote_text ++ #":1", 1%Z).
Proof.
  split.
  - change #"1.1" with (write_passage [#"1"; #"1"] None). apply (dp_text [#"1"; #"1"] None); [|exact I].
    split; [discriminate|]. repeat constructor; try discriminate; intros [X|[]]; discriminate.
  - split; eexists; repeat split; vm_compute; reflexivity.
Qed.

(** The resolver: the name of the request, and the text's URN, a colon and the
    reference.  It knows no citation, so that level -1 is asked as 1, however many levels the text
    has (finding). *)
Theorem C47_resolver : forall ns cts p, plain_ns ns -> plain_ns cts -> plain_part p -> 2 <= part_size p ->
  let text := write_urn ns cts p None in
  (forall sub, match sub with Some (SubText s) => s <> [] /\ ~ In c_colon s | _ => True end ->
    forall s, address text sub s ->
      (forall b c, resolver_node text sub b c = Ok (if b || c then #"GetPassagePlus" else #"GetPassage", s)) /\
      (forall level, resolver_reffs text level sub = Ok (s, if (level =? -1)%Z then 1%Z else level))) /\
  (forall sub s, address text (Some sub) s -> sub <> SubText [] -> resolver_siblings text sub = Ok (#"GetPrevNextUrn", s)).
Proof.
  intros ns cts p Hns Hcts Hp Hs text. assert (Hr : written_ref p None) by exact I.
  pose proof (urn_parse_written ns cts p None None Hns Hcts Hp eq_refl) as Hu. set (u := parsed_urn ns cts p None None) in *.
  destruct (C47_text_requests ns cts p u Hns Hcts Hp Hs Hu) as (N0 & B0 & _ & T & R & _ & _). fold text in N0, B0, T, R.
  split.
  - intros sub Hsub s A. unfold resolver_node, resolver_reffs, asked_reffs. fold text in Hu. rewrite Hu. cbn [bind].
    assert (L : forall level, valid_level 1 (reffs_level u level) = if (level =? -1)%Z then 1%Z else level).
    { intros level. rewrite (addr_level ns cts p None u) by assumption. reflexivity. }
    assert (E : asked_below u sub = Ok s /\
      asked_node u (match sub with None => ByNothing | Some (SubText s) => ByText s | Some (SubRef r) => ByRef r end) = Ok s).
    { inversion A; subst.
      - split; assumption.
      - destruct Hsub as [H _]. congruence.
      - destruct Hsub as [_ Hc]. destruct (T s0 ltac:(assumption) Hc) as (X & Y & _). split; assumption.
      - split; [eapply addr_valid_ref; eassumption|]. cbn [asked_node]. eapply addr_below; eassumption. }
    destruct E as [E1 E2]. split.
    + intros b c. rewrite E1, E2. cbn [bind]. rewrite orb_comm. destruct (b || c); reflexivity.
    + intros level. rewrite E1. cbn [bind]. rewrite L. reflexivity.
  - intros sub s A Hn. unfold resolver_siblings. fold text in Hu. rewrite Hu. cbn [bind].
    rewrite (addr_sibling ns cts p None u) by assumption. cbn [bind]. rewrite <- write_colon. inversion A; subst; [congruence|reflexivity|reflexivity].
Qed.
Print Assumptions C47_resolver.

Example C47_resolver_sample :
  address remote_text (Some (SubText #"1.2")) #"urn:cts:latinLit:phi1294.phi002.perseus-lat2:1.2" /\
  resolver_node remote_text (Some (SubText #"1.2")) true false = Ok (#"GetPassagePlus", #"urn:cts:latinLit:phi1294.phi002.perseus-lat2:1.2") /\
  resolver_siblings remote_text (SubText #"1.2") = Ok (#"GetPrevNextUrn", #"urn:cts:latinLit:phi1294.phi002.perseus-lat2:1.2").
Proof. split; [apply (ad_text remote_text #"1.2"); discriminate|]. split; vm_compute; reflexivity. Qed.

(** ** What is read *)

(** The references of a reply are what follows the last colon in each text of an
    urn element below a reply element, in order; a document that repeats no request
    is an IndexError. *)
Theorem C47_references : forall x,
  (has_tag x (cts_tag #"request") -> exists l, read_reffs x = Ok l /\
    identifiers (fun ts => exists a b, ts = a ++ [cts_tag #"reply"] ++ b ++ [cts_tag #"urn"]) x l) /\
  (~ has_tag x (cts_tag #"request") -> read_reffs x = Err IndexError).
Proof. exact read_reffs_spec. Qed.
Print Assumptions C47_references.

(** The first reference: the first such text directly in a reply element. *)
Theorem C47_first : forall x, identifier (fun ts => exists a, ts = a ++ [cts_tag #"reply"; cts_tag #"urn"]) x (read_first x).
Proof. exact read_first_spec. Qed.
Print Assumptions C47_first.

(** The siblings are read from the first prevnext element: each is what follows the
    last colon of its first URN, and None when there is none.  Without such an
    element they stay unknown. *)
Theorem C47_prevnext : forall x,
  (has_tag x (cts_tag #"prevnext") -> exists prev next, read_prevnext x = (Known prev, Known next) /\ siblings_of x prev next) /\
  (~ has_tag x (cts_tag #"prevnext") -> read_prevnext x = (Unknown, Unknown)).
Proof.
  intros x. destruct (read_prevnext_spec x) as [(p & n & E & H)|[N E]].
  - split; [eauto|]. intros X. destruct X. destruct H as (e & H & _). eapply first_has. exact H.
  - split; [intros X; contradiction|intros _; exact E].
Qed.
Print Assumptions C47_prevnext.

(** These specifications determine the answer. *)
Theorem C47_identifiers_unique : forall kind x l l', identifiers kind x l -> identifiers kind x l' -> l = l'.
Proof.
  intros kind x l l' (k & Hk & Hl) (k' & Hk' & Hl'). assert (k = k').
  { clear Hl Hl'. revert k' Hk'. induction Hk as [|a b c H1 H2 IH|a b c H1 H2 IH]; intros k' Hk'; inversion Hk'; subst; try contradiction.
    - reflexivity.
    - f_equal. apply IH. assumption.
    - apply IH. assumption. }
  subst k'. clear Hk Hk'. revert l' Hl'. induction Hl as [|s c ss cs H HF IH]; intros l' Hl'; inversion Hl' as [|? c' ? cs' H' HF']; subst; [reflexivity|].
  f_equal; [|apply IH; exact HF'].
  assert (U : forall a b c d : str, ~ In c_colon c -> ~ In c_colon d -> a ++ #":" ++ c = b ++ #":" ++ d -> c = d).
  { induction a as [|z a IHa]; intros b c0 d Hc Hd E; destruct b as [|y b]; cbn in E.
    - injection E as E. exact E.
    - destruct Hc. injection E as E1 E2. rewrite E2. apply in_or_app. right. left. reflexivity.
    - destruct Hd. injection E as E1 E2. rewrite <- E2. apply in_or_app. right. left. reflexivity.
    - injection E as E1 E2. eapply IHa; eassumption. }
  destruct H as [Hc [->|[a E]]], H' as [Hc' [E'|[a' E']]].
  - exact E'.
  - destruct Hc. rewrite E'. apply in_or_app. right. left. reflexivity.
  - destruct Hc'. rewrite <- E', E. apply in_or_app. right. left. reflexivity.
  - apply (U a a'); [exact Hc|exact Hc'|congruence].
Qed.
Print Assumptions C47_identifiers_unique.

(** A reply to a passage request with siblings. *)
Definition leaf (name text : str) : node := Elem (cts_tag name) [] text [] [].
Definition branch (name : str) (kids : list node) : node := Elem (cts_tag name) [] [] [] kids.
Definition plus_reply : node :=
  branch #"GetPassagePlus"
    [branch #"request" [leaf #"requestUrn" #"urn:cts:latinLit:phi1294.phi002.perseus-lat2:1.2"];
     branch #"reply"
       [leaf #"urn" #"urn:cts:latinLit:phi1294.phi002.perseus-lat2:1.2";
        branch #"prevnext"
          [branch #"prev" [branch #"urn" []];
           branch #"next" [leaf #"urn" #"urn:cts:latinLit:phi1294.phi002.perseus-lat2:1.3"]]]].
Definition bare_reply : node :=
  branch #"GetPassage" [branch #"request" []; branch #"reply" [leaf #"urn" #"urn:cts:latinLit:phi1294.phi002.perseus-lat2:1.2"]].
Example C47_reply_sample :
  read_reffs plus_reply = Ok [#"1.2"; #"1.3"] /\ read_first plus_reply = Some #"1.2" /\
  read_prevnext plus_reply = (Known None, Known (Some #"1.3")) /\ read_prevnext bare_reply = (Unknown, Unknown) /\
  has_tag plus_reply (cts_tag #"prevnext") /\ has_tag plus_reply (cts_tag #"request").
Proof.
  repeat (split; [vm_compute; reflexivity|]). split.
  - exists [1; 1]. eexists. split; [econstructor; [reflexivity|]; econstructor; [reflexivity|]; constructor|reflexivity].
  - exists [0]. eexists. split; [econstructor; [reflexivity|]; constructor|reflexivity].
Qed.

(** ** Histories of accesses to the siblings of a passage *)

Lemma siblings_unique : forall x p n p' n', siblings_of x p n -> siblings_of x p' n' -> p = p' /\ n = n'.
Proof.
  intros x p n p' n' (e & (b & P & a & E & Ht & HF) & (lp & Hp & ->) & (ln & Hn & ->)) (e' & (b' & P' & a' & E' & Ht' & HF') & (lp' & Hp' & ->) & (ln' & Hn' & ->)).
  assert (e = e').
  { rewrite E in E'. clear E Hp Hn Hp' Hn'. revert b' E' HF'. induction HF as [|[q m] b Hm HF IH]; intros b' E' HF'; destruct HF' as [|[q' m'] b' Hm' HF']; cbn in E'.
    - congruence.
    - injection E' as E1 E2 _. subst m'. destruct Hm'. exact Ht.
    - injection E' as E1 E2 _. subst m. destruct Hm. exact Ht'.
    - injection E' as _ _ E'. exact (IH b' E' HF'). }
  subst e'. split; f_equal; eapply C47_identifiers_unique; eassumption.
Qed.

(** When the reply that made the passage tells the siblings, nothing is asked and
    every access gives them. *)
Theorem C47_known_siblings : forall x reply h prev next, siblings_of x prev next ->
  accesses reply (new_passage x) h = (MkPassage (Known prev) (Known next) 0, map (answer prev next) h).
Proof.
  intros x reply h prev next HS. pose proof HS as (e & He & _). destruct (C47_prevnext x) as [H _]. destruct (H (first_has _ _ _ He)) as (p & n & E & HS').
  destruct (siblings_unique _ _ _ _ _ HS HS') as [-> ->]. unfold new_passage. rewrite E. apply accesses_known.
Qed.
Print Assumptions C47_known_siblings.

(** Otherwise each access asks again until a reply tells them: the accesses before
    it answer that they are unknown, those from it on give what it says, and no more
    is asked. *)
Theorem C47_asked_siblings : forall x reply h, ~ has_tag x (cts_tag #"prevnext") ->
  exists h1 h2, h = h1 ++ h2 /\
  (forall m, m < length h1 -> ~ has_tag (reply m) (cts_tag #"prevnext")) /\
  match h2 with
  | [] => accesses reply (new_passage x) h = (MkPassage Unknown Unknown (length h1), map no_answer h1)
  | _ => exists prev next, siblings_of (reply (length h1)) prev next /\
      accesses reply (new_passage x) h = (MkPassage (Known prev) (Known next) (S (length h1)), map no_answer h1 ++ map (answer prev next) h2)
  end.
Proof.
  intros x reply h N. destruct (C47_prevnext x) as [_ H]. unfold new_passage. rewrite (H N). exact (accesses_unknown reply h 0).
Qed.
Print Assumptions C47_asked_siblings.

Example C47_history_sample :
  accesses (fun m => match m with 0 => bare_reply | _ => plus_reply end) (new_passage bare_reply) [GetPrev; GetNext; GetSiblings] =
    (MkPassage (Known None) (Known (Some #"1.3")) 2, [[Unknown]; [Known (Some #"1.3")]; [Known None; Known (Some #"1.3")]]).
Proof. vm_compute. reflexivity. Qed.
