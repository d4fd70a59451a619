(** C59: loading directories into a local resolver. *)

From Coq Require Import List NArith ZArith Arith Bool Lia.
From Verif Require Import PyStr PyStrFacts CiteModel CiteSpec UrnModel UrnSpec UrnProofs XmlModel MetaModel MetaSpec
  CollModel CollSpec CollProofs InvModel InvSpec InvProofs Props_Inv LocalModel LocalSpec LocalProofs
  LoadModel LoadSpec LoadDict LoadTree LoadEnter LoadFold LoadBridge LoadLeaf LoadAll LoadMore.
Import ListNotations.

(** ** The theorems *)

(** What the inventories show after loading: the textgroups of the files, one
    after the other, each in the inventory it has or the dispatcher chooses;
    textgroups and works of the same URN are put together, texts of the same URN
    are replaced.  [resolver_shows] says of each text its kind, URN, parents and
    citation.  The filters may look at the path of the textgroup file.  Textgroups
    without a place are left out, unless that is an error (C59_undispatched). *)
Theorem C59_loading : forall order leaf nsmap raise_parsing raise_undispatched texts limit d root tests files s L,
  arranges order -> sound_texts texts -> d_root d = root -> filters_by_name d tests ->
  (forall f, In f files -> named_file (snd f)) -> resolver_shows texts s root L ->
  (forall f n, In f files -> choice_of tests (fst f) (own_urn (fst (snd f))) = Some n -> In n (keys L)) ->
  (raise_undispatched = true -> placed tests files L) ->
  exists s', load order leaf nsmap raise_parsing raise_undispatched (5 + limit) d (map as_file files) texts s = (s', Ok tt) /\
    resolver_shows texts s' root (shelved_by tests files L).
Proof. intros. eapply load_ok; eassumption. Qed.
Print Assumptions C59_loading.

(** A textgroup without a place stops the loading; the ones before it are there. *)
Theorem C59_undispatched : forall order leaf nsmap raise_parsing texts limit d root tests s L pre f post,
  arranges order -> sound_texts texts -> d_root d = root -> filters_by_name d tests ->
  (forall f', In f' (pre ++ f :: post) -> named_file (snd f')) -> resolver_shows texts s root L ->
  (forall f' n, In f' (pre ++ f :: post) -> choice_of tests (fst f') (own_urn (fst (snd f'))) = Some n -> In n (keys L)) ->
  placed tests pre L -> ~ has_place tests (shelved_by tests pre L) f ->
  exists s', load order leaf nsmap raise_parsing true (5 + limit) d (map as_file (pre ++ f :: post)) texts s = (s', Err UndispatchedTextError) /\
    resolver_shows texts s' root (shelved_by tests pre L).
Proof. intros. eapply load_stops; try eassumption; reflexivity. Qed.
Print Assumptions C59_undispatched.

(** Which description of a text there is: the one of the last file with a
    description, or, without any, the one from before.  No text is lost and none
    is made up. *)
Theorem C59_latest : forall order leaf nsmap raise_parsing raise_undispatched texts limit d root tests files s L,
  arranges order -> sound_texts texts -> d_root d = root -> filters_by_name d tests ->
  (forall f, In f files -> named_file (snd f) /\ no_repeats (snd f)) -> resolver_shows texts s root L ->
  (forall f n, In f files -> choice_of tests (fst f) (own_urn (fst (snd f))) = Some n -> In n (keys L)) ->
  placed tests files L ->
  exists s' L', load order leaf nsmap raise_parsing raise_undispatched (5 + limit) d (map as_file files) texts s = (s', Ok tt) /\
    resolver_shows texts s' root L' /\
    forall u x, held L' u x <->
      (exists pre f post, files = pre ++ f :: post /\ describes (snd f) u x /\ forall f' y, In f' post -> ~ describes (snd f') u y) \/
      (held L u x /\ forall f y, In f files -> ~ describes (snd f) u y).
Proof.
  intros order leaf nsmap rp ru texts limit d root tests files s L Ho ST Hd Hf NF RS DEST PL.
  destruct (load_ok order Ho leaf nsmap rp ru texts ST limit d root tests Hd Hf files s L (fun f I => proj1 (NF f I)) RS DEST (fun _ => PL)) as (s' & E & RS').
  exists s', (shelved_by tests files L). split; [exact E|]. split; [exact RS'|]. intros u x. unfold shelved_by.
  rewrite (shelves_have (c_id (obj (s_state s) root)) tests (map file_says files) L u x (rs_order _ _ _ _ RS)).
  - assert (D : forall f v y, In f files -> in_group (snd (snd (file_says f))) v y <-> describes (snd f) v y)
      by (intros f v y I; apply says_describes; apply (NF f I)).
    assert (SP : forall f, file_says f = (fst f, (fst (group_says (snd f)), snd (group_says (snd f))))) by reflexivity.
    split; intros [(pre & H)|[H NO]].
    + left. destruct H as (p & k & g & post & E' & G & NO). destruct (split_map _ _ _ _ _ E') as (fs1 & f & fs2 & -> & E1 & E2 & E3).
      exists fs1, f, fs2. split; [reflexivity|]. split.
      * apply D; [apply in_or_app; right; left; reflexivity|]. rewrite E2. exact G.
      * intros f' y I X. apply D in X; [|apply in_or_app; right; right; exact I].
        apply (NO (fst f') (fst (group_says (snd f'))) (snd (group_says (snd f'))) y); [|exact X]. rewrite <- E3, <- SP. apply in_map. exact I.
    + right. split; [exact H|]. intros f y I X. apply D in X; [|exact I].
      apply (NO (fst f) (fst (group_says (snd f))) (snd (group_says (snd f))) y); [|exact X]. rewrite <- SP. apply in_map. exact I.
    + left. destruct H as (f & post & -> & G & NO).
      exists (map file_says pre), (fst f), (fst (group_says (snd f))), (snd (group_says (snd f))), (map file_says post).
      split; [rewrite map_app; cbn [map]; rewrite <- SP; reflexivity|]. split.
      * apply D; [apply in_or_app; right; left; reflexivity|exact G].
      * intros p' k' g' y I X. apply in_map_iff in I. destruct I as (f' & E' & I). apply (NO f' y I).
        apply D; [apply in_or_app; right; right; exact I|]. rewrite E'. exact X.
    + right. split; [exact H|]. intros p k g y I X. apply in_map_iff in I. destruct I as (f & E' & I). apply (NO f y I).
      apply D; [exact I|]. rewrite E'. exact X.
  - intros p k g I. apply in_map_iff in I. destruct I as (f & E' & I).
    assert (K : k = own_urn (fst (snd f)) /\ p = fst f) by (split; [apply (f_equal (fun x => fst (snd x))) in E'|apply (f_equal fst) in E']; exact (eq_sym E')).
    destruct K as [K Kp]. split.
    + pose proof (says_fits (snd f) (proj1 (NF f I))) as F. apply (f_equal snd) in E'. cbn [snd file_says] in E'. rewrite E' in F. exact F.
    + intros n C. apply (DEST f n I). rewrite K, Kp in C. exact C.
  - intros pre p k g post E'. destruct (split_map _ _ _ _ _ E') as (fs1 & f & fs2 & EF & E1 & E2 & E3).
    pose proof (PL fs1 f fs2 EF) as P. unfold has_place, shelved_by in P. rewrite E1 in P.
    replace p with (fst f) by (apply (f_equal fst) in E2; exact E2).
    replace k with (own_urn (fst (snd f))) by (apply (f_equal (fun x => fst (snd x))) in E2; exact E2). exact P.
Qed.
Print Assumptions C59_latest.

(** Where a file goes depends on its own path only: a new textgroup goes to the
    inventory of the last filter that says yes to the path and the URN; a known one
    stays where it is. *)
Theorem C59_where : forall tests L pre f post n l,
  In (n, l) (shelved_by tests (pre ++ f :: post) L) -> has_key (own_urn (fst (snd f))) l = true ->
  (forall x, In x (pre ++ post) -> own_urn (fst (snd x)) <> own_urn (fst (snd f))) ->
  (forall m l', In (m, l') L -> has_key (own_urn (fst (snd f))) l' = false) ->
  exists before t after, tests = before ++ (n, t) :: after /\ t (fst f) (own_urn (fst (snd f))) = true /\
    forall m t', In (m, t') after -> t' (fst f) (own_urn (fst (snd f))) = false.
Proof. exact goes_where. Qed.
Print Assumptions C59_where.

(** The texts of the inventories are the texts found below the root, and asking
    for one by its URN gives it. *)
Theorem C59_found : forall texts s root L limit, resolver_shows texts s root L ->
  (forall u x, held L u x -> exists t, getitem (5 + limit) (s_state s) root u = Ok t /\ below (s_state s) root t /\
     c_id (obj (s_state s) t) = u /\ c_kind (obj (s_state s) t) = KText (src_kind x) /\ shows_source texts s t x) /\
  (forall t, below (s_state s) root t -> text (s_state s) t -> exists x, held L (c_id (obj (s_state s) t)) x) /\
  (forall u, (forall x, ~ held L u x) -> forall t, below (s_state s) root t -> text (s_state s) t -> c_id (obj (s_state s) t) <> u).
Proof.
  intros texts s root L limit RS. split; [|split].
  - intros u x H. eapply found; eassumption.
  - intros t B T. eapply listed; eassumption.
  - intros u N t B T E. destruct (listed _ _ _ _ _ RS B T) as (x & H). rewrite E in H. exact (N x H).
Qed.
Print Assumptions C59_found.

(** A loaded resolver is one of those C36 and C37 speak of. *)
Theorem C59_library : forall texts s root L, resolver_shows texts s root L -> library (s_state s) root.
Proof. intros texts s root L H. apply shelved_library. apply (shows_shelved _ _ _ _ H). Qed.
Print Assumptions C59_library.

(** Without a dispatcher: one inventory, called default, that takes everything. *)
Theorem C59_default : forall order leaf nsmap raise_parsing raise_undispatched texts limit files s,
  arranges order -> sound_texts texts -> paths_known s -> (forall f, In f files -> named_file (snd f)) ->
  exists s1 d s', default_resolver s = (s1, Ok d) /\ resolver_shows texts s1 (d_root d) [(#"default", [])] /\
    load order leaf nsmap raise_parsing raise_undispatched (5 + limit) d (map as_file files) texts s1 = (s', Ok tt) /\
    resolver_shows texts s' (d_root d) [(#"default", fold_left add_group (map (fun f => group_says (snd f)) files) [])].
Proof.
  intros order leaf nsmap rp ru texts limit files s Ho ST PK NF. destruct (default_ok texts s PK) as (s1 & d & E & _ & M & RS).
  assert (Hf : filters_by_name d [(#"default", fun _ _ => true)]).
  { unfold filters_by_name. rewrite M. constructor; [split; reflexivity|constructor]. }
  destruct (load_ok order Ho leaf nsmap rp ru texts ST limit d (d_root d) _ eq_refl Hf files s1 _ NF RS) as (s' & E' & RS').
  - intros f n _ C. injection C as <-. left. reflexivity.
  - intros _. apply (one_placed #"default" files []).
  - exists s1, d, s'. split; [exact E|]. split; [exact RS|]. split; [exact E'|].
    pose proof (shelve_one #"default" (map file_says files) (@nil (str * group_of source))) as Q. rewrite map_map in Q.
    match type of Q with _ = ?r => change (resolver_shows texts s' (d_root d) r) end. rewrite <- Q. exact RS'.
Qed.
Print Assumptions C59_default.

(** A textgroup file that cannot be parsed: nothing is loaded, whatever comes
    before and after, and whatever the setting of the flag. *)
Theorem C59_unreadable : forall order leaf nsmap raise_parsing raise_undispatched limit d texts s root L pre path e works post,
  arranges order -> (forall f, In f pre -> named_file (snd f)) -> resolver_shows texts s root L ->
  exists s', load order leaf nsmap raise_parsing raise_undispatched limit d (map as_file pre ++ MkGroupFile path (Err e) works :: post) texts s
    = (s', Err (if raise_parsing then e else TypeError)) /\ resolver_shows texts s' root L.
Proof. intros. eapply load_unreadable; eassumption. Qed.
Print Assumptions C59_unreadable.

(** ** A folder to load

    A textgroup file; the file of a work in a subfolder; a text with a citation of
    two levels; another textgroup file with the same work, and one text less. *)
Definition martial : XmlModel.node :=
  cel #"textgroup" [(#"urn", #"urn:cts:latinLit:phi1294")] [] [cel #"groupname" [lang_attr #"eng"] #"Martial" []].
Definition martial_folder : described_group := (martial, [(#"data/phi1294/phi002", example_work)]).
Definition second_folder : described_group :=
  (martial, [(#"more/phi1294/phi002",
              cel #"work" [(#"urn", #"urn:cts:latinLit:phi1294.phi002"); lang_attr #"lat"] []
                [cel #"edition" [(#"urn", #"urn:cts:latinLit:phi1294.phi002.perseus-lat2")] [] []])]).
Definition martial_file : located_group := (#"data/phi1294/__cts__.xml", martial_folder).
Definition second_file : located_group := (#"more/phi1294/__cts__.xml", second_folder).
Definition poem_levels : list InvModel.level :=
  [(Some #"book", Some #"/tei:TEI/tei:div[@n='$1']"); (Some #"poem", Some #"/tei:TEI/tei:div[@n='$1']/tei:div[@n='$2']")].
Definition martial_disk : disk := fun path =>
  if str_eqb path #"data/phi1294/phi002/phi1294.phi002.perseus-lat2.xml" then Some (Ok poem_levels) else None.

Ltac plain_all := repeat split; try discriminate; cbn; intros X; repeat (destruct X as [X|X]; [discriminate X|]); exact X.

Definition clark_test (x : XmlModel.node) : bool :=
  forallb (fun e => match split 125%N (n_tag e) with
                    | [a] => negb (mem 123%N a)
                    | [a; b] => match a with c :: _ => (c =? 123)%N | [] => false end
                    | _ => false end) (document_order x).
Lemma clark_by_test : forall x, clark_test x = true -> clark_names x.
Proof.
  intros x X e H. unfold clark_test in X. rewrite forallb_forall in X. specialize (X e H). clear H.
  destruct (split 125%N (n_tag e)) as [|a [|b [|? ?]]] eqn:S; try discriminate.
  - left. apply split_one in S as [E _]. rewrite E. apply negb_true_iff in X. intros Y. apply mem_In in Y. congruence.
  - right. destruct a as [|c a]; [discriminate|]. apply N.eqb_eq in X. subst c. exists a, b.
    apply split_two in S as (E & M1 & M2). split; [exact E|]. split; intros Y.
    + assert (Z : mem 125%N (123%N :: a) = true) by (apply mem_In; right; exact Y). congruence.
    + apply mem_In in Y. congruence.
Qed.

Lemma example_named : forall f, In f [martial_file; second_file] -> named_file (snd f) /\ no_repeats (snd f).
Proof.
  intros f [<-|[<-|[]]].
  - split.
    + split; [apply clark_by_test; vm_compute; reflexivity|]. split; [intros dw [<-|[]]; apply clark_by_test; vm_compute; reflexivity|].
      exists #"cts", #"latinLit", #"phi1294". split; [plain_all|]. split; [plain_all|]. split; [plain_all|]. split; [reflexivity|].
      intros fw [<-|[]]. exists #"phi002". split; [plain_all|]. split; [reflexivity|].
      intros k e [E|[E|[E|[]]]]; injection E as <- <-.
      * split; [exists #"perseus-lat2"; split; [plain_all|reflexivity]|]. intros a [].
      * split; [exists #"perseus-eng2"; split; [plain_all|reflexivity]|]. intros a [].
      * split; [exists #"comm-1"; split; [plain_all|reflexivity]|]. intros a [<-|[]]. discriminate.
    + split; [repeat constructor; intros []|]. intros fw [<-|[]]. cbn.
      repeat constructor; cbn; intros X; repeat (destruct X as [X|X]; [discriminate X|]); exact X.
  - split.
    + split; [apply clark_by_test; vm_compute; reflexivity|]. split; [intros dw [<-|[]]; apply clark_by_test; vm_compute; reflexivity|].
      exists #"cts", #"latinLit", #"phi1294". split; [plain_all|]. split; [plain_all|]. split; [plain_all|]. split; [reflexivity|].
      intros fw [<-|[]]. exists #"phi002". split; [plain_all|]. split; [reflexivity|].
      intros k e [E|[]]; injection E as <- <-. split; [exists #"perseus-lat2"; split; [plain_all|reflexivity]|]. intros a [].
    + split; [repeat constructor; intros []|]. intros fw [<-|[]]. cbn. repeat constructor. intros [].
Qed.

Lemma wf_by_test : forall n b, 1 <= n -> b <> [] -> forallb (fun c => negb (c =? c_dollar)%N && ((c =? c_qmark)%N || step_symbol c)) b = true ->
  no_digit_after_slot b -> wf_step (n, b).
Proof.
  intros n b H N T D. split; [exact H|]. split; [exact N|]. split; [|exact D]. cbn [snd]. intros c I. rewrite forallb_forall in T. specialize (T c I).
  apply andb_true_iff in T. destruct T as [T1 T2]. apply negb_true_iff, N.eqb_neq in T1. split; [exact T1|].
  apply orb_true_iff in T2. destruct T2 as [T2|T2]; [left; apply N.eqb_eq; exact T2|right; exact T2].
Qed.
Ltac wf_now := apply wf_by_test; [lia|discriminate|vm_compute; reflexivity|
  cbn; repeat split; intros X; try exact I; try discriminate X; reflexivity].

Lemma example_sound : sound_texts martial_disk.
Proof.
  intros path ls H. unfold martial_disk in H. destruct (str_eqb path _); [|discriminate]. injection H as <-. left.
  assert (W1 : wf_step (1, #"tei:TEI")) by wf_now. assert (W2 : wf_step (1, #"tei:div[@n='?']")) by wf_now.
  intros l [<-|[<-|[]]].
  - exists [(1, #"tei:TEI")], (1, #"tei:div[@n='?']"). split; [constructor; [exact W1|constructor]|]. split; [exact W2|reflexivity].
  - exists [(1, #"tei:TEI"); (1, #"tei:div[@n='?']")], (1, #"tei:div[@n='?']").
    split; [exact (Forall_cons _ W1 (Forall_cons _ W2 (Forall_nil _)))|]. split; [exact W2|reflexivity].
Qed.

(** The folder meets the hypotheses of C59_default, and what it gives. *)
Example C59_sample : exists s1 d s' t,
  default_resolver blank = (s1, Ok d) /\
  load same_order by_text no_ns true true 5 d (map as_file [martial_file]) martial_disk s1 = (s', Ok tt) /\
  getitem 5 (s_state s') (d_root d) #"urn:cts:latinLit:phi1294.phi002.perseus-lat2" = Ok t /\
  c_kind (obj (s_state s') t) = KText Edition /\
  citation_of s' t = Some (map (fun l => (fst l, option_map in_double_quotes (snd l))) poem_levels) /\
  (exists t2, getitem 5 (s_state s') (d_root d) #"urn:cts:latinLit:phi1294.phi002.perseus-eng2" = Ok t2).
Proof.
  eexists _, _, _, _. split; [vm_compute; reflexivity|]. split; [vm_compute; reflexivity|]. split; [vm_compute; reflexivity|].
  split; [vm_compute; reflexivity|]. split; [vm_compute; reflexivity|]. eexists. vm_compute. reflexivity.
Qed.

Example C59_latest_sample : arranges same_order /\ sound_texts martial_disk /\
  (forall f, In f [martial_file; second_file] -> named_file (snd f) /\ no_repeats (snd f)) /\
  describes second_folder #"urn:cts:latinLit:phi1294.phi002.perseus-lat2"
    (MkSource Edition (cel #"edition" [(#"urn", #"urn:cts:latinLit:phi1294.phi002.perseus-lat2")] [] []) (Some #"more/phi1294/phi002")) /\
  (exists x, describes martial_folder #"urn:cts:latinLit:phi1294.phi002.perseus-lat2" x) /\
  exists s1 d s' t, default_resolver blank = (s1, Ok d) /\
    load same_order by_text no_ns true true 5 d (map as_file [martial_file; second_file]) martial_disk s1 = (s', Ok tt) /\
    getitem 5 (s_state s') (d_root d) #"urn:cts:latinLit:phi1294.phi002.perseus-lat2" = Ok t /\ citation_of s' t = Some [].
Proof.
  split; [exact same_arranges|]. split; [exact example_sound|]. split; [exact example_named|].
  split; [eexists _, _, _, _; split; [left; reflexivity|]; split; [left; reflexivity|]; split; reflexivity|].
  split; [eexists _, _, _, _, _; split; [left; reflexivity|]; split; [left; reflexivity|]; split; reflexivity|].
  eexists _, _, _, _. split; [vm_compute; reflexivity|]. split; [vm_compute; reflexivity|]. split; vm_compute; reflexivity.
Qed.

(** A dispatcher that has no place for the second textgroup. *)
Definition other_folder : described_group :=
  (cel #"textgroup" [(#"urn", #"urn:cts:greekLit:tlg0012")] [] [], []).
Definition other_file : located_group := (#"data/tlg0012/__cts__.xml", other_folder).
Definition latin_only : dispatcher -> dispatcher := fun d =>
  MkDispatcher (d_root d) [(#"default", fun st c _ => Ok (str_eqb (c_id (obj st c)) #"urn:cts:latinLit:phi1294"))].
Example C59_undispatched_sample : exists s1 d s',
  default_resolver blank = (s1, Ok d) /\
  filters_by_name (latin_only d) [(#"default", fun _ k => str_eqb k #"urn:cts:latinLit:phi1294")] /\
  ~ has_place [(#"default", fun _ k => str_eqb k #"urn:cts:latinLit:phi1294")]
    (shelved_by [(#"default", fun _ k => str_eqb k #"urn:cts:latinLit:phi1294")] [martial_file] [(#"default", [])]) other_file /\
  load same_order by_text no_ns true true 5 (latin_only d) (map as_file [martial_file; other_file]) martial_disk s1 = (s', Err UndispatchedTextError) /\
  (exists t, getitem 5 (s_state s') (d_root d) #"urn:cts:latinLit:phi1294.phi002.perseus-lat2" = Ok t) /\
  snd (load same_order by_text no_ns true false 5 (latin_only d) (map as_file [martial_file; other_file]) martial_disk s1) = Ok tt.
Proof.
  eexists _, _, _. split; [vm_compute; reflexivity|]. split; [constructor; [split; reflexivity|constructor]|].
  split; [intros X; apply X; vm_compute; reflexivity|]. split; [vm_compute; reflexivity|]. split; [eexists; vm_compute; reflexivity|vm_compute; reflexivity].
Qed.

(** ** What does not hold *)

(** The flag RAISE_ON_GENERIC_PARSING_ERROR set to false does not pass over the
    files that cannot be parsed. *)
Theorem C59_lenient_refuted : exists pre post s1 d,
  forall e : exn,
  (forall f, In f pre -> named_file (snd f) /\ no_repeats (snd f)) /\ default_resolver blank = (s1, Ok d) /\
  snd (load same_order by_text no_ns false true 5 d (map as_file pre ++ MkGroupFile #"data/x/__cts__.xml" (Err e) [] :: post) martial_disk s1) = Err TypeError /\
  forall t, getitem 5 (s_state (fst (load same_order by_text no_ns false true 5 d
    (map as_file pre ++ MkGroupFile #"data/x/__cts__.xml" (Err e) [] :: post) martial_disk s1))) (d_root d)
    #"urn:cts:latinLit:phi1294.phi002.perseus-lat2" <> Ok t.
Proof.
  exists [martial_file], []. eexists _, _. intros e. split; [intros f [<-|[]]; apply example_named; left; reflexivity|].
  split; [vm_compute; reflexivity|]. split; [vm_compute; reflexivity|]. intros t. vm_compute. discriminate.
Qed.
Print Assumptions C59_lenient_refuted.

(** The pattern of a citation with one step is lost when the file is read. *)
Definition one_step_disk : disk := fun path =>
  if str_eqb path #"data/phi1294/phi002/phi1294.phi002.perseus-lat2.xml" then Some (Ok [(Some #"line", Some #"//tei:l[@n='$1']")]) else None.
Theorem C59_one_step_refuted : exists s1 d s' t,
  sound_texts one_step_disk /\ default_resolver blank = (s1, Ok d) /\
  load same_order by_text no_ns true true 5 d (map as_file [martial_file]) one_step_disk s1 = (s', Ok tt) /\
  getitem 5 (s_state s') (d_root d) #"urn:cts:latinLit:phi1294.phi002.perseus-lat2" = Ok t /\
  citation_of s' t = Some [(Some #"line", None)].
Proof.
  eexists _, _, _, _. split.
  - intros path ls H. unfold one_step_disk in H. destruct (str_eqb path _); [|discriminate]. injection H as <-. left.
    intros l [<-|[]]. exists [], (2, #"tei:l[@n='?']"). split; [constructor|]. split; [wf_now|reflexivity].
  - split; [vm_compute; reflexivity|]. split; [vm_compute; reflexivity|]. split; vm_compute; reflexivity.
Qed.
Print Assumptions C59_one_step_refuted.

(** A work that the textgroup file announces, without texts, and that has its own
    file: the texts of that file are lost. *)
Definition announcing : described_group :=
  (cel #"textgroup" [(#"urn", #"urn:cts:latinLit:phi1294")] []
     [cel #"work" [(#"urn", #"urn:cts:latinLit:phi1294.phi002")] [] []],
   [(#"data/phi1294/phi002", example_work)]).
Theorem C59_repeats_refuted : named_file announcing /\
  (exists x, describes announcing #"urn:cts:latinLit:phi1294.phi002.perseus-lat2" x) /\
  exists s1 d s', default_resolver blank = (s1, Ok d) /\
    load same_order by_text no_ns true true 5 d (map as_file [(#"data/phi1294/__cts__.xml", announcing)]) martial_disk s1 = (s', Ok tt) /\
    forall t, getitem 5 (s_state s') (d_root d) #"urn:cts:latinLit:phi1294.phi002.perseus-lat2" <> Ok t.
Proof.
  split; [|split].
  - split; [apply clark_by_test; vm_compute; reflexivity|]. split; [intros dw [<-|[]]; apply clark_by_test; vm_compute; reflexivity|].
    exists #"cts", #"latinLit", #"phi1294". split; [plain_all|]. split; [plain_all|]. split; [plain_all|]. split; [reflexivity|].
    intros fw [<-|[<-|[]]].
    + exists #"phi002". split; [plain_all|]. split; [reflexivity|]. intros k e [].
    + exists #"phi002". split; [plain_all|]. split; [reflexivity|].
      intros k e [E|[E|[E|[]]]]; injection E as <- <-.
      * split; [exists #"perseus-lat2"; split; [plain_all|reflexivity]|]. intros a [].
      * split; [exists #"perseus-eng2"; split; [plain_all|reflexivity]|]. intros a [].
      * split; [exists #"comm-1"; split; [plain_all|reflexivity]|]. intros a [<-|[]]. discriminate.
  - eexists _, _, _, _, _. split; [right; left; reflexivity|]. split; [left; reflexivity|]. split; reflexivity.
  - eexists _, _, _. split; [vm_compute; reflexivity|]. split; [vm_compute; reflexivity|]. intros t. vm_compute. discriminate.
Qed.
Print Assumptions C59_repeats_refuted.

(** Filters that look at the path: the same textgroup from two folders.  The file
    of the second folder alone goes to the inventory b; after the first one, its
    texts go to the inventory a, where the textgroup is. *)
Definition two_shelves : state :=
  let '(st1, all) := new_object (s_state blank) KInventoryCollection #"all" [] in
  let '(st2, a) := new_object st1 KInventory #"a" [] in
  let st3 := set_parent st2 a all in
  let '(st4, b) := new_object st3 KInventory #"b" [] in
  set_parent st4 b all.
Definition shelf_store : store := MkStore two_shelves [] [].
Definition by_folder : dispatcher :=
  MkDispatcher 0 [(#"a", fun _ _ _ => Ok true);
                  (#"b", fun _ _ p => Ok match p with Some p => startswith p #"more/" | None => false end)].
Definition folder_tests : tests_of := [(#"a", fun _ _ => true); (#"b", fun p _ => startswith p #"more/")].

Lemma by_folder_filters : filters_by_name by_folder folder_tests.
Proof. constructor; [split; reflexivity|]. constructor; [split; reflexivity|constructor]. Qed.

Lemma two_shown : forall texts, resolver_shows texts shelf_store 0 [(#"a", []); (#"b", [])].
Proof.
  intros texts. constructor.
  - vm_compute. lia.
  - reflexivity.
  - intros t path [].
  - constructor.
    + intros r. vm_compute. discriminate.
    + intros n l [E|[E|[]]]; injection E as <- <-; (split; [intros r; cbn; discriminate|vm_compute; discriminate]).
    + constructor; [intros [E|[]]; discriminate|]. constructor; [intros []|constructor].
    + constructor.
    + intros n l k ws [E|[E|[]]] I; injection E as <- <-; destruct I.
  - intros n l k ws k2 ts k3 t [E|[E|[]]] I; injection E as <- <-; destruct I.
  - unfold shown_inventories, entries. vm_compute. constructor; [|constructor; [|constructor]];
      (split; [reflexivity|]; split; [repeat constructor|]; split; [reflexivity|]; split; [reflexivity|]; split; [reflexivity|constructor]).
Qed.

Example C59_path_sample : exists s' t g i,
  load same_order by_text no_ns true true 5 by_folder (map as_file [second_file]) martial_disk shelf_store = (s', Ok tt) /\
  resolver_shows martial_disk s' 0 (shelved_by folder_tests [second_file] [(#"a", []); (#"b", [])]) /\
  getitem 5 (s_state s') 0 #"urn:cts:latinLit:phi1294" = Ok t /\ c_parent (obj (s_state s') t) = Some i /\
  c_id (obj (s_state s') i) = #"b" /\
  (exists s2, load same_order by_text no_ns true true 5 by_folder (map as_file [martial_file]) martial_disk shelf_store = (s2, Ok tt) /\
     getitem 5 (s_state s2) 0 #"urn:cts:latinLit:phi1294" = Ok g /\ exists j, c_parent (obj (s_state s2) g) = Some j /\ c_id (obj (s_state s2) j) = #"a").
Proof.
  destruct (C59_loading same_order by_text no_ns true true martial_disk 0 by_folder 0 folder_tests [second_file] shelf_store [(#"a", []); (#"b", [])])
    as (s' & E & RS).
  - exact same_arranges.
  - exact example_sound.
  - reflexivity.
  - exact by_folder_filters.
  - intros f [<-|[]]. apply example_named. right. left. reflexivity.
  - apply two_shown.
  - intros f n [<-|[]] C. vm_compute in C. injection C as <-. vm_compute. auto.
  - intros _ pre f post F. destruct pre as [|x [|y pre]]; try discriminate. injection F as <- _. vm_compute. discriminate.
  - vm_compute in E. injection E as <-. eexists _, _, _, _. split; [vm_compute; reflexivity|]. split; [exact RS|].
    split; [vm_compute; reflexivity|]. split; [vm_compute; reflexivity|]. split; [vm_compute; reflexivity|].
    eexists. split; [vm_compute; reflexivity|]. split; [vm_compute; reflexivity|]. eexists. split; vm_compute; reflexivity.
Qed.

(** The texts of a file do not always go where the filters send the file: the
    textgroup may be in another inventory already. *)
Theorem C59_path_refuted : exists s' t w g i,
  load same_order by_text no_ns true true 5 by_folder (map as_file [martial_file; second_file]) martial_disk shelf_store = (s', Ok tt) /\
  choice_of folder_tests (fst second_file) (own_urn (fst (snd second_file))) = Some #"b" /\
  describes (snd second_file) #"urn:cts:latinLit:phi1294.phi002.perseus-lat2"
    (MkSource Edition (cel #"edition" [(#"urn", #"urn:cts:latinLit:phi1294.phi002.perseus-lat2")] [] []) (Some #"more/phi1294/phi002")) /\
  getitem 5 (s_state s') 0 #"urn:cts:latinLit:phi1294.phi002.perseus-lat2" = Ok t /\
  path_of s' t = Some #"more/phi1294/phi002/phi1294.phi002.perseus-lat2.xml" /\
  c_parent (obj (s_state s') t) = Some w /\ c_parent (obj (s_state s') w) = Some g /\ c_parent (obj (s_state s') g) = Some i /\
  c_id (obj (s_state s') i) = #"a".
Proof.
  eexists _, _, _, _, _. split; [vm_compute; reflexivity|]. split; [vm_compute; reflexivity|].
  split; [eexists _, _, _, _; split; [left; reflexivity|]; split; [left; reflexivity|]; split; reflexivity|].
  split; [vm_compute; reflexivity|]. split; [vm_compute; reflexivity|]. split; [vm_compute; reflexivity|].
  split; [vm_compute; reflexivity|]. split; vm_compute; reflexivity.
Qed.
Print Assumptions C59_path_refuted.
