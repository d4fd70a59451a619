(** Properties C41, C42, C44, C45 and C55: the utilities. *)

From Coq Require Import List NArith Arith Bool Lia.
From Verif Require Import PyStr PyStrFacts UtilModel UtilSpec UtilProofs ExportModel ExportProofs XmlNodeProofs.
Import ListNotations.

(** ** C41: whitespace normalisation *)

(** Every run of spaces becomes one space and nothing else changes. *)
Theorem C41_normalize : forall s, squeezed s (normalize s).
Proof. exact normalize_spec. Qed.
Print Assumptions C41_normalize.

Theorem C41_no_double_space : forall s a b, normalize s <> a ++ 32%N :: 32%N :: b.
Proof. intros s. exact (squeezed_no_double _ _ (normalize_spec s)). Qed.
Print Assumptions C41_no_double_space.

Theorem C41_other_characters : forall s,
  filter (fun c => negb (N.eqb c 32)) (normalize s) = filter (fun c => negb (N.eqb c 32)) s.
Proof. intros s. exact (squeezed_filter _ _ (normalize_spec s)). Qed.
Print Assumptions C41_other_characters.

Theorem C41_unchanged : forall s, (forall a b, s <> a ++ 32%N :: 32%N :: b) -> normalize s = s.
Proof. intros s. exact (squeezed_same _ _ (normalize_spec s)). Qed.
Print Assumptions C41_unchanged.

Theorem C41_idempotent : forall s, normalize (normalize s) = normalize s.
Proof. exact normalize_idem. Qed.
Print Assumptions C41_idempotent.

Example C41_sample : normalize #"arma   virumque  cano" = #"arma virumque cano".
Proof. reflexivity. Qed.

(** ** C42: nested dictionaries behave like paths *)

(** What was set is what is read, and reading it changes nothing. *)
Theorem C42_set_get : forall V (d : nested V) p v d',
  nested_set d p v = Ok d' -> nested_get d' p = Ok (v, d').
Proof. intros V d p v d' H. exact (leads_get V _ _ _ (set_leads V _ _ _ _ H)). Qed.
Print Assumptions C42_set_get.

(** Paths neither above nor below keep what they have. *)
Theorem C42_others : forall V (d : nested V) p v d', nested_set d p v = Ok d' ->
  forall q y, unrelated p q -> (leads d' q y <-> leads d q y).
Proof. intros V d p. exact (set_other V p d). Qed.
Print Assumptions C42_others.

(** What is stored at a path is what nested_get returns. *)
Theorem C42_get : forall V (d : nested V) p x, leads d p x -> nested_get d p = Ok (x, d).
Proof. exact leads_get. Qed.
Print Assumptions C42_get.

(** After any history on a new dictionary the values at the leaves are the last
    ones set there, with nothing set above or below since. *)
Theorem C42_history : forall V (h : list (list str * V)) d,
  run_sets nested_ordered_dictionary h = Ok d ->
  forall p v, leads d p (Leaf v) <-> last_word h p v.
Proof. intros V h d H. exact (proj2 (history_leads V h d H)). Qed.
Print Assumptions C42_history.

(** A history runs through exactly when no path is empty and none goes through a
    value. *)
Theorem C42_history_runs : forall V (h : list (list str * V)),
  (exists d, run_sets nested_ordered_dictionary h = Ok d) <->
  (forall h1 p v h2, h = h1 ++ (p, v) :: h2 ->
     p <> [] /\ forall q w, last_word h1 q w -> path_prefix q p -> q = p).
Proof. exact history_ok. Qed.
Print Assumptions C42_history_runs.

(** Setting through a value fails. *)
Theorem C42_through_value : forall V p (d : nested V) v q w,
  leads d q (Leaf w) -> path_prefix q p -> q <> p -> nested_set d p v = Err TypeError.
Proof. exact set_fails. Qed.
Print Assumptions C42_through_value.

(** Paths of one length, each once and in groups, come back as the leaves, in
    the order in which they were set. *)
Theorem C42_in_order : forall V n (h : list (list str * V)),
  (forall p v, In (p, v) h -> length p = S n) -> NoDup (map fst h) -> grouped (map fst h) ->
  exists d, run_sets nested_ordered_dictionary h = Ok d /\ leaves d = h.
Proof.
  intros V n h A B C. destruct (sets_in_order V n h A B C) as [d [H [_ L]]]. exists d. split; assumption.
Qed.
Print Assumptions C42_in_order.

(** Without groups the order changes: an earlier key keeps its place. *)
Theorem C42_order_refuted : exists (h : list (list str * nat)) d,
  (forall p v, In (p, v) h -> length p = 2) /\ NoDup (map fst h) /\
  run_sets nested_ordered_dictionary h = Ok d /\ leaves d <> h.
Proof.
  exists [([#"1"; #"a"], 0); ([#"2"; #"a"], 1); ([#"1"; #"b"], 2)]. eexists. split; [ | split; [ | split ] ].
  - intros p v [E|[E|[E|[]]]]; injection E as <- _; reflexivity.
  - repeat constructor; cbn; intuition discriminate.
  - vm_compute. reflexivity.
  - vm_compute. discriminate.
Qed.
Print Assumptions C42_order_refuted.

Example C42_sample : exists d,
  run_sets nested_ordered_dictionary
    [([#"1"; #"pr"], 1); ([#"1"; #"1"], 2); ([#"2"; #"pr"], 3)] = Ok d
  /\ leaves d = [([#"1"; #"pr"], 1); ([#"1"; #"1"], 2); ([#"2"; #"pr"], 3)]
  /\ nested_get d [#"1"; #"1"] = Ok (Leaf 2, d).
Proof. eexists. split; [ vm_compute; reflexivity | split; vm_compute; reflexivity ]. Qed.

(** ** C44: export dispatch *)

(** export calls the implementation seen on the first class of the hierarchy
    whose EXPORT_TO, own or inherited, lists the mimetype. *)
Theorem C44_chosen : forall Impl mro own_exports own_export c default output i,
  export Impl mro own_exports own_export c default output = Ok i <->
  exists m pre k post, requested default output m /\ mro c = pre ++ k :: post
    /\ (forall j, In j pre -> ~ offers mro own_exports j m) /\ offers mro own_exports k m
    /\ inherits mro own_export k i.
Proof. exact export_ok. Qed.
Print Assumptions C44_chosen.

(** It is refused exactly when no class of the hierarchy lists it. *)
Theorem C44_refused : forall Impl mro own_exports own_export c default output, linear mro c ->
  (forall k, In k (mro c) -> exists i : Impl, inherits mro own_export k i) ->
  (export Impl mro own_exports own_export c default output = Err NotImplementedError <->
   forall m, requested default output m ->
     forall k l, In k (mro c) -> own_exports k = Some l -> ~ In m l).
Proof. exact export_refused. Qed.
Print Assumptions C44_refused.

(** export_capacities holds exactly the mimetypes of the hierarchy. *)
Theorem C44_capacities : forall mro own_exports c m, linear mro c ->
  (In m (export_capacities mro own_exports c) <->
   exists k l, In k (mro c) /\ own_exports k = Some l /\ In m l).
Proof. exact capacities_iff. Qed.
Print Assumptions C44_capacities.

(** With single inheritance: the chosen class is the lowest one from which the
    declaring class is reached without crossing another declaration; the
    implementation is the lowest one from there up. *)
Theorem C44_single_inheritance : forall Impl mro own_exports own_export c m i, chain mro c ->
  (export Impl mro own_exports own_export c None (Some m) = Ok i <->
   exists pre mid d post, mro c = pre ++ mid ++ d :: post
     /\ declares own_exports d m
     /\ (forall j, In j (pre ++ mid) -> ~ declares own_exports j m)
     /\ (forall j, In j mid -> own_exports j = None)
     /\ (pre = [] \/ exists b j l, pre = b ++ [j] /\ own_exports j = Some l)
     /\ exists a e z, mid ++ d :: post = a ++ e :: z
          /\ (forall j, In j a -> own_export j = None) /\ own_export e = Some i).
Proof. exact chain_export. Qed.
Print Assumptions C44_single_inheritance.

(** *** The classes of the library *)
Definition linear_b (c : nat) : bool :=
  forallb (fun k => match table_mro k with x :: _ => Nat.eqb x k | [] => false end
                    && forallb (fun j => existsb (Nat.eqb j) (table_mro c)) (table_mro k)) (table_mro c).

Lemma linear_b_sound : forall c, linear_b c = true -> linear table_mro c.
Proof.
  intros c H k I. unfold linear_b in H. rewrite forallb_forall in H. specialize (H k I).
  apply andb_true_iff in H as [A B]. split.
  - destruct (table_mro k) as [|x l]; [ discriminate | ]. apply Nat.eqb_eq in A. subst. reflexivity.
  - intros j J. rewrite forallb_forall in B. specialize (B j J). apply existsb_exists in B as [y [Y E]].
    apply Nat.eqb_eq in E. subst. exact Y.
Qed.

Lemma below_45 : forall (P : nat -> bool), forallb P (seq 0 (length table)) = true -> forall c, c < length table -> P c = true.
Proof. intros P H c L. rewrite forallb_forall in H. apply H. apply in_seq. lia. Qed.

(** The linearisations of the library are in order, so the theorems above apply
    to each of its classes. *)
Theorem C44_library_linear : forall c, c < length table -> linear table_mro c.
Proof.
  intros c L. apply linear_b_sound. apply (below_45 linear_b); [ vm_compute; reflexivity | exact L ].
Qed.
Print Assumptions C44_library_linear.

(** Every exportable class of the library has a branch for each mimetype that
    it lists, save two. *)
Definition unhandled (c : nat) (m : str) : Prop :=
  (r_name (the_row c) = #"Metadata" /\ m = m_rdfa) \/
  (r_name (the_row c) = #"CtsTextInventoryCollection" /\ m = m_capitains).

Definition covered_b (c : nat) : bool :=
  forallb (fun m =>
    match export nat table_mro table_exports table_export c None (Some m) with
    | Ok i => str_in m (handles i)
              || (str_eqb (r_name (the_row c)) #"Metadata" && str_eqb m m_rdfa)
              || (str_eqb (r_name (the_row c)) #"CtsTextInventoryCollection" && str_eqb m m_capitains)
    | Err _ => false
    end) (export_capacities table_mro table_exports c).

Theorem C44_library_covered : forall c m, c < length table ->
  In m (export_capacities table_mro table_exports c) ->
  exists i, export nat table_mro table_exports table_export c None (Some m) = Ok i
    /\ (In m (handles i) \/ unhandled c m).
Proof.
  intros c m L I.
  assert (H : covered_b c = true) by (apply (below_45 covered_b); [ vm_compute; reflexivity | exact L ]).
  unfold covered_b in H. rewrite forallb_forall in H. specialize (H m I).
  destruct (export nat table_mro table_exports table_export c None (Some m)) as [i|e]; [ | discriminate ].
  exists i. split; [ reflexivity | ]. apply orb_true_iff in H as [H|H]; [ apply orb_true_iff in H as [H|H] | ].
  - left. apply str_in_iff. exact H.
  - right. left. apply andb_true_iff in H as [A B]. apply str_eqb_eq in A, B. split; assumption.
  - right. right. apply andb_true_iff in H as [A B]. apply str_eqb_eq in A, B. split; assumption.
Qed.
Print Assumptions C44_library_covered.

(** The two: listed, dispatched, and without a branch. *)
Theorem C44_unhandled_refuted :
  (exists c i, r_name (the_row c) = #"Metadata" /\ In m_rdfa (export_capacities table_mro table_exports c)
     /\ export nat table_mro table_exports table_export c None (Some m_rdfa) = Ok i /\ ~ In m_rdfa (handles i))
  /\ (exists c i, r_name (the_row c) = #"CtsTextInventoryCollection"
     /\ In m_capitains (export_capacities table_mro table_exports c)
     /\ export nat table_mro table_exports table_export c None (Some m_capitains) = Ok i
     /\ ~ In m_capitains (handles i)).
Proof.
  split.
  - exists 2, 2. split; [ reflexivity | ]. split; [ apply str_in_iff; vm_compute; reflexivity | ].
    split; [ vm_compute; reflexivity | ]. intros H. apply str_in_iff in H. vm_compute in H. discriminate.
  - exists 34, 34. split; [ reflexivity | ]. split; [ apply str_in_iff; vm_compute; reflexivity | ].
    split; [ vm_compute; reflexivity | ]. intros H. apply str_in_iff in H. vm_compute in H. discriminate.
Qed.
Print Assumptions C44_unhandled_refuted.

(** export_capacities repeats what a class inherits. *)
Theorem C44_duplicates_refuted : exists c, c < length table /\
  ~ NoDup (export_capacities table_mro table_exports c).
Proof.
  exists 42. split; [ vm_compute; lia | ]. intros H. vm_compute in H.
  inversion H as [|x l N _]; subst. apply N. cbn. tauto.
Qed.
Print Assumptions C44_duplicates_refuted.

(** The inheritance of single classes in the library is a chain, for instance
    for the inventories; not for the texts, which inherit twice. *)
Example C44_chain_sample : r_name (the_row 42) = #"XmlCtsTextInventoryMetadata" /\ chain table_mro 42.
Proof.
  split; [ reflexivity | ]. intros pre k post H. vm_compute in H.
  repeat (destruct pre as [|? pre]; cbn in H; [ injection H as <- <-; vm_compute; reflexivity | injection H as <- H ]).
  destruct pre; discriminate.
Qed.

(** ** C45: exported XML text is escaped *)

(** A reader of XML gets back the name, the attributes and the text, for every
    text without carriage returns and attribute values that need no escape. *)
Theorem C45_read_back : forall name attributes text,
  is_name name ->
  (forall n v, In (n, v) attributes -> is_name n /\ plain_value v) -> NoDup (map fst attributes) ->
  (forall c, In c text -> xml_char c = true /\ c <> 13%N) ->
  read_element (make_xml_node name false (Some attributes) text true []) = Some (name, attributes, text, [])
  /\ (forall close, read_element (make_xml_node name close None text true []) = Some (name, [], text, [])).
Proof. exact read_element_print. Qed.
Print Assumptions C45_read_back.

(** The escaped text, in front of a tag or at the end. *)
Theorem C45_text : forall t fuel rest, rest = [] \/ (exists r, rest = 60%N :: r) ->
  (forall c, In c t -> xml_char c = true /\ c <> 13%N) -> length t < fuel ->
  read_text fuel (escape t ++ rest) = Some (t, rest).
Proof. exact read_text_escape. Qed.
Print Assumptions C45_text.

(** No text can open or close a tag, and no two texts are written alike. *)
Theorem C45_no_markup : forall s x, In x (escape s) -> x <> 60%N /\ x <> 62%N.
Proof. exact escape_no. Qed.
Print Assumptions C45_no_markup.

Theorem C45_injective : forall s t, escape s = escape t -> s = t.
Proof. exact escape_inj. Qed.
Print Assumptions C45_injective.

(** The three ways to print a node fit together. *)
Theorem C45_pieces : forall name attributes close text inner,
  make_xml_node name close attributes text true inner =
  make_xml_node name false attributes [] false [] ++ escape text ++ inner ++ make_xml_node name true attributes [] false [].
Proof. exact pieces. Qed.
Print Assumptions C45_pieces.

Example C45_sample :
  read_element (make_xml_node #"ti:label" false (Some [(#"xml:lang", #"eng")]) #"A & B < C" true [])
  = Some (#"ti:label", [(#"xml:lang", #"eng")], #"A & B < C", []).
Proof. vm_compute. reflexivity. Qed.

(** Attribute values are not escaped: a quote, an ampersand or a bracket makes
    the node unreadable, or readable as another one. *)
Theorem C45_attributes_refuted :
  (forall v, In v [#"a&b"; #"a<b"; [97; 34; 98]%N] ->
     read_element (make_xml_node #"n" false (Some [(#"k", v)]) #"t" true []) = None)
  /\ exists v, read_element (make_xml_node #"n" false (Some [(#"k", v)]) #"t" true [])
               = Some (#"n", [(#"k", #"a"); (#"x", #"b")], #"t", []).
Proof.
  split.
  - intros v [<-|[<-|[<-|[]]]]; vm_compute; reflexivity.
  - exists ([97; 34; 32; 120; 61; 34; 98]%N). vm_compute. reflexivity.
Qed.
Print Assumptions C45_attributes_refuted.

(** A carriage return is read back as a line feed. *)
Theorem C45_carriage_return_refuted : exists text, (forall c, In c text -> xml_char c = true) /\
  read_element (make_xml_node #"n" false None text true []) = Some (#"n", [], [10%N], []) /\ text <> [10%N].
Proof.
  exists [13%N]. split; [ intros c [<-|[]]; reflexivity | ]. split; [ vm_compute; reflexivity | discriminate ].
Qed.
Print Assumptions C45_carriage_return_refuted.

(** In general: every text is read back with each of its line ends as one line feed, and
    so as it was exactly if it has no carriage return. *)
Fixpoint line_ends (t : str) : str :=
  match t with
  | [] => []
  | c :: r => if N.eqb c 13 then match r with d :: _ => if N.eqb d 10 then line_ends r else 10%N :: line_ends r | [] => [10%N] end
              else c :: line_ends r
  end.
Theorem C45_line_ends : forall t fuel rest, rest = [] \/ (exists r, rest = 60%N :: r) ->
  (forall c, In c t -> xml_char c = true) -> length t < fuel ->
  read_text fuel (escape t ++ rest) = Some (line_ends t, rest) /\ (line_ends t = t <-> ~ In 13%N t).
Proof.
  intros t fuel rest E H L. split.
  - revert fuel H L. induction t as [|c t IH]; intros fuel H L; (destruct fuel as [|fuel]; [cbn in L; lia|]); [destruct E as [->|[r ->]]; reflexivity|].
    assert (R : read_text fuel (escape t ++ rest) = Some (line_ends t, rest)) by (apply IH; [intros x I; apply H; right; exact I|cbn in L; lia]).
    destruct (N.eqb_spec c 13) as [->|N].
    + rewrite escape_cons, <- app_assoc. change (esc 13%N) with [13%N]. cbn [app]. cbn [read_text].
      change (13 =? 60)%N with false. change (13 =? 38)%N with false. change (xml_char 13) with true. cbn [negb].
      rewrite (no_close 13%N t rest E). change (13 =? 13)%N with true. cbn [line_ends]. change (13 =? 13)%N with true. cbv iota.
      destruct t as [|d t].
      * assert (S : startswith (escape [] ++ rest) [10%N] = false) by (destruct E as [->|[r ->]]; reflexivity). rewrite S, R. reflexivity.
      * destruct (N.eqb_spec d 10) as [->|D].
        -- assert (S : startswith (escape (10%N :: t) ++ rest) [10%N] = true) by (rewrite escape_cons, <- app_assoc; change (esc 10%N) with [10%N]; cbn; destruct (escape t ++ rest); reflexivity). rewrite S. exact R.
        -- assert (S : startswith (escape (d :: t) ++ rest) [10%N] = false).
           { rewrite escape_cons, <- app_assoc. unfold esc. destruct (N.eqb d 38); [reflexivity|]. destruct (N.eqb d 60); [reflexivity|]. destruct (N.eqb d 62); [reflexivity|].
             cbn. destruct (N.eqb_spec d 10); [contradiction|reflexivity]. }
           rewrite S, R. reflexivity.
    + assert (X : line_ends (c :: t) = c :: line_ends t) by (cbn [line_ends]; destruct (N.eqb_spec c 13); [contradiction|reflexivity]). rewrite X.
      rewrite escape_cons, <- app_assoc. pose proof (no_close c t rest E) as NC. pose proof (H c (or_introl eq_refl)) as Hc.
      unfold esc. destruct (N.eqb_spec c 38) as [->|A].
      { change (#"&amp;" ++ escape t ++ rest) with (38%N :: (#"amp;" ++ escape t ++ rest)). cbn [read_text]. rewrite N.eqb_refl. change (38 =? 60)%N with false.
        rewrite read_entity_amp, R. reflexivity. }
      destruct (N.eqb_spec c 60) as [->|B].
      { change (#"&lt;" ++ escape t ++ rest) with (38%N :: (#"lt;" ++ escape t ++ rest)). cbn [read_text]. rewrite N.eqb_refl. change (38 =? 60)%N with false.
        rewrite read_entity_lt, R. reflexivity. }
      destruct (N.eqb_spec c 62) as [->|C].
      { change (#"&gt;" ++ escape t ++ rest) with (38%N :: (#"gt;" ++ escape t ++ rest)). cbn [read_text]. rewrite N.eqb_refl. change (38 =? 60)%N with false.
        rewrite read_entity_gt, R. reflexivity. }
      cbn [app]. cbn [read_text]. destruct (N.eqb_spec c 60); [contradiction|]. destruct (N.eqb_spec c 38); [contradiction|].
      rewrite Hc. cbn [negb]. rewrite NC. destruct (N.eqb_spec c 13); [contradiction|]. rewrite R. reflexivity.
  - clear. split.
    + intros X Y. assert (Z : ~ In 13%N (line_ends t)).
      { clear. induction t as [|c t IH]; [intros []|]. cbn [line_ends]. destruct (N.eqb_spec c 13) as [->|N].
        - destruct t as [|d t]; [intros [A|[]]; discriminate|]. destruct (N.eqb d 10); [exact IH|]. intros [A|A]; [discriminate|exact (IH A)].
        - intros [A|A]; [congruence|exact (IH A)]. }
      rewrite X in Z. exact (Z Y).
    + intros H. induction t as [|c t IH]; [reflexivity|]. cbn [line_ends]. destruct (N.eqb_spec c 13) as [->|N]; [destruct H; left; reflexivity|].
      f_equal. apply IH. intros X. apply H. right. exact X.
Qed.
Print Assumptions C45_line_ends.
Example C45_line_ends_sample : line_ends [97; 13; 10; 98; 13; 99; 10]%N = [97; 10; 98; 10; 99; 10]%N.
Proof. reflexivity. Qed.

(** ** C55: prefixed names are expanded *)

(** The prefix is the first one of the map that the name starts with. *)
Theorem C55_expanded : forall l1 ns uri l2 rest,
  (forall ns' uri', In (ns', uri') l1 -> forall t, ns ++ #":" ++ rest <> ns' ++ #":" ++ t) ->
  (forall a b, rest <> a ++ ns ++ #":" ++ b) ->
  expand_namespace (l1 ++ (ns, uri) :: l2) (ns ++ #":" ++ rest) = uri ++ rest.
Proof. exact expand_first. Qed.
Print Assumptions C55_expanded.

Theorem C55_unchanged : forall l s,
  (forall ns uri, In (ns, uri) l -> forall t, s <> ns ++ #":" ++ t) -> expand_namespace l s = s.
Proof. exact expand_none. Qed.
Print Assumptions C55_unchanged.

(** The prefix is replaced wherever it stands, inside the local name too. *)
Theorem C55_local_name_refuted : exists l ns uri rest,
  In (ns, uri) l /\ NoDup (map fst l) /\ expand_namespace l (ns ++ #":" ++ rest) <> uri ++ rest.
Proof.
  exists [(#"a", #"urn:x/")], #"a", #"urn:x/", #"ba:c". split; [ left; reflexivity | ]. split.
  - repeat constructor; cbn; tauto.
  - vm_compute. discriminate.
Qed.
Print Assumptions C55_local_name_refuted.

Example C55_sample :
  expand_namespace [(#"dc", #"http://purl.org/dc/elements/1.1/"); (#"ti", #"http://chs.harvard.edu/xmlns/cts/")] #"ti:label"
  = #"http://chs.harvard.edu/xmlns/cts/label".
Proof. vm_compute. reflexivity. Qed.
