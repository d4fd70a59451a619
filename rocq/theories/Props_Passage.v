(** Properties C18 to C26 and C53: references and passages of local texts.

    [write_scheme levels] is the citation scheme (the refsDecl of every level) of
    the structured patterns [levels], [cites levels x comps p] says that the
    identifiers [comps] name the element at position [p] of the document [x]
    (PassageSpec.v). *)

From Coq Require Import List NArith ZArith Arith Bool Lia Sorted.
From Verif Require Import PyStr PyStrFacts RefModel UrnModel UrnSpec XmlModel XmlSpec XPathModel TemplateSpec.
From Verif Require XmlProofs.
From Verif Require Import PassageModel PassageSpec PassageWords PassageProofs PassageNav PassageRange PassageApi PassageFinal PassageCheck.
Import ListNotations.

(** ** C18 *)

(** getReffs of a text at level k.  The lists hold the references of all citable
    units of the level and nothing else. *)
Theorem C18_whole : forall levels x same u level k,
  Forall wf_level levels -> length levels <= 999 -> plain_units levels x -> 0 < k ->
  level = Some (Z.of_nat k) \/ level = None /\ k = 1 ->
  match get_reffs (write_scheme levels) same (OText x u) level None with
  | Ok l => k <= length levels /\ l <> [] /\ lists_level levels x [] k l
  | Err CitationDepthError => length levels < k
  | Err KeyError => k <= length levels /\ forall comps p, length comps = k -> ~ cites levels x comps p
  | Err _ => False
  end.
Proof. exact reffs_text_full. Qed.
Print Assumptions C18_whole.

(** getReffs of a text or a passage below a reference. *)
Theorem C18_below : forall levels x same self level parts k,
  Forall wf_level levels -> length levels <= 999 -> plain_units levels x ->
  o_xml (text_object self) = x -> parts <> [] -> Forall plain parts ->
  Z.of_nat k = Z.max (match level with Some l => l | None => 1 end) (Z.of_nat (length parts) + 1) ->
  match get_reffs (write_scheme levels) same self level (Some (reference_to parts)) with
  | Ok l => k <= length levels /\ l <> [] /\ lists_level levels x parts k l
  | Err CitationDepthError => length levels < k
  | Err KeyError => k <= length levels /\ forall comps p, length comps = k -> begins parts comps -> ~ cites levels x comps p
  | Err _ => False
  end.
Proof. exact reffs_single_full. Qed.
Print Assumptions C18_below.

Example C18_example :
  Forall wf_level poem_scheme /\ length poem_scheme <= 999 /\ plain_units poem_scheme poems /\
  get_reffs (write_scheme poem_scheme) identity_only (OText poems None) (Some 2%Z) None =
    Ok (map (fun s => Some (MkRef s None s)) [#"1.1"; #"1.2"; #"1.3"; #"2.1"; #"2.2a"]) /\
  get_reffs (write_scheme poem_scheme) identity_only (OText poems None) (Some 1%Z) (Some (reference_to [#"2"])) =
    Ok (map (fun s => Some (MkRef s None s)) [#"2.1"; #"2.2a"]) /\
  get_reffs (write_scheme poem_scheme) identity_only (OText poems None) (Some 1%Z) (Some (reference_to [#"3"])) = Err KeyError /\
  get_reffs (write_scheme poem_scheme) identity_only (OText poems None) (Some 3%Z) None = Err CitationDepthError.
Proof.
  split; [apply poem_scheme_usable|]. split; [cbn; lia|]. split; [apply good_units_plain; apply (poems_clear 2); lia|].
  repeat split; vm_compute; reflexivity.
Qed.

(** ** C19 *)

Theorem C19_once : forall levels x same u level k l,
  Forall wf_level levels -> length levels <= 999 -> plain_units levels x -> 0 < k ->
  level = Some (Z.of_nat k) \/ level = None /\ k = 1 -> unambiguous levels x k ->
  get_reffs (write_scheme levels) same (OText x u) level None = Ok l -> NoDup l.
Proof. exact reffs_once. Qed.
Print Assumptions C19_once.

Theorem C19_order : forall levels x same u level k l,
  Forall wf_level levels -> length levels <= 999 -> plain_units levels x -> 0 < k ->
  level = Some (Z.of_nat k) \/ level = None /\ k = 1 -> unambiguous levels x k -> not_nested levels x k ->
  get_reffs (write_scheme levels) same (OText x u) level None = Ok l ->
  exists ps, located levels x l ps /\ StronglySorted (fun p q => precedes p q = true) ps.
Proof. exact reffs_ordered. Qed.
Print Assumptions C19_order.

(** Without the hypothesis that references are not repeated: a reference is listed
    as many times as the product, over its levels, of the numbers of elements that
    its identifiers name down to that level.  [found j] are these elements. *)
Theorem C19_repeated : forall levels x same u level k l dec comps found,
  Forall wf_level levels -> length levels <= 999 -> plain_units levels x -> 0 < k ->
  level = Some (Z.of_nat k) \/ level = None /\ k = 1 ->
  get_reffs (write_scheme levels) same (OText x u) level None = Ok l ->
  length comps = k -> Forall plain comps ->
  (forall j, 0 < j <= k -> NoDup (found j) /\ forall p, In p (found j) <-> cites levels x (firstn j comps) p) ->
  count_occ dec l (Some (reference_to comps)) = product (map (fun j => length (found j)) (seq 1 k)).
Proof. exact reffs_times. Qed.
Print Assumptions C19_repeated.

Example C19_example : unambiguous poem_scheme poems 2 /\ not_nested poem_scheme poems 3.
Proof. destruct (poems_clear 2) as (_ & _ & H1 & H2); [lia|]. auto. Qed.

(** Two poems numbered 1: a reference 1.1 per poem and per line. *)
Definition twice : node :=
  Elem (clark #"tei:TEI") [] #"" #"" [tei #"tei:div" #"1" #"" [tei #"tei:l" #"1" #"a" []]; tei #"tei:div" #"1" #"" [tei #"tei:l" #"1" #"b" []]].
Theorem C19_repeated_refuted : exists x,
  get_reffs (write_scheme poem_scheme) identity_only (OText x None) (Some 2%Z) None =
    Ok [Some (reference_to [#"1"; #"1"]); Some (reference_to [#"1"; #"1"]); Some (reference_to [#"1"; #"1"]); Some (reference_to [#"1"; #"1"])] /\
  length (xpath_abs x (mean poem_scheme [Some #"1"; Some #"1"])) = 2.
Proof. exists twice. split; vm_compute; reflexivity. Qed.
Print Assumptions C19_repeated_refuted.

(** ** C20, through references *)

(** The passage between two references of any depth. *)
Theorem C20_range : forall levels x self a b P1 P2,
  usable_scheme levels -> o_xml (text_object self) = x -> good_urn (o_urn self) ->
  a <> [] -> Forall good_id a -> length a <= length levels -> b <> [] -> Forall good_id b -> length b <= length levels ->
  cites_only levels x a P1 -> cites_only levels x b P2 -> is_prefix P1 P2 = true \/ precedes P1 P2 = true ->
  exists R u', get_node (write_scheme levels) identity_only self (range_to a b) = Ok (OPass (range_to a b) R (text_object self) u') /\
    lines 0 R = passage_lines (part_of (tl P1) (tl (if is_prefix P1 P2 then P1 else P2))) x.
Proof. exact read_span. Qed.
Print Assumptions C20_range.

Theorem C20_single : forall levels x self a P,
  usable_scheme levels -> o_xml (text_object self) = x -> good_urn (o_urn self) ->
  a <> [] -> Forall good_id a -> length a <= length levels -> cites_only levels x a P ->
  exists R u', get_node (write_scheme levels) identity_only self (reference_to a) = Ok (OPass (reference_to a) R (text_object self) u') /\
    lines 0 R = passage_lines (part_of (tl P) (tl P)) x.
Proof. exact read_one. Qed.
Print Assumptions C20_single.

(** A reference that names nothing. *)
Theorem C20_unknown_reference : forall levels x same self a b,
  usable_scheme levels -> proper_root levels x -> o_xml (text_object self) = x ->
  a <> [] -> Forall good_id a -> length a <= length levels -> b <> [] -> Forall good_id b -> length b <= length levels ->
  (forall p, ~ cites levels x a p) \/ (forall p, ~ cites levels x b p) ->
  get_node (write_scheme levels) same self (range_to a b) = Err IndexError.
Proof. exact read_unknown. Qed.
Print Assumptions C20_unknown_reference.

Theorem C20_unknown_single : forall levels x same self a,
  usable_scheme levels -> proper_root levels x -> o_xml (text_object self) = x ->
  a <> [] -> Forall good_id a -> length a <= length levels -> (forall p, ~ cites levels x a p) ->
  get_node (write_scheme levels) same self (reference_to a) = Err IndexError.
Proof. exact read_unknown_one. Qed.
Print Assumptions C20_unknown_single.

Example C20_range_example :
  cites_only poem_scheme poems [#"1"; #"3"] [0; 0; 2] /\ cites_only poem_scheme poems [#"2"] [0; 1] /\ precedes [0; 0; 2] [0; 1] = true /\
  proper_root poem_scheme poems /\ (forall p, ~ cites poem_scheme poems [#"3"] p) /\
  exists R u, get_node (write_scheme poem_scheme) identity_only (OText poems None) (range_to [#"1"; #"3"] [#"2"]) =
    Ok (OPass (range_to [#"1"; #"3"] [#"2"]) R (OText poems None) u) /\ text_of R = #"cd.e..".
Proof.
  split; [apply cites_only_check; [discriminate|discriminate|vm_compute; reflexivity]|].
  split; [apply cites_only_check; [discriminate|discriminate|vm_compute; reflexivity]|]. split; [reflexivity|].
  split; [|split; [|eexists; eexists; vm_compute; split; reflexivity]].
  - intros s rest comps Hc E. destruct comps as [|c comps]; [congruence|]. cbn in E. injection E as <- _. split; [intros t [= <-]; reflexivity|intros g t []].
  - apply cites_none_check; [discriminate|discriminate|vm_compute; reflexivity].
Qed.

(** The first step of a pattern is not compared with the root. *)
Theorem C20_root_ignored_refuted : exists x r R u,
  (forall p, ~ cites poem_scheme x [#"1"] p) /\ r = reference_to [#"1"] /\
  get_node (write_scheme poem_scheme) identity_only (OText x None) r = Ok (OPass r R (OText x None) u).
Proof.
  exists (Elem #"html" [] #"" #"" (n_kids poems)), (reference_to [#"1"]). eexists; eexists. split; [|split; [reflexivity|vm_compute; reflexivity]].
  apply cites_none_check; [discriminate|discriminate|vm_compute; reflexivity].
Qed.
Print Assumptions C20_root_ignored_refuted.

(** ** C21, through references *)
Theorem C21_range : forall eqv levels x self a b P1 P2,
  usable_scheme levels -> o_xml (text_object self) = x ->
  a <> [] -> Forall good_id a -> length a <= length levels -> b <> [] -> Forall good_id b -> length b <= length levels ->
  cites_only levels x a P1 -> cites_only levels x b P2 -> is_prefix P1 P2 = true \/ precedes P1 P2 = true ->
  (forall P q i m j ki kj, P = P1 \/ P = P2 -> P = q ++ [i] -> at_position (document x) q m ->
     nth_error (n_kids m) i = Some ki -> nth_error (n_kids m) j = Some kj -> j <> i ->
     n_kids ki = [] -> n_kids kj = [] -> eqv (n_text kj) (n_text ki) = false) ->
  get_node (write_scheme levels) (objectified eqv) self (range_to a b) = get_node (write_scheme levels) identity_only self (range_to a b).
Proof. exact read_objectified. Qed.
Print Assumptions C21_range.

(** ** C22 *)
Theorem C22_listed : forall levels x d same u l r, clear_text levels x d -> 0 < d -> good_urn u ->
  get_reffs (write_scheme levels) same (OText x u) (Some (Z.of_nat d)) None = Ok l -> In (Some r) l ->
  exists comps P e R u', r = reference_to comps /\ cites_only levels x comps P /\ at_position (document x) P e /\
    get_node (write_scheme levels) same (OText x u) r = Ok (OPass r R (OText x u) u') /\
    text_of R = text_of e /\ lines 0 R = passage_lines (part_of (tl P) (tl P)) x /\
    exists u2, simple_node (write_scheme levels) (OText x u) r = Ok (MkSimple (Some r) x P (OText x u) u2).
Proof. exact read_listed. Qed.
Print Assumptions C22_listed.

(** A reference that names no element, or several, is refused by the simple mode. *)
Theorem C22_not_one : forall levels x u a, usable_scheme levels -> a <> [] -> Forall good_id a -> length a <= length levels ->
  (forall P, ~ cites_only levels x a P) -> simple_node (write_scheme levels) (OText x u) (reference_to a) = Err InvalidURN.
Proof. exact read_simple_refused. Qed.
Print Assumptions C22_not_one.

(** Two poems with the number 1. *)
Definition twice_one : node :=
  Elem (clark #"tei:TEI") [] #"" #"" [tei #"tei:div" #"1" #"a" []; tei #"tei:div" #"1" #"b" []].
Example C22_not_one_example : cites poem_scheme twice_one [#"1"] [0; 0] /\ cites poem_scheme twice_one [#"1"] [0; 1] /\
  forall P, ~ cites_only poem_scheme twice_one [#"1"] P.
Proof.
  assert (A : cites poem_scheme twice_one [#"1"] [0; 0]) by (apply XmlProofs.In_xpath; [discriminate|vm_compute; auto]).
  assert (B : cites poem_scheme twice_one [#"1"] [0; 1]) by (apply XmlProofs.In_xpath; [discriminate|vm_compute; auto]).
  split; [exact A|]. split; [exact B|]. intros P [_ H]. pose proof (H _ A) as E1. pose proof (H _ B) as E2. congruence.
Qed.

Definition poem_urn : option urn :=
  match urn_parse #"urn:cts:latinLit:phi1294.phi002.perseus-lat2" with Ok u => Some u | Err _ => None end.
Example C22_listed_example : clear_text poem_scheme poems 2 /\ good_urn poem_urn /\ poem_urn <> None.
Proof.
  split; [apply poems_clear; lia|]. split; [|discriminate].
  exists #"cts", #"latinLit", #"phi1294", #"phi002", #"perseus-lat2".
  assert (N : forall s, truthy s = true -> mem c_colon s = false -> mem c_hash s = false -> plain_ns s).
  { intros s H1 H2 H3. split; [apply truthy_spec; exact H1|]. split; intros H; apply mem_In in H; congruence. }
  assert (C : forall s, truthy s = true -> mem c_colon s = false -> mem c_hash s = false -> mem c_dot s = false -> plain_comp s).
  { intros s H1 H2 H3 H4. split; [apply truthy_spec; exact H1|]. repeat split; intros H; apply mem_In in H; congruence. }
  split; [apply N; reflexivity|]. split; [apply N; reflexivity|]. split; [repeat split; apply C; reflexivity|].
  exists None. split; [exact I|]. vm_compute. reflexivity.
Qed.

(** ** C23 *)
Theorem C23_siblings : forall levels x d same u l i r R u', clear_text levels x d -> 0 < d ->
  get_reffs (write_scheme levels) same (OText x u) (Some (Z.of_nat d)) None = Ok l -> nth_error l i = Some (Some r) ->
  siblings (write_scheme levels) same (OPass r R (OText x u) u') = Ok (match i with 0 => None | S i' => entry l i' end, entry l (S i)).
Proof. exact siblings_single. Qed.
Print Assumptions C23_siblings.

(** The reference before the next one is the passage itself, and conversely. *)
Theorem C23_inverse : forall levels x d same u l i r r' R R' v v', clear_text levels x d -> 0 < d ->
  get_reffs (write_scheme levels) same (OText x u) (Some (Z.of_nat d)) None = Ok l -> nth_error l i = Some (Some r) ->
  (exists before, siblings (write_scheme levels) same (OPass r R (OText x u) v) = Ok (before, Some r')) <->
  nth_error l (S i) = Some (Some r') /\
  (exists after, siblings (write_scheme levels) same (OPass r' R' (OText x u) v') = Ok (Some r, after)).
Proof. exact siblings_inverse. Qed.
Print Assumptions C23_inverse.

(** Reading the first reference and following nextId reads all of them, in order,
    and stops. *)
Theorem C23_walk : forall levels x d same u l r rest, clear_text levels x d -> 0 < d -> good_urn u ->
  get_reffs (write_scheme levels) same (OText x u) (Some (Z.of_nat d)) None = Ok l -> l = Some r :: rest ->
  exists w, walk (write_scheme levels) same (length l) (OText x u) r = Ok w /\ map Some w = l.
Proof. exact walk_from_first. Qed.
Print Assumptions C23_walk.

(** next and prev are the passages of these references. *)
Theorem C23_next : forall levels x d same u l i r r' R u', clear_text levels x d -> 0 < d -> good_urn u -> good_urn u' ->
  get_reffs (write_scheme levels) same (OText x u) (Some (Z.of_nat d)) None = Ok l ->
  nth_error l i = Some (Some r) -> nth_error l (S i) = Some (Some r') ->
  exists R2 v w, next_passage (write_scheme levels) same (OPass r R (OText x u) u') = Ok (Some (OPass r' R2 (OPass r R (OText x u) u') v)) /\
    get_node (write_scheme levels) same (OText x u) r' = Ok (OPass r' R2 (OText x u) w).
Proof. exact next_read. Qed.
Print Assumptions C23_next.

Theorem C23_prev : forall levels x d same u l i r r' R u', clear_text levels x d -> 0 < d -> good_urn u -> good_urn u' ->
  get_reffs (write_scheme levels) same (OText x u) (Some (Z.of_nat d)) None = Ok l ->
  nth_error l (S i) = Some (Some r) -> nth_error l i = Some (Some r') ->
  exists R2 v w, prev_passage (write_scheme levels) same (OPass r R (OText x u) u') = Ok (Some (OPass r' R2 (OPass r R (OText x u) u') v)) /\
    get_node (write_scheme levels) same (OText x u) r' = Ok (OPass r' R2 (OText x u) w).
Proof. exact prev_read. Qed.
Print Assumptions C23_prev.

Example C23_example : exists p q,
  get_node (write_scheme poem_scheme) identity_only (OText poems poem_urn) (reference_to [#"1"; #"3"]) = Ok p /\
  siblings (write_scheme poem_scheme) identity_only p = Ok (Some (reference_to [#"1"; #"2"]), Some (reference_to [#"2"; #"1"])) /\
  next_passage (write_scheme poem_scheme) identity_only p = Ok (Some q) /\ text_of (o_xml q) = #"d".
Proof. eexists; eexists. repeat split; vm_compute; reflexivity. Qed.

(** But the passage given by next has no usable siblings: it takes the first
    passage for its text. *)
Theorem C23_next_next_refuted : exists p q,
  get_node (write_scheme poem_scheme) identity_only (OText poems poem_urn) (reference_to [#"1"; #"1"]) = Ok p /\
  next_passage (write_scheme poem_scheme) identity_only p = Ok (Some q) /\
  next_passage (write_scheme poem_scheme) identity_only q = Err CitationDepthError.
Proof. eexists; eexists. repeat split; vm_compute; reflexivity. Qed.
Print Assumptions C23_next_next_refuted.

(** ** C24 *)

(** The passage of the range from the i-th to the j-th reference.  Both neighbours
    are the adjacent windows of j-i+1 references, cut at the ends of the text. *)
Theorem C24_windows : forall levels x d u l i j r R u', clear_text levels x d -> 0 < d -> good_urn u' ->
  get_reffs (write_scheme levels) identity_only (OText x u) (Some (Z.of_nat d)) None = Ok l -> i < j -> spans l i j (Some r) ->
  exists before after, siblings (write_scheme levels) identity_only (OPass r R (OText x u) u') = Ok (before, after) /\
    (if Nat.eqb i 0 then before = None else spans l (i - Nat.min i (S j - i)) (i - 1) before) /\
    (if Nat.eqb (S j) (length l) then after = None else spans l (S j) (j + Nat.min (S j - i) (length l - S j)) after).
Proof. exact siblings_range. Qed.
Print Assumptions C24_windows.

Example C24_example : exists p,
  get_node (write_scheme poem_scheme) identity_only (OText poems poem_urn) (range_to [#"1"; #"2"] [#"1"; #"3"]) = Ok p /\
  siblings (write_scheme poem_scheme) identity_only p =
    Ok (Some (range_to [#"1"; #"1"] [#"1"; #"1"]), Some (range_to [#"2"; #"1"] [#"2"; #"2a"])).
Proof. eexists. split; vm_compute; reflexivity. Qed.

(** The window of one reference 1.1-1.1 that this gives has no siblings itself. *)
Theorem C24_degenerate_refuted : exists p,
  get_node (write_scheme poem_scheme) identity_only (OText poems poem_urn) (range_to [#"1"; #"1"] [#"1"; #"1"]) = Ok p /\
  siblings (write_scheme poem_scheme) identity_only p = Err CitationDepthError.
Proof. eexists. split; vm_compute; reflexivity. Qed.
Print Assumptions C24_degenerate_refuted.

(** Simple passages: those of single references have the same siblings, *)
Theorem C23_simple : forall levels x d same u l i r P v, clear_text levels x d -> 0 < d ->
  get_reffs (write_scheme levels) same (OText x u) (Some (Z.of_nat d)) None = Ok l -> nth_error l i = Some (Some r) ->
  simple_siblings (write_scheme levels) same (MkSimple (Some r) x P (OText x u) v) = Ok (match i with 0 => None | S i' => entry l i' end, entry l (S i)).
Proof. exact simple_siblings_single. Qed.
Print Assumptions C23_simple.

(** and those of ranges do not: the passage after 1-2 is said to be 2. *)
Definition three_poems : node :=
  Elem (clark #"tei:TEI") [] #"" #""
    (map (fun n => tei #"tei:div" n #"" [tei #"tei:l" #"1" #"a" []]) [#"1"; #"2"; #"3"]).
Theorem C24_simple_refuted : exists x s,
  simple_node (write_scheme poem_scheme) (OText x poem_urn) (range_to [#"1"] [#"2"]) = Ok s /\
  simple_siblings (write_scheme poem_scheme) identity_only s = Ok (None, Some (reference_to [#"2"])).
Proof. exists three_poems. eexists. split; vm_compute; reflexivity. Qed.
Print Assumptions C24_simple_refuted.

(** ** C25 *)

(** getReffs of a range.  [c] is what both ends have in common, [d] their depth,
    [k] the level of the references listed, [P1] and [P2] the elements cited. *)
Theorem C25_range : forall levels x d self a b P1 P2 c level k, clear_text levels x d -> 0 < d <= length levels ->
  o_xml (text_object self) = x -> good_urn (o_urn self) -> length a = d -> length b = d ->
  cites levels x a P1 -> cites levels x b P2 -> precedes P1 P2 = true -> longest_common c a b ->
  Z.of_nat k = Z.max (match level with
                      | None => Z.of_nat d + Z.of_nat (length c)
                      | Some 1%Z => Z.of_nat d + 1 | Some 0%Z => Z.of_nat d | Some l => l end) (Z.of_nat (length c) + 1) ->
  match get_reffs (write_scheme levels) identity_only self level (Some (range_to a b)) with
  | Ok l => k <= length levels /\ l <> [] /\ forall o, In o l <-> exists comps p, o = Some (reference_to comps) /\
      length comps = k /\ begins c comps /\ cites levels x comps p /\ part_of P1 P2 p <> Absent
  | Err CitationDepthError => length levels < k
  | Err KeyError => k <= length levels /\ forall comps p, length comps = k -> begins c comps -> cites levels x comps p -> part_of P1 P2 p = Absent
  | Err _ => False
  end.
Proof. exact level_of_range. Qed.
Print Assumptions C25_range.

(** At level 0 these are the references from the one end to the other, in order. *)
Theorem C25_range_units : forall levels x d u l i j r, clear_text levels x d -> 0 < d -> good_urn u ->
  get_reffs (write_scheme levels) identity_only (OText x u) (Some (Z.of_nat d)) None = Ok l -> i < j -> spans l i j (Some r) ->
  get_reffs (write_scheme levels) identity_only (OText x u) (Some 0%Z) (Some r) = Ok (firstn (S j - i) (skipn i l)).
Proof. exact slice_of_range. Qed.
Print Assumptions C25_range_units.

Example C25_example :
  precedes [0; 0; 1] [0; 1; 0] = true /\ longest_common [] [#"1"; #"2"] [#"2"; #"1"] /\
  get_reffs (write_scheme poem_scheme) identity_only (OText poems poem_urn) (Some 0%Z) (Some (range_to [#"1"; #"2"] [#"2"; #"1"])) =
    Ok [Some (reference_to [#"1"; #"2"]); Some (reference_to [#"1"; #"3"]); Some (reference_to [#"2"; #"1"])] /\
  get_reffs (write_scheme poem_scheme) identity_only (OText poems poem_urn) (Some 1%Z) (Some (range_to [#"1"; #"2"] [#"2"; #"1"])) = Err CitationDepthError /\
  get_reffs (write_scheme poem_scheme) identity_only (OText poems poem_urn) (Some (-1)%Z) (Some (range_to [#"1"; #"2"] [#"2"; #"1"])) =
    Ok [Some (reference_to [#"1"]); Some (reference_to [#"2"])].
Proof.
  split; [reflexivity|]. split; [|repeat split; vm_compute; reflexivity].
  split; [exists [#"1"; #"2"]; reflexivity|]. split; [exists [#"2"; #"1"]; reflexivity|].
  intros [|v d] [r1 E1] [r2 E2]; [auto|]. cbn in E1, E2. injection E1 as E1 _. injection E2 as E2 _. rewrite <- E1 in E2. discriminate.
Qed.

(** A range whose end contains its start has no references: the common beginning
    is never computed. *)
Theorem C25_end_contains_start : forall levels same self a b level l, Forall good_id a -> Forall good_id b ->
  a <> [] -> b <> [] -> length b < length a -> begins b a ->
  get_reffs (write_scheme levels) same self level (Some (range_to a b)) <> Ok l.
Proof. exact range_inverted. Qed.
Print Assumptions C25_end_contains_start.

Example C25_end_contains_start_example :
  get_reffs (write_scheme poem_scheme) identity_only (OText poems poem_urn) (Some 1%Z) (Some (range_to [#"1"; #"3"] [#"1"])) = Err IndexError.
Proof. vm_compute. reflexivity. Qed.

(** Level 0 of a text is not refused: the list holds None. *)
Theorem C25_level_zero_refuted : exists levels x u,
  usable_scheme levels /\ get_reffs (write_scheme levels) identity_only (OText x u) (Some 0%Z) None = Ok [None].
Proof. exists poem_scheme, poems, None. split; [exact poem_scheme_usable|vm_compute; reflexivity]. Qed.
Print Assumptions C25_level_zero_refuted.

(** ** C26 *)

(** The URN of a passage, however it was reached, is that of the text with the
    reference asked for, and reads back as such. *)
Theorem C26_urn : forall scheme same ns cts tg wk vs q x u p, plain_ns ns -> plain_ns cts -> plain_part (Version tg wk vs) ->
  (match q with Some q => plain_ref q | None => True end) -> urn_parse (write_urn ns cts (Version tg wk vs) q) = Ok u ->
  reached scheme same (OText x (Some u)) p -> p = OText x (Some u) \/
  exists r root txt u', p = OPass r root txt (Some u') /\ writable r /\ urn_parse (write_urn ns cts (Version tg wk vs) (Some (r_str r))) = Ok u' /\ u_ref u' = Some r.
Proof. exact reached_urn. Qed.
Print Assumptions C26_urn.

(** The URN must name a version, otherwise no passage can be read. *)
Theorem C26_no_version : forall scheme same ns cts part x u r p, plain_ns ns -> plain_ns cts -> plain_part part -> part <> NoWork -> part_vs part = None ->
  urn_parse (write_urn ns cts part None) = Ok u -> plain_ref (r_str r) -> get_node scheme same (OText x (Some u)) r <> Ok p.
Proof. exact no_version_urn. Qed.
Print Assumptions C26_no_version.

Example C26_example : exists p q u,
  get_node (write_scheme poem_scheme) identity_only (OText poems poem_urn) (reference_to [#"1"; #"3"]) = Ok p /\
  writable (reference_to [#"1"; #"3"]) /\ reached (write_scheme poem_scheme) identity_only (OText poems poem_urn) p /\
  next_passage (write_scheme poem_scheme) identity_only p = Ok (Some q) /\ o_urn q = Some u /\
  to_str u = Ok #"urn:cts:latinLit:phi1294.phi002.perseus-lat2:2.1".
Proof.
  eexists; eexists; eexists. split; [vm_compute; reflexivity|].
  assert (W : writable (reference_to [#"1"; #"3"])).
  { apply writable_single; [discriminate|]. constructor; [apply check_id_good; reflexivity|constructor; [apply check_id_good; reflexivity|constructor]]. }
  split; [exact W|]. split; [apply (reached_get _ _ _ _ (reference_to [#"1"; #"3"]) _ (reached_text _ _ _) W); vm_compute; reflexivity|].
  split; [vm_compute; reflexivity|]. split; [reflexivity|vm_compute; reflexivity].
Qed.

(** ** C53 *)

(** childIds of a passage. *)
Theorem C53_children : forall levels x same u c R u', Forall wf_level levels -> length levels <= 999 -> plain_units levels x ->
  c <> [] -> Forall plain c ->
  match child_ids (write_scheme levels) same (OPass (reference_to c) R (OText x u) u') with
  | Ok l => if length levels <=? length c then l = [] else l <> [] /\ lists_level levels x c (S (length c)) l
  | Err KeyError => length c < length levels /\ forall v p, ~ cites levels x (c ++ [v]) p
  | Err _ => False
  end.
Proof. exact children_full. Qed.
Print Assumptions C53_children.

(** firstId and lastId are the ends of that list. *)
Theorem C53_ends : forall scheme same p l, child_ids scheme same p = Ok l ->
  first_id scheme same p = Ok (entry l 0) /\ last_child_id scheme same p = Ok (entry l (length l - 1)).
Proof. exact child_ends. Qed.
Print Assumptions C53_ends.

Example C53_example : exists p,
  get_node (write_scheme poem_scheme) identity_only (OText poems poem_urn) (reference_to [#"2"]) = Ok p /\
  child_ids (write_scheme poem_scheme) identity_only p = Ok [Some (reference_to [#"2"; #"1"]); Some (reference_to [#"2"; #"2a"])] /\
  last_child_id (write_scheme poem_scheme) identity_only p = Ok (Some (reference_to [#"2"; #"2a"])).
Proof. eexists. repeat split; vm_compute; reflexivity. Qed.

(** The parent of a passage is not the passage above it, but the passage itself,
    without its reference. *)
Theorem C53_parent_refuted : exists p,
  get_node (write_scheme poem_scheme) identity_only (OText poems poem_urn) (reference_to [#"2"; #"1"]) = Ok p /\
  sp_ref (parent_passage p) = None /\ sp_doc (parent_passage p) = o_xml p /\ sp_path (parent_passage p) = [0] /\
  text_of (o_xml p) = #"d" /\ exists q, get_node (write_scheme poem_scheme) identity_only (OText poems poem_urn) (reference_to [#"2"]) = Ok q /\
  text_of (o_xml q) = #"d.e..".
Proof. eexists. split; [vm_compute; reflexivity|]. split; [reflexivity|]. split; [reflexivity|]. split; [reflexivity|]. split; [vm_compute; reflexivity|]. eexists. split; vm_compute; reflexivity. Qed.
Print Assumptions C53_parent_refuted.
