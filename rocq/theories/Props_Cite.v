(** Properties C12-C15 and C51: citation patterns and citation schemes. *)

From Coq Require Import List NArith ZArith Arith Bool Lia.
From Verif Require Import PyStr RefModel CiteModel CiteSpec CiteProofs SchemeModel SchemeSpec SchemeProofs.
From Verif Require FillModel FillProofs.
Import ListNotations.

(** C12.  [t ++ write_pieces l] is a pattern, [filled l comps] the text wanted. *)
Theorem C12_fill_list : forall t l comps, ~ In c_at t -> Forall wf_piece l ->
  (slots l <= length comps ->
     fill (Some (t ++ write_pieces l)) (FList comps) = Ok (t ++ filled l comps)) /\
  (length comps < slots l ->
     fill (Some (t ++ write_pieces l)) (FList comps) = Err StopIteration).
Proof. exact fill_list_cases. Qed.
Print Assumptions C12_fill_list.

Theorem C12_fill_reference : forall t l r, ~ In c_at t -> Forall wf_piece l ->
  slots l <= length (id_list (r_start r)) ->
  fill (Some (t ++ write_pieces l)) (FRef r) = Ok (t ++ filled l (map Some (id_list (r_start r)))).
Proof. exact fill_reference. Qed.
Print Assumptions C12_fill_reference.

Theorem C12_fill_none : forall t l, ~ In c_at t -> Forall wf_piece l ->
  fill (Some (t ++ write_pieces l)) FNone = Ok (t ++ filled l (repeat None (slots l))).
Proof. exact fill_none_repeat. Qed.
Print Assumptions C12_fill_none.

(** With xpath=True every slot of the last step gets the same passage.  A backslash in
    it has to be doubled; without backslashes the passage is taken as it is. *)
Theorem C12_fill_xpath : forall rd scope t l passage,
  parse_xpath_scope rd = Ok (scope, t ++ write_pieces l) -> ~ In c_at t -> Forall wf_piece l ->
  FillModel.fill_xpath rd (option_map doubled passage) = Ok (Some (t ++ filled l (repeat passage (slots l)))) /\
  (match passage with Some p => ~ In c_backslash p | None => True end ->
   FillModel.fill_xpath rd passage = Ok (Some (t ++ filled l (repeat passage (slots l))))).
Proof.
  intros rd scope t l passage Hp Ht Hl. pose proof (FillProofs.fill_xpath_plain rd scope t l passage Hp Ht Hl) as E.
  split; [exact E|]. intros N. destruct passage as [p|]; [|exact E]. cbn [option_map] in E. rewrite FillProofs.doubled_plain in E by exact N. exact E.
Qed.
Print Assumptions C12_fill_xpath.

(** A backslash that is not doubled: it is read as part of a template of re.sub, so
    that the passage is changed or refused. *)
Theorem C12_backslash_refuted : exists rd,
  parse_xpath_scope rd = Ok (#"/div", #"/l[@n='?']") /\
  FillModel.fill_xpath rd (Some #"a") = Ok (Some #"/l[@n='a']") /\
  FillModel.fill_xpath rd (Some #"a\1") = Ok (Some #"/l[@n='a@n']") /\
  FillModel.fill_xpath rd (Some #"\n") = Ok (Some (#"/l[@n='" ++ [10%N] ++ #"']")) /\
  FillModel.fill_xpath rd (Some #"\d") = Ok None.
Proof. exists (Some #"/div/l[@n='$1']"). repeat split; vm_compute; reflexivity. Qed.
Print Assumptions C12_backslash_refuted.

(** An ordinary two-level pattern meets the hypotheses. *)
Definition C12_pattern : list (piece * str) :=
  [(Fixed #"type" #"='textpart'", #" and "); (Slot #"n" #"'$1'", #"]//tei:l["); (Slot #"n" #"'$2'", #"]")].
Example C12_example :
  #"/tei:div[" ++ write_pieces C12_pattern = #"/tei:div[@type='textpart' and @n='$1']//tei:l[@n='$2']" /\
  Forall wf_piece C12_pattern /\ ~ In c_at #"/tei:div[" /\ slots C12_pattern = 2 /\
  #"/tei:div[" ++ filled C12_pattern [Some #"1"; None] = #"/tei:div[@type='textpart' and @n='1']//tei:l[@n]".
Proof.
  assert (Ha : forall s, mem c_at s = false -> ~ In c_at s)
    by (intros s Hs Hi; apply PyStrFacts.mem_In in Hi; congruence).
  split; [reflexivity|]. split; [|split; [apply Ha; reflexivity|split; reflexivity]].
  assert (Hs : forall f s, forallb f s = true -> forall c : N, In c s -> f c = true)
    by (intros f s H; apply forallb_forall; exact H).
  apply Forall_cons; [|apply Forall_cons; [|apply Forall_cons; [|apply Forall_nil]]];
    (split; [apply Ha; reflexivity|]); cbn [fst snd].
  - split; [refine (Hs _ _ _); reflexivity|]. split; [apply Ha; reflexivity|]. split; [reflexivity|].
    right. exists 1, 116%N. split; [lia|]. split; reflexivity.
  - split; [discriminate|]. split; [refine (Hs _ _ _); reflexivity|]. split; [refine (Hs _ _ _); reflexivity|].
    split; [cbn; lia|right; reflexivity].
  - split; [discriminate|]. split; [refine (Hs _ _ _); reflexivity|]. split; [refine (Hs _ _ _); reflexivity|].
    split; [cbn; lia|right; reflexivity].
Qed.

(** Findings: a fixed numeric test is taken for a slot; a number of two digits in
    escaped quotes overflows the six characters; a string argument is spent
    character by character. *)
Example C12_findings :
  fill (Some #"//div[@n='1']//l[@n='$1']") (FList [Some #"a"]) = Err StopIteration /\
  fill (Some #"//l[@n=\'$10\']") (FList [Some #"a"]) = Ok #"//l[@n='a'']" /\
  fill (Some #"//div[@n='$1']//l[@n='$2']") (FStr #"1.1") = Ok #"//div[@n='1']//l[@n='.']".
Proof. repeat split; vm_compute; reflexivity. Qed.

(** C13. *)
Theorem C13_setting : forall scope xpath rd, scope <> [] -> xpath <> [] ->
  init_refsdecl (Some scope) (Some xpath) rd = Some (numbered 1 (scope ++ xpath)).
Proof. exact init_numbered. Qed.
Print Assumptions C13_setting.

Theorem C13_views : forall before last,
  Forall wf_step before -> wf_step last ->
  let rd := numbered 1 (write_steps (before ++ [last])) in
  exists scope xpath,
    parse_xpath_scope (Some rd) = Ok (scope, xpath) /\
    scope = write_steps before /\ xpath = write_step last /\
    (scope <> [] -> init_refsdecl (Some scope) (Some xpath) None = Some rd).
Proof. exact views_round_trip. Qed.
Print Assumptions C13_views.

Theorem C13_setters : forall before last v,
  Forall wf_step before -> wf_step last ->
  let rd := Some (numbered 1 (write_steps (before ++ [last]))) in
  set_xpath (Some v) rd = Ok (Some (numbered 1 (write_steps before ++ v))) /\
  set_scope (Some v) rd = Ok (Some (numbered 1 (v ++ write_step last))) /\
  set_xpath None rd = Ok rd /\ set_scope None rd = Ok rd.
Proof. exact setters_spec. Qed.
Print Assumptions C13_setters.

Example C13_example :
  let steps := [(1, #"tei:div[@n='?']"); (2, #"tei:l[@n='?']")] in
  Forall wf_step steps /\
  numbered 1 (write_steps steps) = #"/tei:div[@n='$1']//tei:l[@n='$2']".
Proof.
  split; [|reflexivity].
  assert (Hs : forall s, forallb (fun c => negb (N.eqb c c_dollar) && (N.eqb c c_qmark || step_symbol c)) s = true ->
            forall c : N, In c s -> c <> c_dollar /\ (c = c_qmark \/ step_symbol c = true)).
  { intros s H c Hc. rewrite forallb_forall in H. specialize (H c Hc).
    apply Bool.andb_true_iff in H. destruct H as [H1 H2]. apply Bool.orb_true_iff in H2.
    split; [intros ->; discriminate|]. destruct H2 as [H2|H2]; [left; apply N.eqb_eq; exact H2|right; exact H2]. }
  apply Forall_cons; [|apply Forall_cons; [|apply Forall_nil]];
    (split; [cbn; lia|]); (split; [discriminate|]); (split; [apply Hs; reflexivity|]);
    cbn; repeat split; intros; try discriminate; try reflexivity.
Qed.

Example C13_dash_refuted :
  exists rd, parse_xpath_scope (Some rd) = Ok (#"/tei:div[@type='text", #"//tei:l[@n='?']") /\
             rd = #"/tei:div[@type='text-part' and @n='$1']//tei:l[@n='$2']".
Proof. eexists. split; [|reflexivity]. vm_compute. reflexivity. Qed.

(** C14.  [built h cs]: objects created and linked by the operations of
    SchemeSpec; [l] is one scheme, outermost citation first. *)
Theorem C14_listing : forall h cs l k x, built h cs -> In l cs -> nth_error l k = Some x ->
  cit_iter h x = Ok (skipn k l) /\
  cit_len h x = Ok (length l - k) /\
  cit_depth h x = Ok (length l - k).
Proof. exact scheme_listing. Qed.
Print Assumptions C14_listing.

Theorem C14_index : forall h cs l x k (i : nat), built h cs -> In l cs -> nth_error l k = Some x ->
  let n := length l - k in
  (i < n -> exists y, nth_error l (k + i) = Some y /\ cit_getitem h x (Z.of_nat i) = Ok y) /\
  (n <= i -> cit_getitem h x (Z.of_nat i) = Err KeyError) /\
  (1 <= i <= n -> exists y, nth_error l (k + (n - i)) = Some y /\ cit_getitem h x (- Z.of_nat i) = Ok y) /\
  (n < i -> cit_getitem h x (- Z.of_nat i) = Err IndexError).
Proof. exact scheme_index. Qed.
Print Assumptions C14_index.

Theorem C14_match : forall h cs l x r, built h cs -> In l cs -> In x l ->
  cit_match h x r = match nth_error l (ref_depth r - 1) with Some y => Ok y | None => Err KeyError end.
Proof. exact scheme_match. Qed.
Print Assumptions C14_match.

(** Three nested citations, assembled both ways. *)
Example C14_example : exists h,
  built h [[2; 1; 0]; [3; 4]] /\ cit_match h 0 (MkRef #"1.2" None #"1.2") = Ok 1 /\ length h = 5.
Proof.
  pose proof (built_new _ _ (Some #"line") (Some #"//c") built_empty) as H0.
  pose proof (built_wrap _ _ _ _ (Some #"poem") (Some #"//b") H0) as H1.
  pose proof (built_wrap _ _ _ _ (Some #"book") (Some #"//a") H1) as H2.
  pose proof (built_new _ _ (Some #"d") (Some #"//d") H2) as H3.
  pose proof (built_new _ _ (Some #"e") (Some #"//e") H3) as H4.
  pose proof (built_order _ _ _ H4 (Permutation.perm_swap _ _ _)) as H5.
  pose proof (built_attach _ [] _ _ _ _ H5) as H6.
  pose proof (built_order _ _ _ H6 (Permutation.perm_swap _ _ _)) as H7.
  eexists. split; [exact H7|]. split; vm_compute; reflexivity.
Qed.

(** C15.  The n cRefPattern elements become the new objects b, ..., b+n-1. *)
Theorem C15_ingest : forall h pats, pats <> [] -> Forall (fun p => snd p <> None) pats ->
  let b := length h in let n := length pats in
  exists h' top,
    cit_ingest h pats = Ok (h', top) /\
    nth_error (seq b n) (n - 1) = Some top /\
    cit_iter h' top = Ok (rev (seq b n)) /\
    (forall x, In x (seq b n) -> root_of h' x = top) /\
    (forall k name p, nth_error pats k = Some (name, Some p) ->
       exists o, nth_error h' (b + k) = Some o /\ cn_name o = name /\
                 cn_rd o = Some (firstn (length p - 8) (skipn 7 p))) /\
    (forall x r, In x (seq b n) ->
       cit_match h' x r = match nth_error (rev (seq b n)) (ref_depth r - 1) with
                          | Some y => Ok y | None => Err KeyError end) /\
    (forall x, x < b -> nth_error h' x = nth_error h x).
Proof. exact ingest_scheme. Qed.
Print Assumptions C15_ingest.

Example C15_example : exists h top,
  cit_ingest [] [(Some #"line", Some #"#xpath(//l[@n='$2'])"); (Some #"book", Some #"#xpath(//div[@n='$1'])")] = Ok (h, top) /\
  map cn_rd h = [Some #"//l[@n='$2']"; Some #"//div[@n='$1']"] /\ top = 1.
Proof. eexists _, _. split; [vm_compute; reflexivity|split; reflexivity]. Qed.

Theorem C15_nested_refuted : exists h l x, built h [l] /\ In x l /\ hd_error l <> Some (root_of h x).
Proof. exact nested_root_refuted. Qed.
Print Assumptions C15_nested_refuted.

(** Without any cRefPattern element ingest fails. *)
Theorem C15_no_pattern : forall h, cit_ingest h [] = Err IndexError.
Proof. exact (fun h => eq_refl). Qed.
Print Assumptions C15_no_pattern.

(** C51. *)
Theorem C51_attribute : forall pre a q1 n q2 post,
  name_text a -> quote_text q1 -> quote_text q2 -> ~ In c_dollar post ->
  let rd := pre ++ [c_at] ++ a ++ [c_equal] ++ q1 ++ [c_dollar] ++ str_of_nat n ++ q2 ++ post in
  count c_dollar rd = n -> attribute (Some rd) = Ok a.
Proof. exact attribute_spec. Qed.
Print Assumptions C51_attribute.

Example C51_example :
  attribute (Some #"//tei:div[@type='book' and @xml:id='$1']//tei:l[@n='$2']") = Ok #"n" /\
  attribute (Some #"//tei:div[@n='$1' and @subtype='section']") = Ok #"n" /\
  attribute (Some #"//tei:l[@n2='$1']") = Err IndexError.
Proof. repeat split; vm_compute; reflexivity. Qed.
