(** Property C75: checking a local text.

    [audited_reff] is getValidReff(_debug=True) (AuditModel.v): the warnings it emits
    and what it returns; [order] is the order in which Python reads a set.  What must
    be reported is said by [outcome] (AuditSpec.v). *)

From Coq Require Import List NArith ZArith Arith Bool Lia Permutation.
From Verif Require Import PyStr PyStrFacts RefModel UrnModel UrnSpec XmlModel XmlSpec XPathModel TemplateSpec.
From Verif Require Import PassageModel PassageSpec PassageCheck AuditModel AuditSpec AuditProofs.
From Verif Require PassageApi Props_Passage XmlProofs.
Import ListNotations.

(** Checking returns, or raises, what not checking does. *)
Theorem C75_same : forall scheme same order self level reference,
  snd (audited_reff scheme same order self level reference) = valid_reff scheme same self level reference.
Proof. exact audited_same. Qed.
Print Assumptions C75_same.

(** The references of a whole text. *)
Theorem C75_whole : forall levels x same order self level k,
  Forall wf_level levels -> length levels <= 999 -> tidy_units levels x -> (forall l, Permutation (order l) l) ->
  o_xml (text_object self) = x -> 0 < k -> level = Some (Z.of_nat k) \/ level = None /\ k = 1 ->
  outcome levels x [] (fst (audited_reff (write_scheme levels) same order self level None)) [] k
    (snd (audited_reff (write_scheme levels) same order self level None)).
Proof. intros levels x same order self level k H1 H2 H3. apply audited_whole; assumption. Qed.
Print Assumptions C75_whole.

(** The references below a reference; level 0 is warned about. *)
Theorem C75_below : forall levels x same order self level parts k,
  Forall wf_level levels -> length levels <= 999 -> tidy_units levels x -> (forall l, Permutation (order l) l) ->
  o_xml (text_object self) = x -> parts <> [] -> Forall plain parts ->
  Z.of_nat k = Z.max (match level with Some l => l | None => 1 end) (Z.of_nat (length parts) + 1) ->
  outcome levels x (match level with Some 0%Z => [WLevel] | _ => [] end)
    (fst (audited_reff (write_scheme levels) same order self level (Some (reference_to parts)))) parts k
    (snd (audited_reff (write_scheme levels) same order self level (Some (reference_to parts)))).
Proof. intros levels x same order self level parts k H1 H2 H3. apply audited_below; assumption. Qed.
Print Assumptions C75_below.

(** Nothing is reported of a text whose identifiers are all usable and name one
    element each. *)
Theorem C75_clear : forall levels x same order self level k,
  Forall wf_level levels -> length levels <= 999 -> plain_units levels x -> unambiguous levels x k -> (forall l, Permutation (order l) l) ->
  o_xml (text_object self) = x -> 0 < k -> level = Some (Z.of_nat k) \/ level = None /\ k = 1 ->
  fst (audited_reff (write_scheme levels) same order self level None) = [].
Proof.
  intros levels x same order self level k H1 H2 H3 H4 H5 H6 H7 H8.
  eapply (outcome_clear levels x [] _ [] k); [exact H1|exact H3|exact H4|exact H7|].
  apply (audited_whole levels x H1 (plain_tidy _ _ H3) H2 same order self level k); assumption.
Qed.
Print Assumptions C75_clear.

(** test() passes exactly if the way to the units of the first level leads somewhere,
    and raises RefsDeclError otherwise. *)
Theorem C75_test : forall lv levels x, wf_level lv -> known_level lv -> l_way lv <> [] ->
  (text_test (write_scheme (lv :: levels)) x = Ok tt <-> exists p, leads_to lv x p) /\
  (text_test (write_scheme (lv :: levels)) x = Err RefsDeclError <-> forall p, ~ leads_to lv x p).
Proof. exact tested. Qed.
Print Assumptions C75_test.

(** ** Examples *)

(** Two poems numbered 1 with the lines 1 and 2, a poem numbered 2 with an empty
    line number. *)
Definition flawed : node :=
  Elem (clark #"tei:TEI") [] #"" #""
    [tei #"tei:div" #"1" #"" [tei #"tei:l" #"1" #"a" []]; tei #"tei:div" #"1" #"" [tei #"tei:l" #"2" #"b" []];
     tei #"tei:div" #"2" #"" [tei #"tei:l" #"" #"c" []]].

Example C75_meets : Forall wf_level poem_scheme /\ length poem_scheme <= 999 /\ tidy_units poem_scheme flawed /\
  Forall plain [#"2"] /\ plain_units poem_scheme poems /\ unambiguous poem_scheme poems 2 /\
  wf_level poem_level /\ known_level poem_level /\ l_way poem_level <> [].
Proof.
  split; [apply poem_scheme_usable|]. split; [cbn; lia|]. split; [apply check_tidy_ok; vm_compute; reflexivity|]. split.
  { constructor; [|constructor]. unfold plain. cbn. repeat split; [discriminate|..]; intuition discriminate. }
  split; [apply PassageApi.good_units_plain; apply (poems_clear 2); lia|]. split; [apply (poems_clear 2); lia|].
  split; [|split; [apply check_known_ok; vm_compute; reflexivity|discriminate]].
  assert (F : Forall wf_level poem_scheme) by apply poem_scheme_usable. inversion F; assumption.
Qed.

Example C75_sample :
  fst (audited_reff (write_scheme poem_scheme) identity_only (fun l => l) (OText flawed None) (Some 2%Z) None)
    = [WDuplicate #"1.2, 1.1"; WEmpty 1 2%Z] /\
  fst (audited_reff (write_scheme poem_scheme) identity_only (fun l => l) (OText flawed None) (Some 0%Z) (Some (reference_to [#"2"])))
    = [WLevel; WEmpty 1 2%Z] /\
  fst (audited_reff (write_scheme poem_scheme) identity_only (fun l => l) (OText poems None) (Some 2%Z) None) = [] /\
  text_test (write_scheme poem_scheme) poems = Ok tt /\
  text_test (write_scheme poem_scheme) (Elem #"html" [] #"" #"" (n_kids poems)) = Err RefsDeclError.
Proof. repeat split; vm_compute; reflexivity. Qed.

(** ** What is reported wrongly, or not *)

(** A reference below a repeated one is reported although it names one element. *)
Theorem C75_duplicate_refuted : exists x, tidy_units poem_scheme x /\
  fst (audited_reff (write_scheme poem_scheme) identity_only (fun l => l) (OText x None) (Some 2%Z) None)
    = [WDuplicate #"1.2, 1.1"; WEmpty 1 2%Z] /\
  cites_only poem_scheme x [#"1"; #"1"] [0; 0; 0] /\ cites_only poem_scheme x [#"1"; #"2"] [0; 1; 0].
Proof.
  exists flawed. split; [apply check_tidy_ok; vm_compute; reflexivity|]. split; [vm_compute; reflexivity|].
  split; apply cites_only_check; try discriminate; vm_compute; reflexivity.
Qed.
Print Assumptions C75_duplicate_refuted.

(** A unit without an identifier is not noticed at the levels below it. *)
Theorem C75_empty_above_refuted : exists x, tidy_units poem_scheme x /\ cites poem_scheme x [[]; #"1"] [0; 0; 0] /\
  audited_reff (write_scheme poem_scheme) identity_only (fun l => l) (OText x None) (Some 2%Z) None
    = ([], Ok ([Some (MkRef #".1" None #".1")], 2%Z)).
Proof.
  exists (Elem (clark #"tei:TEI") [] #"" #"" [tei #"tei:div" #"" #"" [tei #"tei:l" #"1" #"a" []]]).
  split; [apply check_tidy_ok; vm_compute; reflexivity|]. split; [|vm_compute; reflexivity].
  apply XmlProofs.In_xpath; [discriminate|vm_compute; auto].
Qed.
Print Assumptions C75_empty_above_refuted.

(** An identifier that ends in a dot is counted as an empty one. *)
Theorem C75_dot_refuted : exists x, cites_only poem_scheme x [#"1"; #"2."] [0; 0; 0] /\
  audited_reff (write_scheme poem_scheme) identity_only (fun l => l) (OText x None) (Some 2%Z) None
    = ([WEmpty 1 2%Z], Ok ([Some (MkRef #"1.2." None #"1.2.")], 2%Z)).
Proof.
  exists (Elem (clark #"tei:TEI") [] #"" #"" [tei #"tei:div" #"1" #"" [tei #"tei:l" #"2." #"a" []]]).
  split; [apply cites_only_check; try discriminate|]; vm_compute; reflexivity.
Qed.
Print Assumptions C75_dot_refuted.
