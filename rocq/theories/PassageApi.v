(** getReffs, getTextualNode and the siblings of a passage, for texts whose
    references are clear. *)

From Coq Require Import List NArith ZArith Arith Bool Lia Sorted.
From Verif Require Import PyStr PyStrFacts RefModel RefSpec RefProofs CiteModel SchemeModel UrnModel UrnSpec UrnProofs.
From Verif Require Import XmlModel XmlSpec XmlProofs XPathModel TemplateSpec TemplateProofs.
From Verif Require Import PassageModel PassageSpec PassageProofs PassageTree PassageNav PassageRange.
Import ListNotations.

(** ** References written with identifiers *)

Lemma plain_is_level : forall c, c <> [] -> Forall plain c -> plain_levels c.
Proof.
  intros c Hc H. split; [exact Hc|]. eapply Forall_impl; [|exact H]. intros v (H1 & H2 & H3 & H4 & _). repeat split; assumption.
Qed.
Lemma join_passage : forall c, join [c_dot] c = write_passage c None.
Proof. intros c. unfold write_passage. rewrite app_nil_r. symmetry. apply write_levels_join. Qed.

Lemma id_list_join : forall c, c <> [] -> Forall plain c -> id_list (join [c_dot] c) = c.
Proof. intros c Hc H. rewrite join_passage. apply id_list_plain; [apply plain_is_level; assumption|exact I]. Qed.
Lemma id_depth_join : forall c, c <> [] -> Forall plain c -> id_depth (join [c_dot] c) = length c.
Proof. intros c Hc H. rewrite join_passage. apply id_depth_plain; [apply plain_is_level; assumption|exact I]. Qed.
Lemma join_no_dash : forall c, c <> [] -> Forall plain c -> ~ In c_dash (join [c_dot] c).
Proof. intros c Hc H. rewrite join_passage. apply write_passage_no_dash; [apply plain_is_level; assumption|exact I]. Qed.
Lemma join_full : forall c, c <> [] -> Forall plain c -> join [c_dot] c <> [].
Proof. intros c Hc H. rewrite join_passage. apply write_passage_nonnil, plain_is_level; assumption. Qed.

Lemma parse_single : forall c, c <> [] -> Forall plain c -> cts_reference (VStr (join [c_dot] c)) = Ok (Some (reference_to c)).
Proof.
  intros c Hc H. rewrite join_passage, cts_reference_passage; [rewrite <- join_passage; reflexivity|apply plain_is_level; assumption|exact I].
Qed.
Lemma parse_id : forall c, c <> [] -> Forall plain c -> cts_reference (VId (join [c_dot] c)) = Ok (Some (reference_to c)).
Proof.
  intros c Hc H. unfold cts_reference. cbn [val_truthy negb val_str]. rewrite cts_reference_string_single by (apply join_no_dash; assumption). reflexivity.
Qed.
Lemma parse_range : forall a b, a <> [] -> Forall plain a -> b <> [] -> Forall plain b ->
  cts_reference (VStr (join [c_dot] a ++ [c_dash] ++ join [c_dot] b)) = Ok (Some (range_to a b)).
Proof.
  intros a b Ha Pa Hb Pb. rewrite cts_reference_nonempty by (intros E; apply app_eq_nil in E; destruct E as [_ E]; discriminate).
  rewrite cts_reference_string_range by (apply join_no_dash; assumption). reflexivity.
Qed.

Lemma good_plain : forall c, Forall good_id c -> Forall plain c.
Proof. intros c H. eapply Forall_impl; [|exact H]. intros v Hv. apply Hv. Qed.
Lemma good_safe : forall c, Forall good_id c -> Forall path_safe c.
Proof. intros c H. eapply Forall_impl; [|exact H]. intros v ((_ & _ & _ & _ & Hq) & Hs & _). split; assumption. Qed.
Lemma good_quote : forall c, Forall good_id c -> Forall (fun v => ~ In c_quote v) c.
Proof. intros c H. eapply Forall_impl; [|exact H]. intros v ((_ & _ & _ & _ & Hq) & _). exact Hq. Qed.

Lemma join_without : forall x c, x <> c_dot -> Forall (fun v => ~ In x v) c -> ~ In x (join [c_dot] c).
Proof.
  intros x c Hx H. induction H as [|v c Hv Hc IH]; [intros []|]. destruct c as [|w c]; [exact Hv|].
  rewrite join_cons by discriminate. rewrite !in_app_iff. intros [H|[[H|[]]|H]]; [exact (Hv H)|congruence|exact (IH H)].
Qed.
Lemma good_without : forall c, Forall good_id c -> ~ In c_colon (join [c_dot] c) /\ ~ In c_hash (join [c_dot] c).
Proof.
  intros c H. split; apply join_without; try discriminate; (eapply Forall_impl; [|exact H]); intros v (_ & _ & H1 & H2); assumption.
Qed.

Lemma writable_single : forall c, c <> [] -> Forall good_id c -> writable (reference_to c).
Proof.
  intros c Hc H. destruct (good_without c H) as [H1 H2]. split; [apply join_full; [exact Hc|apply good_plain; exact H]|].
  split; [exact H1|]. split; [exact H2|]. apply parse_single; [exact Hc|apply good_plain; exact H].
Qed.
Lemma writable_range : forall a b, a <> [] -> Forall good_id a -> b <> [] -> Forall good_id b -> writable (range_to a b).
Proof.
  intros a b Ha Ga Hb Gb. destruct (good_without a Ga) as [A1 A2], (good_without b Gb) as [B1 B2]. unfold writable, range_to. cbn [r_str].
  split; [intros E; apply app_eq_nil in E; destruct E as [_ E]; discriminate|].
  split; [rewrite !in_app_iff; intros [H|[[H|[]]|H]]; [exact (A1 H)|discriminate|exact (B1 H)]|].
  split; [rewrite !in_app_iff; intros [H|[[H|[]]|H]]; [exact (A2 H)|discriminate|exact (B2 H)]|].
  apply parse_range; try assumption; apply good_plain; assumption.
Qed.

Lemma good_units_plain : forall levels x, good_units levels x -> plain_units levels x.
Proof. intros levels x H j lv p n v H1 H2 H3 H4. exact (proj1 (H j lv p n v H1 H2 H3 H4)). Qed.

(** The identifiers of a citable unit are good. *)
Lemma cited_good : forall levels x, Forall wf_level levels -> good_units levels x ->
  forall comps p, length comps <= length levels -> cites levels x comps p -> Forall good_id comps.
Proof.
  intros levels x Hwf Hg comps. induction comps as [|v comps IH] using rev_ind; intros p Hl H; [constructor|].
  rewrite app_length in Hl. cbn in Hl. apply Forall_app. split.
  - destruct (cites_prefix levels x comps [v] p H) as (a & b & _ & Ha). apply (IH a); [lia|exact Ha].
  - constructor; [|constructor]. destruct (nth_error levels (length comps)) as [lv|] eqn:Elv; [|apply nth_error_None in Elv; lia].
    destruct (selects_at _ _ _ H) as [n Hn]. apply (Hg (length comps) lv p n v Elv).
    + pose proof (cites_unit levels x (comps ++ [v]) p H) as Hu. rewrite app_length, Nat.add_1_r in Hu. exact Hu.
    + exact Hn.
    + pose proof (proj1 (open_slot levels x Hwf comps lv p n v Elv Hn) H) as Ho. apply Ho.
Qed.

(** ** The list of references of a level *)

Definition refs_of (E : list (list str)) : list (option ref) := map (fun c => Some (reference_to c)) E.

Lemma nth_refs : forall E i, nth_error (refs_of E) i = option_map (fun c => Some (reference_to c)) (nth_error E i).
Proof. intros E. induction E as [|c E IH]; intros [|i]; cbn; auto. Qed.

Lemma item_refs : forall E i c, nth_error E i = Some c -> item (refs_of E) i = Ok (Some (reference_to c)).
Proof. intros E i c H. unfold item. rewrite nth_refs, H. reflexivity. Qed.

Lemma again_single : forall c, again (Some (reference_to c)) = Ok (Some (reference_to c)).
Proof. reflexivity. Qed.

Lemma between_range : forall a b, a <> [] -> Forall plain a -> b <> [] -> Forall plain b ->
  between (Some (reference_to a)) (Some (reference_to b)) = Ok (Some (range_to a b)).
Proof. intros a b Ha Pa Hb Pb. unfold between. cbn [item_str r_str reference_to]. apply parse_range; assumption. Qed.

Lemma oindex_refs : forall E i c, (forall c, In c E -> c <> [] /\ Forall plain c) -> NoDup E -> nth_error E i = Some c ->
  oindex (Some (reference_to c)) (refs_of E) = Some i.
Proof.
  induction E as [|e E IH]; intros i c Hp Hn Hi; [destruct i; discriminate|]. inversion Hn as [|? ? Hn1 Hn2]; subst. cbn [refs_of map oindex].
  destruct i as [|i].
  - injection Hi as ->. unfold oref_eqb, opt_eqb. rewrite ref_eqb_refl. reflexivity.
  - cbn in Hi. replace (oref_eqb (Some (reference_to e)) (Some (reference_to c))) with false.
    + fold (refs_of E). rewrite (IH i c); [reflexivity|intros c' Hc'; apply Hp; right; exact Hc'|exact Hn2|exact Hi].
    + symmetry. destruct (oref_eqb _ _) eqn:Eq; [|reflexivity]. exfalso. unfold oref_eqb, opt_eqb in Eq. apply ref_eqb_spec in Eq.
      destruct Eq as [Eq _]. assert (e = c).
      { apply nth_error_In in Hi. destruct (Hp e (or_introl eq_refl)) as [Ne Pe], (Hp c (or_intror Hi)) as [Nc Pc].
        rewrite <- (id_list_join e Ne Pe), <- (id_list_join c Nc Pc). f_equal. exact Eq. }
      subst e. apply Hn1. eapply nth_error_In; exact Hi.
Qed.

Lemma set_index_refs : forall E i c, (forall c, In c E -> c <> [] /\ Forall plain c) -> NoDup E -> nth_error E i = Some c ->
  set_index (refs_of E) (join [c_dot] c) = Ok i.
Proof.
  intros E i c Hp Hn Hi. destruct (Hp c (nth_error_In _ _ Hi)) as [Nc Pc]. unfold set_index. rewrite parse_id by assumption. cbn [bind].
  rewrite (oindex_refs E i c) by assumption. reflexivity.
Qed.

Lemma refs_length : forall E, length (refs_of E) = length E.
Proof. intros E. apply map_length. Qed.

(** The members at the two ends of a window. *)
Definition window (E : list (list str)) (a b : nat) : option ref :=
  match nth_error E a, nth_error E b with Some u, Some v => Some (range_to u v) | _, _ => None end.
Definition member (E : list (list str)) (a : nat) : option ref := option_map reference_to (nth_error E a).

Lemma nth_some : forall A (l : list A) i, i < length l -> exists a, nth_error l i = Some a.
Proof. intros A l i H. destruct (nth_error l i) as [a|] eqn:E; [eauto|]. apply nth_error_None in E. lia. Qed.

Section Windows.
Variable E : list (list str).
Hypothesis Hp : forall c, In c E -> c <> [] /\ Forall plain c.

Lemma item_window : forall a b, a < length E -> b < length E ->
  (x <- item (refs_of E) a ;; y <- item (refs_of E) b ;; between x y) = Ok (window E a b).
Proof.
  intros a b Ha Hb. destruct (nth_some _ E a Ha) as [u Hu], (nth_some _ E b Hb) as [v Hv].
  rewrite (item_refs E a u Hu), (item_refs E b v Hv). cbn [bind]. unfold window. rewrite Hu, Hv.
  destruct (Hp u (nth_error_In _ _ Hu)), (Hp v (nth_error_In _ _ Hv)). apply between_range; assumption.
Qed.
Lemma item_member : forall a, a < length E -> (x <- item (refs_of E) a ;; again x) = Ok (member E a).
Proof.
  intros a Ha. destruct (nth_some _ E a Ha) as [u Hu]. rewrite (item_refs E a u Hu). cbn [bind]. unfold member. rewrite Hu. apply again_single.
Qed.

Lemma single_before : forall i, i < length E -> sibling_before (refs_of E) i i 1 = Ok (match i with 0 => None | S i' => member E i' end).
Proof.
  intros i Hi. unfold sibling_before. destruct i as [|i]; [reflexivity|]. cbn [Nat.eqb]. replace (S i <? 1) with false by (symmetry; apply Nat.ltb_ge; lia).
  rewrite Nat.eqb_refl. rewrite item_member by lia. f_equal. f_equal. lia.
Qed.
Lemma single_after : forall i, i < length E -> sibling_after (refs_of E) i i 1 = Ok (member E (S i)).
Proof.
  intros i Hi. unfold sibling_after. rewrite refs_length, Nat.add_1_r. destruct (Nat.eqb_spec (S i) (length E)) as [H|H].
  - cbn [orb]. unfold member. replace (nth_error E (S i)) with (@None (list str)); [reflexivity|]. symmetry. apply nth_error_None. lia.
  - cbn [orb]. replace (length E <=? S i) with false by (symmetry; apply Nat.leb_gt; lia). rewrite Nat.eqb_refl. rewrite item_member by lia. reflexivity.
Qed.

Lemma range_before : forall i j n, i < j < length E -> 0 < n ->
  sibling_before (refs_of E) i j n = Ok (if Nat.eqb i 0 then None else window E (i - Nat.min i n) (i - 1)).
Proof.
  intros i j n Hij Hn. unfold sibling_before. destruct (Nat.eqb_spec i 0) as [H|H]; [reflexivity|].
  replace (Nat.eqb i j) with false by (symmetry; apply Nat.eqb_neq; lia). destruct (Nat.ltb_spec i n) as [L|L].
  - replace (i - Nat.min i n) with 0 by lia. apply item_window; lia.
  - replace (i - Nat.min i n) with (i - n) by lia. apply item_window; lia.
Qed.
Lemma range_after : forall i j n, i < j < length E -> 0 < n ->
  sibling_after (refs_of E) i j n = Ok (if Nat.eqb (j + 1) (length E) then None else window E (j + 1) (Nat.min (j + n) (length E - 1))).
Proof.
  intros i j n Hij Hn. unfold sibling_after. rewrite refs_length. replace (Nat.eqb (i + 1) (length E)) with false by (symmetry; apply Nat.eqb_neq; lia).
  cbn [orb]. destruct (Nat.eqb_spec (j + 1) (length E)) as [H|H]; [reflexivity|].
  replace (Nat.eqb i j) with false by (symmetry; apply Nat.eqb_neq; lia). destruct (Nat.leb_spec (length E) (j + n)) as [L|L].
  - replace (Nat.min (j + n) (length E - 1)) with (length E - 1) by lia. apply item_window; lia.
  - replace (Nat.min (j + n) (length E - 1)) with (j + n) by lia. apply item_window; lia.
Qed.
End Windows.

(** ** A clear text *)

Section Clear.
Variables (levels : list level) (x : node) (d : nat).
Hypothesis Hclear : clear_text levels x d.
Hypothesis Hd : 0 < d <= length levels.

Let scheme := write_scheme levels.
Let Hwf : Forall wf_level levels := proj1 (proj1 Hclear).
Let Hsm : length levels <= 999 := proj1 (proj2 (proj1 Hclear)).
Let Hgood : good_units levels x := proj1 (proj2 Hclear).
Let Hun : unambiguous levels x d := proj1 (proj2 (proj2 Hclear)).
Let Hnn : not_nested levels x (S d) := proj2 (proj2 (proj2 Hclear)).

(** The identifiers of the units of the level, in document order. *)
Definition units : list (list str) := enum levels x d [].

Lemma units_spec : forall c, In c units <-> length c = d /\ exists p, cites levels x c p.
Proof.
  intros c. unfold units. rewrite (In_enum levels x Hwf d [] c) by (cbn; lia). cbn [length Nat.add]. split; [tauto|].
  intros (H1 & H2). split; [exists c; reflexivity|auto].
Qed.
Lemma units_good : forall c, In c units -> c <> [] /\ Forall good_id c.
Proof.
  intros c Hc. apply units_spec in Hc. destruct Hc as [Hl [p Hp]]. split; [intros ->; cbn in Hl; lia|].
  apply (cited_good levels x Hwf Hgood c p); [lia|exact Hp].
Qed.
Lemma units_plain : forall c, In c units -> c <> [] /\ Forall plain c.
Proof. intros c Hc. destruct (units_good c Hc). split; [assumption|apply good_plain; assumption]. Qed.
Lemma units_nodup : NoDup units.
Proof. apply enum_NoDup; [exact Hwf|cbn; lia|exact Hun]. Qed.

Lemma units_only : forall c, In c units -> exists p, cites_only levels x c p.
Proof.
  intros c Hc. apply units_spec in Hc. destruct Hc as [Hl [p Hp]]. exists p. split; [exact Hp|]. intros q Hq. apply (Hun c); [lia|exact Hq|exact Hp].
Qed.

(** getReffs at the level of the units. *)
Lemma whole_reffs : forall same u, get_reffs scheme same (OText x u) (Some (Z.of_nat d)) None =
  match units with [] => Err KeyError | _ => Ok (refs_of units) end.
Proof.
  intros same u. unfold get_reffs. rewrite (reffs_whole levels x same Hwf Hsm (good_units_plain _ _ Hgood) (OText x u) _ d eq_refl) by (auto; lia).
  replace (length levels <? d)%nat with false by (symmetry; apply Nat.ltb_ge; lia). unfold listed, units. cbn [length]. rewrite Nat.sub_0_r.
  destruct (enum levels x d []); reflexivity.
Qed.

Lemma refs_case : forall c, In c units -> match units with [] => Err KeyError | _ => Ok (refs_of units) end = Ok (refs_of units).
Proof. intros c Hc. destruct units; [destruct Hc|reflexivity]. Qed.

(** Reading a unit. *)
Lemma read_unit : forall same self c, o_xml (text_object self) = x -> good_urn (o_urn self) -> In c units ->
  exists R u' P e, get_node scheme same self (reference_to c) = Ok (OPass (reference_to c) R (text_object self) u') /\
    cites_only levels x c P /\ at_position (document x) P e /\ text_of R = text_of e /\
    lines 0 R = passage_lines (part_of (tl P) (tl P)) x.
Proof.
  intros same self c Hx Hgu Hc. destruct (units_good c Hc) as [Nc Gc]. pose proof (good_plain c Gc) as Pc.
  destruct (units_only c Hc) as [p Hp]. pose proof (proj1 (units_spec c) Hc) as [Hl _].
  destruct (get_node_single levels (proj1 Hclear) same self x (reference_to c) p Hx Hgu (writable_single c Nc Gc)) as (R & u' & P & e & H1 & H2 & H3 & H4 & H5).
  - cbn [r_start reference_to]. rewrite id_depth_join by assumption. lia.
  - reflexivity.
  - cbn [r_start reference_to]. rewrite id_list_join by assumption. apply good_safe. exact Gc.
  - cbn [r_start reference_to]. rewrite id_list_join by assumption. apply Hp.
  - cbn [r_start reference_to] in H2. rewrite id_list_join in H2 by assumption. exists R, u', P, e. split; [exact H1|]. split; [|auto].
    rewrite (proj2 Hp P H2). exact Hp.
Qed.

(** Reading a range. *)
Lemma read_range : forall self a b P1 P2, o_xml (text_object self) = x -> good_urn (o_urn self) -> In a units -> In b units ->
  cites levels x a P1 -> cites levels x b P2 -> precedes P1 P2 = true ->
  exists R u', get_node scheme identity_only self (range_to a b) = Ok (OPass (range_to a b) R (text_object self) u') /\
    lines 0 R = passage_lines (part_of (tl P1) (tl P2)) x /\ document R = prune (part_of P1 P2) [] (document x) /\ good_urn u'.
Proof.
  intros self a b P1 P2 Hx Hgu Ha Hb C1 C2 Ho. destruct (units_good a Ha) as [Na Ga], (units_good b Hb) as [Nb Gb].
  pose proof (good_plain a Ga) as Pa. pose proof (good_plain b Gb) as Pb.
  pose proof (proj1 (units_spec a) Ha) as [La _]. pose proof (proj1 (units_spec b) Hb) as [Lb _].
  pose proof (ends_apart levels x a b P1 P2 d Hd La Lb C1 C2 Ho Hnn) as Hap.
  assert (Hrt : rooted levels) by apply (proj1 Hclear).
  destruct (get_node_range levels (proj1 Hclear) self x (range_to a b) P1 P2 Hx Hgu (writable_range a b Na Ga Nb Gb)) as (R & u' & H1 & H2 & _ & H3);
    unfold last_id; cbn [r_start r_end range_to]; rewrite ?id_depth_join, ?id_list_join by assumption;
    try lia; try (apply good_safe; assumption).
  - split; [exact C1|]. intros q Hq. apply (Hun a); [lia|exact Hq|exact C1].
  - split; [exact C2|]. intros q Hq. apply (Hun b); [lia|exact Hq|exact C2].
  - right. exact Ho.
  - rewrite Hap in H2. exists R, u'. split; [exact H1|]. split; [exact H2|]. split; [|exact H3].
    apply (cites_tail levels x _ Hrt Na) in C1. destruct C1 as (p1 & -> & _). apply (cites_tail levels x _ Hrt Nb) in C2. destruct C2 as (p2 & -> & _).
    cbn [tl] in H2. rewrite <- document_prune. f_equal. apply prune_of_lines; [apply part_of_closed|apply part_of_root|exact H2].
    right. split; [exact Ho|exact Hap].
Qed.

(** getReffs of a range, at any level. *)
Lemma range_reffs : forall self a b P1 P2 R u' level k, o_xml (text_object self) = x -> In a units -> In b units ->
  cites levels x a P1 -> cites levels x b P2 -> precedes P1 P2 = true ->
  get_node scheme identity_only self (range_to a b) = Ok (OPass (range_to a b) R (text_object self) u') ->
  document R = prune (part_of P1 P2) [] (document x) ->
  Z.of_nat k = Z.max (match level with
                      | None => Z.of_nat d + Z.of_nat (length (common a b))
                      | Some 1%Z => Z.of_nat d + 1 | Some 0%Z => Z.of_nat d | Some l => l end) (Z.of_nat (length (common a b)) + 1) ->
  valid_reff scheme identity_only self level (Some (range_to a b)) =
  if Nat.ltb (length levels) k then Err CitationDepthError else l <- listed levels R (common a b) k ;; Ok (l, Z.of_nat k).
Proof.
  intros self a b P1 P2 R u' level k Hx Ha Hb C1 C2 Ho HG HR Hk.
  destruct (units_good a Ha) as [Na Ga], (units_good b Hb) as [Nb Gb].
  pose proof (good_plain a Ga) as Pa. pose proof (good_plain b Gb) as Pb.
  pose proof (proj1 (units_spec a) Ha) as [La _]. pose proof (proj1 (units_spec b) Hb) as [Lb _].
  assert (HplR : plain_units levels R).
  { apply (plain_units_R levels x R a b P1 P2 d Hd La Lb C1 C2 Ho Hnn HR). apply good_units_plain. exact Hgood. }
  rewrite <- (level_listing levels R Hwf Hsm HplR).
  - unfold valid_reff, reff_start. cbn [r_end range_to]. rewrite HG. cbn [bind r_start range_to].
    rewrite !id_list_join, !id_depth_join by assumption. rewrite common_same_length by lia. cbn [bind o_xml]. rewrite La.
    set (n := length (common a b)) in *.
    replace (match match level with
                   | None => Some (Z.of_nat d + Z.of_nat n)%Z | Some 1%Z => Some (Z.of_nat d + 1)%Z | Some 0%Z => Some (Z.of_nat d) | Some l => Some l end with
             | Some l => l | None => 1%Z end)
      with (match level with
            | None => Z.of_nat d + Z.of_nat n | Some 1%Z => Z.of_nat d + 1 | Some 0%Z => Z.of_nat d | Some l => l end)%Z
      by (destruct level as [[|[| |]|]|]; reflexivity).
    rewrite andb_true_r.
    match goal with |- context [if (?A <=? ?B)%Z then ?C else ?D] => replace (if (A <=? B)%Z then C else D) with (Z.of_nat k) end.
    2:{ rewrite Hk. destruct (Z.leb_spec (match level with
            | None => Z.of_nat d + Z.of_nat n | Some 1%Z => Z.of_nat d + 1 | Some 0%Z => Z.of_nat d | Some l => l end)%Z (Z.of_nat n)) as [L|L]; lia. }
    reflexivity.
  - lia.
  - apply good_quote. destruct (common_begins a b) as [[r E] _]. rewrite E in Ga. apply Forall_app in Ga. apply Ga.
Qed.

(** The references of the level that lie in the range. *)
Lemma range_level : forall self a b P1 P2 i j, o_xml (text_object self) = x -> good_urn (o_urn self) ->
  nth_error units i = Some a -> nth_error units j = Some b -> cites levels x a P1 -> cites levels x b P2 -> precedes P1 P2 = true ->
  get_reffs scheme identity_only self (Some 0%Z) (Some (range_to a b)) = Ok (refs_of (firstn (S j - i) (skipn i units))).
Proof.
  intros self a b P1 P2 i j Hx Hgu Hi Hj C1 C2 Ho. pose proof (nth_error_In _ _ Hi) as Ha. pose proof (nth_error_In _ _ Hj) as Hb.
  pose proof (proj1 (units_spec a) Ha) as [La _]. pose proof (proj1 (units_spec b) Hb) as [Lb _].
  destruct (read_range self a b P1 P2 Hx Hgu Ha Hb C1 C2 Ho) as (R & u' & HG & _ & HR & _).
  pose proof (common_short levels x R a b P1 P2 d Hd La Lb C1 C2 Ho Hnn HR d ltac:(lia) Hun) as Hsh.
  unfold get_reffs. rewrite (range_reffs self a b P1 P2 R u' (Some 0%Z) d Hx Ha Hb C1 C2 Ho HG HR) by lia.
  replace (length levels <? d)%nat with false by (symmetry; apply Nat.ltb_ge; lia).
  unfold listed. rewrite (range_slice levels x R a b P1 P2 d i j) by assumption. fold units.
  assert (Hin : In a (firstn (S j - i) (skipn i units))).
  { assert (i <= j).
    { destruct (le_lt_dec i j) as [H|H]; [exact H|]. exfalso.
      assert (Hnd : not_nested levels x d) by (intros m p q Hm; apply Hnn; lia).
      pose proof (sorted_nth _ _ units j i b a (whole_sorted levels x d Hwf Hd Hun Hnd) Hj Hi H P2 P1 C2 C1) as Hba.
      pose proof (precedes_trans _ _ _ Ho Hba) as Hpp. rewrite precedes_irrefl in Hpp. discriminate. }
    apply (nth_error_In _ 0). rewrite nth_slice. replace (0 <? S j - i) with true by (symmetry; apply Nat.ltb_lt; lia). rewrite Nat.add_0_r. exact Hi. }
  destruct (firstn (S j - i) (skipn i units)) as [|c l]; [destruct Hin|]. reflexivity.
Qed.

(** Units further in the list come later in the document. *)
Lemma units_order : forall i j a b P1 P2, nth_error units i = Some a -> nth_error units j = Some b -> i < j ->
  cites levels x a P1 -> cites levels x b P2 -> precedes P1 P2 = true.
Proof.
  intros i j a b P1 P2 Hi Hj Hij C1 C2. assert (Hnd : not_nested levels x d) by (intros m p q Hm; apply Hnn; lia).
  exact (sorted_nth _ _ units i j a b (whole_sorted levels x d Hwf Hd Hun Hnd) Hi Hj Hij P1 P2 C1 C2).
Qed.

(** ** Siblings *)

Lemma single_siblings : forall same u R u' i c, nth_error units i = Some c ->
  siblings scheme same (OPass (reference_to c) R (OText x u) u') =
  Ok (match i with 0 => None | S i' => member units i' end, member units (S i)).
Proof.
  intros same u R u' i c Hi. pose proof (nth_error_In _ _ Hi) as Hc. destruct (units_plain c Hc) as [Nc Pc].
  pose proof (proj1 (units_spec c) Hc) as [Lc _]. assert (Hlen : i < length units) by (apply nth_error_Some; congruence).
  unfold siblings. cbn [r_start r_end reference_to]. rewrite id_depth_join by assumption. rewrite Nat.eqb_refl. cbn [negb].
  rewrite Lc, whole_reffs, (refs_case c Hc). cbn [bind]. rewrite (set_index_refs units i c units_plain units_nodup Hi). cbn [bind].
  rewrite single_before, single_after by assumption. reflexivity.
Qed.

Lemma range_siblings : forall u R u' i j a b, good_urn u' -> i < j -> nth_error units i = Some a -> nth_error units j = Some b ->
  siblings scheme identity_only (OPass (range_to a b) R (OText x u) u') =
  Ok (if Nat.eqb i 0 then None else window units (i - Nat.min i (S j - i)) (i - 1),
      if Nat.eqb (j + 1) (length units) then None else window units (j + 1) (Nat.min (j + (S j - i)) (length units - 1))).
Proof.
  intros u R u' i j a b Hgu Hij Hi Hj. pose proof (nth_error_In _ _ Hi) as Ha. pose proof (nth_error_In _ _ Hj) as Hb.
  destruct (units_plain a Ha) as [Na Pa], (units_plain b Hb) as [Nb Pb].
  pose proof (proj1 (units_spec a) Ha) as [La [P1 C1]]. pose proof (proj1 (units_spec b) Hb) as [Lb [P2 C2]].
  assert (Hlen : j < length units) by (apply nth_error_Some; congruence).
  unfold siblings. cbn [r_start r_end range_to]. rewrite !id_depth_join by assumption. rewrite La, Lb, Nat.eqb_refl. cbn [negb].
  rewrite whole_reffs, (refs_case a Ha). cbn [bind].
  change (get_reffs scheme identity_only (OPass (range_to a b) R (OText x u) u') (Some 0%Z) None) with
    (get_reffs scheme identity_only (OPass (range_to a b) R (OText x u) u') (Some 0%Z) (Some (range_to a b))).
  rewrite (range_level (OPass (range_to a b) R (OText x u) u') a b P1 P2 i j eq_refl Hgu Hi Hj C1 C2 (units_order i j a b P1 P2 Hi Hj Hij C1 C2)).
  cbn [bind]. rewrite (set_index_refs units i a units_plain units_nodup Hi), (set_index_refs units j b units_plain units_nodup Hj). cbn [bind].
  rewrite refs_length, firstn_length, skipn_length.
  replace (Nat.min (S j - i) (length units - i)) with (S j - i) by lia.
  rewrite range_before, range_after by (try exact units_plain; lia). reflexivity.
Qed.

End Clear.
