(** The lists of references and the passages of a text with clear references. *)

From Coq Require Import List NArith ZArith Arith Bool Lia Sorted.
From Verif Require Import PyStr PyStrFacts RefModel RefSpec RefProofs CiteModel SchemeModel UrnModel UrnSpec UrnProofs.
From Verif Require Import XmlModel XmlSpec XmlProofs XPathModel TemplateSpec TemplateProofs.
From Verif Require Import PassageModel PassageSpec PassageWords PassageProofs PassageTree PassageNav PassageRange PassageApi PassageFinal.
From Verif Require Import WalkModel WalkSpec.
Import ListNotations.

Section Clear.
Variables (levels : list level) (x : node) (same : node -> node -> bool) (u : option urn).
Hypothesis Hclear : clear_text levels x (length levels).
Notation scheme := (write_scheme levels).
Notation text := (OText x u).

Local Lemma Hwf : Forall wf_level levels. Proof using Hclear. apply Hclear. Qed.
Local Lemma Hsm : length levels <= 999. Proof using Hclear. apply Hclear. Qed.
Local Lemma Hpl : plain_units levels x. Proof using Hclear. apply good_units_plain. apply Hclear. Qed.

Lemma clear_less : forall d, d <= length levels -> clear_text levels x d.
Proof using Hclear.
  intros d Hd. destruct Hclear as (H1 & H2 & H3 & H4). split; [exact H1|]. split; [exact H2|]. split.
  - intros c p q Hc. apply H3. lia.
  - intros j p q Hj. apply H4. lia.
Qed.

Lemma some_level : 0 < length levels.
Proof using Hclear. destruct Hclear as ((_ & _ & (lv & rest & _ & _ & -> & _) & _) & _). cbn. lia. Qed.

Lemma listed_before : forall parts k l, length parts < k <= length levels -> listed levels x parts k = Ok l -> StronglySorted (before levels x) l.
Proof using Hclear.
  intros parts k l Hk H. rewrite (listed_enum _ _ _ _ _ H).
  pose proof (enum_order levels x Hwf (k - length parts) parts) as Ho.
  replace (length parts + (k - length parts)) with k in Ho by lia. destruct (clear_less k (proj2 Hk)) as (_ & _ & Hun & Hnn).
  specialize (Ho ltac:(lia) ltac:(lia) Hun ltac:(intros j p q Hj; apply Hnn; lia)).
  assert (Hp : forall c, In c (enum levels x (k - length parts) parts) -> named c /\ exists p, cites levels x c p).
  { intros c Hc. split; [apply (enum_plain levels x Hwf Hsm Hpl parts k c); assumption|]. apply In_enum in Hc; [apply Hc|exact Hwf|lia|lia]. }
  clear H Hun Hnn. induction Ho as [|c l' Ho IH F]; [constructor|]. cbn [map]. constructor; [apply IH; intros d Hd; apply Hp; right; exact Hd|].
  apply Forall_forall. intros o Hi. apply in_map_iff in Hi. destruct Hi as (d & <- & Hd). rewrite Forall_forall in F. specialize (F d Hd).
  destruct (Hp c (or_introl eq_refl)) as [Nc [p Hcp]]. destruct (Hp d (or_intror Hd)) as [Nd [q Hdq]]. exists c, d, p, q. repeat (split; [assumption || reflexivity|]). apply F; assumption.
Qed.

Lemma told_listed : forall parts k, length parts < k ->
  told_level levels x parts k (if length levels <? k then Err CitationDepthError else listed levels x parts k).
Proof using Hclear.
  intros parts k Hk. destruct (Nat.ltb_spec (length levels) k) as [L|L]; [exact L|].
  destruct (listed_full levels x Hwf Hsm parts k ltac:(lia)) as [(l & El & Nl & HL)|[El HN]]; rewrite El; [|cbn; auto].
  destruct (clear_less k L) as (_ & _ & Hun & Hnn). cbn. split; [exact L|]. split; [exact Nl|]. split; [exact HL|]. split.
  - apply (listed_once levels x Hwf Hsm Hpl parts k l ltac:(lia) El Hun).
  - apply (listed_before parts k l ltac:(lia) El).
Qed.

Lemma told_text : forall k, 0 < k -> told_level levels x [] k (get_reffs scheme same text (Some (Z.of_nat k)) None).
Proof using Hclear.
  intros k Hk. rewrite (reffs_text levels x same u _ k Hwf Hsm Hpl Hk (or_introl eq_refl)). apply told_listed. exact Hk.
Qed.

Lemma told_below : forall self level parts k, o_xml (text_object self) = x -> parts <> [] -> Forall plain parts ->
  Z.of_nat k = Z.max level (Z.of_nat (length parts) + 1) ->
  told_level levels x parts k (get_reffs scheme same self (Some level) (Some (reference_to parts))).
Proof using Hclear.
  intros self level parts k Hx Np Pp Hk. rewrite (reffs_single levels x same self (Some level) parts k Hwf Hsm Hpl Hx Np Pp Hk). apply told_listed. lia.
Qed.

(** Identifiers that cite something. *)
Definition cited (c : list str) : Prop := c <> [] /\ Forall good_id c /\ length c <= length levels /\ exists p, cites levels x c p.

Lemma cited_unit : forall c, cited c -> 0 < length c <= length levels /\ In c (units levels x (length c)).
Proof using Hclear.
  intros c (Nc & Gc & Lc & p & Hp). assert (Hd : 0 < length c <= length levels) by (destruct c; [congruence|cbn in *; lia]). split; [exact Hd|].
  apply (units_spec levels x (length c) (clear_less _ Lc) Hd). eauto.
Qed.

Lemma unit_cited : forall d c, 0 < d <= length levels -> length c = d -> (exists p, cites levels x c p) -> cited c.
Proof using Hclear.
  intros d c Hd Hc Hp. assert (I : In c (units levels x d)) by (apply (units_spec levels x d (clear_less _ (proj2 Hd)) Hd); auto).
  destruct (units_good levels x d (clear_less _ (proj2 Hd)) Hd c I). repeat split; try assumption. lia.
Qed.

Lemma listing_cited : forall parts k l o, listing levels x parts k l -> 0 < k <= length levels -> In o l ->
  exists c, o = Some (reference_to c) /\ length c = k /\ cited c.
Proof using Hclear.
  intros parts k l o (HL & _) Hk Ho. apply HL in Ho. destruct Ho as (c & p & -> & Lc & _ & Hp). exists c. split; [reflexivity|]. split; [exact Lc|].
  apply (unit_cited k); eauto.
Qed.

Lemma cited_named : forall c, cited c -> named c.
Proof using. intros c (H1 & H2 & _). split; [exact H1|apply good_plain; exact H2]. Qed.

(** Reading from anything that knows the text. *)
Lemma node_read : forall self c, o_xml (text_object self) = x -> good_urn (o_urn self) -> cited c ->
  exists R v, get_node scheme same self (reference_to c) = Ok (OPass (reference_to c) R (text_object self) v) /\ good_urn v /\ rebuilt_content levels x c R.
Proof using Hclear.
  intros self c Hx Hgu Hc. destruct (cited_unit c Hc) as [Hd Hi]. destruct Hc as (Nc & Gc & Lc & _). pose proof (good_plain c Gc) as Pc.
  destruct (read_unit levels x (length c) (clear_less _ Lc) Hd same self c Hx Hgu Hi) as (R & v & P & e & HG & H2 & H3 & H4 & H5).
  exists R, v. split; [exact HG|]. split; [|exists P, e; auto]. revert HG. rewrite get_node_steps; try apply Hclear;
    unfold last_id; cbn [r_start r_end reference_to]; rewrite ?id_depth_join, ?id_list_join by assumption; try lia; try (apply good_safe; exact Gc).
  destruct (extract same _ _ _) as [root|]; [|discriminate]. cbn [bind].
  destruct (passage_made (o_urn self) (reference_to c) root (text_object self) Hgu (writable_single c Nc Gc)) as (v' & Ev & Gv). rewrite Ev. intros [= _ ->]. exact Gv.
Qed.

Lemma node_deep : forall self c, c <> [] -> Forall plain c -> length levels < length c -> get_node scheme same self (reference_to c) = Err CitationDepthError.
Proof using.
  intros self c Nc Pc Lc. assert (E : shared_node scheme same self (reference_to c) = Err CitationDepthError).
  { unfold shared_node. cbn [r_start reference_to]. rewrite id_depth_join, scheme_length by assumption.
    replace (length levels <? length c) with true by (symmetry; apply Nat.ltb_lt; exact Lc). reflexivity. }
  destruct self; cbn [get_node]; rewrite E; reflexivity.
Qed.

(** Whether some identifiers cite anything can be decided. *)
Lemma cites_dec : forall c, c <> [] -> (exists p, cites levels x c p) \/ forall p, ~ cites levels x c p.
Proof using Hclear.
  intros c Nc. pose proof some_level as SL. assert (Hne : mean levels (map Some c) <> []).
  { apply mean_nonnil; [intros E; rewrite E in SL; cbn in SL; lia|]. destruct c; [congruence|discriminate]. }
  destruct (xpath_abs x (mean levels (map Some c))) as [|p l] eqn:E.
  - right. intros p Hp. apply (In_xpath _ _ _ Hne) in Hp. unfold xpath_abs in E. rewrite E in Hp. destruct Hp.
  - left. exists p. apply (In_xpath _ _ _ Hne). unfold xpath_abs in E. rewrite E. left. reflexivity.
Qed.
End Clear.
