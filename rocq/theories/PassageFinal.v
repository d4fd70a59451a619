(** The properties of local texts, in terms of getReffs and getTextualNode. *)

From Coq Require Import List NArith ZArith Arith Bool Lia Sorted.
From Verif Require Import PyStr PyStrFacts RefModel RefSpec RefProofs CiteModel SchemeModel UrnModel UrnSpec UrnProofs.
From Verif Require Import XmlModel XmlSpec XmlProofs XPathModel TemplateSpec TemplateProofs.
From Verif Require Import PassageModel PassageSpec PassageWords PassageProofs PassageTree PassageNav PassageRange PassageApi.
Import ListNotations.

(** ** getReffs *)

Lemma reffs_text : forall levels x same u level k, Forall wf_level levels -> length levels <= 999 -> plain_units levels x -> 0 < k ->
  level = Some (Z.of_nat k) \/ level = None /\ k = 1 ->
  get_reffs (write_scheme levels) same (OText x u) level None = if length levels <? k then Err CitationDepthError else listed levels x [] k.
Proof.
  intros levels x same u level k Hwf Hsm Hpl Hk Hl. unfold get_reffs.
  rewrite (reffs_whole levels x same Hwf Hsm Hpl (OText x u) level k eq_refl Hk Hl).
  destruct (length levels <? k); [reflexivity|]. destruct (listed levels x [] k); reflexivity.
Qed.

Lemma reffs_single : forall levels x same self level parts k, Forall wf_level levels -> length levels <= 999 -> plain_units levels x ->
  o_xml (text_object self) = x -> parts <> [] -> Forall plain parts ->
  Z.of_nat k = Z.max (match level with Some l => l | None => 1 end) (Z.of_nat (length parts) + 1) ->
  get_reffs (write_scheme levels) same self level (Some (reference_to parts)) = if length levels <? k then Err CitationDepthError else listed levels x parts k.
Proof.
  intros levels x same self level parts k Hwf Hsm Hpl Hx Hne Hp Hk. unfold get_reffs.
  rewrite (reffs_below levels x same Hwf Hsm Hpl self level (reference_to parts) k Hx eq_refl); cbn [r_start reference_to]; rewrite id_list_join by assumption.
  - destruct (length levels <? k); [reflexivity|]. destruct (listed levels x parts k); reflexivity.
  - eapply Forall_impl; [|exact Hp]. intros v Hv. apply Hv.
  - exact Hk.
Qed.

Lemma reffs_text_full : forall levels x same u level k, Forall wf_level levels -> length levels <= 999 -> plain_units levels x -> 0 < k ->
  level = Some (Z.of_nat k) \/ level = None /\ k = 1 ->
  match get_reffs (write_scheme levels) same (OText x u) level None with
  | Ok l => k <= length levels /\ l <> [] /\ lists_level levels x [] k l
  | Err CitationDepthError => length levels < k
  | Err KeyError => k <= length levels /\ forall comps p, length comps = k -> ~ cites levels x comps p
  | Err _ => False
  end.
Proof.
  intros levels x same u level k Hwf Hsm Hpl Hk Hl. rewrite (reffs_text levels x same u level k) by assumption.
  destruct (Nat.ltb_spec (length levels) k) as [L|L]; [exact L|].
  destruct (listed_full levels x Hwf Hsm [] k ltac:(cbn; lia)) as [(l & E & H1 & H2)|(E & H)]; rewrite E; [auto|].
  split; [exact L|]. intros comps p Hc. apply H; [exact Hc|exists comps; reflexivity].
Qed.

Lemma reffs_single_full : forall levels x same self level parts k, Forall wf_level levels -> length levels <= 999 -> plain_units levels x ->
  o_xml (text_object self) = x -> parts <> [] -> Forall plain parts ->
  Z.of_nat k = Z.max (match level with Some l => l | None => 1 end) (Z.of_nat (length parts) + 1) ->
  match get_reffs (write_scheme levels) same self level (Some (reference_to parts)) with
  | Ok l => k <= length levels /\ l <> [] /\ lists_level levels x parts k l
  | Err CitationDepthError => length levels < k
  | Err KeyError => k <= length levels /\ forall comps p, length comps = k -> begins parts comps -> ~ cites levels x comps p
  | Err _ => False
  end.
Proof.
  intros levels x same self level parts k Hwf Hsm Hpl Hx Hne Hp Hk. rewrite (reffs_single levels x same self level parts k) by assumption.
  destruct (Nat.ltb_spec (length levels) k) as [L|L]; [exact L|].
  destruct (listed_full levels x Hwf Hsm parts k ltac:(lia)) as [(l & E & H1 & H2)|(E & H)]; rewrite E; auto.
Qed.

Lemma text_listed : forall levels x same u level k l, Forall wf_level levels -> length levels <= 999 -> plain_units levels x -> 0 < k ->
  level = Some (Z.of_nat k) \/ level = None /\ k = 1 -> get_reffs (write_scheme levels) same (OText x u) level None = Ok l ->
  k <= length levels /\ listed levels x [] k = Ok l.
Proof.
  intros levels x same u level k l Hwf Hsm Hpl Hk Hl H. rewrite (reffs_text levels x same u level k) in H by assumption.
  destruct (Nat.ltb_spec (length levels) k) as [L|L]; [discriminate|]. auto.
Qed.

(** ** The units of a level, from the list of references *)

Lemma clear_listed : forall levels x d same u l, clear_text levels x d -> 0 < d ->
  get_reffs (write_scheme levels) same (OText x u) (Some (Z.of_nat d)) None = Ok l ->
  d <= length levels /\ l = refs_of (units levels x d).
Proof.
  intros levels x d same u l ((Hwf & Hsm & _) & Hg & _) Hd H.
  destruct (text_listed levels x same u _ d l Hwf Hsm (good_units_plain _ _ Hg) Hd (or_introl eq_refl) H) as [Hl HL].
  split; [exact Hl|]. rewrite (listed_enum levels x _ _ _ HL). cbn [length]. rewrite Nat.sub_0_r. reflexivity.
Qed.

Lemma nth_refs_inv : forall E i r, nth_error (refs_of E) i = Some (Some r) -> exists c, nth_error E i = Some c /\ r = reference_to c.
Proof. intros E i r H. rewrite nth_refs in H. destruct (nth_error E i) as [c|]; [|discriminate]. injection H as <-. eauto. Qed.

Lemma entry_member : forall E i, entry (refs_of E) i = member E i.
Proof. intros E i. unfold entry, member. rewrite nth_refs. destruct (nth_error E i); reflexivity. Qed.

(** ** Reading *)

Lemma read_listed : forall levels x d same u l r, clear_text levels x d -> 0 < d -> good_urn u ->
  get_reffs (write_scheme levels) same (OText x u) (Some (Z.of_nat d)) None = Ok l -> In (Some r) l ->
  exists comps P e R u', r = reference_to comps /\ cites_only levels x comps P /\ at_position (document x) P e /\
    get_node (write_scheme levels) same (OText x u) r = Ok (OPass r R (OText x u) u') /\
    text_of R = text_of e /\ lines 0 R = passage_lines (part_of (tl P) (tl P)) x /\
    exists u2, simple_node (write_scheme levels) (OText x u) r = Ok (MkSimple (Some r) x P (OText x u) u2).
Proof.
  intros levels x d same u l r Hcl Hd Hgu H Hr. destruct (clear_listed levels x d same u l Hcl Hd H) as [Hl ->].
  apply In_nth_error in Hr. destruct Hr as [i Hi]. apply nth_refs_inv in Hi. destruct Hi as (c & Hi & ->).
  pose proof (nth_error_In _ _ Hi) as Hc. destruct (read_unit levels x d Hcl (conj Hd Hl) same (OText x u) c eq_refl Hgu Hc) as (R & u' & P & e & H1 & H2 & H3 & H4 & H5).
  exists c, P, e, R, u'. split; [reflexivity|]. split; [exact H2|]. split; [exact H3|]. split; [exact H1|]. split; [exact H4|]. split; [exact H5|].
  destruct (units_good levels x d Hcl (conj Hd Hl) c Hc) as [Nc Gc]. pose proof (good_plain c Gc) as Pc.
  destruct (proj1 (units_spec levels x d Hcl (conj Hd Hl) c) Hc) as [Lc _].
  apply (simple_node_spec levels (proj1 Hcl) (OText x u) x (reference_to c) P eq_refl eq_refl Hgu (writable_single c Nc Gc));
    cbn [r_start reference_to]; rewrite ?id_depth_join, ?id_list_join by assumption; [lia|apply good_safe; exact Gc|exact H2].
Qed.

Lemma read_simple_refused : forall levels x u a, usable_scheme levels -> a <> [] -> Forall good_id a -> length a <= length levels ->
  (forall P, ~ cites_only levels x a P) -> simple_node (write_scheme levels) (OText x u) (reference_to a) = Err InvalidURN.
Proof.
  intros levels x u a Hu Na Ga La Hno. pose proof (good_plain a Ga) as Pa.
  apply (simple_node_refused levels Hu (OText x u) x (reference_to a) eq_refl eq_refl);
    cbn [r_start reference_to]; rewrite ?id_depth_join, ?id_list_join by assumption; [lia|apply good_safe; exact Ga|exact Hno].
Qed.

(** A range or a single reference, the ends being of any depth. *)
Lemma read_span : forall levels x self a b P1 P2, usable_scheme levels -> o_xml (text_object self) = x -> good_urn (o_urn self) ->
  a <> [] -> Forall good_id a -> length a <= length levels -> b <> [] -> Forall good_id b -> length b <= length levels ->
  cites_only levels x a P1 -> cites_only levels x b P2 -> is_prefix P1 P2 = true \/ precedes P1 P2 = true ->
  exists R u', get_node (write_scheme levels) identity_only self (range_to a b) = Ok (OPass (range_to a b) R (text_object self) u') /\
    lines 0 R = passage_lines (part_of (tl P1) (tl (if is_prefix P1 P2 then P1 else P2))) x.
Proof.
  intros levels x self a b P1 P2 Hu Hx Hgu Na Ga La Nb Gb Lb C1 C2 Ho.
  pose proof (good_plain a Ga) as Pa. pose proof (good_plain b Gb) as Pb.
  destruct (get_node_range levels Hu self x (range_to a b) P1 P2 Hx Hgu (writable_range a b Na Ga Nb Gb)) as (R & u' & H1 & H2 & _);
    unfold last_id; cbn [r_start r_end range_to]; rewrite ?id_depth_join, ?id_list_join by assumption;
    try assumption; try (apply good_safe; assumption). eauto.
Qed.

Lemma read_one : forall levels x self a P, usable_scheme levels -> o_xml (text_object self) = x -> good_urn (o_urn self) ->
  a <> [] -> Forall good_id a -> length a <= length levels -> cites_only levels x a P ->
  exists R u', get_node (write_scheme levels) identity_only self (reference_to a) = Ok (OPass (reference_to a) R (text_object self) u') /\
    lines 0 R = passage_lines (part_of (tl P) (tl P)) x.
Proof.
  intros levels x self a P Hu Hx Hgu Na Ga La C. pose proof (good_plain a Ga) as Pa.
  destruct (get_node_range levels Hu self x (reference_to a) P P Hx Hgu (writable_single a Na Ga)) as (R & u' & H1 & H2 & _);
    unfold last_id; cbn [r_start r_end reference_to]; rewrite ?id_depth_join, ?id_list_join by assumption;
    try assumption; try (apply good_safe; assumption); [left; apply is_prefix_refl|].
  rewrite is_prefix_refl in H2. eauto.
Qed.

Lemma read_unknown : forall levels x same self a b, usable_scheme levels -> proper_root levels x -> o_xml (text_object self) = x ->
  a <> [] -> Forall good_id a -> length a <= length levels -> b <> [] -> Forall good_id b -> length b <= length levels ->
  (forall p, ~ cites levels x a p) \/ (forall p, ~ cites levels x b p) ->
  get_node (write_scheme levels) same self (range_to a b) = Err IndexError.
Proof.
  intros levels x same self a b Hu Hroot Hx Na Ga La Nb Gb Lb Hno.
  pose proof (good_plain a Ga) as Pa. pose proof (good_plain b Gb) as Pb. assert (Hrt : rooted levels) by apply Hu.
  rewrite get_node_steps; try assumption;
    unfold last_id; cbn [r_start r_end range_to]; rewrite ?id_depth_join, ?id_list_join by assumption;
    try assumption; try (apply good_safe; assumption).
  rewrite Hx. assert (T : forall c, c <> [] -> (forall p, ~ cites levels x c p) -> forall p, ~ selects (tl (mean levels (map Some c))) x p).
  { intros c Nc Hc p Hp. destruct (mean_rooted levels (map Some c) Hrt) as (s & rest & E & Hs); [intros E; apply map_eq_nil in E; contradiction|].
    apply (Hc (0 :: p)). apply (cites_tail levels x c Hrt Nc). exists p. split; [reflexivity|]. split; [exact Hp|].
    rewrite E. exact (Hroot s rest c Nc E). }
  rewrite extract_nothing; [reflexivity|]. destruct Hno as [H|H]; [left|right]; apply T; assumption.
Qed.

Lemma read_unknown_one : forall levels x same self a, usable_scheme levels -> proper_root levels x -> o_xml (text_object self) = x ->
  a <> [] -> Forall good_id a -> length a <= length levels -> (forall p, ~ cites levels x a p) ->
  get_node (write_scheme levels) same self (reference_to a) = Err IndexError.
Proof.
  intros levels x same self a Hu Hroot Hx Na Ga La Hno.
  pose proof (good_plain a Ga) as Pa. assert (Hrt : rooted levels) by apply Hu.
  rewrite get_node_steps; try assumption;
    unfold last_id; cbn [r_start r_end reference_to]; rewrite ?id_depth_join, ?id_list_join by assumption;
    try assumption; try (apply good_safe; assumption).
  rewrite Hx. assert (T : forall p, ~ selects (tl (mean levels (map Some a))) x p).
  { intros p Hp. destruct (mean_rooted levels (map Some a) Hrt) as (s & rest & E & Hs); [intros E; apply map_eq_nil in E; contradiction|].
    apply (Hno (0 :: p)). apply (cites_tail levels x a Hrt Na). exists p. split; [reflexivity|]. split; [exact Hp|].
    rewrite E. exact (Hroot s rest a Na E). }
  rewrite extract_nothing; [reflexivity|]. left. exact T.
Qed.

Lemma read_objectified : forall eqv levels x self a b P1 P2, usable_scheme levels -> o_xml (text_object self) = x ->
  a <> [] -> Forall good_id a -> length a <= length levels -> b <> [] -> Forall good_id b -> length b <= length levels ->
  cites_only levels x a P1 -> cites_only levels x b P2 -> is_prefix P1 P2 = true \/ precedes P1 P2 = true ->
  (forall P q i m j ki kj, P = P1 \/ P = P2 -> P = q ++ [i] -> at_position (document x) q m ->
     nth_error (n_kids m) i = Some ki -> nth_error (n_kids m) j = Some kj -> j <> i ->
     n_kids ki = [] -> n_kids kj = [] -> eqv (n_text kj) (n_text ki) = false) ->
  get_node (write_scheme levels) (objectified eqv) self (range_to a b) = get_node (write_scheme levels) identity_only self (range_to a b).
Proof.
  intros eqv levels x self a b P1 P2 Hu Hx Na Ga La Nb Gb Lb C1 C2 Ho Hd.
  pose proof (good_plain a Ga) as Pa. pose proof (good_plain b Gb) as Pb. assert (Hrt : rooted levels) by apply Hu.
  rewrite !get_node_steps; try assumption;
    unfold last_id; cbn [r_start r_end range_to]; rewrite ?id_depth_join, ?id_list_join by assumption;
    try assumption; try (apply good_safe; assumption).
  destruct (cites_only_tail _ _ _ _ Hrt Na C1) as (p1 & -> & S1). destruct (cites_only_tail _ _ _ _ Hrt Nb C2) as (p2 & -> & S2).
  rewrite Hx. destruct (extract_objectified eqv x _ _ p1 p2 (tail_nonnil _ _ Hrt Na) (tail_nonnil _ _ Hrt Nb) S1 S2) as (R & E1 & E2).
  - intros P q i m j ki kj HP EP Hm. apply (Hd (0 :: P) (0 :: q) i m j ki kj); [destruct HP; subst; auto|cbn; congruence|].
    apply at_position_cons. exists x. split; [reflexivity|exact Hm].
  - exact Ho.
  - rewrite E1, E2. reflexivity.
Qed.

(** ** Siblings *)

Lemma siblings_single : forall levels x d same u l i r R u', clear_text levels x d -> 0 < d ->
  get_reffs (write_scheme levels) same (OText x u) (Some (Z.of_nat d)) None = Ok l -> nth_error l i = Some (Some r) ->
  siblings (write_scheme levels) same (OPass r R (OText x u) u') = Ok (match i with 0 => None | S i' => entry l i' end, entry l (S i)).
Proof.
  intros levels x d same u l i r R u' Hcl Hd H Hi. destruct (clear_listed levels x d same u l Hcl Hd H) as [Hl ->].
  apply nth_refs_inv in Hi. destruct Hi as (c & Hi & ->).
  rewrite (single_siblings levels x d Hcl (conj Hd Hl) same u R u' i c Hi). f_equal. f_equal; [destruct i; [reflexivity|]|]; symmetry; apply entry_member.
Qed.

Lemma window_spans : forall E p q, p < length E -> q < length E -> spans (refs_of E) p q (window E p q).
Proof.
  intros E p q Hp Hq. destruct (nth_some _ E p Hp) as [a Ha], (nth_some _ E q Hq) as [b Hb].
  exists (reference_to a), (reference_to b), (range_to a b). rewrite !nth_refs, Ha, Hb. unfold window. rewrite Ha, Hb. repeat split.
Qed.

Lemma siblings_range : forall levels x d u l i j r R u', clear_text levels x d -> 0 < d -> good_urn u' ->
  get_reffs (write_scheme levels) identity_only (OText x u) (Some (Z.of_nat d)) None = Ok l -> i < j -> spans l i j (Some r) ->
  exists before after, siblings (write_scheme levels) identity_only (OPass r R (OText x u) u') = Ok (before, after) /\
    (if Nat.eqb i 0 then before = None else spans l (i - Nat.min i (S j - i)) (i - 1) before) /\
    (if Nat.eqb (S j) (length l) then after = None else spans l (S j) (j + Nat.min (S j - i) (length l - S j)) after).
Proof.
  intros levels x d u l i j r R u' Hcl Hd Hgu H Hij Hr. destruct (clear_listed levels x d _ u l Hcl Hd H) as [Hl ->].
  destruct Hr as (a' & b' & r' & Ha & Hb & [= <-] & E1 & E2 & E3). apply nth_refs_inv in Ha. apply nth_refs_inv in Hb.
  destruct Ha as (a & Ha & ->), Hb as (b & Hb & ->). cbn [r_str reference_to] in E1, E2, E3.
  assert (r = range_to a b) by (destruct r; cbn in *; subst; reflexivity). subst r.
  assert (Hj : j < length (units levels x d)) by (apply nth_error_Some; congruence).
  rewrite (range_siblings levels x d Hcl (conj Hd Hl) u R u' i j a b Hgu Hij Ha Hb). eexists; eexists. split; [reflexivity|]. rewrite refs_length, Nat.add_1_r. split.
  - destruct (Nat.eqb_spec i 0); [reflexivity|]. apply window_spans; lia.
  - destruct (Nat.eqb_spec (S j) (length (units levels x d))); [reflexivity|].
    replace (Nat.min (j + (S j - i)) (length (units levels x d) - 1)) with (j + Nat.min (S j - i) (length (units levels x d) - S j)) by lia.
    apply window_spans; lia.
Qed.

Lemma walk_all : forall levels x d same u l n i r, clear_text levels x d -> 0 < d -> good_urn u ->
  get_reffs (write_scheme levels) same (OText x u) (Some (Z.of_nat d)) None = Ok l -> nth_error l i = Some (Some r) -> length l - i <= n ->
  exists w, walk (write_scheme levels) same n (OText x u) r = Ok w /\ map Some w = skipn i l.
Proof.
  intros levels x d same u l n. induction n as [|n IH]; intros i r Hcl Hd Hgu H Hi Hn.
  - exfalso. assert (i < length l) by (apply nth_error_Some; congruence). lia.
  - assert (Hlt : i < length l) by (apply nth_error_Some; congruence).
    destruct (read_listed levels x d same u l r Hcl Hd Hgu H (nth_error_In _ _ Hi)) as (_ & _ & _ & R & u' & _ & _ & _ & HG & _).
    cbn [walk]. rewrite HG. cbn [bind]. rewrite (siblings_single levels x d same u l i r R u' Hcl Hd H Hi). cbn [bind].
    assert (Hsk : skipn i l = Some r :: skipn (S i) l).
    { clear - Hi. revert i Hi. induction l as [|o l IH]; intros [|i] Hi; try discriminate; [cbn in Hi; injection Hi as ->; reflexivity|]. cbn in *. apply IH. exact Hi. }
    unfold entry. destruct (nth_error l (S i)) as [o|] eqn:Eo.
    + assert (exists r', o = Some r') as [r' ->].
      { destruct (clear_listed levels x d same u l Hcl Hd H) as [_ ->]. rewrite nth_refs in Eo. destruct (nth_error (units levels x d) (S i)); [|discriminate].
        injection Eo as <-. eauto. }
      destruct (IH (S i) r' Hcl Hd Hgu H Eo ltac:(lia)) as (w & E & Ew). rewrite E. cbn [bind]. exists (r :: w). split; [reflexivity|]. cbn [map]. rewrite Ew, Hsk. reflexivity.
    + exists [r]. split; [reflexivity|]. rewrite Hsk. rewrite skipn_all2 by (apply nth_error_None; exact Eo). reflexivity.
Qed.

(** Asking the passage itself for another unit gives the same tree as asking the
    text, but the passage remembers the passage it was asked from. *)
Lemma shared_same : forall levels x d same u r R u' c, clear_text levels x d -> 0 < d <= length levels -> good_urn u -> good_urn u' ->
  In c (units levels x d) ->
  exists R2 v w, shared_node (write_scheme levels) same (OPass r R (OText x u) u') (reference_to c) = Ok (OPass (reference_to c) R2 (OPass r R (OText x u) u') v) /\
    get_node (write_scheme levels) same (OText x u) (reference_to c) = Ok (OPass (reference_to c) R2 (OText x u) w).
Proof.
  intros levels x d same u r R u' c Hcl Hd Hgu Hgu' Hc.
  destruct (read_unit levels x d Hcl Hd same (OText x u) c eq_refl Hgu Hc) as (R2 & w & P & e & HG & _).
  destruct (units_good levels x d Hcl Hd c Hc) as [Nc Gc]. pose proof (good_plain c Gc) as Pc.
  destruct (proj1 (units_spec levels x d Hcl Hd c) Hc) as [Lc _].
  destruct (passage_made u' (reference_to c) R2 (OPass r R (OText x u) u') Hgu' (writable_single c Nc Gc)) as (v & Ev & _).
  exists R2, v, w. split; [|exact HG]. revert HG. rewrite get_node_steps, shared_node_steps; try apply Hcl;
    unfold last_id; cbn [r_start r_end reference_to]; rewrite ?id_depth_join, ?id_list_join by assumption; try lia; try (apply good_safe; exact Gc).
  cbn [text_object o_xml o_urn]. destruct (extract same x _ _) as [root|]; [|discriminate]. cbn [bind].
  destruct (node_urn u (reference_to c)) as [v1|]; [|discriminate]. cbn [bind]. unfold passage_init at 1. destruct (make_urn v1 _); [|discriminate].
  cbn [bind]. intros [= _ -> _]. exact Ev.
Qed.

Lemma next_read : forall levels x d same u l i r r' R u', clear_text levels x d -> 0 < d -> good_urn u -> good_urn u' ->
  get_reffs (write_scheme levels) same (OText x u) (Some (Z.of_nat d)) None = Ok l ->
  nth_error l i = Some (Some r) -> nth_error l (S i) = Some (Some r') ->
  exists R2 v w, next_passage (write_scheme levels) same (OPass r R (OText x u) u') = Ok (Some (OPass r' R2 (OPass r R (OText x u) u') v)) /\
    get_node (write_scheme levels) same (OText x u) r' = Ok (OPass r' R2 (OText x u) w).
Proof.
  intros levels x d same u l i r r' R u' Hcl Hd Hgu Hgu' H Hi Hi'. pose proof (siblings_single levels x d same u l i r R u' Hcl Hd H Hi) as Hs.
  destruct (clear_listed levels x d same u l Hcl Hd H) as [Hl ->]. pose proof Hi' as Hi2. apply nth_refs_inv in Hi'. destruct Hi' as (c & Hc & ->).
  destruct (shared_same levels x d same u r R u' c Hcl (conj Hd Hl) Hgu Hgu' (nth_error_In _ _ Hc)) as (R2 & v & w & E1 & E2).
  exists R2, v, w. split; [|exact E2]. unfold next_passage. rewrite Hs. cbn [bind]. unfold entry. rewrite Hi2. cbn [go]. rewrite E1. reflexivity.
Qed.

Lemma prev_read : forall levels x d same u l i r r' R u', clear_text levels x d -> 0 < d -> good_urn u -> good_urn u' ->
  get_reffs (write_scheme levels) same (OText x u) (Some (Z.of_nat d)) None = Ok l ->
  nth_error l (S i) = Some (Some r) -> nth_error l i = Some (Some r') ->
  exists R2 v w, prev_passage (write_scheme levels) same (OPass r R (OText x u) u') = Ok (Some (OPass r' R2 (OPass r R (OText x u) u') v)) /\
    get_node (write_scheme levels) same (OText x u) r' = Ok (OPass r' R2 (OText x u) w).
Proof.
  intros levels x d same u l i r r' R u' Hcl Hd Hgu Hgu' H Hi Hi'. pose proof (siblings_single levels x d same u l (S i) r R u' Hcl Hd H Hi) as Hs.
  destruct (clear_listed levels x d same u l Hcl Hd H) as [Hl ->]. pose proof Hi' as Hi2. apply nth_refs_inv in Hi'. destruct Hi' as (c & Hc & ->).
  destruct (shared_same levels x d same u r R u' c Hcl (conj Hd Hl) Hgu Hgu' (nth_error_In _ _ Hc)) as (R2 & v & w & E1 & E2).
  exists R2, v, w. split; [|exact E2]. unfold prev_passage. rewrite Hs. cbn [bind]. unfold entry. rewrite Hi2. cbn [go]. rewrite E1. reflexivity.
Qed.

(** ** URNs *)

Lemma shared_urn : forall scheme same ns cts tg wk vs self u r p, plain_ns ns -> plain_ns cts -> plain_part (Version tg wk vs) ->
  o_urn self = Some u -> of_version ns cts tg wk vs u -> writable r -> shared_node scheme same self r = Ok p ->
  exists root u', p = OPass r root self (Some u') /\ urn_parse (write_urn ns cts (Version tg wk vs) (Some (r_str r))) = Ok u' /\ u_ref u' = Some r.
Proof.
  intros scheme same ns cts tg wk vs self u r p H1 H2 H3 Hu Hv Hr H. unfold shared_node in H.
  destruct (Nat.ltb _ _); [discriminate|].
  destruct (citation_at scheme _) as [cs|]; [|discriminate]. cbn [bind] in H.
  destruct (citation_at scheme _) as [ce|]; [|discriminate]. cbn [bind] in H.
  destruct (fill (Some cs) _) as [s|]; [|discriminate]. cbn [bind] in H.
  destruct (fill (Some ce) _) as [e|]; [|discriminate]. cbn [bind] in H.
  destruct (passage_steps s) as [xs1|]; [|discriminate]. cbn [bind] in H.
  destruct (passage_steps e) as [xs2|]; [|discriminate]. cbn [bind] in H.
  destruct (extract same _ xs1 xs2) as [root|]; [|discriminate]. cbn [bind] in H.
  pose proof (passage_urn ns cts tg wk vs H1 H2 H3 u r root self Hv Hr) as E. unfold node_urn in E. rewrite Hu in H. rewrite E in H.
  injection H as <-. eexists; eexists. split; [reflexivity|]. split; [|reflexivity].
  destruct Hr as (R1 & R2 & R3 & R4). rewrite write_urn_ref. apply parse_ref; try assumption. repeat split; assumption.
Qed.

Lemma get_urn : forall scheme same ns cts tg wk vs self u r p, plain_ns ns -> plain_ns cts -> plain_part (Version tg wk vs) ->
  o_urn self = Some u -> of_version ns cts tg wk vs u -> writable r -> get_node scheme same self r = Ok p ->
  exists root u' txt, p = OPass r root txt (Some u') /\ urn_parse (write_urn ns cts (Version tg wk vs) (Some (r_str r))) = Ok u' /\ u_ref u' = Some r.
Proof.
  intros scheme same ns cts tg wk vs self u r p H1 H2 H3 Hu Hv Hr H. destruct self as [x v|r0 x t v].
  - destruct (shared_urn scheme same ns cts tg wk vs (OText x v) u r p H1 H2 H3 Hu Hv Hr H) as (root & u' & E & E2). eauto 6.
  - cbn [get_node] in H. destruct (shared_node scheme same (OPass r0 x t v) r) as [X|] eqn:EX; [|discriminate]. cbn [bind] in H.
    destruct (shared_urn scheme same ns cts tg wk vs (OPass r0 x t v) u r X H1 H2 H3 Hu Hv Hr EX) as (root & u' & E & E2). subst X.
    injection H as <-. eauto 6.
Qed.

Lemma reached_urn : forall scheme same ns cts tg wk vs q x u p, plain_ns ns -> plain_ns cts -> plain_part (Version tg wk vs) ->
  (match q with Some q => plain_ref q | None => True end) -> urn_parse (write_urn ns cts (Version tg wk vs) q) = Ok u ->
  reached scheme same (OText x (Some u)) p -> p = OText x (Some u) \/
  exists r root txt u', p = OPass r root txt (Some u') /\ writable r /\ urn_parse (write_urn ns cts (Version tg wk vs) (Some (r_str r))) = Ok u' /\ u_ref u' = Some r.
Proof.
  intros scheme same ns cts tg wk vs q x u p H1 H2 H3 Hq Hu H.
  assert (Inv : forall p, p = OText x (Some u) \/ (exists r root txt u', p = OPass r root txt (Some u') /\ writable r /\ urn_parse (write_urn ns cts (Version tg wk vs) (Some (r_str r))) = Ok u' /\ u_ref u' = Some r) ->
    exists v, o_urn p = Some v /\ of_version ns cts tg wk vs v).
  { intros p' [->|(r & root & txt & u' & -> & Hr & E & _)]; [exists u; split; [reflexivity|exists q; auto]|].
    exists u'. split; [reflexivity|]. exists (Some (r_str r)). split; [|exact E]. destruct Hr as (R1 & R2 & R3 & _). repeat split; assumption. }
  induction H as [|p r q' Hp IH Hr HG|p b r q' Hp IH Hs Hr HG|p r a q' Hp IH Hs Hr HG]; [left; reflexivity| | |]; right; destruct (Inv p IH) as (v & Ev & Hv).
  - destruct (get_urn scheme same ns cts tg wk vs p v r q' H1 H2 H3 Ev Hv Hr HG) as (root & u' & txt & E & E2 & E3). exists r, root, txt, u'. auto.
  - unfold next_passage in HG. rewrite Hs in HG. cbn [bind go] in HG. destruct (shared_node scheme same p r) as [X|] eqn:EX; [|discriminate].
    injection HG as <-. destruct (shared_urn scheme same ns cts tg wk vs p v r X H1 H2 H3 Ev Hv Hr EX) as (root & u' & E & E2 & E3). exists r, root, p, u'. auto.
  - unfold prev_passage in HG. rewrite Hs in HG. cbn [bind go] in HG. destruct (shared_node scheme same p r) as [X|] eqn:EX; [|discriminate].
    injection HG as <-. destruct (shared_urn scheme same ns cts tg wk vs p v r X H1 H2 H3 Ev Hv Hr EX) as (root & u' & E & E2 & E3). exists r, root, p, u'. auto.
Qed.

(** A URN without a version. *)
Lemma no_version_urn : forall scheme same ns cts part x u r p, plain_ns ns -> plain_ns cts -> plain_part part -> part <> NoWork -> part_vs part = None ->
  urn_parse (write_urn ns cts part None) = Ok u -> plain_ref (r_str r) -> get_node scheme same (OText x (Some u)) r <> Ok p.
Proof.
  intros scheme same ns cts part x u r p H1 H2 H3 Hnw Hno Hu Hr H. cbn [get_node] in H. unfold shared_node in H.
  destruct (Nat.ltb _ _); [discriminate|].
  destruct (citation_at scheme _) as [cs|]; [|discriminate]. cbn [bind] in H.
  destruct (citation_at scheme _) as [ce|]; [|discriminate]. cbn [bind] in H.
  destruct (fill (Some cs) _) as [s|]; [|discriminate]. cbn [bind] in H.
  destruct (fill (Some ce) _) as [e|]; [|discriminate]. cbn [bind] in H.
  destruct (passage_steps s) as [xs1|]; [|discriminate]. cbn [bind] in H.
  destruct (passage_steps e) as [xs2|]; [|discriminate]. cbn [bind] in H.
  destruct (extract same _ xs1 xs2) as [root|]; [|discriminate]. cbn [bind o_urn] in H.
  destruct (parsed_form ns cts part None u H1 H2 H3 I Hu) as (o & -> & Ho).
  replace (Nat.eqb (urn_len (parsed_urn ns cts part None o)) 0) with false in H by (destruct part; reflexivity).
  change (to_str (parsed_urn ns cts part None o)) with (Ok (write_urn ns cts part None)) in H. cbn [bind] in H.
  replace (write_urn ns cts part None ++ #":" ++ r_str r) with (write_urn ns cts part (Some (r_str r))) in H
    by (unfold write_urn; rewrite app_nil_r, <- !app_assoc; reflexivity).
  destruct (urn_parse (write_urn ns cts part (Some (r_str r)))) as [v|] eqn:Ev; [|discriminate]. cbn [bind] in H.
  destruct (parsed_form ns cts part (Some (r_str r)) v H1 H2 H3 (conj Hnw Hr) Ev) as (o' & -> & _).
  unfold passage_init, make_urn in H. rewrite upto_version_missing in H; [discriminate|]. destruct part; cbn in *; try lia; discriminate.
Qed.

(** ** Children *)

Lemma children_single : forall levels x same u c R u', Forall wf_level levels -> length levels <= 999 -> plain_units levels x ->
  c <> [] -> Forall plain c ->
  child_ids (write_scheme levels) same (OPass (reference_to c) R (OText x u) u') =
  if length levels <=? length c then Ok [] else listed levels x c (S (length c)).
Proof.
  intros levels x same u c R u' Hwf Hsm Hpl Nc Pc. unfold child_ids. cbn [r_start r_end reference_to]. rewrite id_depth_join by assumption.
  rewrite Nat.eqb_refl, scheme_length. cbn [negb]. destruct (Nat.leb_spec (length levels) (length c)) as [L|L]; [reflexivity|].
  change (get_reffs (write_scheme levels) same (OPass (reference_to c) R (OText x u) u') (Some 1%Z) None) with
    (get_reffs (write_scheme levels) same (OPass (reference_to c) R (OText x u) u') (Some 1%Z) (Some (reference_to c))).
  rewrite (reffs_single levels x same (OPass (reference_to c) R (OText x u) u') (Some 1%Z) c (S (length c)) Hwf Hsm Hpl eq_refl Nc Pc) by lia.
  replace (length levels <? S (length c)) with false by (symmetry; apply Nat.ltb_ge; lia). reflexivity.
Qed.

(** ** Order and repetitions *)

Lemma reffs_once : forall levels x same u level k l,
  Forall wf_level levels -> length levels <= 999 -> plain_units levels x -> 0 < k ->
  level = Some (Z.of_nat k) \/ level = None /\ k = 1 -> unambiguous levels x k ->
  get_reffs (write_scheme levels) same (OText x u) level None = Ok l -> NoDup l.
Proof.
  intros levels x same u level k l Hwf Hsm Hpl Hk Hl Hun H. destruct (text_listed levels x same u level k l Hwf Hsm Hpl Hk Hl H) as [L HL].
  apply (listed_once levels x Hwf Hsm Hpl [] k l); cbn; try assumption; lia.
Qed.

Lemma reffs_ordered : forall levels x same u level k l,
  Forall wf_level levels -> length levels <= 999 -> plain_units levels x -> 0 < k ->
  level = Some (Z.of_nat k) \/ level = None /\ k = 1 -> unambiguous levels x k -> not_nested levels x k ->
  get_reffs (write_scheme levels) same (OText x u) level None = Ok l ->
  exists ps, located levels x l ps /\ StronglySorted (fun p q => precedes p q = true) ps.
Proof.
  intros levels x same u level k l Hwf Hsm Hpl Hk Hl Hun Hnn H. destruct (text_listed levels x same u level k l Hwf Hsm Hpl Hk Hl H) as [L HL].
  apply (listed_ordered levels x Hwf Hsm Hpl [] k l); cbn; try assumption; lia.
Qed.

Lemma reffs_times : forall levels x same u level k l dec comps found,
  Forall wf_level levels -> length levels <= 999 -> plain_units levels x -> 0 < k ->
  level = Some (Z.of_nat k) \/ level = None /\ k = 1 ->
  get_reffs (write_scheme levels) same (OText x u) level None = Ok l ->
  length comps = k -> Forall plain comps ->
  (forall j, 0 < j <= k -> NoDup (found j) /\ forall p, In p (found j) <-> cites levels x (firstn j comps) p) ->
  count_occ dec l (Some (reference_to comps)) = product (map (fun j => length (found j)) (seq 1 k)).
Proof.
  intros levels x same u level k l dec comps found Hwf Hsm Hpl Hk Hl H Hc Hp Hf. destruct (text_listed levels x same u level k l Hwf Hsm Hpl Hk Hl H) as [L HL].
  pose proof (listed_times levels x Hwf Hsm Hpl [] k l dec comps found) as T. cbn [length app] in T. rewrite Nat.sub_0_r in T. apply T; try assumption. lia.
Qed.

Lemma siblings_inverse : forall levels x d same u l i r r' R R' v v', clear_text levels x d -> 0 < d ->
  get_reffs (write_scheme levels) same (OText x u) (Some (Z.of_nat d)) None = Ok l -> nth_error l i = Some (Some r) ->
  (exists before, siblings (write_scheme levels) same (OPass r R (OText x u) v) = Ok (before, Some r')) <->
  nth_error l (S i) = Some (Some r') /\
  (exists after, siblings (write_scheme levels) same (OPass r' R' (OText x u) v') = Ok (Some r, after)).
Proof.
  intros levels x d same u l i r r' R R' v v' Hcl Hd H Hi. rewrite (siblings_single levels x d same u l i r R v Hcl Hd H Hi). split.
  - intros [b [= _ E]]. unfold entry in E. destruct (nth_error l (S i)) as [o|] eqn:Ei; [|discriminate]. subst o. split; [reflexivity|].
    rewrite (siblings_single levels x d same u l (S i) r' R' v' Hcl Hd H Ei). unfold entry at 1. rewrite Hi. eauto.
  - intros [Ei _]. unfold entry at 2. rewrite Ei. eauto.
Qed.

Lemma walk_from_first : forall levels x d same u l r rest, clear_text levels x d -> 0 < d -> good_urn u ->
  get_reffs (write_scheme levels) same (OText x u) (Some (Z.of_nat d)) None = Ok l -> l = Some r :: rest ->
  exists w, walk (write_scheme levels) same (length l) (OText x u) r = Ok w /\ map Some w = l.
Proof.
  intros levels x d same u l r rest Hcl Hd Hgu H El. destruct (walk_all levels x d same u l (length l) 0 r Hcl Hd Hgu H) as (w & E & Ew); [subst l; reflexivity|lia|].
  exists w. split; [exact E|exact Ew].
Qed.

(** ** Levels of a range *)

Lemma level_of_range : forall levels x d self a b P1 P2 c level k, clear_text levels x d -> 0 < d <= length levels ->
  o_xml (text_object self) = x -> good_urn (o_urn self) -> length a = d -> length b = d ->
  cites levels x a P1 -> cites levels x b P2 -> precedes P1 P2 = true -> longest_common c a b ->
  Z.of_nat k = Z.max (match level with
                      | None => Z.of_nat d + Z.of_nat (length c)
                      | Some 1%Z => Z.of_nat d + 1 | Some 0%Z => Z.of_nat d | Some l => l end) (Z.of_nat (length c) + 1) ->
  match get_reffs (write_scheme levels) identity_only self level (Some (range_to a b)) with
  | Ok l => k <= length levels /\ l <> [] /\ forall o, In o l <-> exists comps p, o = Some (reference_to comps) /\
      length comps = k /\ begins c comps /\ cites levels x comps p /\ part_of P1 P2 p <> Absent
  | Err CitationDepthError => length levels < k
  | Err KeyError => k <= length levels /\ forall comps p, length comps = k -> begins c comps -> cites levels x comps p -> part_of P1 P2 p = Absent
  | Err _ => False
  end.
Proof.
  intros levels x d self a b P1 P2 c level k Hcl Hd Hx Hgu La Lb C1 C2 Ho Hc Hk.
  pose proof Hcl as ((Hwf & Hsm & _) & Hgood & Hun & Hnn).
  assert (Ec : c = common a b) by (apply common_unique; exact Hc). subst c.
  assert (Ha : In a (units levels x d)) by (apply (units_spec levels x d Hcl Hd); eauto).
  assert (Hb : In b (units levels x d)) by (apply (units_spec levels x d Hcl Hd); eauto).
  destruct (read_range levels x d Hcl Hd self a b P1 P2 Hx Hgu Ha Hb C1 C2 Ho) as (R & u' & HG & _ & HR & _).
  unfold get_reffs. rewrite (range_reffs levels x d Hcl Hd self a b P1 P2 R u' level k Hx Ha Hb C1 C2 Ho HG HR Hk).
  destruct (Nat.ltb_spec (length levels) k) as [Hl|Hl]; [exact Hl|].
  assert (Hkc : length (common a b) < k) by lia.
  assert (Hsel : forall comps q, cites levels R comps q -> exists p, cites levels x comps p /\ part_of P1 P2 p <> Absent).
  { intros comps q Hq. apply (selects_R levels x R a b P1 P2 d Hd La Lb C1 C2 Ho Hnn HR) in Hq. destruct Hq as (p & Hp & K & _).
    exists p. split; [exact Hp|]. unfold kept in K. destruct (part_of P1 P2 p); congruence. }
  assert (Hsel' : forall comps p, cites levels x comps p -> part_of P1 P2 p <> Absent -> exists q, cites levels R comps q).
  { intros comps p Hp K. eexists. apply (selects_R levels x R a b P1 P2 d Hd La Lb C1 C2 Ho Hnn HR). exists p. split; [exact Hp|].
    split; [|reflexivity]. unfold kept. destruct (part_of P1 P2 p); congruence. }
  destruct (listed_full levels R Hwf Hsm (common a b) k ltac:(lia)) as [(l & El & Nl & HL)|[El HN]]; rewrite El; cbn [bind].
  - split; [exact Hl|]. split; [exact Nl|]. intros o. rewrite (HL o). split.
    + intros (comps & q & E & Lc & B & Hq). destruct (Hsel comps q Hq) as (p & Hp & K). exists comps, p. auto.
    + intros (comps & p & E & Lc & B & Hp & K). destruct (Hsel' comps p Hp K) as [q Hq]. exists comps, q. auto.
  - split; [exact Hl|]. intros comps p Lc B Hp. destruct (part_of P1 P2 p) eqn:K; [exfalso|exfalso|reflexivity];
      destruct (Hsel' comps p Hp ltac:(congruence)) as [q Hq]; exact (HN comps q Lc B Hq).
Qed.

Lemma slice_of_range : forall levels x d u l i j r, clear_text levels x d -> 0 < d -> good_urn u ->
  get_reffs (write_scheme levels) identity_only (OText x u) (Some (Z.of_nat d)) None = Ok l -> i < j -> spans l i j (Some r) ->
  get_reffs (write_scheme levels) identity_only (OText x u) (Some 0%Z) (Some r) = Ok (firstn (S j - i) (skipn i l)).
Proof.
  intros levels x d u l i j r Hcl Hd Hgu H Hij Hs.
  destruct (clear_listed levels x d identity_only u l Hcl Hd H) as [Hd1 El]. assert (Hd' : 0 < d <= length levels) by lia.
  destruct Hs as (ra & rb & r' & Hi & Hj & [= <-] & E1 & E2 & E3). subst l.
  destruct (nth_refs_inv _ _ _ Hi) as (a & Ha & ->). destruct (nth_refs_inv _ _ _ Hj) as (b & Hb & ->). cbn [r_str reference_to] in *.
  pose proof (nth_error_In _ _ Ha) as Ia. pose proof (nth_error_In _ _ Hb) as Ib.
  replace r with (range_to a b) by (destruct r; cbn in *; subst; reflexivity).
  destruct (proj1 (units_spec levels x d Hcl Hd' a) Ia) as [_ [P1 C1]]. destruct (proj1 (units_spec levels x d Hcl Hd' b) Ib) as [_ [P2 C2]].
  rewrite (range_level levels x d Hcl Hd' (OText x u) a b P1 P2 i j eq_refl Hgu Ha Hb C1 C2 (units_order levels x d Hcl Hd' i j a b P1 P2 Ha Hb Hij C1 C2)).
  unfold refs_of. rewrite skipn_map, firstn_map. reflexivity.
Qed.

(** A range whose end contains its start. *)
Lemma range_inverted : forall levels same self a b level l, Forall good_id a -> Forall good_id b ->
  a <> [] -> b <> [] -> length b < length a -> begins b a ->
  get_reffs (write_scheme levels) same self level (Some (range_to a b)) <> Ok l.
Proof.
  intros levels same self a b level l Ga Gb Na Nb Hl [rest Hr] H. pose proof (good_plain a Ga) as Pa. pose proof (good_plain b Gb) as Pb.
  unfold get_reffs, valid_reff, reff_start in H. cbn [r_end range_to] in H.
  destruct (get_node (write_scheme levels) same self (range_to a b)) as [p|]; [|discriminate]. cbn [bind r_start range_to] in H.
  rewrite !id_list_join, !id_depth_join in H by assumption.
  assert (E : common_parts 0 (length b) a b = Err IndexError).
  { change b with ([] ++ b) at 2. rewrite (common_parts_spec a 0 (length b) [] b) by (reflexivity || apply Nat.le_refl).
    replace (length b <? length a) with true by (symmetry; apply Nat.ltb_lt; exact Hl).
    replace (list_eqb str_eqb (firstn (length b) a) b) with true; [reflexivity|].
    symmetry. rewrite Hr, firstn_app, Nat.sub_diag, firstn_all. cbn [firstn]. rewrite app_nil_r. clear. induction b as [|v b IH]; [reflexivity|].
    cbn [list_eqb]. rewrite str_eqb_refl. exact IH. }
  rewrite E in H. discriminate.
Qed.

(** ** Children *)

Lemma children_full : forall levels x same u c R u', Forall wf_level levels -> length levels <= 999 -> plain_units levels x ->
  c <> [] -> Forall plain c ->
  match child_ids (write_scheme levels) same (OPass (reference_to c) R (OText x u) u') with
  | Ok l => if length levels <=? length c then l = [] else l <> [] /\ lists_level levels x c (S (length c)) l
  | Err KeyError => length c < length levels /\ forall v p, ~ cites levels x (c ++ [v]) p
  | Err _ => False
  end.
Proof.
  intros levels x same u c R u' Hwf Hsm Hpl Nc Pc. rewrite (children_single levels x same u c R u' Hwf Hsm Hpl Nc Pc).
  destruct (Nat.leb_spec (length levels) (length c)) as [L|L]; [reflexivity|].
  destruct (listed_full levels x Hwf Hsm c (S (length c)) ltac:(lia)) as [(l & El & Nl & HL)|[El HN]]; rewrite El; [auto|].
  split; [exact L|]. intros v p Hp. apply (HN (c ++ [v]) p); [rewrite app_length; cbn; lia|exists [v]; reflexivity|exact Hp].
Qed.

Lemma children_text : forall levels x same u, Forall wf_level levels -> length levels <= 999 -> plain_units levels x ->
  child_ids (write_scheme levels) same (OText x u) = get_reffs (write_scheme levels) same (OText x u) (Some 1%Z) None.
Proof. reflexivity. Qed.

(** ** Simple passages *)

Lemma simple_siblings_single : forall levels x d same u l i r P v, clear_text levels x d -> 0 < d ->
  get_reffs (write_scheme levels) same (OText x u) (Some (Z.of_nat d)) None = Ok l -> nth_error l i = Some (Some r) ->
  simple_siblings (write_scheme levels) same (MkSimple (Some r) x P (OText x u) v) = Ok (match i with 0 => None | S i' => entry l i' end, entry l (S i)).
Proof.
  intros levels x d same u l i r P v Hcl Hd H Hi. destruct (clear_listed levels x d same u l Hcl Hd H) as [Hd1 El]. subst l. assert (Hd' : 0 < d <= length levels) by lia.
  destruct (nth_refs_inv _ _ _ Hi) as (c & Hc & ->). pose proof (nth_error_In _ _ Hc) as Ic.
  destruct (units_plain levels x d Hcl Hd' c Ic) as [Nc Pc]. destruct (proj1 (units_spec levels x d Hcl Hd' c) Ic) as [Lc _].
  assert (Hdep : ref_depth (reference_to c) = d).
  { unfold ref_depth, ref_highest. cbn [r_end r_start reference_to]. rewrite id_list_join by assumption. exact Lc. }
  unfold simple_siblings. cbn [sp_text sp_ref]. unfold sp_depth. cbn [sp_ref]. rewrite Hdep, H. cbn [bind is_range r_end r_start reference_to].
  rewrite (set_index_refs (units levels x d) i c (units_plain levels x d Hcl Hd') (units_nodup levels x d Hcl Hd') Hc). cbn [bind].
  change (enum levels x d []) with (units levels x d). set (E := units levels x d) in *.
  assert (Hlen : i < length E) by (apply nth_error_Some; congruence). rewrite refs_length.
  assert (B : (if Nat.eqb i 0 then Ok None else if Nat.ltb i 1 then item (refs_of E) 0 else item (refs_of E) (i - 1)) =
              Ok (match i with 0 => None | S i' => entry (refs_of E) i' end)).
  { destruct i as [|i]; [reflexivity|]. cbn [Nat.eqb]. replace (S i <? 1) with false by (symmetry; apply Nat.ltb_ge; lia).
    replace (S i - 1) with i by lia. unfold item, entry. destruct (nth_error (refs_of E) i) eqn:F; [reflexivity|].
    apply nth_error_None in F. rewrite refs_length in F. lia. }
  rewrite B. cbn [bind].
  assert (A : (if Nat.eqb (i + 1) (length E) then Ok None else if Nat.ltb (length E) (i + 1) then item (refs_of E) (length E - 1) else item (refs_of E) (i + 1)) =
              Ok (entry (refs_of E) (S i))).
  { rewrite Nat.add_1_r. destruct (Nat.eqb_spec (S i) (length E)) as [F|F].
    - unfold entry. replace (nth_error (refs_of E) (S i)) with (@None (option ref)); [reflexivity|]. symmetry. apply nth_error_None. rewrite refs_length. lia.
    - replace (length E <? S i) with false by (symmetry; apply Nat.ltb_ge; lia). unfold item, entry.
      destruct (nth_error (refs_of E) (S i)) eqn:G; [reflexivity|]. apply nth_error_None in G. rewrite refs_length in G. lia. }
  rewrite A. reflexivity.
Qed.

Lemma child_ends : forall scheme same p l, child_ids scheme same p = Ok l ->
  first_id scheme same p = Ok (entry l 0) /\ last_child_id scheme same p = Ok (entry l (length l - 1)).
Proof.
  intros scheme same p l H. unfold first_id, last_child_id. rewrite H. cbn [bind]. split; [destruct l; reflexivity|]. f_equal. clear H.
  unfold entry. induction l as [|a [|b l] IH]; [reflexivity|reflexivity|]. change (last (a :: b :: l) None) with (last (b :: l) None). rewrite IH.
  replace (length (a :: b :: l) - 1) with (S (length (b :: l) - 1)) by (cbn; lia). reflexivity.
Qed.
