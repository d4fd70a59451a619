(** Reading what was printed: nested elements. *)

From Coq Require Import List NArith Arith Bool Lia.
From Verif Require Import PyStr PyStrFacts XmlModel UtilModel UtilSpec XmlNodeProofs XmlReadSpec.
Import ListNotations.

Definition text_ok (t : str) : Prop := forall c, In c t -> xml_char c = true /\ c <> 13%N.
Definition attrs_ok (a : list (str * str)) : Prop :=
  (forall n v, In (n, v) a -> is_name n /\ plain_value v) /\ NoDup (map fst a).

(** A text that stands for an element. *)
Inductive prints : raw -> str -> Prop :=
| prints_node : forall n att attrs t kids ks,
    is_name n -> attrs_ok attrs -> text_ok t ->
    att = Some attrs \/ (att = None /\ attrs = []) ->
    prints_kids kids ks ->
    prints (Raw n attrs t kids) (make_xml_node n false att [] false [] ++ escape t ++ ks ++ #"</" ++ n ++ #">")
with prints_kids : list (raw * str) -> str -> Prop :=
| prints_nil : prints_kids [] []
| prints_cons : forall r s t l ls, prints r s -> text_ok t -> prints_kids l ls ->
    prints_kids ((r, t) :: l) (s ++ escape t ++ ls).
Scheme prints_ind2 := Induction for prints Sort Prop
with prints_kids_ind2 := Induction for prints_kids Sort Prop.
Combined Scheme prints_both from prints_ind2, prints_kids_ind2.

Lemma start_tag : forall n att attrs r, att = Some attrs \/ (att = None /\ attrs = []) ->
  exists sp, make_xml_node n false att [] false [] ++ r = #"<" ++ n ++ sp /\
    (sp = after_name attrs r \/ (attrs = [] /\ sp = #" >" ++ r)).
Proof.
  intros n att attrs r [->|[-> ->]].
  - destruct attrs as [|a attrs].
    + exists (#" >" ++ r). split; [ | right; split; reflexivity ]. unfold make_xml_node, attribute_strings. cbn [map join].
      rewrite <- !app_assoc. reflexivity.
    + eexists. split; [ | left; reflexivity ]. unfold make_xml_node, after_name. rewrite <- !app_assoc. reflexivity.
  - eexists. split; [ | left; reflexivity ]. unfold make_xml_node. rewrite <- !app_assoc. reflexivity.
Qed.

Lemma read_start : forall n attrs r sp, is_name n -> attrs_ok attrs ->
  sp = after_name attrs r \/ (attrs = [] /\ sp = #" >" ++ r) ->
  read_name (n ++ sp) = (n, sp) /\ read_attributes (S (length sp)) [] sp = Some (attrs, r).
Proof.
  intros n a r sp [_ Cn] [Ha Da] Hsp. split.
  - destruct Hsp as [->|[-> ->]]; [ destruct a | ]; cbn [after_name app lit Ascii.N_of_ascii];
      apply read_name_app; auto; reflexivity.
  - destruct Hsp as [->|[-> ->]].
    + apply read_attributes_print; auto. pose proof (attribute_strings_length a). destruct a as [|b a]; [ cbn; lia | ].
      cbn [after_name length]. rewrite app_length. cbn [length] in *. lia.
    + cbn [read_attributes]. rewrite strip_prefix_app.
      replace (strip_prefix #">" (#" >" ++ r)) with (@None str) by (symmetry; apply strip_prefix_cons; discriminate).
      reflexivity.
Qed.

Lemma prints_head : forall r s, prints r s -> exists c s', s = 60%N :: c :: s' /\ name_char c = true.
Proof.
  intros r s H. destruct H as [n att attrs t kids ks [Nn Cn] _ _ _ _]. destruct n as [|c n]; [ congruence | ].
  assert (K : name_char c = true) by (apply Cn; left; reflexivity).
  unfold make_xml_node. destruct att; cbn [app lit Ascii.N_of_ascii]; do 2 eexists; (split; [ reflexivity | exact K ]).
Qed.

Lemma kids_head : forall l s rest, prints_kids l s -> ends_text rest -> ends_text (s ++ rest).
Proof.
  intros l s rest H E. destruct H as [|r s t l ls H _ _]; [ exact E | ].
  destruct (prints_head r s H) as (c & s' & -> & _). right. eexists. reflexivity.
Qed.

Lemma not_close : forall r s rest, prints r s -> startswith (s ++ rest) #"</" = false.
Proof.
  intros r s rest H. destruct (prints_head r s H) as (c & s' & -> & K).
  destruct (startswith _ _) eqn:S; [ exfalso | reflexivity ].
  apply startswith_spec in S as [u S]. cbn in S. injection S as -> _. discriminate.
Qed.


Lemma printed_read :
  (forall r s, prints r s -> forall fuel rest, length s <= S fuel -> read_node fuel (s ++ rest) = Some (r, rest)) /\
  (forall l s, prints_kids l s -> forall fuel rest, S (length s) <= fuel -> startswith rest #"</" = true ->
     read_kids fuel (s ++ rest) = Some (l, rest)).
Proof.
  apply prints_both.
  - intros n att attrs t kids ks Hn Ha Ht Hatt Hk IH fuel rest L.
    rewrite <- !app_assoc.
    destruct (start_tag n att attrs (escape t ++ ks ++ #"</" ++ n ++ #">" ++ rest) Hatt) as (sp & E & Hsp).
    destruct fuel as [|fuel].
    { exfalso. rewrite !app_length in L. cbn [length lit app Ascii.N_of_ascii] in L. lia. }
    rewrite E. cbn [read_node]. rewrite strip_prefix_app.
    destruct (read_start _ _ _ _ Hn Ha Hsp) as [-> ->].
    destruct n as [|c n]; [ destruct Hn; congruence | ].
    assert (ET : ends_text (ks ++ #"</" ++ (c :: n) ++ #">" ++ rest)).
    { apply (kids_head kids); [ exact Hk | ]. right. eexists. reflexivity. }
    rewrite read_text_escape; [ | exact ET | exact Ht | rewrite app_length; pose proof (escape_length t); lia ].
    rewrite IH.
    + replace (#"</" ++ (c :: n) ++ #">" ++ rest) with ((#"</" ++ (c :: n) ++ #">") ++ rest) by (rewrite <- !app_assoc; reflexivity).
      rewrite strip_prefix_app. reflexivity.
    + assert (length (make_xml_node (c :: n) false att [] false []) >= 1) by (unfold make_xml_node; destruct att; cbn; lia).
      rewrite !app_length in L. cbn [length lit app Ascii.N_of_ascii] in L. lia.
    + apply startswith_app.
  - intros fuel rest L S. destruct fuel as [|fuel]; [ cbn in L; lia | ]. cbn [app read_kids]. rewrite S. reflexivity.
  - intros r s t l ls Hr IHr Ht Hl IHl fuel rest L S. destruct fuel as [|fuel]; [ lia | ].
    rewrite <- !app_assoc. cbn [read_kids]. rewrite (not_close r s _ Hr).
    destruct (prints_head r s Hr) as (c & s' & Es & _).
    assert (2 <= length s) by (rewrite Es; cbn [length]; lia).
    rewrite !app_length in L.
    rewrite IHr by lia.
    assert (ER : ends_text (ls ++ rest)).
    { apply (kids_head l); [ exact Hl | ]. apply startswith_spec in S as [u ->]. right. eexists. reflexivity. }
    rewrite read_text_escape; [ | exact ER | exact Ht | rewrite app_length; pose proof (escape_length t); lia ].
    rewrite IHl; [ reflexivity | lia | exact S ].
Qed.

Lemma read_printed : forall r s, prints r s -> read_node (S (length s)) s = Some (r, []).
Proof.
  intros r s H. destruct printed_read as [P _]. rewrite <- (app_nil_r s) at 2. apply P; [ exact H | lia ].
Qed.
