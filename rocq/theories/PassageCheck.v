(** Deciding that a given text is clear, and a text used in the examples. *)

From Coq Require Import List NArith ZArith Arith Bool Lia.
From Verif Require Import PyStr PyStrFacts RefModel CiteModel SchemeModel UrnModel UrnSpec.
From Verif Require Import XmlModel XmlSpec XmlProofs XPathModel CiteSpec TemplateSpec TemplateProofs.
From Verif Require Import PassageModel PassageSpec PassageProofs PassageTree PassageNav PassageRange PassageApi.
Import ListNotations.

Definition unit_paths (levels : list level) (x : node) (k : nat) : list path := xpath_abs x (mean levels (repeat None k)).

Definition check_unambiguous (levels : list level) (x : node) (k : nat) : bool :=
  forallb (fun n => forallb (fun c => Nat.leb (length (xpath_abs x (mean levels (map Some c)))) 1) (enum levels x n [])) (seq 1 k).

Definition check_not_nested (levels : list level) (x : node) (k : nat) : bool :=
  forallb (fun j => forallb (fun p => forallb (fun q => negb (is_prefix p q) || (if list_eq_dec Nat.eq_dec p q then true else false))
    (unit_paths levels x j)) (unit_paths levels x j)) (seq 1 (k - 1)).

Definition check_id (v : str) : bool :=
  truthy v && forallb (fun c => negb (mem c v)) [c_dot; c_dash; c_at; c_quote; c_slash; c_colon; c_hash].

Definition check_units (levels : list level) (x : node) : bool :=
  forallb (fun j => match nth_error levels j with
    | Some lv => forallb (fun p => match lookup (document x) p with
        | Some n => match get_attr (id_attr lv) (n_attrs n) with Some v => check_id v | None => true end
        | None => true end) (unit_paths levels x (S j))
    | None => true end) (seq 0 (length levels)).

Lemma check_id_good : forall v, check_id v = true -> good_id v.
Proof.
  intros v H. unfold check_id in H. apply andb_true_iff in H. destruct H as [H1 H2]. apply truthy_spec in H1. rewrite forallb_forall in H2.
  assert (N : forall c, In c [c_dot; c_dash; c_at; c_quote; c_slash; c_colon; c_hash] -> ~ In c v).
  { intros c Hc Hi. specialize (H2 c Hc). apply mem_In in Hi. rewrite Hi in H2. discriminate. }
  unfold good_id, plain. repeat split; try assumption; apply N; cbn; tauto.
Qed.

Lemma mean_none_nonnil : forall levels k, levels <> [] -> 0 < k -> mean levels (repeat None k) <> [].
Proof. intros levels k H Hk. apply mean_nonnil; [exact H|]. destruct k; [lia|discriminate]. Qed.

Lemma In_units : forall levels x k p, levels <> [] -> 0 < k -> (In p (unit_paths levels x k) <-> is_unit levels x k p).
Proof. intros levels x k p H Hk. unfold unit_paths, xpath_abs, is_unit. apply In_xpath, mean_none_nonnil; assumption. Qed.

Lemma check_unambiguous_ok : forall levels x k, Forall wf_level levels -> k <= length levels ->
  check_unambiguous levels x k = true -> unambiguous levels x k.
Proof.
  intros levels x k Hwf Hk H c p q Hc Hp Hq. destruct c as [|v c].
  - unfold cites in Hp, Hq. assert (E : mean levels (map Some []) = []) by (destruct levels; reflexivity). rewrite E in Hp, Hq.
    inversion Hp; inversion Hq; subst; reflexivity.
  - unfold check_unambiguous in H. rewrite forallb_forall in H. specialize (H (length (v :: c))). rewrite forallb_forall in H.
    assert (Hin : In (v :: c) (enum levels x (length (v :: c)) [])).
    { apply (In_enum levels x Hwf); cbn in *; [lia|lia|]. split; [exists (v :: c); reflexivity|]. split; [reflexivity|eauto]. }
    specialize (H ltac:(apply in_seq; cbn in *; lia) (v :: c) Hin). apply Nat.leb_le in H.
    assert (Hne : mean levels (map Some (v :: c)) <> []) by (apply mean_nonnil; [intros E; rewrite E in Hk; cbn in *; lia|discriminate]).
    unfold cites in Hp, Hq. apply In_xpath in Hp; [|exact Hne]. apply In_xpath in Hq; [|exact Hne].
    unfold xpath_abs in H. destruct (xpath (document x) (mean levels (map Some (v :: c)))) as [|a [|b l]]; cbn in H; [destruct Hp| |lia].
    destruct Hp as [->|[]], Hq as [->|[]]. reflexivity.
Qed.

Lemma check_not_nested_ok : forall levels x k, levels <> [] -> check_not_nested levels x k = true -> not_nested levels x k.
Proof.
  intros levels x k Hl H j p q Hj Hp Hq Hpre. destruct j as [|j].
  - assert (E : mean levels (repeat None 0) = []) by (destruct levels; reflexivity). unfold is_unit in *. rewrite E in *.
    inversion Hp; inversion Hq; subst; reflexivity.
  - unfold check_not_nested in H. rewrite forallb_forall in H. specialize (H (S j) ltac:(apply in_seq; lia)). rewrite forallb_forall in H.
    apply (In_units levels x (S j)) in Hp; [|exact Hl|lia]. apply (In_units levels x (S j)) in Hq; [|exact Hl|lia].
    specialize (H p Hp). rewrite forallb_forall in H. specialize (H q Hq). rewrite Hpre in H. cbn in H.
    destruct (list_eq_dec Nat.eq_dec p q); [assumption|discriminate].
Qed.

Lemma check_units_ok : forall levels x, check_units levels x = true -> good_units levels x.
Proof.
  intros levels x H j lv p n v Hlv Hu Hn Hv. unfold check_units in H. rewrite forallb_forall in H.
  assert (Hj : j < length levels) by (apply nth_error_Some; congruence).
  specialize (H j ltac:(apply in_seq; lia)). rewrite Hlv, forallb_forall in H.
  assert (Hne : levels <> []) by (intros ->; destruct j; discriminate).
  apply (In_units levels x (S j)) in Hu; [|exact Hne|lia]. specialize (H p Hu). apply at_position_lookup in Hn. rewrite Hn, Hv in H.
  apply check_id_good. exact H.
Qed.

Lemma check_clear : forall levels x k, usable_scheme levels -> 0 < k <= length levels ->
  check_units levels x = true -> check_unambiguous levels x k = true -> check_not_nested levels x (S k) = true -> clear_text levels x k.
Proof.
  intros levels x k Hu Hk H1 H2 H3. split; [exact Hu|]. split; [apply check_units_ok; exact H1|]. split.
  - apply check_unambiguous_ok; [apply Hu|lia|exact H2].
  - apply check_not_nested_ok; [intros ->; cbn in Hk; lia|exact H3].
Qed.

Lemma cites_only_check : forall levels x comps p, levels <> [] -> comps <> [] -> xpath_abs x (mean levels (map Some comps)) = [p] ->
  cites_only levels x comps p.
Proof.
  intros levels x comps p Hl Hc E. assert (Hm : mean levels (map Some comps) <> []) by (apply mean_nonnil; [exact Hl|destruct comps; [congruence|discriminate]]).
  unfold xpath_abs in E. split; [apply In_xpath; [exact Hm|]; rewrite E; left; reflexivity|].
  intros q Hq. apply In_xpath in Hq; [|exact Hm]. rewrite E in Hq. destruct Hq as [<-|[]]. reflexivity.
Qed.

Lemma cites_none_check : forall levels x comps, levels <> [] -> comps <> [] -> xpath_abs x (mean levels (map Some comps)) = [] ->
  forall p, ~ cites levels x comps p.
Proof.
  intros levels x comps Hl Hc E p Hp. assert (Hm : mean levels (map Some comps) <> []) by (apply mean_nonnil; [exact Hl|destruct comps; [congruence|discriminate]]).
  unfold xpath_abs in E. apply In_xpath in Hp; [|exact Hm]. rewrite E in Hp. exact Hp.
Qed.

(** ** Two poems of three and two lines *)

Definition poem_level : level :=
  MkLevel [MkT false #"tei:TEI" []] (MkT true #"tei:div" [[TValue #"type" #"poem"]; [TSlot #"n"]]).
Definition line_level : level := MkLevel [] (MkT true #"tei:l" [[TSlot #"n"]]).
Definition poem_scheme : list level := [poem_level; line_level].

Definition tei (t : str) (n : str) (x : str) (kids : list node) : node :=
  Elem (clark t) [(#"type", #"poem"); (#"n", n)] x #"." kids.
Definition poems : node :=
  Elem (clark #"tei:TEI") [] #"" #""
    [tei #"tei:div" #"1" #"" [tei #"tei:l" #"1" #"a" []; tei #"tei:l" #"2" #"b" []; tei #"tei:l" #"3" #"c" []];
     tei #"tei:div" #"2" #"" [tei #"tei:l" #"1" #"d" []; tei #"tei:lg" #"" #"" [tei #"tei:l" #"2a" #"e" []]]].

Lemma poem_scheme_usable : usable_scheme poem_scheme.
Proof.
  assert (Q : forall q, resolve q <> None -> forallb qname_char q = true -> qname q).
  { intros q H1 H2. split; [exact H1|]. intros c Hc. rewrite forallb_forall in H2. apply H2. exact Hc. }
  assert (S : slot_attr #"n").
  { exists #"n". split; [discriminate|]. split; [intros c [<-|[]]; reflexivity|left; reflexivity]. }
  split; [|split; [cbn; lia|split]].
  - repeat match goal with
      | |- Forall _ _ => constructor
      | |- wf_level _ => split
      | |- wf_tstep _ => split
      | |- wf_test (TSlot _) => exact S
      | |- wf_test _ => split
      | |- attr_name _ => split
      | |- fixed_value _ => split
      | |- qname _ => apply Q; [discriminate|reflexivity]
      | |- _ \/ _ => right
      | |- _ /\ _ => split
      | |- _ = _ => reflexivity
      | |- _ <> _ => discriminate
      end.
    all: try (exists #"n"; reflexivity).
    all: try (intros c Hc; cbn in Hc; repeat destruct Hc as [<-|Hc]; try reflexivity; destruct Hc).
    all: try (cbn; intros Hc; repeat destruct Hc as [Hc|Hc]; try discriminate; exact Hc).
    exists 0, 112%N. split; [lia|]. split; reflexivity.
  - exists poem_level, [line_level], (MkT false #"tei:TEI" []), []. repeat split.
  - assert (E : forallb (fun lv => forallb (fun s => forallb (forallb (fun t => match t with TValue _ v => negb (mem c_slash v) | _ => true end)) (t_groups s))
                  (l_way lv ++ [l_unit lv])) poem_scheme = true) by reflexivity.
    intros lv s g a v Hlv Hs Hg Hv Hi. rewrite forallb_forall in E. specialize (E lv Hlv). rewrite forallb_forall in E. specialize (E s Hs).
    rewrite forallb_forall in E. specialize (E g Hg). rewrite forallb_forall in E. specialize (E _ Hv). cbn in E.
    apply mem_In in Hi. rewrite Hi in E. discriminate.
Qed.

Lemma poems_clear : forall k, 0 < k <= 2 -> clear_text poem_scheme poems k.
Proof.
  intros k Hk. apply check_clear; [exact poem_scheme_usable|cbn; lia|vm_compute; reflexivity| |];
    destruct k as [|[|[|k]]]; try lia; vm_compute; reflexivity.
Qed.
