(** Proofs about filling the xpath of a citation. *)

From Coq Require Import List NArith Arith Bool Lia.
From Verif Require Import PyStr PyStrFacts PyRe RefModel CiteModel CiteSpec CiteProofs FillModel.
Import ListNotations.

Lemma doubled_plain : forall p, ~ In c_backslash p -> doubled p = p.
Proof.
  induction p as [|c p IH]; intros H; [reflexivity|]. unfold doubled in *. cbn [flat_map]. rewrite IH by (intros X; apply H; right; exact X).
  destruct (N.eqb_spec c c_backslash) as [->|N]; [elim H; left; reflexivity|reflexivity].
Qed.

Lemma after_doubled : forall s, after_backslash (c_backslash :: s) = Some (Text [c_backslash], s).
Proof. reflexivity. Qed.

Lemma parts_doubled : forall p fuel rest ps, length (doubled p) <= fuel -> parts_of (fuel - length (doubled p)) rest = Some ps ->
  (forall f, fuel - length (doubled p) <= f -> parts_of f rest = Some ps) ->
  exists qs, parts_of fuel (doubled p ++ rest) = Some (qs ++ ps) /\ forall ws, expand qs ws = p.
Proof.
  induction p as [|c p IH]; intros fuel rest ps L E M.
  - exists []. split; [|reflexivity]. cbn [doubled flat_map app]. apply M. lia.
  - unfold doubled in *. cbn [flat_map] in *. fold (doubled p) in *. destruct (N.eqb_spec c c_backslash) as [->|N].
    + cbn [app length] in *. destruct fuel as [|fuel]; [lia|]. cbn [parts_of]. rewrite N.eqb_refl. rewrite after_doubled.
      destruct (IH fuel rest ps) as (qs & Q & X).
      * lia.
      * apply M. lia.
      * intros f F. apply M. lia.
      * rewrite Q. exists (Text [c_backslash] :: qs). split; [reflexivity|]. intros ws. unfold expand in *. cbn [flat_map app]. rewrite X. reflexivity.
    + cbn [app length] in *. destruct fuel as [|fuel]; [lia|]. cbn [parts_of]. apply N.eqb_neq in N. rewrite N.
      destruct (IH fuel rest ps) as (qs & Q & X).
      * lia.
      * apply M. lia.
      * intros f F. apply M. lia.
      * rewrite Q. exists (Text [c] :: qs). split; [reflexivity|]. intros ws. unfold expand in *. cbn [flat_map app]. rewrite X. reflexivity.
Qed.

Lemma template_doubled : forall p, exists ps, template (#"\1\2'" ++ doubled p ++ #"'") = Some ps /\
  forall ws, expand ps ws = rr_group1 ws ++ nth 2 ws [] ++ #"'" ++ p ++ #"'".
Proof.
  intros p. unfold template. rewrite app_length. cbn [length]. 
  destruct (parts_doubled p (length (doubled p) + 3) #"'" [Text #"'"]) as (qs & Q & X).
  - lia.
  - replace (length (doubled p) + 3 - length (doubled p)) with 3 by lia. reflexivity.
  - intros f F. destruct f as [|f]; [lia|]. destruct f; reflexivity.
  - exists (Group 1 :: Group 2 :: Text #"'" :: qs ++ [Text #"'"]). split.
    + rewrite app_length. change (length #"\1\2'") with 5. change (length #"'") with 1.
      replace (5 + (length (doubled p) + 1)) with (S (S (S (length (doubled p) + 3)))) by lia.
      change (#"\1\2'" ++ doubled p ++ #"'") with (c_backslash :: 49%N :: c_backslash :: 50%N :: 39%N :: (doubled p ++ #"'")).
      cbn [parts_of]. change (N.eqb c_backslash c_backslash) with true. cbn iota.
      change (after_backslash (49%N :: c_backslash :: 50%N :: 39%N :: doubled p ++ #"'")) with (Some (Group 1, c_backslash :: 50%N :: 39%N :: doubled p ++ #"'")).
      cbn beta iota. change (N.eqb c_backslash c_backslash) with true. cbn iota.
      change (after_backslash (50%N :: 39%N :: doubled p ++ #"'")) with (Some (Group 2, 39%N :: doubled p ++ #"'")).
      cbn beta iota. change (N.eqb 39 c_backslash) with false. cbn iota. rewrite Q. reflexivity.
    + intros ws. unfold expand in *. cbn [flat_map group_of]. rewrite flat_map_app, X. cbn [flat_map app]. reflexivity.
Qed.

Lemma fill_xpath_plain : forall rd scope t l passage,
  parse_xpath_scope rd = Ok (scope, t ++ write_pieces l) -> ~ In c_at t -> Forall wf_piece l ->
  fill_xpath rd (option_map doubled passage) = Ok (Some (t ++ filled l (repeat passage (slots l)))).
Proof.
  intros rd scope t l passage Hp Ht Hl. unfold fill_xpath. rewrite Hp. cbn [bind].
  assert (E : exists ps, template (match option_map doubled passage with Some p => #"\1\2'" ++ p ++ #"'" | None => #"\1" end) = Some ps /\
    forall ws, expand ps ws = rr_group1 ws ++ match passage with Some p => nth 2 ws [] ++ #"'" ++ p ++ #"'" | None => [] end).
  { destruct passage as [p|]; cbn [option_map]; [apply template_doubled|]. exists [Group 1]. split; [reflexivity|]. intros ws. reflexivity. }
  destruct E as (ps & -> & E). do 2 f_equal. unfold re_sub.
  rewrite rr_pattern by (try apply wf_piece_m_of; assumption).
  rewrite flat_map_app, flat_map_inl_id. f_equal. clear - E.
  induction l as [|[[a q|a r] t] l IH]; [reflexivity|..]; unfold slots in *; cbn [piece_segs filter fst length repeat].
  - cbn [flat_map]. rewrite flat_map_app, flat_map_inl_id, IH, E. cbn [filled tl nth rr_group1].
    unfold rr_group1. cbn [nth]. destruct passage; cbn [app]; rewrite <- ?app_assoc; cbn [app]; rewrite <- ?app_assoc; reflexivity.
  - rewrite !flat_map_app, !flat_map_inl_id, IH. cbn [app filled]. rewrite <- ?app_assoc. reflexivity.
Qed.
