(** The citation a text gets from its file. *)

From Coq Require Import List NArith ZArith Arith Bool Lia.
From Verif Require Import PyStr PyStrFacts CiteModel CiteSpec CiteProofs UrnModel UrnSpec UrnProofs XmlModel MetaModel CollModel
  InvModel InvSpec InvTree LocalModel LocalSpec LocalProofs LoadModel LoadSpec.
Import ListNotations.

Lemma quotes_numbered : forall s i, numbered i (in_double_quotes s) = in_double_quotes (numbered i s).
Proof.
  assert (D : forall n, in_double_quotes (str_of_nat n) = str_of_nat n).
  { intros n. unfold in_double_quotes. rewrite <- (map_id (str_of_nat n)) at 2. apply map_ext_in. intros c H.
    pose proof (str_of_nat_digits n) as X. rewrite forallb_forall in X. apply X in H. clear X. destruct (N.eqb c 39%N) eqn:E; [|reflexivity]. apply N.eqb_eq in E. subst c. discriminate. }
  induction s as [|c s IH]; intros i; [reflexivity|]. cbn [in_double_quotes map numbered].
  destruct (N.eqb c 39%N) eqn:E.
  - apply N.eqb_eq in E. subst c. change (N.eqb 34%N c_qmark) with false. change (N.eqb 39%N c_qmark) with false. cbv iota.
    cbn [map]. change (N.eqb 39%N 39%N) with true. cbv iota. f_equal. apply IH.
  - destruct (N.eqb c c_qmark) eqn:Q.
    + rewrite !map_app. unfold in_double_quotes in D, IH. rewrite D, IH. reflexivity.
    + cbn [map]. rewrite E. f_equal. apply IH.
Qed.

Lemma double_quoted_is : forall s, double_quoted s = in_double_quotes s.
Proof. reflexivity. Qed.

Lemma copy_level_ok : forall l before last, Forall wf_step before -> wf_step last ->
  snd l = Some (numbered 1 (write_steps (before ++ [last]))) ->
  exists l', copy_level l = Ok l' /\ level_copied l l'.
Proof.
  intros [name rd] before last B W E. cbn [snd] in E.
  destruct (views_round_trip before last B W) as (scope & xpath & P & Es & Ex & R).
  unfold copy_level. cbn [snd fst]. rewrite E, P. cbn [bind]. eexists. split; [reflexivity|].
  exists before, last. split; [exact B|]. split; [exact W|]. split; [reflexivity|]. split; [reflexivity|]. cbn [snd].
  rewrite !double_quoted_is.
  assert (NE : in_double_quotes xpath <> []).
  { rewrite Ex. destruct W as (_ & N & _). unfold write_step, in_double_quotes. rewrite map_app. intros X.
    apply app_eq_nil in X. destruct X as [_ X]. apply map_eq_nil in X. contradiction. }
  destruct before as [|b before'].
  - cbn [write_steps flat_map] in Es. rewrite Es. reflexivity.
  - assert (NS : scope <> []).
    { rewrite Es. inversion B as [|? ? (_ & N & _) _]; subst. cbn [write_steps flat_map]. unfold write_step. intros X.
      apply app_eq_nil in X. destruct X as [X _]. apply app_eq_nil in X. tauto. }
    cbn [option_map]. rewrite init_numbered; [|intros X; apply NS; apply map_eq_nil in X; exact X|exact NE].
    f_equal. unfold in_double_quotes at 1 2. rewrite <- map_app. fold (in_double_quotes (scope ++ xpath)).
    rewrite quotes_numbered. f_equal. f_equal. rewrite Es, Ex. unfold write_steps. rewrite flat_map_app. cbn [flat_map].
    rewrite app_nil_r. reflexivity.
Qed.

Lemma copy_levels_ok : forall ls, readable_levels ls -> exists c, mapM copy_level ls = Ok c /\ Forall2 level_copied ls c.
Proof.
  intros ls H. apply (mapM_each copy_level level_copied). intros l I. destruct (H l I) as (b & x & B & W & E).
  eapply copy_level_ok; eassumption.
Qed.

Lemma copy_levels_none : forall ls, (exists l, In l ls /\ snd l = None) -> exists e, mapM copy_level ls = Err e.
Proof.
  intros ls (l & I & E). induction ls as [|a ls IH]; [destruct I|]. cbn [mapM].
  destruct (copy_level a) as [b|e] eqn:C; [|eexists; reflexivity].
  destruct I as [->|I]; [unfold copy_level in C; rewrite E in C; discriminate|].
  destruct (IH I) as (e & X). rewrite X. eexists. reflexivity.
Qed.

(** What reading the file of a text gives. *)
Definition file_citation (texts : disk) (path : str) : option (list level) :=
  match texts path with
  | None => None
  | Some levels =>
      match (ls <- levels ;; mapM copy_level ls) with
      | Ok (l :: ls) => Some (l :: ls)
      | _ => None
      end
  end.

Lemma read_text_is : forall texts t dir s u, urn_parse (c_urn (obj (s_state s) t)) = Ok u ->
  exists s' b, read_text texts t dir s = (s', Ok b) /\ s_state s' = s_state s /\
    (forall j, j <> t -> citation_of s' j = citation_of s j) /\
    citation_of s' t = match file_citation texts (text_path dir u) with Some c => Some c | None => citation_of s t end /\
    s_paths s' = (t, text_path dir u) :: s_paths s.
Proof.
  intros texts t dir s u E. unfold read_text, file_citation. rewrite E. cbv zeta. cbn [s_state s_cites s_paths].
  destruct (texts (text_path dir u)) as [levels|]; [|eexists _, false; split; [reflexivity|]; auto].
  destruct (ls <- levels ;; mapM copy_level ls) as [[|[name refs] ls]|e]; try (eexists _, false; split; [reflexivity|]; auto; fail).
  eexists. eexists. split; [reflexivity|]. split; [reflexivity|]. split; [|split; [|reflexivity]].
  - intros j N. apply (citation_other t ((name, refs) :: ls) s j N).
  - unfold citation_of. cbn [s_cites find fst]. rewrite Nat.eqb_refl. reflexivity.
Qed.

Lemma text_path_written : forall dir ns cts tg wk vs u, plain_ns ns -> plain_ns cts -> plain_part (Version tg wk vs) ->
  urn_parse (write_urn ns cts (Version tg wk vs) None) = Ok u ->
  text_path dir u = dir ++ #"/" ++ tg ++ #"." ++ wk ++ #"." ++ vs ++ #".xml".
Proof.
  intros dir ns cts tg wk vs u P1 P2 P3 E.
  destruct (components_read_back ns cts (Version tg wk vs) None u P1 P2 P3) as (_ & _ & A & B & C & _); [exact I|exact E|].
  unfold text_path. rewrite A, B, C. reflexivity.
Qed.

Lemma citation_read : forall texts dir e c0 path, sound_texts texts -> expected_at dir e path -> citation_says e c0 ->
  citation_from texts e (Some dir) (match file_citation texts path with Some c => c | None => c0 end).
Proof.
  intros texts dir e c0 path S X C. unfold file_citation.
  destruct (texts path) as [[ls|x]|] eqn:T.
  - cbn [bind]. destruct (S _ _ T) as [R|N].
    + destruct (copy_levels_ok ls R) as (c & M & F). rewrite M. destruct c as [|l c].
      * inversion F; subst. eapply from_neither; [exact X|rewrite T; left; reflexivity|exact C].
      * eapply from_file; [exact X|exact T| |exact F]. intros ->. inversion F.
    + eapply from_neither in C; [|exact X|rewrite T; exact N].
      destruct N as [->|H]; [exact C|]. destruct (copy_levels_none ls H) as (x & ->). exact C.
  - eapply from_neither; [exact X|rewrite T; exact I|exact C].
  - eapply from_neither; [exact X|rewrite T; exact I|exact C].
Qed.

(** Reading the files of several texts. *)
Lemma read_texts_ok : forall texts tds s,
  (forall t dir, In (t, dir) tds -> exists u, urn_parse (c_urn (obj (s_state s) t)) = Ok u) ->
  exists s', for_each tds (fun td => _ <-- read_text texts (fst td) (snd td) ;; ret tt) s = (s', Ok tt) /\
    s_state s' = s_state s /\
    (forall t, (forall dir, ~ In (t, dir) tds) -> citation_of s' t = citation_of s t) /\
    (forall t dir u, In (t, dir) tds -> (forall dir', In (t, dir') tds -> dir' = dir) ->
       urn_parse (c_urn (obj (s_state s) t)) = Ok u ->
       citation_of s' t = match file_citation texts (text_path dir u) with Some c => Some c | None => citation_of s t end).
Proof.
  intros texts tds. induction tds as [|[t0 d0] tds IH]; intros s H.
  - exists s. split; [reflexivity|]. split; [reflexivity|]. split; [reflexivity|]. intros t dir u [].
  - destruct (H t0 d0 (or_introl eq_refl)) as (u0 & U0).
    destruct (read_text_is texts t0 d0 s u0 U0) as (s1 & b & R & S1 & O1 & C1 & _).
    destruct (IH s1) as (s' & R' & S' & O' & C').
    { intros t dir I. rewrite S1. apply (H t dir). right. exact I. }
    exists s'. split; [|split; [congruence|split]].
    + cbn [for_each fst snd]. unfold andthen in *. rewrite R. exact R'.
    + intros t N. rewrite O' by (intros dir X; apply (N dir); right; exact X).
      apply O1. intros ->. apply (N d0). left. reflexivity.
    + intros t dir u I F U. rewrite S1 in C'.
      assert (D : In (t, dir) tds \/ forall dir', ~ In (t, dir') tds).
      { destruct (existsb (fun td => Nat.eqb (fst td) t) tds) eqn:X.
        - apply existsb_exists in X. destruct X as ([t' d'] & J & K). apply Nat.eqb_eq in K. cbn in K. subst t'.
          left. rewrite <- (F d') by (right; exact J). exact J.
        - right. intros d' J. assert (Y : existsb (fun td => Nat.eqb (fst td) t) tds = true).
          { apply existsb_exists. exists (t, d'). split; [exact J|apply Nat.eqb_refl]. } congruence. }
      destruct (Nat.eq_dec t t0) as [->|NE].
      * assert (d0 = dir) by (apply F; left; reflexivity). subst d0. assert (u0 = u) by congruence. subst u0.
        destruct D as [D|D].
        -- rewrite (C' t0 dir u D (fun d' J => F d' (or_intror J)) U), C1. destruct (file_citation _ _); reflexivity.
        -- rewrite (O' t0 D). exact C1.
      * destruct I as [I|I]; [injection I as -> _; contradiction|].
        rewrite (C' t dir u I (fun d' J => F d' (or_intror J)) U), (O1 t NE). reflexivity.
Qed.

(** The paths they get. *)
Lemma path_cons : forall s t p r j, s_paths s = (t, p) :: r ->
  path_of s j = if Nat.eqb t j then Some p else option_map snd (find (fun e => Nat.eqb (fst e) j) r).
Proof. intros s t p r j E. unfold path_of. rewrite E. cbn [find fst]. destruct (Nat.eqb t j); reflexivity. Qed.

Lemma read_texts_paths : forall texts tds s s',
  for_each tds (fun td => _ <-- read_text texts (fst td) (snd td) ;; ret tt) s = (s', Ok tt) ->
  (forall t, (forall dir, ~ In (t, dir) tds) -> path_of s' t = path_of s t) /\
  (forall t dir u, In (t, dir) tds -> (forall dir', In (t, dir') tds -> dir' = dir) ->
     urn_parse (c_urn (obj (s_state s) t)) = Ok u -> path_of s' t = Some (text_path dir u)) /\
  (forall t p, In (t, p) (s_paths s') -> In (t, p) (s_paths s) \/ exists dir, In (t, dir) tds).
Proof.
  intros texts tds. induction tds as [|[t0 d0] tds IH]; intros s s' E.
  - cbn [for_each] in E. unfold ret in E. assert (s' = s) by congruence. subst s'. split; [reflexivity|]. split; [intros t dir u []|auto].
  - cbn [for_each fst snd] in E. unfold andthen in E.
    destruct (urn_parse (c_urn (obj (s_state s) t0))) as [u0|e] eqn:U0.
    2: { unfold read_text in E. rewrite U0 in E. discriminate. }
    destruct (read_text_is texts t0 d0 s u0 U0) as (s1 & b & R & S1 & _ & _ & P1). rewrite R in E. cbn beta iota in E.
    destruct (IH s1 s' E) as (A & B & C). rewrite S1 in B. split; [|split].
    + intros t N. rewrite A by (intros dir X; apply (N dir); right; exact X).
      rewrite (path_cons _ _ _ _ _ P1). destruct (Nat.eqb t0 t) eqn:Q; [|reflexivity].
      apply Nat.eqb_eq in Q. subst t0. destruct (N d0). left. reflexivity.
    + intros t dir u I F U.
      assert (D : In (t, dir) tds \/ forall dir', ~ In (t, dir') tds).
      { destruct (existsb (fun td => Nat.eqb (fst td) t) tds) eqn:X.
        - apply existsb_exists in X. destruct X as ([t' d'] & J & K). apply Nat.eqb_eq in K. cbn in K. subst t'.
          left. rewrite <- (F d') by (right; exact J). exact J.
        - right. intros d' J. assert (Y : existsb (fun td => Nat.eqb (fst td) t) tds = true).
          { apply existsb_exists. exists (t, d'). split; [exact J|apply Nat.eqb_refl]. } congruence. }
      destruct D as [D|D]; [exact (B t dir u D (fun d' J => F d' (or_intror J)) U)|].
      rewrite (A t D). rewrite (path_cons _ _ _ _ _ P1). destruct I as [I|I]; [|destruct (D dir I)].
      assert (t0 = t /\ d0 = dir) as [-> ->] by (split; congruence). rewrite Nat.eqb_refl. congruence.
    + intros t p I. destruct (C t p I) as [J|(dir & J)]; [|right; exists dir; right; exact J].
      rewrite P1 in J. destruct J as [J|J]; [|left; exact J]. right. exists d0. left. congruence.
Qed.
