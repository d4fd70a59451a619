(** Proofs about the DTS resolver. *)

From Coq Require Import List NArith ZArith Arith Bool Lia.
From Verif Require Import PyStr PyStrFacts PyRe Json TreeModel MetaModel MetaProofs HttpModel HttpSpec HttpProofs DtsModel DtsSpec Props_Http.
Import ListNotations.

(** ** Page numbers *)

Lemma is_digit_spec : forall c, is_digit c = true <-> (48 <= c <= 57)%N.
Proof. intros c. unfold is_digit. rewrite andb_true_iff, !N.leb_le. tauto. Qed.

Lemma digits_forallb : forall s, forallb is_digit s = true <-> digits s.
Proof.
  intros s. unfold digits. rewrite forallb_forall, Forall_forall.
  split; intros H c Hc; apply is_digit_spec; auto; apply is_digit_spec; auto.
Qed.

Lemma one_piece : forall c w, piece_ok (one (is_char c)) w -> w = [c].
Proof.
  intros c w (H1 & H2 & H3). cbn in H2, H3. destruct w as [|x [|y w]]; cbn in *; try lia.
  rewrite andb_true_r in H1. apply is_char_spec in H1. congruence.
Qed.

Definition page_pieces (n : str) : list str := [[112]; [97]; [103]; [101]; [61]; n]%N.

Lemma page_pieces_spec : forall ws, Forall2 piece_ok re_page ws ->
  exists n, ws = page_pieces n /\ digits n /\ n <> [].
Proof.
  intros ws H. unfold re_page in H. repeat match goal with H : Forall2 _ (_ :: _) _ |- _ => inversion H; clear H; subst end.
  repeat match goal with H : piece_ok (one _) _ |- _ => apply one_piece in H; subst end.
  match goal with H : Forall2 _ [] _ |- _ => inversion H; subst end.
  match goal with H : piece_ok (plus _) ?n |- _ => exists n; destruct H as (H1 & H2 & _) end.
  split; [reflexivity|]. split; [apply digits_forallb; exact H1|]. cbn in H2. intros ->. cbn in H2. lia.
Qed.

Lemma rmatch_page_none : forall s, (forall d b, s = #"page=" ++ d :: b -> ~ (48 <= d <= 57)%N) -> rmatch re_page s = None.
Proof.
  intros s H. apply rmatch_none. intros ws t E F. apply page_pieces_spec in F. destruct F as (n & -> & Hn & Hne).
  destruct n as [|d n]; [congruence|]. inversion Hn; subst.
  refine (H d (n ++ t) _ _); [|assumption]. unfold page_pieces. cbn. rewrite app_nil_r. reflexivity.
Qed.

Lemma rmatch_page : forall n b, digits n -> n <> [] -> (forall c b', b = c :: b' -> ~ (48 <= c <= 57)%N) ->
  rmatch re_page (#"page=" ++ n ++ b) = Some (page_pieces n, b).
Proof.
  intros n b Hn Hne Hb. change (#"page=" ++ n ++ b) with ([112; 97; 103; 101; 61]%N ++ n ++ b).
  replace ([112; 97; 103; 101; 61]%N ++ n ++ b) with (concat (page_pieces n) ++ b).
  2:{ unfold page_pieces. cbn. rewrite app_nil_r. reflexivity. }
  apply rmatch_max. unfold re_page, page_pieces. cbn [pieces_max].
  assert (O : forall c, piece_ok (one (is_char c)) [c]).
  { intros c. split; [cbn; rewrite (proj2 (is_char_spec c c)); reflexivity|]. cbn. lia. }
  assert (M : forall c t, maximal (one (is_char c)) [c] t) by (intros; left; reflexivity).
  split; [apply O|]. split; [apply M|]. split; [apply O|]. split; [apply M|]. split; [apply O|]. split; [apply M|].
  split; [apply O|]. split; [apply M|]. split; [apply O|]. split; [apply M|]. split; [|split; [|exact I]].
  - split; [apply digits_forallb; exact Hn|]. cbn. split; [|exact I]. destruct n; [congruence|cbn; lia].
  - right. cbn. destruct b as [|c b]; [exact I|]. destruct (is_digit c) eqn:E; [|reflexivity].
    apply is_digit_spec in E. destruct (Hb c b eq_refl E).
Qed.

Lemma first_page_number_some : forall u n, page_number u n -> first_page_number (JStr u) = Ok n.
Proof.
  intros u n (a & b & -> & Hn & Hne & Hb & Hfirst). unfold first_page_number, re_findall.
  rewrite re_scan_skip_app.
  - rewrite flat_map_app, flat_map_inl_nil. rewrite (re_scan_match _ _ _ _ (rmatch_page n b Hn Hne Hb)) by discriminate.
    reflexivity.
  - intros a1 a2 E Ha. apply rmatch_page_none. intros d b' E2 Hd.
    assert (L : length a <= length a1).
    { apply (Hfirst a1 d b'); [|exact Hd]. rewrite E, <- app_assoc, E2. reflexivity. }
    rewrite E, app_length in L. destruct a2; [congruence|cbn in L; lia].
Qed.

Lemma digit_prefix : forall s, exists n b, s = n ++ b /\ digits n /\ (forall c b', b = c :: b' -> ~ (48 <= c <= 57)%N).
Proof.
  induction s as [|c s (n & b & -> & Hn & Hb)].
  - exists [], []. split; [reflexivity|]. split; [constructor|discriminate].
  - destruct (is_digit c) eqn:E.
    + exists (c :: n), b. split; [reflexivity|]. split; [constructor; [apply is_digit_spec; exact E|exact Hn]|exact Hb].
    + exists [], (c :: n ++ b). split; [reflexivity|]. split; [constructor|].
      intros c' b' X. injection X as <- _. intros H. apply is_digit_spec in H. congruence.
Qed.

Lemma page_number_dec : forall u, (exists n, page_number u n) \/
  (forall a d b, u = a ++ #"page=" ++ d :: b -> ~ (48 <= d <= 57)%N).
Proof.
  induction u as [|c u IH].
  - right. intros a d b E. destruct a; discriminate.
  - destruct (rmatch re_page (c :: u)) as [[ws t]|] eqn:E.
    + left. apply rmatch_sound in E. destruct E as [E F]. apply page_pieces_spec in F. destruct F as (n & -> & Hn & Hne).
      destruct n as [|d n]; [congruence|].
      destruct (digit_prefix (n ++ t)) as (m & b & Em & Hm & Hb). exists (d :: m), [], b. inversion Hn; subst.
      split; [rewrite E; unfold page_pieces; cbn; rewrite app_nil_r, Em; reflexivity|]. split; [constructor; assumption|]. split; [discriminate|].
      split; [exact Hb|]. intros. cbn. lia.
    + assert (N : forall d b, c :: u = #"page=" ++ d :: b -> ~ (48 <= d <= 57)%N).
      { intros d b X Hd. destruct (digit_prefix (d :: b)) as (m & b' & Em & Hm & Hb).
        rewrite X, Em in E. destruct m as [|d' m].
        - cbn in Em. subst b'. exact (Hb d b eq_refl Hd).
        - rewrite rmatch_page in E; [discriminate|exact Hm|discriminate|exact Hb]. }
      destruct IH as [(n & a & b & -> & Hn & Hne & Hb & Hf)|IH].
      * left. exists n, (c :: a), b. split; [reflexivity|]. split; [exact Hn|]. split; [exact Hne|]. split; [exact Hb|].
        intros a' d b' X Hd. destruct a' as [|c' a'].
        -- exfalso. exact (N d b' X Hd).
        -- injection X as -> X. cbn. apply le_n_S. exact (Hf a' d b' X Hd).
      * right. intros a d b X. destruct a as [|c' a]; [exact (N d b X)|]. injection X as -> X. exact (IH a d b X).
Qed.

Lemma first_page_number_none : forall u, (forall n, ~ page_number u n) -> first_page_number (JStr u) = Err IndexError.
Proof.
  intros u H. destruct (page_number_dec u) as [(n & Hn)|N]; [destruct (H n Hn)|].
  unfold first_page_number, re_findall.
  assert (E : re_scan re_page u = map inl u).
  { rewrite <- (app_nil_r u) at 1. rewrite re_scan_skip_app.
    - rewrite re_scan_nil by reflexivity. apply app_nil_r.
    - intros a b X _. rewrite app_nil_r. apply rmatch_page_none. intros d b' X2. apply (N a d b'). rewrite X, X2. reflexivity. }
  rewrite E, flat_map_inl_nil. reflexivity.
Qed.

Lemma number_of_snoc : forall s c, number_of (s ++ [c]) = (10 * number_of s + (Z.of_N c - 48))%Z.
Proof. intros. unfold number_of. rewrite fold_left_app. reflexivity. Qed.

Lemma decimal_number : forall s z, decimal s z -> number_of s = z.
Proof. intros s z H. induction H; [reflexivity|]. rewrite number_of_snoc, IHdecimal. reflexivity. Qed.

Lemma decimal_total : forall s, decimal s (number_of s).
Proof.
  intros s. induction s as [|c s IH] using rev_ind; [constructor|]. rewrite number_of_snoc. constructor. exact IH.
Qed.

(** ** Reading JSON *)

Lemma gives_first : forall fs k v, gives fs k v -> exists x, get_key (JObj fs) k = Ok x /\ first_at_value x = Ok v.
Proof.
  intros fs k v (o & rest & E & E2). exists (JList (JObj o :: rest)). unfold get_key. rewrite E. split; [reflexivity|].
  unfold first_at_value, get_key. cbn [bind get_first]. rewrite E2. reflexivity.
Qed.

Lemma gives_has : forall fs k v, gives fs k v -> jhas (JObj fs) k = Ok true.
Proof. intros fs k v (o & rest & E & _). unfold jhas. rewrite E. reflexivity. Qed.

Lemma lacks_has : forall fs k, lacks fs k -> jhas (JObj fs) k = Ok false.
Proof. intros fs k E. unfold jhas. rewrite E. reflexivity. Qed.

Lemma gives_opt_default : forall fs k o, gives_opt fs k o ->
  exists x, jget (JObj fs) k empty_value = Ok x /\ first_at_value x = Ok (match o with Some v => v | None => JNull end).
Proof.
  intros fs k [v|] H; cbn in H.
  - destruct (gives_first _ _ _ H) as (x & E & F). exists x. split; [|exact F]. unfold get_key in E. unfold jget.
    destruct (field k fs); [congruence|discriminate].
  - exists empty_value. unfold jget. rewrite H. split; reflexivity.
Qed.

Lemma mapM_Forall2 : forall A B (f : A -> result B) l l', Forall2 (fun a b => f a = Ok b) l l' -> mapM f l = Ok l'.
Proof. intros A B f l l' H. induction H as [|a b l l' E H IH]; [reflexivity|]. cbn. rewrite E. cbn. rewrite IH. reflexivity. Qed.

Lemma Forall2_imp : forall A B (P Q : A -> B -> Prop) l l', (forall a b, P a b -> Q a b) -> Forall2 P l l' -> Forall2 Q l l'.
Proof. intros A B P Q l l' H F. induction F; constructor; auto. Qed.

Lemma tells_literal : forall key j s, tells key j s -> (('(a, l) <- dict_to_literal j ;; Ok (key, a, l)) : result statement) = Ok s.
Proof.
  intros key j s H. destruct H as [o s E L|o s l E L|o z E]; unfold dict_to_literal, get_key, jget; rewrite E; cbn [bind]; [rewrite L|rewrite L|]; reflexivity.
Qed.

Lemma told_group : forall fs k sts, told fs k sts -> parse_group k (JObj fs) = Ok sts.
Proof.
  intros fs k sts [[E ->]|(groups & rest & parts & E & F & ->)]; unfold parse_group, jget; rewrite E; [reflexivity|].
  cbn [bind get_first jitems].
  rewrite (mapM_Forall2 _ _ _ groups parts); [reflexivity|].
  eapply Forall2_imp; [|exact F]. intros [key v] part (js & E2 & F2). cbn [fst snd] in *. subst v. cbn [iter_json bind].
  apply mapM_Forall2. eapply Forall2_imp; [|exact F2]. intros a b. apply tells_literal.
Qed.

Lemma about_metadata : forall fs sts, about fs sts -> parse_metadata (JObj fs) = Ok sts.
Proof.
  intros fs sts (a & b & Ha & Hb & ->). unfold parse_metadata.
  change (dts_term #"dublincore") with #"https://w3id.org/dts/api#dublincore".
  change (dts_term #"extensions") with #"https://w3id.org/dts/api#extensions".
  rewrite (told_group _ _ _ Ha). cbn [bind]. rewrite (told_group _ _ _ Hb). reflexivity.
Qed.

Lemma next_address_number : forall fs o, next_address fs o ->
  next_page_number (JObj fs) =
  match o with None => Ok None | Some u => p <- first_page_number (JStr u) ;; Ok (Some p) end.
Proof.
  intros fs o H. unfold next_page_number.
  change (hydra_term #"view") with #"https://www.w3.org/ns/hydra/core#view".
  change (hydra_term #"next") with #"https://www.w3.org/ns/hydra/core#next".
  destruct o as [u|]; cbn [next_address] in H.
  - destruct H as (v & rest & E & G). unfold jhas at 1, get_key at 1. rewrite E. cbn [bind get_first].
    rewrite (gives_has _ _ _ G). cbn [bind]. destruct (gives_first _ _ _ G) as (x & E2 & E3). rewrite E2. cbn [bind]. rewrite E3. reflexivity.
  - destruct H as [L|(v & rest & E & L)].
    + rewrite (lacks_has _ _ L). reflexivity.
    + unfold jhas at 1, get_key at 1. rewrite E. cbn [bind get_first]. rewrite (lacks_has _ _ L). reflexivity.
Qed.

Lemma members_get : forall fs ms, members fs ms -> jget (JObj fs) (hydra_term #"member") (JList []) = Ok (JList ms).
Proof.
  intros fs ms H. change (hydra_term #"member") with #"https://www.w3.org/ns/hydra/core#member". unfold jget.
  destruct H as [[E ->]|E]; rewrite E; reflexivity.
Qed.

(** ** References *)

Lemma type_given_truthy : forall o, (if jtruthy (match option_map JStr o with Some v => v | None => JNull end)
  then Some (match option_map JStr o with Some v => v | None => JNull end) else None) = type_given o.
Proof. intros [[|c t]|]; reflexivity. Qed.

Definition or_null (o : option str) : json := match option_map JStr o with Some v => v | None => JNull end.

Ltac dts_terms :=
  change (dts_term #"ref") with #"https://w3id.org/dts/api#ref" in *;
  change (dts_term #"start") with #"https://w3id.org/dts/api#start" in *;
  change (dts_term #"end") with #"https://w3id.org/dts/api#end" in *;
  change (dts_term #"level") with #"https://w3id.org/dts/api#level" in *;
  change (dts_term #"citeType") with #"https://w3id.org/dts/api#citeType" in *.

Lemma parse_ref_says : forall fs r ty, says_ref fs r -> parse_ref (JObj fs) (or_null ty) = Ok (reference_of ty r).
Proof.
  intros fs [s e t ab] ty (H1 & H2 & H3). cbn [nv_start nv_end nv_type nv_about] in *. unfold parse_ref. dts_terms.
  assert (K : forall a b,
    (c <- jhas (JObj fs) #"https://w3id.org/dts/api#citeType" ;;
     ty' <- (if c then v <- get_key (JObj fs) #"https://w3id.org/dts/api#citeType" ;; first_at_value v else Ok (or_null ty)) ;;
     about <- parse_metadata (JObj fs) ;; Ok (make_dreference a b ty' about)) =
    Ok (MkDR a b (type_given (match t with Some t => Some t | None => ty end)) ab)).
  { intros a b. destruct t as [t|]; cbn [option_map gives_opt] in H2.
    - rewrite (gives_has _ _ _ H2). cbn [bind]. destruct (gives_first _ _ _ H2) as (x & -> & E). cbn [bind]. rewrite E. cbn [bind].
      rewrite (about_metadata _ _ H3). cbn [bind]. unfold make_dreference. do 2 f_equal. exact (type_given_truthy (Some t)).
    - rewrite (lacks_has _ _ H2). cbn [bind]. rewrite (about_metadata _ _ H3). cbn [bind]. unfold make_dreference, or_null.
      rewrite type_given_truthy. reflexivity. }
  destruct e as [e|].
  - destruct H1 as (L & G1 & G2). rewrite (lacks_has _ _ L), (gives_has _ _ _ G1), (gives_has _ _ _ G2). cbn [bind andb].
    destruct (gives_first _ _ _ G1) as (x & -> & E1). cbn [bind]. rewrite E1. cbn [bind].
    destruct (gives_first _ _ _ G2) as (y & -> & E2). cbn [bind]. rewrite E2. cbn [bind]. apply K.
  - rewrite (gives_has _ _ _ H1). cbn [bind].
    assert (J : forall k, exists b, jhas (JObj fs) k = Ok b) by (intros k; unfold jhas; eauto).
    destruct (J #"https://w3id.org/dts/api#start") as (b1 & ->). destruct (J #"https://w3id.org/dts/api#end") as (b2 & ->). cbn [bind].
    destruct (gives_first _ _ _ H1) as (x & -> & E1). cbn [bind]. rewrite E1. cbn [bind]. apply K.
Qed.

Lemma parse_ref_none : forall fs ty, says_no_ref fs -> parse_ref (JObj fs) ty = Err EmptyReference.
Proof.
  intros fs ty [L H]. unfold parse_ref. dts_terms. rewrite (lacks_has _ _ L). cbn [bind].
  assert (J : forall k, exists b, jhas (JObj fs) k = Ok b) by (intros k; unfold jhas; eauto).
  destruct H as [H|H]; rewrite (lacks_has _ _ H).
  - destruct (J #"https://w3id.org/dts/api#end") as (b & ->). reflexivity.
  - destruct (J #"https://w3id.org/dts/api#start") as (b & ->). cbn [bind]. rewrite andb_false_r. reflexivity.
Qed.

Section Navigation.
Variable server : request -> result (list json).
Variables (r : route) (text level exclude group : param) (ref : option dts_ref).
Variable ans : option str -> result (list json).
Hypothesis Hr : NoDup (map fst (rt_query r)).
Hypothesis Hans : answers server r text level group exclude ref ans.

Let loop := reffs_loop server r text level exclude group ref.

Lemma ref_fields_total : forall x, exists fs, ref_fields x fs.
Proof.
  intros [[[s [[|c e]|]]|[|c s]]|]; eexists; econstructor; discriminate.
Qed.

Lemma server_page : forall p,
  server (get_navigation r text level group NoParam exclude (match p with None => NoParam | Some n => StrParam n end) ref) = ans p.
Proof using Hr Hans.
  intros p. destruct (ref_fields_total ref) as (fs & F). apply (Hans _ p fs F).
  exact (proj1 (proj2 (C40_dts_requests r text NoParam level group NoParam exclude _ ref fs Hr F))).
Qed.

Definition page_result (pg : nav_page) (acc : list dreference) : list dreference :=
  acc ++ map (reference_of (np_type pg)) (np_refs pg).

Lemma loop_page : forall fuel p acc fs rest pg, ans p = Ok (JObj fs :: rest) -> says_page fs pg ->
  loop (S fuel) p acc =
  match np_next pg with
  | None => Ok (MkReffs (make_set (page_result pg acc)) (match np_level pg with Some z => JInt z | None => JNull end) (type_given (np_type pg)))
  | Some u => n <- first_page_number (JStr u) ;; loop fuel (Some n) (page_result pg acc)
  end.
Proof using Hr Hans.
  intros fuel p acc fs rest pg Ha (H1 & H2 & (ms & Hm & Hrefs) & H4). unfold loop. cbn [reffs_loop].
  rewrite server_page, Ha. cbn [bind]. dts_terms.
  destruct (gives_opt_default _ _ _ H1) as (x & -> & E1). cbn [bind]. rewrite E1. cbn [bind].
  destruct (gives_opt_default _ _ _ H2) as (y & -> & E2). cbn [bind]. rewrite E2. cbn [bind].
  rewrite (members_get _ _ Hm). cbn [bind iter_json].
  rewrite (mapM_Forall2 _ _ _ ms (map (reference_of (np_type pg)) (np_refs pg))).
  2:{ clear -Hrefs. induction Hrefs as [|j n ms l (o & -> & H) F IH]; [constructor|]. constructor; [|exact IH].
      apply parse_ref_says. exact H. }
  cbn [bind]. rewrite (next_address_number _ _ H4).
  destruct (np_next pg) as [u|].
  - destruct (first_page_number (JStr u)); reflexivity.
  - cbn [bind]. rewrite type_given_truthy. unfold page_result. destruct (np_level pg); reflexivity.
Qed.

Lemma loop_pages : forall p l, pages ans p l -> forall fuel acc, length l <= fuel -> forall d,
  loop fuel p acc =
  Ok (MkReffs (make_set (acc ++ all_references l)) (match np_level (last l d) with Some z => JInt z | None => JNull end)
        (type_given (np_type (last l d)))).
Proof using Hr Hans.
  intros p l H. induction H as [p fs rest pg Ha Hs Hn|p fs rest pg u n l Ha Hs Hn Hu H IH]; intros fuel acc Hf d.
  - destruct fuel as [|fuel]; [cbn in Hf; lia|]. rewrite (loop_page fuel p acc fs rest pg Ha Hs), Hn.
    unfold page_result, all_references. cbn. rewrite app_nil_r. reflexivity.
  - destruct fuel as [|fuel]; [cbn in Hf; lia|]. rewrite (loop_page fuel p acc fs rest pg Ha Hs), Hn.
    rewrite (first_page_number_some _ _ Hu). cbn [bind]. rewrite (IH fuel _ ltac:(cbn in Hf; lia) d).
    assert (E : last (pg :: l) d = last l d) by (inversion H; reflexivity). rewrite E.
    unfold page_result, all_references. cbn [flat_map]. rewrite app_assoc. reflexivity.
Qed.

Lemma loop_breaks : forall p e, breaks ans p e -> exists k, forall fuel acc, k <= fuel -> loop fuel p acc = Err e.
Proof using Hr Hans.
  intros p e H.
  induction H as [p e H|p H|p fs rest lv ty good bad more refs H Hl Ht Hm Hg Hb|p fs rest pg u H Hs Hn Hu|p n e (fs & rest & pg & u & H & Hs & Hn & Hu) _ (k & IH)].
  - exists 1. intros [|fuel] acc Hf; [lia|]. unfold loop. cbn [reffs_loop]. rewrite server_page, H. reflexivity.
  - exists 1. intros [|fuel] acc Hf; [lia|]. unfold loop. cbn [reffs_loop]. rewrite server_page, H. reflexivity.
  - exists 1. intros [|fuel] acc Hf; [lia|]. unfold loop. cbn [reffs_loop]. rewrite server_page, H. cbn [bind]. dts_terms.
    destruct (gives_opt_default _ _ _ Hl) as (x & -> & E1). cbn [bind]. rewrite E1. cbn [bind].
    destruct (gives_opt_default _ _ _ Ht) as (y & -> & E2). cbn [bind]. rewrite E2. cbn [bind].
    rewrite (members_get fs _ (or_intror Hm)). cbn [bind iter_json].
    assert (B : mapM (fun m => parse_ref m (match ty with Some v => v | None => JNull end)) (good ++ JObj bad :: more) = Err EmptyReference).
    { clear -Hg Hb. induction Hg as [|j r good l (o & -> & Hr) F IH]; cbn [app mapM].
      - rewrite parse_ref_none by exact Hb. reflexivity.
      - assert (exists x, parse_ref (JObj o) (match ty with Some v => v | None => JNull end) = Ok x) as (x & ->).
        { destruct r as [s e t ab]. destruct Hr as (H1 & H2 & H3).
          destruct ty as [v|].
          2:{ eexists. apply (parse_ref_says o (MkNavRef s e t ab) None). split; [exact H1|split; assumption]. }
          cbn [nv_start nv_end nv_type nv_about] in *. unfold parse_ref. dts_terms.
          assert (K : forall a b, exists x,
            (c <- jhas (JObj o) #"https://w3id.org/dts/api#citeType" ;;
             ty' <- (if c then v <- get_key (JObj o) #"https://w3id.org/dts/api#citeType" ;; first_at_value v else Ok v) ;;
             about <- parse_metadata (JObj o) ;; Ok (make_dreference a b ty' about)) = Ok x).
          { intros a b. rewrite (about_metadata _ _ H3). destruct t as [t|]; cbn [option_map gives_opt] in H2.
            - rewrite (gives_has _ _ _ H2). cbn [bind]. destruct (gives_first _ _ _ H2) as (x & -> & E). cbn [bind]. rewrite E. cbn [bind]. eauto.
            - rewrite (lacks_has _ _ H2). cbn [bind]. eauto. }
          assert (J : forall k, exists b, jhas (JObj o) k = Ok b) by (intros k; unfold jhas; eauto).
          destruct e as [e|].
          - destruct H1 as (L & G1 & G2). rewrite (lacks_has _ _ L), (gives_has _ _ _ G1), (gives_has _ _ _ G2). cbn [bind andb].
            destruct (gives_first _ _ _ G1) as (x & -> & E1). cbn [bind]. rewrite E1. cbn [bind].
            destruct (gives_first _ _ _ G2) as (y & -> & E2). cbn [bind]. rewrite E2. cbn [bind]. apply K.
          - rewrite (gives_has _ _ _ H1). cbn [bind].
            destruct (J #"https://w3id.org/dts/api#start") as (b1 & ->). destruct (J #"https://w3id.org/dts/api#end") as (b2 & ->). cbn [bind].
            destruct (gives_first _ _ _ H1) as (x & -> & E1). cbn [bind]. rewrite E1. cbn [bind]. apply K. }
        cbn [bind]. rewrite IH. reflexivity. }
    rewrite B. reflexivity.
  - exists 1. intros [|fuel] acc Hf; [lia|]. rewrite (loop_page fuel p acc fs rest pg H Hs), Hn.
    rewrite (first_page_number_none _ Hu). reflexivity.
  - exists (S k). intros [|fuel] acc Hf; [lia|]. rewrite (loop_page fuel p acc fs rest pg H Hs), Hn.
    rewrite (first_page_number_some _ _ Hu). cbn [bind]. apply IH. lia.
Qed.

Lemma loop_endless : forall (P : option str -> Prop), (forall p, P p -> exists n, leads ans p n /\ P (Some n)) ->
  forall fuel p acc, P p -> loop fuel p acc = Err OutOfFuel.
Proof using Hr Hans.
  intros P HP. induction fuel as [|fuel IH]; intros p acc Hp; [reflexivity|].
  destruct (HP p Hp) as (n & (fs & rest & pg & u & H & Hs & Hn & Hu) & Hp').
  rewrite (loop_page fuel p acc fs rest pg H Hs), Hn, (first_page_number_some _ _ Hu). cbn [bind]. apply IH. exact Hp'.
Qed.

End Navigation.

(** ** Collections *)

Lemma parse_coll_eq : forall fs, parse_coll (JObj fs) =
  (i <- get_key (JObj fs) #"@id" ;; id <- as_id i ;;
   meta <- parse_cmeta (JObj fs) ;;
   kids <- match field (hydra_term #"member") fs with
           | None => Ok []
           | Some (JList vs) => mapM parse_coll vs
           | Some _ => Err TypeError
           end ;;
   view <- jhas (JObj fs) (hydra_term #"view") ;;
   Ok (Coll id meta kids view)).
Proof.
  intros fs.
  assert (G : forall vs, (fix go (vs : list json) : result (list coll) :=
    match vs with [] => Ok [] | x :: vs' => c <- parse_coll x ;; cs <- go vs' ;; Ok (c :: cs) end) vs = mapM parse_coll vs).
  { induction vs as [|x vs IH]; [reflexivity|]. cbn [mapM]. rewrite <- IH. reflexivity. }
  assert (F : forall l, (fix find (l : list (str * json)) : result (list coll) :=
                 match l with
                 | [] => Ok []
                 | (k, v) :: l' =>
                     if str_eqb k (hydra_term #"member") then
                       match v with
                       | JList vs =>
                           (fix go (vs : list json) : result (list coll) :=
                              match vs with
                              | [] => Ok []
                              | x :: vs' => c <- parse_coll x ;; cs <- go vs' ;; Ok (c :: cs)
                              end) vs
                       | _ => Err TypeError
                       end
                     else find l'
                 end) l = match field (hydra_term #"member") l with
           | None => Ok []
           | Some (JList vs) => mapM parse_coll vs
           | Some _ => Err TypeError
           end).
  { induction l as [|[k v] l IH]; [reflexivity|]. cbn [field]. destruct (str_eqb k (hydra_term #"member")); [|exact IH].
    destruct v; try reflexivity. apply G. }
  cbn [parse_coll]. rewrite F. reflexivity.
Qed.

Lemma listed_values : forall fs k vs, listed fs k vs -> exists x, field k fs = Some x /\ values_of x = Ok vs.
Proof.
  intros fs k vs (js & E & F). exists (JList js). split; [exact E|]. unfold values_of. cbn [iter_json bind].
  apply mapM_Forall2. eapply Forall2_imp; [|exact F]. intros j v (o & -> & Eo). unfold get_key. rewrite Eo. reflexivity.
Qed.

Lemma says_meta_parse : forall fs m, says_meta fs m -> parse_cmeta (JObj fs) = Ok m.
Proof.
  intros fs [labels types cite depth totals descr ab] (H1 & H2 & H3 & H4 & H5 & H6 & H7). cbn [cm_labels cm_types cm_citation cm_depth cm_totals cm_descriptions cm_about] in *.
  unfold parse_cmeta.
  change (hydra_term #"title") with #"https://www.w3.org/ns/hydra/core#title".
  change (hydra_term #"totalItems") with #"https://www.w3.org/ns/hydra/core#totalItems".
  change (hydra_term #"description") with #"https://www.w3.org/ns/hydra/core#description".
  change (dts_term #"citeStructure") with #"https://w3id.org/dts/api#citeStructure".
  change (dts_term #"citeDepth") with #"https://w3id.org/dts/api#citeDepth".
  destruct (listed_values _ _ _ H1) as (x1 & E1 & V1). unfold get_key. rewrite E1. cbn [bind]. rewrite V1. cbn [bind].
  rewrite H2. cbn [bind iter_json]. unfold jget.
  assert (C : exists s, (match field #"https://w3id.org/dts/api#citeStructure" fs with Some v => v | None => JNull end) = s /\
    (if jtruthy s then c <- set_ingest 0 s ;; Ok (Some c) else Ok None) = Ok cite).
  { destruct H3 as [[L ->]|(x & l & c & E & I & ->)].
    - rewrite L. eexists. split; [reflexivity|]. reflexivity.
    - rewrite E. eexists. split; [reflexivity|]. cbn [jtruthy]. rewrite I. reflexivity. }
  destruct C as (s & -> & C). cbn [bind]. rewrite C. cbn [bind]. clear C H3.
  assert (D : (if jtruthy (match field #"https://w3id.org/dts/api#citeDepth" fs with Some v => v | None => JNull end)
               then v <- first_at_value (match field #"https://w3id.org/dts/api#citeDepth" fs with Some v => v | None => JNull end) ;; Ok (Some v)
               else Ok None) = Ok depth).
  { destruct depth as [v|]; cbn [gives_opt] in H4.
    - destruct H4 as (o & rest & E & Eo). rewrite E. cbn [jtruthy]. unfold first_at_value, get_key. cbn [bind get_first]. rewrite Eo. reflexivity.
    - rewrite H4. reflexivity. }
  rewrite D. cbn [bind]. clear D H4.
  destruct (listed_values _ _ _ H5) as (x5 & E5 & V5). rewrite E5. cbn [bind]. rewrite V5. cbn [bind].
  assert (D : values_of (match field #"https://www.w3.org/ns/hydra/core#description" fs with Some v => v | None => JList [] end) = Ok descr).
  { destruct H6 as [[L ->]|H6]; [rewrite L; reflexivity|]. destruct (listed_values _ _ _ H6) as (x6 & E6 & V6). rewrite E6. exact V6. }
  rewrite D. cbn [bind]. rewrite (about_metadata _ _ H7). reflexivity.
Qed.

Lemma has_view_jhas : forall fs b, has_view fs b -> jhas (JObj fs) (hydra_term #"view") = Ok b.
Proof.
  intros fs b H. change (hydra_term #"view") with #"https://www.w3.org/ns/hydra/core#view". unfold jhas.
  destruct b; [destruct H as (v & ->)|rewrite H]; reflexivity.
Qed.

Lemma says_parse : forall j c, says_coll j c -> parse_coll j = Ok c.
Proof.
  fix IH 3. intros j c H. destruct H as [fs id meta ms cs view H1 H2 H3 H4 H5].
  assert (M : mapM parse_coll ms = Ok cs).
  { clear -IH H4. induction H4 as [|j c ms cs H F IHF]; [reflexivity|]. cbn [mapM]. rewrite (IH _ _ H). cbn [bind]. rewrite IHF. reflexivity. }
  rewrite parse_coll_eq. unfold get_key. rewrite H1. cbn [bind as_id]. rewrite (says_meta_parse _ _ H2). cbn [bind].
  change (hydra_term #"member") with #"https://www.w3.org/ns/hydra/core#member".
  destruct H3 as [[L ->]|E].
  - rewrite L. cbn [bind]. inversion H4; subst. rewrite (has_view_jhas _ _ H5). reflexivity.
  - rewrite E, M. cbn [bind]. rewrite (has_view_jhas _ _ H5). reflexivity.
Qed.

Lemma says_http_member : forall j c, says_coll j c ->
  http_member j = match co_members c with [] => Ok c | _ => Err TypeError end.
Proof.
  intros j c H. destruct H as [fs id meta ms cs view H1 H2 H3 H4 H5]. unfold http_member, get_key. rewrite H1. cbn [bind as_id].
  rewrite (says_meta_parse _ _ H2). cbn [bind]. rewrite (members_get _ _ H3). cbn [bind co_members].
  inversion H4; subst; cbn [jtruthy]; [|reflexivity]. rewrite (has_view_jhas _ _ H5). reflexivity.
Qed.

Lemma says_http_members : forall ms cs, Forall2 says_coll ms cs -> Forall lists_none cs -> mapM http_member ms = Ok cs.
Proof.
  intros ms cs F. induction F as [|j c ms cs H F IH]; intros N; [reflexivity|]. inversion N as [|? ? N1 N2]; subst.
  cbn [mapM]. rewrite (says_http_member _ _ H). unfold lists_none in N1. rewrite N1. cbn [bind]. rewrite (IH N2). reflexivity.
Qed.

Lemma says_nested_members : forall ms cs, Forall2 says_coll ms cs -> ~ Forall lists_none cs -> mapM http_member ms = Err TypeError.
Proof.
  intros ms cs F. induction F as [|j c ms cs H F IH]; intros N; [destruct N; constructor|].
  cbn [mapM]. rewrite (says_http_member _ _ H). destruct (co_members c) as [|x l] eqn:E; [|reflexivity]. cbn [bind].
  rewrite IH; [reflexivity|]. intros G. apply N. constructor; [exact E|exact G].
Qed.

Lemma parse_member_eq : forall fs ms, members fs ms -> parse_member (JObj fs) = mapM http_member ms.
Proof.
  intros fs ms H. unfold parse_member. rewrite (members_get _ _ H). cbn [bind]. destruct ms; reflexivity.
Qed.

Lemma says_members_parse : forall fs cs, says_members fs cs -> parse_member (JObj fs) = Ok cs.
Proof.
  intros fs cs (ms & Hm & F & N). rewrite (parse_member_eq _ _ Hm). apply says_http_members; assumption.
Qed.

Lemma says_http : forall j c, says_coll j c -> Forall lists_none (co_members c) -> http_coll j = Ok c.
Proof.
  intros j c H N. destruct H as [fs id meta ms cs view H1 H2 H3 H4 H5]. cbn [co_members] in N. unfold http_coll, get_key. rewrite H1. cbn [bind as_id].
  rewrite (says_meta_parse _ _ H2). cbn [bind]. rewrite (parse_member_eq _ _ H3), (says_http_members _ _ H4 N). cbn [bind].
  rewrite (has_view_jhas _ _ H5). reflexivity.
Qed.

Lemma says_http_nested : forall j c, says_coll j c -> ~ Forall lists_none (co_members c) -> http_coll j = Err TypeError.
Proof.
  intros j c H N. destruct H as [fs id meta ms cs view H1 H2 H3 H4 H5]. cbn [co_members] in N. unfold http_coll, get_key. rewrite H1. cbn [bind as_id].
  rewrite (says_meta_parse _ _ H2). cbn [bind]. rewrite (parse_member_eq _ _ H3), (says_nested_members _ _ H4 N). reflexivity.
Qed.
