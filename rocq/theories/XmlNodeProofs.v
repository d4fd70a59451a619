(** Lemmas about the printing of XML nodes and the expansion of prefixes. *)

From Coq Require Import List NArith Arith Bool Ascii Lia.
From Verif Require Import PyStr PyStrFacts UtilModel UtilSpec.
Import ListNotations.

Definition esc (c : N) : str :=
  if N.eqb c 38 then #"&amp;" else if N.eqb c 60 then #"&lt;" else if N.eqb c 62 then #"&gt;" else [c].

Lemma replace_char_app : forall c b s t, replace_char c b (s ++ t) = replace_char c b s ++ replace_char c b t.
Proof. intros. apply flat_map_app. Qed.

Lemma escape_cons : forall c s, escape (c :: s) = esc c ++ escape s.
Proof.
  intros c s. unfold escape. change (c :: s) with ([c] ++ s). rewrite !replace_char_app. f_equal.
  unfold esc, replace_char, c_amp, c_gt, c_lt. cbn [flat_map]. rewrite app_nil_r.
  destruct (N.eqb_spec c 38) as [->|A]; [ reflexivity | ].
  cbn [flat_map app]. destruct (N.eqb_spec c 60) as [->|B]; [ reflexivity | ].
  destruct (N.eqb_spec c 62) as [->|C]; [ reflexivity | ]. cbn [flat_map app].
  destruct (N.eqb_spec c 60); [ contradiction | reflexivity ].
Qed.

Lemma esc_no : forall c x, In x (esc c) -> x <> 60%N /\ x <> 62%N.
Proof.
  intros c x. unfold esc. destruct (N.eqb_spec c 38); [ | destruct (N.eqb_spec c 60); [ | destruct (N.eqb_spec c 62) ] ];
    cbn; intros H; repeat (destruct H as [<-|H]; [ split; congruence | ]); contradiction.
Qed.

Lemma escape_no : forall s x, In x (escape s) -> x <> 60%N /\ x <> 62%N.
Proof.
  induction s as [|c s IH]; intros x H; [ contradiction | ]. rewrite escape_cons in H.
  apply in_app_or in H as [H|H]; [ exact (esc_no c x H) | exact (IH x H) ].
Qed.

Lemma strip_prefix_app : forall p s, strip_prefix p (p ++ s) = Some s.
Proof.
  intros p s. unfold strip_prefix. rewrite startswith_app.
  rewrite skipn_app, Nat.sub_diag, skipn_all. reflexivity.
Qed.

Lemma strip_prefix_cons : forall c d p s, c <> d -> strip_prefix (c :: p) (d :: s) = None.
Proof.
  intros c d p s N. unfold strip_prefix. cbn. destruct (N.eqb_spec d c); [ congruence | reflexivity ].
Qed.

Lemma read_entity_amp : forall s, read_entity (#"amp;" ++ s) = Some (38%N, s).
Proof. intros s. unfold read_entity. rewrite strip_prefix_app. reflexivity. Qed.
Lemma read_entity_lt : forall s, read_entity (#"lt;" ++ s) = Some (60%N, s).
Proof.
  intros s. unfold read_entity. rewrite strip_prefix_app.
  replace (strip_prefix #"amp;" (#"lt;" ++ s)) with (@None str); [ reflexivity | ].
  symmetry. apply strip_prefix_cons. discriminate.
Qed.
Lemma read_entity_gt : forall s, read_entity (#"gt;" ++ s) = Some (62%N, s).
Proof.
  intros s. unfold read_entity. rewrite strip_prefix_app.
  replace (strip_prefix #"amp;" (#"gt;" ++ s)) with (@None str) by (symmetry; apply strip_prefix_cons; discriminate).
  replace (strip_prefix #"lt;" (#"gt;" ++ s)) with (@None str) by (symmetry; apply strip_prefix_cons; discriminate).
  reflexivity.
Qed.

(** The text goes on with a tag, or ends. *)
Definition ends_text (rest : str) : Prop := rest = [] \/ exists r, rest = 60%N :: r.

Lemma hd_escape_app : forall t rest, ends_text rest -> hd_error (escape t ++ rest) <> Some 62%N.
Proof.
  intros t rest E. destruct t as [|c t].
  - destruct E as [->|[r ->]]; cbn; congruence.
  - rewrite escape_cons. destruct (esc c) as [|x l] eqn:X.
    + exfalso. revert X. unfold esc. repeat destruct (N.eqb _ _); discriminate.
    + cbn. intros H. injection H as ->. apply (esc_no c 62%N); [ rewrite X; left; reflexivity | reflexivity ].
Qed.

Lemma no_close : forall c t rest, ends_text rest -> startswith (c :: escape t ++ rest) #"]]>" = false.
Proof.
  intros c t rest E. destruct (startswith _ _) eqn:S; [ | reflexivity ]. exfalso.
  apply startswith_spec in S as [u S]. assert (S' : escape t ++ rest = 93%N :: 62%N :: u) by (injection S; auto).
  clear S. destruct t as [|d t].
  - destruct E as [->|[r ->]]; discriminate.
  - rewrite escape_cons in S'. unfold esc in S'.
    destruct (N.eqb d 38); [ discriminate | ]. destruct (N.eqb d 60); [ discriminate | ].
    destruct (N.eqb d 62); [ discriminate | ]. injection S' as -> S'.
    apply (hd_escape_app t rest E). rewrite S'. reflexivity.
Qed.

Lemma read_text_escape : forall t fuel rest, ends_text rest ->
  (forall c, In c t -> xml_char c = true /\ c <> 13%N) -> length t < fuel ->
  read_text fuel (escape t ++ rest) = Some (t, rest).
Proof.
  induction t as [|c t IH]; intros fuel rest E H L.
  - destruct fuel as [|fuel]; [ cbn in L; lia | ]. destruct E as [->|[r ->]]; reflexivity.
  - destruct fuel as [|fuel]; [ cbn in L; lia | ].
    assert (R : read_text fuel (escape t ++ rest) = Some (t, rest)).
    { apply IH; [ exact E | | cbn in L; lia ]. intros x I. apply H. right; exact I. }
    rewrite escape_cons, <- app_assoc.
    destruct (H c (or_introl eq_refl)) as [Hc Hr].
    pose proof (no_close c t rest E) as NC.
    unfold esc. destruct (N.eqb_spec c 38) as [->|A].
    { change (#"&amp;" ++ escape t ++ rest) with (38%N :: (#"amp;" ++ escape t ++ rest)).
      cbn [read_text]. rewrite N.eqb_refl. change (38 =? 60)%N with false. cbn [negb].
      rewrite read_entity_amp, R. reflexivity. }
    destruct (N.eqb_spec c 60) as [->|B].
    { change (#"&lt;" ++ escape t ++ rest) with (38%N :: (#"lt;" ++ escape t ++ rest)).
      cbn [read_text]. rewrite N.eqb_refl. change (38 =? 60)%N with false.
      rewrite read_entity_lt, R. reflexivity. }
    destruct (N.eqb_spec c 62) as [->|C].
    { change (#"&gt;" ++ escape t ++ rest) with (38%N :: (#"gt;" ++ escape t ++ rest)).
      cbn [read_text]. rewrite N.eqb_refl. change (38 =? 60)%N with false.
      rewrite read_entity_gt, R. reflexivity. }
    cbn [app]. cbn [read_text].
    destruct (N.eqb_spec c 60); [ contradiction | ]. destruct (N.eqb_spec c 38); [ contradiction | ].
    rewrite Hc. cbn [negb]. rewrite NC. destruct (N.eqb_spec c 13); [ contradiction | ]. rewrite R. reflexivity.
Qed.

Lemma escape_length : forall t, length t <= length (escape t).
Proof.
  induction t as [|c t IH]; [ cbn; lia | ]. rewrite escape_cons, app_length. cbn [length].
  assert (1 <= length (esc c)). { unfold esc. repeat destruct (N.eqb _ _); cbn; lia. }
  lia.
Qed.

Lemma escape_inj : forall s t, escape s = escape t -> s = t.
Proof.
  assert (D : forall c d s t, esc c ++ s = esc d ++ t -> c = d /\ s = t).
  { intros c d s t. unfold esc.
    destruct (N.eqb_spec c 38); [ | destruct (N.eqb_spec c 60); [ | destruct (N.eqb_spec c 62) ] ];
    (destruct (N.eqb_spec d 38); [ | destruct (N.eqb_spec d 60); [ | destruct (N.eqb_spec d 62) ] ]);
    cbn; intros H; injection H; intros; subst; split; congruence. }
  induction s as [|c s IH]; intros [|d t] H.
  - reflexivity.
  - rewrite escape_cons in H. destruct (esc d) eqn:X; [ | discriminate ].
    exfalso; revert X; unfold esc; repeat destruct (N.eqb _ _); discriminate.
  - rewrite escape_cons in H. destruct (esc c) eqn:X; [ | discriminate ].
    exfalso; revert X; unfold esc; repeat destruct (N.eqb _ _); discriminate.
  - rewrite !escape_cons in H. destruct (D _ _ _ _ H) as [-> E]. f_equal. apply IH. exact E.
Qed.

(** ** Attributes *)
Lemma read_value_plain : forall v fuel r, plain_value v -> length v < fuel ->
  read_value fuel (v ++ 34%N :: r) = Some (v, r).
Proof.
  induction v as [|c v IH]; intros fuel r P L; (destruct fuel as [|fuel]; [ cbn in L; lia | ]); [ reflexivity | ].
  cbn [app read_value]. destruct (P c (or_introl eq_refl)) as [X N].
  assert (Q : forall k, In k [34; 38; 60; 9; 10; 13]%N -> (c =? k)%N = false).
  { intros k Hk. apply N.eqb_neq. intros ->. exact (N Hk). }
  rewrite (Q 34%N), (Q 60%N), (Q 38%N), (Q 9%N), (Q 10%N), (Q 13%N) by (cbn; tauto).
  rewrite X. cbn [negb orb]. rewrite IH; [ reflexivity | | cbn in L; lia ].
  intros x I. apply P. right; exact I.
Qed.

Lemma read_name_app : forall n c r, (forall x, In x n -> name_char x = true) -> name_char c = false ->
  read_name (n ++ c :: r) = (n, c :: r).
Proof.
  induction n as [|x n IH]; intros c r H N; cbn [app read_name].
  - rewrite N. reflexivity.
  - rewrite (H x) by (left; reflexivity). rewrite IH; [ reflexivity | | exact N ].
    intros y I. apply H. right; exact I.
Qed.

Definition after_name (a : list (str * str)) (r : str) : str :=
  match a with [] => 62%N :: r | _ => 32%N :: attribute_strings a ++ 62%N :: r end.

Lemma read_attributes_print : forall a fuel seen r,
  (forall n v, In (n, v) a -> is_name n /\ plain_value v) ->
  NoDup (map fst a) -> (forall n, In n (map fst a) -> ~ In n seen) -> length a < fuel ->
  read_attributes fuel seen (after_name a r) = Some (a, r).
Proof.
  induction a as [|[n v] a IH]; intros fuel seen r H D S L; (destruct fuel as [|fuel]; [ cbn in L; lia | ]).
  - cbn [after_name read_attributes]. change (62%N :: r) with (#">" ++ r). rewrite strip_prefix_app. reflexivity.
  - destruct (H n v (or_introl eq_refl)) as [[Nn Cn] Pv].
    assert (E : after_name ((n, v) :: a) r = 32%N :: n ++ 61%N :: 34%N :: v ++ 34%N :: after_name a r).
    { cbn [after_name]. destruct a as [|b a].
      - unfold attribute_strings. cbn [map fst snd join after_name]. unfold dq, c_dquote.
        rewrite <- !app_assoc. cbn. rewrite <- ?app_assoc. reflexivity.
      - unfold attribute_strings. change (map ?f ((n, v) :: b :: a)) with (f (n, v) :: map f (b :: a)).
        rewrite join_cons by discriminate. cbn [fst snd]. unfold after_name, attribute_strings, dq, c_dquote.
        rewrite <- !app_assoc. cbn. rewrite <- ?app_assoc. cbn. rewrite <- ?app_assoc. reflexivity. }
    rewrite E. cbn [read_attributes].
    replace (strip_prefix #">" (32%N :: n ++ 61%N :: 34%N :: v ++ 34%N :: after_name a r)) with (@None str)
      by (symmetry; apply strip_prefix_cons; discriminate).
    destruct n as [|x n]; [ congruence | ].
    replace (strip_prefix #" >" (32%N :: (x :: n) ++ 61%N :: 34%N :: v ++ 34%N :: after_name a r)) with (@None str).
    2:{ symmetry. unfold strip_prefix. cbn. destruct (N.eqb_spec x 62) as [->|]; [ | reflexivity ].
        specialize (Cn 62%N (or_introl eq_refl)). discriminate. }
    change (32%N :: (x :: n) ++ 61%N :: 34%N :: v ++ 34%N :: after_name a r)
      with (#" " ++ ((x :: n) ++ 61%N :: 34%N :: v ++ 34%N :: after_name a r)).
    rewrite strip_prefix_app, read_name_app by (auto; reflexivity).
    change (61%N :: 34%N :: v ++ 34%N :: after_name a r) with ([61; 34]%N ++ (v ++ 34%N :: after_name a r)).
    rewrite strip_prefix_app.
    assert (X : existsb (str_eqb (x :: n)) seen = false).
    { destruct (existsb (str_eqb (x :: n)) seen) eqn:X; [ | reflexivity ]. exfalso.
      apply existsb_exists in X as [y [I Y]]. apply str_eqb_eq in Y. subst y.
      apply (S (x :: n)); [ left; reflexivity | exact I ]. }
    rewrite X, read_value_plain by (auto; rewrite app_length; cbn; lia).
    inversion D; subst. rewrite IH; auto.
    + intros n' v' I. apply H. right; exact I.
    + intros n' I [J|J]; [ subst; contradiction | ]. apply (S n'); [ right; exact I | exact J ].
    + cbn in L. lia.
Qed.

Lemma attribute_strings_length : forall a, length a <= length (attribute_strings a).
Proof.
  assert (X : forall a n v, length a < length (attribute_strings ((n, v) :: a))).
  { unfold attribute_strings. induction a as [|[n' v'] a IH]; intros n v.
    - cbn. rewrite !app_length. cbn. lia.
    - change (map ?f ((n, v) :: (n', v') :: a)) with (f (n, v) :: map f ((n', v') :: a)).
      rewrite join_cons by discriminate. cbn [fst snd]. rewrite !app_length. specialize (IH n' v'). change (length #" ") with 1. change (length ((n', v') :: a)) with (S (length a)). lia. }
  intros [|[n v] a]; [ cbn; lia | ]. specialize (X a n v). cbn [length]. lia.
Qed.

Lemma read_element_print : forall name attributes text,
  is_name name ->
  (forall n v, In (n, v) attributes -> is_name n /\ plain_value v) -> NoDup (map fst attributes) ->
  (forall c, In c text -> xml_char c = true /\ c <> 13%N) ->
  read_element (make_xml_node name false (Some attributes) text true []) = Some (name, attributes, text, [])
  /\ (forall close, read_element (make_xml_node name close None text true []) = Some (name, [], text, [])).
Proof.
  intros name attrs text [Nn Cn] Ha Da Ht.
  assert (G : forall a, (forall n v, In (n, v) a -> is_name n /\ plain_value v) -> NoDup (map fst a) ->
    forall sp, sp = after_name a (escape text ++ #"</" ++ name ++ #">") \/ (a = [] /\ sp = #" >" ++ escape text ++ #"</" ++ name ++ #">") ->
    read_element (#"<" ++ name ++ sp) = Some (name, a, text, [])).
  { intros a Ha' Da' sp Hsp. unfold read_element. rewrite strip_prefix_app.
    assert (R : read_name (name ++ sp) = (name, sp)).
    { destruct Hsp as [->|[-> ->]]; [ destruct a | ]; cbn [after_name app lit Ascii.N_of_ascii]; apply read_name_app; auto; reflexivity. }
    rewrite R.
    assert (A : read_attributes (S (length sp)) [] sp = Some (a, escape text ++ #"</" ++ name ++ #">")).
    { destruct Hsp as [->|[-> ->]].
      - apply read_attributes_print; auto. pose proof (attribute_strings_length a). destruct a as [|b a]; [ cbn; lia | ].
        cbn [after_name length]. rewrite app_length. cbn [length] in *. lia.
      - cbn [read_attributes]. rewrite strip_prefix_app.
        replace (strip_prefix #">" (#" >" ++ escape text ++ #"</" ++ name ++ #">")) with (@None str)
          by (symmetry; apply strip_prefix_cons; discriminate).
        reflexivity. }
    destruct name as [|x n0]; [ congruence | ]. rewrite A.
    rewrite read_text_escape; auto.
    - rewrite <- (app_nil_r (#"</" ++ (x :: n0) ++ #">")) at 2. rewrite strip_prefix_app. reflexivity.
    - right. eexists. reflexivity.
    - rewrite app_length. pose proof (escape_length text). lia. }
  split.
  - unfold make_xml_node. destruct attrs as [|b attrs].
    + apply (G [] Ha Da). right. split; [ reflexivity | ]. reflexivity.
    + cbn [app]. specialize (G (b :: attrs) Ha Da _ (or_introl eq_refl)). rewrite <- G. unfold after_name.
      cbn [app]. rewrite <- ?app_assoc. reflexivity.
  - intros close. unfold make_xml_node. apply (G []); [ intros ? ? [] | constructor | left; reflexivity ].
Qed.

(** Opening tag, escaped text and closing tag, printed one after the other. *)
Lemma pieces : forall name attributes close text inner,
  make_xml_node name close attributes text true inner =
  make_xml_node name false attributes [] false [] ++ escape text ++ inner ++ make_xml_node name true attributes [] false [].
Proof.
  intros name [a|] close text inner; unfold make_xml_node; rewrite <- !app_assoc; reflexivity.
Qed.

(** ** Prefixes *)
Lemma replace_none : forall p r fuel s, (forall a b, s <> a ++ p ++ b) -> replace_fuel fuel p r s = s.
Proof.
  induction fuel as [|fuel IH]; intros s H; [ reflexivity | ]. destruct s as [|c s]; [ reflexivity | ].
  cbn [replace_fuel]. destruct (startswith (c :: s) p) eqn:S.
  - apply startswith_spec in S as [t S]. exfalso. exact (H [] t S).
  - f_equal. apply IH. intros a b E. apply (H (c :: a) b). rewrite E. reflexivity.
Qed.

Lemma expand_first : forall l1 ns uri l2 rest,
  (forall ns' uri', In (ns', uri') l1 -> forall t, ns ++ #":" ++ rest <> ns' ++ #":" ++ t) ->
  (forall a b, rest <> a ++ ns ++ #":" ++ b) ->
  expand_namespace (l1 ++ (ns, uri) :: l2) (ns ++ #":" ++ rest) = uri ++ rest.
Proof.
  induction l1 as [|[n u] l1 IH]; intros ns uri l2 rest H N.
  - cbn [app expand_namespace]. rewrite app_assoc, startswith_app. unfold replace.
    destruct (ns ++ #":") as [|c p] eqn:P; [ destruct ns; discriminate | ].
    change (length ((c :: p) ++ rest)) with (S (length (p ++ rest))).
    remember (S (length (p ++ rest))) as fuel. cbn [app replace_fuel]. change (c :: p ++ rest) with ((c :: p) ++ rest).
    rewrite startswith_app, skipn_app. change (S (length p)) with (length (c :: p)). rewrite skipn_all, Nat.sub_diag. cbn [app skipn].
    f_equal. apply replace_none. intros a b E. apply (N a b). rewrite E, <- P, <- app_assoc. reflexivity.
  - cbn [app expand_namespace]. destruct (startswith _ _) eqn:S.
    + apply startswith_spec in S as [t S]. exfalso. apply (H n u (or_introl eq_refl) t). rewrite S, <- app_assoc. reflexivity.
    + apply IH; [ | exact N ]. intros n' u' I. apply (H n' u'). right; exact I.
Qed.

Lemma expand_none : forall l s, (forall ns uri, In (ns, uri) l -> forall t, s <> ns ++ #":" ++ t) -> expand_namespace l s = s.
Proof.
  induction l as [|[n u] l IH]; intros s H; [ reflexivity | ]. cbn [expand_namespace].
  destruct (startswith _ _) eqn:S.
  - apply startswith_spec in S as [t S]. exfalso. apply (H n u (or_introl eq_refl) t). rewrite S, <- app_assoc. reflexivity.
  - apply IH. intros ns uri I. apply (H ns uri). right; exact I.
Qed.
