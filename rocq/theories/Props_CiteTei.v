(** Property C63: the TEI form of citation schemes. *)

From Coq Require Import List NArith ZArith Arith Bool Lia.
From Verif Require Import PyStr PyStrFacts XmlModel UtilModel UtilSpec XmlNodeProofs XmlReadSpec XmlReadProofs InvModel InvSpec ServeModel ServeSpec
  ServeProofs CiteTeiModel CiteTeiSpec.
Import ListNotations.

Lemma slots_count : forall s k, has_slots s k -> count 36%N s = k.
Proof.
  induction 1 as [|s k H IH|c s k N H IH]; cbn [count]; [reflexivity|rewrite IH; reflexivity|].
  destruct (N.eqb_spec c 36%N); [contradiction|exact IH].
Qed.
Lemma groups_written : forall k, groups_of (S k) (join #"\." (repeat #"(\w+)" (S k))).
Proof.
  induction k as [|k IH]; [constructor|]. change (repeat #"(\w+)" (S (S k))) with (#"(\w+)" :: repeat #"(\w+)" (S k)).
  rewrite join_cons by discriminate. apply (groups_more (S k)) in IH. exact IH.
Qed.
Lemma matched : forall rd k, has_slots rd (S k) -> groups_of (S k) (match_pattern rd).
Proof. intros rd k H. unfold match_pattern. rewrite (slots_count _ _ H). apply groups_written. Qed.

Lemma plain_app : forall a b, plain_value a -> plain_value b -> plain_value (a ++ b).
Proof. intros a b A B c I. apply in_app_or in I. destruct I as [I|I]; [exact (A c I)|exact (B c I)]. Qed.
Lemma plain_lit : forall v, forallb (fun c => xml_char c && negb (existsb (N.eqb c) [34; 38; 60; 9; 10; 13]%N)) v = true -> plain_value v.
Proof.
  intros v H c I. rewrite forallb_forall in H. specialize (H c I). apply andb_true_iff in H. destruct H as [X Y]. split; [exact X|].
  intros J. apply negb_true_iff in Y. assert (Z : existsb (N.eqb c) [34; 38; 60; 9; 10; 13]%N = true).
  { apply existsb_exists. exists c. split; [exact J|apply N.eqb_refl]. } congruence.
Qed.
Lemma plain_match : forall rd, plain_value (match_pattern rd).
Proof.
  intros rd. unfold match_pattern. induction (count 36%N rd) as [|k IH]; [intros c []|]. destruct k as [|k]; [apply plain_lit; reflexivity|].
  change (repeat #"(\w+)" (S (S k))) with (#"(\w+)" :: repeat #"(\w+)" (S k)). rewrite join_cons by discriminate.
  apply plain_app; [apply plain_lit; reflexivity|]. apply plain_app; [apply plain_lit; reflexivity|exact IH].
Qed.

(** The element as written. *)
Definition tei_attrs (name rd : str) : list (str * str) :=
  [(#"n", name); (#"matchPattern", match_pattern rd); (#"replacementPattern", #"#xpath(" ++ rd ++ #")")].
Definition tei_raw (name rd : str) : raw :=
  Raw #"tei:cRefPattern" (tei_attrs name rd) [] [(Raw #"tei:p" [] (#"This pointer pattern extracts " ++ name) [], [])].

Lemma escape_plain : forall s, writable_name s -> escape s = s.
Proof.
  induction s as [|c s IH]; intros [P G]; [reflexivity|]. rewrite escape_cons. rewrite IH.
  - unfold esc. destruct (P c (or_introl eq_refl)) as [_ N].
    destruct (N.eqb_spec c 38%N) as [->|]; [exfalso; apply N; cbn; tauto|].
    destruct (N.eqb_spec c 60%N) as [->|]; [exfalso; apply N; cbn; tauto|].
    destruct (N.eqb_spec c 62%N) as [->|]; [exfalso; apply G; left; reflexivity|reflexivity].
  - split; [intros d I; apply P; right; exact I|intros I; apply G; right; exact I].
Qed.
Lemma name_lit : forall n, n <> [] -> forallb name_char n = true -> is_name n.
Proof. intros n N H. split; [exact N|]. rewrite forallb_forall in H. exact H. Qed.

Lemma tei_prints : forall name rd, writable_name name -> writable_pattern rd ->
  prints (tei_raw name rd) (tei_export (Some name, Some rd)).
Proof.
  intros name rd Wn [Nr Pr]. destruct rd as [|c0 rd0] eqn:Er; [congruence|]. rewrite <- Er in *. clear c0 rd0 Er.
  assert (E : tei_export (Some name, Some rd) =
    make_xml_node #"tei:cRefPattern" false (Some (tei_attrs name rd)) [] false [] ++ escape [] ++
    ((make_xml_node #"tei:p" false None [] false [] ++ escape (#"This pointer pattern extracts " ++ name) ++ [] ++ #"</" ++ #"tei:p" ++ #">") ++ escape [] ++ []) ++
    #"</" ++ #"tei:cRefPattern" ++ #">").
  { assert (T : escape (#"This pointer pattern extracts " ++ name) = #"This pointer pattern extracts " ++ name).
    { apply escape_plain. destruct Wn as [P G]. split.
      - apply plain_app; [apply plain_lit; reflexivity|exact P].
      - intros I. apply in_app_or in I. destruct I as [I|I]; [|exact (G I)]. cbn in I. repeat (destruct I as [I|I]; [discriminate I|]). destruct I. }
    rewrite T. unfold tei_export. cbn [fst snd]. destruct rd as [|c rd]; [congruence|].
    unfold make_xml_node, attribute_strings, tei_attrs. cbn [map fst snd join]. change (escape []) with (@nil N). rewrite ?app_nil_r, ?app_nil_l.
    rewrite <- ?app_assoc. reflexivity. }
  rewrite E. unfold tei_raw. constructor.
  - apply name_lit; [discriminate|reflexivity].
  - split.
    + intros n v I. unfold tei_attrs in I. cbn [In] in I. destruct I as [I|[I|[I|[]]]]; injection I as <- <-; (split; [apply name_lit; [discriminate|reflexivity]|]).
      * apply Wn.
      * apply plain_match.
      * apply (plain_app #"#xpath(" (rd ++ #")")); [apply plain_lit; reflexivity|]. apply (plain_app rd #")"); [exact Pr|apply plain_lit; reflexivity].
    + cbn. repeat constructor; cbn; intros X; repeat (destruct X as [X|X]; [discriminate X|]); exact X.
  - intros c [].
  - left. reflexivity.
  - apply prints_cons; [|intros c []|constructor].
    apply (prints_node #"tei:p" None [] (#"This pointer pattern extracts " ++ name) [] []).
    + apply name_lit; [discriminate|reflexivity].
    + split; [intros n v []|constructor].
    + intros c I. assert (P : plain_value (#"This pointer pattern extracts " ++ name)) by (apply plain_app; [apply plain_lit; reflexivity|apply Wn]).
      destruct (P c I) as [X N]. split; [exact X|]. intros ->. apply N. cbn. tauto.
    + right. auto.
    + constructor.
Qed.

Definition tei_ns : str := #"http://www.tei-c.org/ns/1.0".
Definition tei_element (name rd : str) : XmlModel.node :=
  Elem #"{http://www.tei-c.org/ns/1.0}cRefPattern" (tei_attrs name rd) [] []
    [Elem #"{http://www.tei-c.org/ns/1.0}p" [] (#"This pointer pattern extracts " ++ name) [] []].
Lemma tei_scoped : forall name rd env, dget #"tei" env = Some tei_ns -> in_scope env [] (tei_raw name rd) = Some (tei_element name rd).
Proof.
  intros name rd env H.
  assert (X : forall l u, split 58%N u = [#"tei"; l] -> expanded env true u = Some ([123%N] ++ tei_ns ++ [125%N] ++ l)).
  { intros l u S. unfold expanded. rewrite S. change (str_eqb #"tei" #"xml") with false. rewrite H. reflexivity. }
  unfold tei_raw. cbn [in_scope]. change (XmlReadSpec.declarations (tei_attrs name rd)) with (@nil (str * str)). change (XmlReadSpec.declarations []) with (@nil (str * str)).
  cbn [app]. rewrite (X #"cRefPattern" #"tei:cRefPattern" eq_refl).
  assert (EA : expanded_attrs env (tei_attrs name rd) = Some (tei_attrs name rd)) by reflexivity.
  assert (EP : in_scope env [] (Raw #"tei:p" [] (#"This pointer pattern extracts " ++ name) []) =
    Some (Elem #"{http://www.tei-c.org/ns/1.0}p" [] (#"This pointer pattern extracts " ++ name) [] [])).
  { cbn [in_scope]. change (XmlReadSpec.declarations []) with (@nil (str * str)). cbn [app]. rewrite (X #"p" #"tei:p" eq_refl). reflexivity. }
  rewrite EA. cbn [map snd fst]. rewrite EP. reflexivity.
Qed.
Lemma tei_is : forall name rd, element_of name rd (tei_element name rd).
Proof.
  intros name rd. split; [reflexivity|]. split; [reflexivity|]. split; [reflexivity|]. exists (match_pattern rd). split; [reflexivity|].
  intros k H. apply matched. exact H.
Qed.

(** The levels of a scheme, written in a declaration from the innermost on, make a
    document that declares the scheme: reading it gives the same citation. *)
Theorem C63_round_trip : forall scheme, scheme <> [] ->
  (forall n rd, In (n, rd) scheme -> writable_name n /\ writable_pattern rd) ->
  exists x, read_document (wrapped_in_tei (concat (map (fun np => tei_export (Some (fst np), Some (snd np))) (rev scheme)))) = Some x /\
    Forall2 (fun np e => element_of (fst np) (snd np) e) (rev scheme) (n_kids x) /\
    declares x (map (fun np => (Some (fst np), snd np)) scheme) /\
    citation_levels x = Ok (map (fun np => (Some (fst np), Some (snd np))) scheme).
Proof.
  intros scheme NE W.
  set (l := rev scheme). assert (W' : forall np, In np l -> writable_name (fst np) /\ writable_pattern (snd np)).
  { intros [n rd] I. apply W. apply in_rev. exact I. }
  set (head := [(#"xmlns:tei", tei_ns); (#"n", #"CTS")]).
  set (r := Raw #"tei:refsDecl" head [] (map (fun np => (tei_raw (fst np) (snd np), [])) l)).
  assert (K : prints_kids (map (fun np => (tei_raw (fst np) (snd np), [])) l) (concat (map (fun np => tei_export (Some (fst np), Some (snd np))) l))).
  { clear r. induction l as [|[n rd] l' IH]; [constructor|]. cbn [map concat].
    apply (prints_cons _ _ [] _ _ (tei_prints n rd (proj1 (W' _ (or_introl eq_refl))) (proj2 (W' _ (or_introl eq_refl))))); [intros c []|].
    apply IH. intros np I. apply W'. right. exact I. }
  assert (P : prints r (wrapped_in_tei (concat (map (fun np => tei_export (Some (fst np), Some (snd np))) l)))).
  { set (inner := concat _) in *.
    assert (E : wrapped_in_tei inner = make_xml_node #"tei:refsDecl" false (Some head) [] false [] ++ escape [] ++ inner ++ #"</" ++ #"tei:refsDecl" ++ #">") by reflexivity.
    rewrite E. constructor; [apply name_lit; [discriminate|reflexivity]| |intros c []|left; reflexivity|exact K].
    split.
    - intros n v [I|[I|[]]]; injection I as <- <-; (split; [apply name_lit; [discriminate|reflexivity]|apply plain_lit; reflexivity]).
    - cbn. repeat constructor; cbn; intros X; repeat (destruct X as [X|X]; [discriminate X|]); exact X. }
  set (x := Elem #"{http://www.tei-c.org/ns/1.0}refsDecl" [(#"n", #"CTS")] [] [] (map (fun np => tei_element (fst np) (snd np)) l)).
  assert (D : declares x (map (fun np => (Some (fst np), snd np)) scheme)).
  { exists x. split.
    - exists [], (tl (document_order x)). split; [reflexivity|]. split; [split; reflexivity|constructor].
    - rewrite <- map_rev. fold l. unfold x. cbn [document_order tl].
      clear. induction l as [|[n rd] l IH]; [constructor|]. cbn [map flat_map]. rewrite filter_app.
      change (filter (in_teib #"cRefPattern") (document_order (tei_element (fst (n, rd)) (snd (n, rd))))) with [tei_element n rd].
      cbn [app fst snd]. constructor; [split; reflexivity|exact IH]. }
  exists x. split; [|split; [|split; [exact D|]]].
  - unfold read_document. rewrite (read_printed _ _ P). unfold r, x. cbn [in_scope].
    change (XmlReadSpec.declarations head) with [(#"tei", tei_ns)]. cbn [app].
    change (expanded [(#"tei", tei_ns)] true #"tei:refsDecl") with (Some #"{http://www.tei-c.org/ns/1.0}refsDecl").
    change (expanded_attrs [(#"tei", tei_ns)] head) with (Some [(#"n", #"CTS")]).
    assert (A : all_some (map (fun kt => in_scope [(#"tei", tei_ns)] (snd kt) (fst kt)) (map (fun np => (tei_raw (fst np) (snd np), [])) l))
      = Some (map (fun np => tei_element (fst np) (snd np)) l)).
    { clear. induction l as [|np l IH]; [reflexivity|]. cbn [map fst snd all_some]. rewrite tei_scoped by reflexivity. rewrite IH. reflexivity. }
    rewrite A. reflexivity.
  - unfold x. cbn [n_kids]. clear. induction l as [|np l IH]; constructor; [apply tei_is|exact IH].
  - rewrite (levels_declared x _ D) by (destruct scheme; [congruence|discriminate]). rewrite map_map. reflexivity.
Qed.
Print Assumptions C63_round_trip.

(** A citation that is not set is not written. *)
Theorem C63_unset : forall n, tei_export (n, None) = [] /\ tei_export (n, Some []) = [].
Proof. intros n. split; reflexivity. Qed.
Print Assumptions C63_unset.

(** The poems of books, as in the documentation. *)
Definition martial : list (str * str) :=
  [(#"book", #"/tei:TEI/tei:text/tei:body/tei:div/tei:div[@n='$1']");
   (#"poem", #"/tei:TEI/tei:text/tei:body/tei:div/tei:div[@n='$1']/tei:div[@n='$2']")].
Example C63_meets : martial <> [] /\ (forall n rd, In (n, rd) martial -> writable_name n /\ writable_pattern rd) /\
  (forall n rd, In (n, rd) martial -> exists k, has_slots rd (S k)).
Proof.
  split; [discriminate|]. split.
  - intros n rd [E|[E|[]]]; injection E as <- <-; (split; [split; [apply plain_lit; reflexivity|cbn; intros X; repeat (destruct X as [X|X]; [discriminate X|]); exact X]|split; [discriminate|apply plain_lit; reflexivity]]).
  - assert (S : forall s, has_slots s (count 36%N s)).
    { induction s as [|c s IH]; [constructor|]. cbn [count]. destruct (N.eqb_spec c 36%N) as [->|N]; constructor; assumption. }
    intros n rd [E|[E|[]]]; injection E as <- <-; [exists 0|exists 1]; apply S.
Qed.

(** Not so: every citation can be read again from its TEI form.  Nothing is escaped: a
    pattern that quotes its slots with double quotes cannot be read, *)
Theorem C63_quotes_refuted : exists n rd, writable_name n /\
  read_document (wrapped_in_tei (tei_export (Some n, Some rd))) = None.
Proof.
  exists #"line", (#"/tei:TEI/tei:l[@n=" ++ dq1 ++ #"$1" ++ dq1 ++ #"]"). split.
  - split; [apply plain_lit; reflexivity|cbn; intros X; repeat (destruct X as [X|X]; [discriminate X|]); exact X].
  - vm_compute. reflexivity.
Qed.
Print Assumptions C63_quotes_refuted.

(** and a level without a name comes back with an empty one. *)
Theorem C63_name_refuted : exists rd x, writable_pattern rd /\
  read_document (wrapped_in_tei (tei_export (None, Some rd))) = Some x /\ citation_levels x = Ok [(Some [], Some rd)].
Proof.
  exists #"/tei:TEI/tei:l[@n='$1']". eexists. split; [split; [discriminate|apply plain_lit; reflexivity]|]. split; vm_compute; reflexivity.
Qed.
Print Assumptions C63_name_refuted.
