(** Proofs about the DTS export: the graph, the context, the statements and the
    citations of the document. *)

From Coq Require Import List NArith ZArith Arith Bool Lia Permutation.
From Verif Require Import PyStr PyStrFacts Json MetaModel MetaSpec MetaProofs GraphModel TreeModel TreeSpec TreeProofs
  DtsModel DtsSpec DtsProofs JsonLdSpec DtsOutModel DtsOutSpec.
Import ListNotations.

(** ** The graph *)

Lemma add_distinct : forall l (acc : graph), NoDup l -> (forall t, In t acc -> ~ In t l) ->
  fold_left (fun g tr => if is_bnode (snd tr) then g else g_add tr g) l acc =
  acc ++ filter (fun t => negb (is_bnode (snd t))) l.
Proof.
  induction l as [|t l IH]; intros acc N D; cbn [fold_left filter]; [ symmetry; apply app_nil_r | ].
  inversion N as [|? ? N1 N2]; subst. destruct (is_bnode (snd t)) eqn:B; cbn [negb].
  - apply IH; [ exact N2 | ]. intros x X Y. apply (D x X). right. exact Y.
  - assert (E : g_add t acc = acc ++ [t]).
    { unfold g_add. destruct (existsb (triple_eqb t) acc) eqn:E; [ | reflexivity ].
      apply existsb_exists in E as [x [X E]]. apply triple_eqb_eq in E. subst x. exfalso. apply (D t X). left. reflexivity. }
    rewrite E. rewrite IH; [ rewrite <- app_assoc; reflexivity | exact N2 | ].
    intros x X Y. apply in_app_or in X as [X|[->|[]]]; [ | contradiction ]. apply (D x X). right. exact Y.
Qed.

Lemma graph_of_node : forall name order f g t, arranges order -> NoDup g ->
  dts_graph name order (S f) false g t =
  Ok (filter (fun t => negb (is_bnode (snd t))) (order (filter (matches (Some t) None None) g))).
Proof.
  intros name order f g t A N. unfold dts_graph, extract. cbn [new_subgraph bind graphiter].
  change (Z.eqb 1 0) with false. change (Z.eqb 0 0) with true. cbn [negb andb marked existsb s_down s_up s_graph].
  change (Z.eqb (1 - 1) 0) with true. cbn [negb andb].
  assert (L : forall l st, loop (fun (tr : triple) st => let '(_, _, obj) := tr in
      if is_bnode obj then Ok st else Ok (Sub (g_add tr (s_graph st)) (s_down st) (s_up st))) l st =
    Ok (Sub (fold_left (fun g tr => if is_bnode (snd tr) then g else g_add tr g) l (s_graph st)) (s_down st) (s_up st))).
  { induction l as [|[[a b] c] l IH]; intros [G D U]; cbn [loop fold_left snd]; [ reflexivity | ].
    destruct (is_bnode c); cbn [bind]; rewrite IH; reflexivity. }
  match goal with |- context [loop ?f ?l ?s] => assert (X : loop f l s = Ok (Sub (fold_left (fun g tr => if is_bnode (snd tr) then g else g_add tr g) l []) [name t] [])) by apply (L l s) end.
  rewrite X. cbn [bind s_graph]. rewrite add_distinct; [ reflexivity | | intros x [] ].
  eapply Permutation_NoDup; [ apply A | ]. apply NoDup_filter. exact N.
Qed.

(** ** Dictionaries *)

Lemma jset_new : forall k v d, field k d = None -> jset k v d = d ++ [(k, v)].
Proof.
  intros k v. induction d as [|[k' v'] d IH]; cbn [field jset app]; intros F; [ reflexivity | ].
  destruct (str_eqb k' k); [ discriminate | ]. rewrite IH by exact F. reflexivity.
Qed.

Lemma field_In : forall k v d, field k d = Some v -> In (k, v) d.
Proof.
  intros k v. induction d as [|[k' v'] d IH]; cbn [field]; [ discriminate | ]. destruct (str_eqb k' k) eqn:E.
  - apply str_eqb_eq in E. subst. injection 1 as ->. left. reflexivity.
  - intros F. right. apply IH, F.
Qed.

Lemma field_none : forall k d, field k d = None <-> ~ In k (map fst d).
Proof.
  intros k. induction d as [|[k' v'] d IH]; cbn [field map fst In]; [ tauto | ]. destruct (str_eqb k' k) eqn:E.
  - apply str_eqb_eq in E. split; [ discriminate | intros H; exfalso; apply H; left; exact E ].
  - apply str_eqb_neq in E. rewrite IH. tauto.
Qed.

Lemma field_app : forall k a b, field k (a ++ b) = match field k a with Some v => Some v | None => field k b end.
Proof.
  intros k. induction a as [|[k' v'] a IH]; intros b; cbn [app field]; [ reflexivity | ]. destruct (str_eqb k' k); [ reflexivity | apply IH ].
Qed.

(** ** Grouping *)

Definition vals (v : json) : list json := match v with JList l => l | _ => [v] end.
Definition flat (d : list (str * json)) : list (str * json) := flat_map (fun kv => map (pair (fst kv)) (vals (snd kv))) d.
Definition atom (v : json) : Prop := forall l, v <> JList l.
Definition groups (l : list (str * json)) : list (str * json) := fold_left (fun d kv => add_value (fst kv) (snd kv) d) l [].

Lemma flat_app : forall a b, flat (a ++ b) = flat a ++ flat b.
Proof. intros. unfold flat. apply flat_map_app. Qed.

Lemma jset_perm : forall k v old d x, field k d = Some old -> vals v = vals old ++ [x] ->
  Permutation (flat (jset k v d)) ((k, x) :: flat d) /\ map fst (jset k v d) = map fst d.
Proof.
  intros k v old. induction d as [|[k' v'] d IH]; intros x F V; cbn [field jset] in *; [ discriminate | ].
  destruct (str_eqb k' k) eqn:E.
  - apply str_eqb_eq in E. subst k'. injection F as ->. split; [ | reflexivity ].
    unfold flat. cbn [flat_map fst snd]. rewrite V, map_app. cbn [map]. rewrite <- app_assoc. cbn [app]. symmetry. apply Permutation_middle.
  - destruct (IH x F V) as [P K]. split.
    + change (flat ((k', v') :: jset k v d)) with (map (pair k') (vals v') ++ flat (jset k v d)).
      change (flat ((k', v') :: d)) with (map (pair k') (vals v') ++ flat d).
      rewrite P. symmetry. apply Permutation_middle.
    + cbn [map fst]. rewrite K. reflexivity.
Qed.

Lemma add_value_spec : forall k v d, atom v -> NoDup (map fst d) -> (forall a b, In (a, b) d -> b <> JNull) -> v <> JNull ->
  Permutation (flat (add_value k v d)) ((k, v) :: flat d) /\ NoDup (map fst (add_value k v d)) /\
  (forall a, In a (map fst (add_value k v d)) <-> In a (map fst d) \/ a = k) /\
  (forall a b, In (a, b) (add_value k v d) -> b <> JNull).
Proof.
  intros k v d A N Z Zv. unfold add_value.
  assert (ZS : forall k v d, (forall a b, In (a, b) d -> b <> JNull) -> v <> JNull -> forall a b, In (a, b) (jset k v d) -> b <> JNull).
  { clear. intros k v. induction d as [|[k' v'] d IH]; intros Z Zv a b; cbn [jset].
    - intros [[= <- <-]|[]]. exact Zv.
    - destruct (str_eqb k' k).
      + intros [[= <- <-]|I]; [ exact Zv | ]. apply (Z a b). right. exact I.
      + intros [[= <- <-]|I]; [ apply (Z k' v'); left; reflexivity | ].
        apply (IH (fun a b I => Z a b (or_intror I)) Zv a b I). }
  assert (Have : forall old w, field k d = Some old -> vals w = vals old ++ [v] -> w <> JNull ->
    Permutation (flat (jset k w d)) ((k, v) :: flat d) /\ NoDup (map fst (jset k w d)) /\
    (forall a, In a (map fst (jset k w d)) <-> In a (map fst d) \/ a = k) /\
    (forall a b, In (a, b) (jset k w d) -> b <> JNull)).
  { intros old w F V W. destruct (jset_perm k w old d v F V) as [P K]. rewrite K. split; [ exact P | ]. split; [ exact N | ].
    split; [ | apply ZS; assumption ].
    intros a. split; [ tauto | ]. intros [I| ->]; [ exact I | ]. apply field_In in F. apply (in_map fst) in F. exact F. }
  destruct (field k d) as [old|] eqn:F.
  - destruct old; try (apply (Have _ _ eq_refl); [ reflexivity | discriminate ]).
  - assert (V : forall w, vals w = [v] -> w <> JNull ->
      Permutation (flat (jset k w d)) ((k, v) :: flat d) /\ NoDup (map fst (jset k w d)) /\
      (forall a, In a (map fst (jset k w d)) <-> In a (map fst d) \/ a = k) /\
      (forall a b, In (a, b) (jset k w d) -> b <> JNull)).
    { intros w W W'. rewrite (jset_new k w d F), flat_app, map_app. unfold flat at 2. cbn [flat_map fst snd map]. rewrite W. cbn [map app].
      apply field_none in F. split; [ | split; [ | split ]].
      - symmetry. apply Permutation_cons_append.
      - eapply Permutation_NoDup; [ apply Permutation_cons_append | ]. constructor; assumption.
      - intros a. rewrite in_app_iff. cbn. split; intros [I|I]; auto. destruct I as [<-|[]]. auto.
      - intros a b I. apply in_app_or in I as [I|[[= <- <-]|[]]]; [ apply (Z a b I) | exact W' ]. }
    destruct v; try (apply V; [ reflexivity | discriminate ]).
    + contradiction.
    + exfalso. apply (A l). reflexivity.
Qed.

Lemma groups_spec : forall l, Forall (fun kv => atom (snd kv) /\ snd kv <> JNull) l ->
  Permutation (flat (groups l)) l /\ NoDup (map fst (groups l)) /\ (forall a, In a (map fst (groups l)) -> In a (map fst l)) /\
  (forall a b, In (a, b) (groups l) -> b <> JNull).
Proof.
  intros l F.
  assert (X : forall l d, Forall (fun kv => atom (snd kv) /\ snd kv <> JNull) l -> NoDup (map fst d) -> (forall a b, In (a, b) d -> b <> JNull) ->
    let d' := fold_left (fun d kv => add_value (fst kv) (snd kv) d) l d in
    Permutation (flat d') (l ++ flat d) /\ NoDup (map fst d') /\ (forall a, In a (map fst d') -> In a (map fst d) \/ In a (map fst l)) /\
    (forall a b, In (a, b) d' -> b <> JNull)).
  { clear. induction l as [|[k v] l IH]; intros d F N Z; cbn [fold_left fst snd].
    - cbn [app]. split; [ reflexivity | ]. split; [ exact N | ]. split; [ auto | exact Z ].
    - inversion F as [|? ? [A Zv] F2]; subst. cbn [snd] in *.
      destruct (add_value_spec k v d A N Z Zv) as [P [N2 [K Z2]]].
      destruct (IH _ F2 N2 Z2) as [P3 [N3 [K3 Z3]]]. split; [ | split; [ exact N3 | split; [ | exact Z3 ]]].
      + rewrite P3, P. symmetry. apply Permutation_middle.
      + intros a I. destruct (K3 a I) as [I'|I']; [ | right; right; exact I' ].
        apply K in I' as [I'| ->]; [ left; exact I' | right; left; reflexivity ]. }
  destruct (X l [] F (NoDup_nil _) (fun a b (I : In _ []) => match I with end)) as [P [N [K Z]]].
  split; [ rewrite P, app_nil_r; reflexivity | ]. split; [ exact N | ]. split; [ | exact Z ].
  intros a I. destruct (K a I) as [[]|I']. exact I'.
Qed.

(** ** Expansion *)

Lemma cut_at : forall p l, ~ In 58%N p -> cut (p ++ #":" ++ l) = Some (p, l).
Proof.
  induction p as [|c p IH]; intros l N; [ reflexivity | ]. cbn [app cut].
  assert (C : N.eqb c 58 = false) by (apply N.eqb_neq; intros ->; apply N; left; reflexivity). rewrite C.
  change (p ++ 58%N :: l) with (p ++ #":" ++ l). rewrite IH by (intros I; apply N; right; exact I). reflexivity.
Qed.

Lemma cut_none : forall s, ~ In 58%N s -> cut s = None.
Proof.
  induction s as [|c s IH]; intros N; [ reflexivity | ]. cbn [cut].
  assert (C : N.eqb c 58 = false) by (apply N.eqb_neq; intros ->; apply N; left; reflexivity). rewrite C.
  rewrite IH by (intros I; apply N; right; exact I). reflexivity.
Qed.

Lemma cut_some : forall s p r, cut s = Some (p, r) -> s = p ++ #":" ++ r.
Proof.
  induction s as [|c s IH]; intros p r E; cbn [cut] in E; [ discriminate | ]. destruct (N.eqb c 58) eqn:C.
  - apply N.eqb_eq in C. subst c. injection E as <- <-. reflexivity.
  - destruct (cut s) as [[a b]|] eqn:S; [ | discriminate ]. injection E as <- <-. rewrite (IH a b eq_refl). reflexivity.
Qed.

Lemma local_keyword : forall l s, local_name l -> keyword (l ++ s) = false.
Proof.
  intros [|c l] s [N [_ [_ K]]]; [ contradiction | ]. cbn [app keyword]. apply N.eqb_neq. intros ->. apply (K l). reflexivity.
Qed.

Lemma local_slashes : forall l, ~ In 47%N l -> slashes l = false.
Proof.
  intros [|a [|b l]] H; try reflexivity. cbn [slashes]. destruct (N.eqb a 47) eqn:A; [ | reflexivity ].
  apply N.eqb_eq in A. subst a. exfalso. apply H. left. reflexivity.
Qed.

Lemma assemble_plain : forall ctx fs d,
  Forall (fun f => keyword (fst (fst f)) = false /\ snd (fst f) <> JNull) fs ->
  NoDup (map fst d ++ map (fun f => expand_iri ctx true (fst (fst f))) fs) ->
  fold_left (fun d f =>
      let '(k, v, vs) := f in
      if str_eqb k #"@context" then d
      else if str_eqb k #"@id" then
        match v with JStr s => d ++ [(#"@id", JStr (expand_iri ctx false s))] | _ => d end
      else if str_eqb k #"@type" then
        match v with JStr s => d ++ [(#"@type", JList [JStr (expand_iri ctx true s)])] | _ => d end
      else match v with JNull => d | _ => more (expand_iri ctx true k) vs d end) fs d =
  d ++ map (fun f => (expand_iri ctx true (fst (fst f)), JList (snd f))) fs.
Proof.
  intros ctx. induction fs as [|[[k v] vs] fs IH]; intros d F N; cbn [fold_left map]; [ symmetry; apply app_nil_r | ].
  inversion F as [|? ? [K Z] F2]; subst. cbn [fst snd] in *.
  assert (E : forall w, keyword w = true -> str_eqb k w = false).
  { intros w W. apply str_eqb_neq. intros ->. rewrite W in K. discriminate. }
  rewrite !E by reflexivity.
  assert (M : more (expand_iri ctx true k) vs d = d ++ [(expand_iri ctx true k, JList vs)]).
  { cbn [map fst] in N. apply NoDup_remove_2 in N. revert N. generalize (expand_iri ctx true k). clear. intros u.
    assert (X : ~ In u (map fst d) -> more u vs d = d ++ [(u, JList vs)]).
    { induction d as [|[k' v'] d IH]; intros I; cbn [more app]; [ reflexivity | ].
      destruct (str_eqb k' u) eqn:E; [ apply str_eqb_eq in E; subst; exfalso; apply I; left; reflexivity | ].
      rewrite IH by (intros J; apply I; right; exact J). reflexivity. }
    intros N. apply X. intros I. apply N. apply in_or_app. left. exact I. }
  assert (G : (match v with JNull => d | _ => more (expand_iri ctx true k) vs d end) = d ++ [(expand_iri ctx true k, JList vs)]).
  { destruct v; try exact M. contradiction. }
  rewrite G, IH; [ rewrite <- app_assoc; reflexivity | exact F2 | ].
  rewrite map_app. cbn [map fst]. rewrite <- app_assoc. exact N.
Qed.

(** What is stated by a value of a group. *)
Definition stat (u : str) (v : json) : statement :=
  match v with
  | JObj ((_, s) :: (_, l) :: _) => (u, s, l)
  | _ => (u, v, JNull)
  end.

(** A group: a dictionary of keys [k] that expand to what [back] is told of them. *)
Lemma expand_groups : forall ctx l, (forall k v, In (k, v) l -> keyword k = false) ->
  (forall k k' v v', In (k, v) l -> In (k', v') l -> expand_iri ctx true k = expand_iri ctx true k' -> k = k') ->
  (forall k v, In (k, v) l -> (exists s, v = JStr s) \/ (exists z, v = JInt z) \/
     exists s t, v = JObj [(#"@value", JStr s); (#"@language", JStr t)]) ->
  exists gs parts, expand_value ctx (JObj (groups l)) = [JObj gs] /\
    Forall2 (fun kv part => exists js, snd kv = JList js /\ Forall2 (tells (fst kv)) js part) gs parts /\
    Permutation (concat parts) (map (fun kv => stat (expand_iri ctx true (fst kv)) (snd kv)) l).
Proof.
  intros ctx l K I V.
  assert (A : Forall (fun kv => atom (snd kv) /\ snd kv <> JNull) l).
  { apply Forall_forall. intros [k v] J. cbn [snd]. destruct (V k v J) as [[s ->]|[[z ->]|[s [t ->]]]]; split; try discriminate; intros x; discriminate. }
  destruct (groups_spec l A) as [P [N [S Z]]].
  assert (K' : forall k, In k (map fst (groups l)) -> exists v, In (k, v) l).
  { intros k J. apply S in J. apply in_map_iff in J as [[a b] [<- J]]. exists b. exact J. }
  set (d := groups l) in *. cbn [expand_value].
  assert (F : field #"@value" d = None).
  { apply field_none. intros J. destruct (K' _ J) as [v J']. specialize (K _ _ J'). discriminate. }
  rewrite F. unfold assemble. rewrite assemble_plain.
  - cbn [app]. rewrite map_map. cbn [fst snd].
    exists (map (fun kv => (expand_iri ctx true (fst kv), JList (expand_value ctx (snd kv)))) d).
    exists (map (fun kv => map (stat (expand_iri ctx true (fst kv))) (vals (snd kv))) d). split; [ reflexivity | ].
    assert (W : forall k v w, In (k, v) d -> In w (vals v) -> exists k', In (k', w) l).
    { intros k v w J1 J2. exists k. eapply Permutation_in; [ exact P | ]. unfold flat. apply in_flat_map. exists (k, v). split; [ exact J1 | ].
      cbn [fst snd]. apply in_map. exact J2. }
    split.
    + clear F P N S Z K'. induction d as [|[k v] d IH]; [ constructor | ]. cbn [map fst snd]. constructor.
      * exists (expand_value ctx v). split; [ reflexivity | ]. cbn [fst].
        assert (B : expand_value ctx v = flat_map (expand_value ctx) (vals v)).
        { destruct v; cbn [vals flat_map]; rewrite ?app_nil_r; reflexivity. }
        rewrite B.
        assert (G : forall w, In w (vals v) -> exists j, expand_value ctx w = [j] /\ tells (expand_iri ctx true k) j (stat (expand_iri ctx true k) w)).
        { intros w J. destruct (W k v w (or_introl eq_refl) J) as [k' J']. destruct (V _ _ J') as [[s ->]|[[z ->]|[s [t ->]]]].
          - eexists. split; [ reflexivity | ]. apply tells_plain; reflexivity.
          - eexists. split; [ reflexivity | ]. apply tells_number; reflexivity.
          - eexists. split; [ reflexivity | ]. apply tells_text; reflexivity. }
        clear -G. induction (vals v) as [|w ws IHw]; cbn [flat_map map]; [ constructor | ].
        destruct (G w (or_introl eq_refl)) as [j [-> T]]. cbn [app]. constructor; [ exact T | ].
        apply IHw. intros w' J. apply G. right. exact J.
      * apply IH. intros k0 v0 w J1 J2. apply (W k0 v0 w); [ right; exact J1 | exact J2 ].
    + rewrite <- P. unfold flat. clear. induction d as [|[k v] d IH]; cbn [map concat flat_map fst snd]; [ reflexivity | ].
      rewrite map_app, map_map. cbn [fst snd]. apply Permutation_app_head. exact IH.
  - rewrite Forall_map. apply Forall_forall. intros [k v] J. cbn [fst snd]. split; [ | apply (Z k v J) ].
    destruct (K' k (in_map fst _ _ J)) as [v' J']. apply (K k v' J').
  - cbn [map app]. rewrite map_map. cbn [fst snd].
    assert (IJ : forall k k', In k (map fst d) -> In k' (map fst d) -> expand_iri ctx true k = expand_iri ctx true k' -> k = k').
    { intros k k' J J'. destruct (K' k J) as [v X]. destruct (K' k' J') as [v' X']. eapply I; eassumption. }
    clear -N IJ. induction d as [|[k v] d IH]; cbn [map fst] in *; [ constructor | ].
    inversion N as [|? ? N1 N2]; subst. constructor.
    + intros J. apply in_map_iff in J as [[k' v'] [E J]]. cbn [fst] in E. apply (in_map fst) in J. cbn [fst] in J.
      apply IJ in E; [ subst; contradiction | right; exact J | left; reflexivity ].
    + apply IH; [ exact N2 | ]. intros a b A B. apply IJ; right; assumption.
Qed.

Lemma expand_citation : forall ctx c,
  expand_iri ctx true #"dts:citeType" = cite_type_iri -> expand_iri ctx true #"dts:citeStructure" = cite_structure_iri ->
  expand_value ctx (citation_export #"dts:citeType" #"dts:citeStructure" c) =
  [expand #"dts:citeType" #"dts:citeStructure" (citation_export #"dts:citeType" #"dts:citeStructure" c)].
Proof.
  intros ctx c ET ES. induction c as [n r l IH] using citation_ind'. cbn [citation_export].
  set (T := #"dts:citeType") in *. set (S := #"dts:citeStructure") in *.
  assert (M : flat_map (expand_value ctx) (map (citation_export T S) l) = map (expand T S) (map (citation_export T S) l)).
  { induction IH as [|c l Hc _ IHl]; [ reflexivity | ]. cbn [map flat_map]. rewrite Hc, IHl. reflexivity. }
  cbn [expand_value]. destruct (is_empty l) eqn:E.
  - destruct n as [n|]; [ | reflexivity ].
    change (field #"@value" [(T, JStr n)]) with (@None json). cbn [map fst snd expand_value]. unfold assemble. cbn [fold_left].
    change (str_eqb T #"@context") with false. change (str_eqb T #"@id") with false. change (str_eqb T #"@type") with false. cbn iota.
    rewrite ET. reflexivity.
  - destruct n as [n|].
    + change (field #"@value" [(T, JStr n); (S, JList (map (citation_export T S) l))]) with (@None json). cbn [map fst snd expand_value].
      rewrite M. unfold assemble. cbn [fold_left].
      change (str_eqb T #"@context") with false. change (str_eqb T #"@id") with false. change (str_eqb T #"@type") with false.
      change (str_eqb S #"@context") with false. change (str_eqb S #"@id") with false. change (str_eqb S #"@type") with false. cbn iota.
      rewrite ET, ES. cbn [more]. rewrite ct_cs. cbn [expand flat_map app]. change (str_eqb T T) with true. change (str_eqb S S) with true.
      reflexivity.
    + change (field #"@value" [(T, JNull); (S, JList (map (citation_export T S) l))]) with (@None json). cbn [map fst snd expand_value].
      rewrite M. unfold assemble. cbn [fold_left].
      change (str_eqb T #"@context") with false. change (str_eqb T #"@id") with false. change (str_eqb T #"@type") with false.
      change (str_eqb S #"@context") with false. change (str_eqb S #"@id") with false. change (str_eqb S #"@type") with false. cbn iota.
      rewrite ES. cbn [more]. cbn [expand flat_map app]. change (str_eqb S S) with true. reflexivity.
Qed.

(** ** The document *)

Definition opt (k : str) (o : option json) : list (str * json) := match o with Some v => [(k, v)] | None => [] end.
Definition entries (id t l : str) (z : Z) (od oe ob om op os : option json) : list (str * json) :=
  [(#"@id", JStr id); (#"@type", JStr t); (#"title", JStr l); (#"totalItems", JInt z)] ++
  opt #"description" od ++ opt #"dts:extensions" oe ++ opt #"dts:dublincore" ob ++ opt #"member" om ++
  opt #"dts:citeDepth" op ++ opt #"dts:citeStructure" os.

Definition values (ctx : context) (o : option json) : option json := option_map (fun v => JList (expand_value ctx v)) o.
Definition expanded_entries (ctx : context) (id t l : str) (z : Z) (od oe ob om op os : option json) : list (str * json) :=
  [(#"@id", JStr id); (#"@type", JList [JStr t]); (hydra #"title", JList [JObj [(#"@value", JStr l)]]);
   (hydra #"totalItems", JList [JObj [(#"@value", JInt z)]])] ++
  opt (hydra #"description") (values ctx od) ++ opt (dts #"extensions") (values ctx oe) ++ opt (dts #"dublincore") (values ctx ob) ++
  opt (hydra #"member") (values ctx om) ++ opt (dts #"citeDepth") (values ctx op) ++ opt (dts #"citeStructure") (values ctx os).

Definition understands (ctx : context) : Prop :=
  (forall w, In w hydra_words -> expand_iri ctx true w = hydra w) /\
  forall w, In w dts_words -> expand_iri ctx true (#"dts:" ++ w) = dts w.

Fixpoint differ (l : list str) : bool :=
  match l with [] => true | x :: l' => negb (existsb (str_eqb x) l') && differ l' end.
Lemma differ_NoDup : forall l, differ l = true -> NoDup l.
Proof.
  induction l as [|x l IH]; cbn [differ]; intros H; constructor; apply andb_true_iff in H as [H1 H2].
  - intros I. apply negb_true_iff in H1. rewrite (proj2 (existsb_exists _ _)) in H1; [ discriminate | ].
    exists x. split; [ exact I | apply str_eqb_eq; reflexivity ].
  - apply IH, H2.
Qed.

Lemma expand_entries : forall ctx c id t l z od oe ob om op os, understands ctx ->
  Forall (fun o => o <> Some JNull) [od; oe; ob; om; op; os] -> (c = [] \/ exists v, c = [(#"@context", v)]) ->
  expand_value ctx (JObj (c ++ entries id t l z od oe ob om op os)) =
  [JObj (expanded_entries ctx (expand_iri ctx false id) (expand_iri ctx true t) l z od oe ob om op os)].
Proof.
  intros ctx c id t l z od oe ob om op os [H D] NN C. cbn [expand_value].
  assert (V : field #"@value" (c ++ entries id t l z od oe ob om op os) = None).
  { destruct C as [->|[v ->]]; destruct od, oe, ob, om, op, os; reflexivity. }
  rewrite V. f_equal. f_equal. unfold assemble.
  rewrite map_app, fold_left_app. 
  match goal with |- fold_left ?f ?x (fold_left _ (map _ c) []) = _ =>
    assert (C0 : fold_left f (map (fun kv => (fst kv, snd kv, expand_value ctx (snd kv))) c) [] = []) end.
  { destruct C as [->|[v ->]]; reflexivity. }
  rewrite C0. unfold entries. rewrite map_app, fold_left_app. cbn [map fst snd fold_left].
  change (str_eqb #"@id" #"@context") with false. change (str_eqb #"@id" #"@id") with true. cbn iota. cbn [app].
  change (str_eqb #"@type" #"@context") with false. change (str_eqb #"@type" #"@id") with false.
  change (str_eqb #"@type" #"@type") with true. cbn iota. cbn [app].
  change (str_eqb #"title" #"@context") with false. change (str_eqb #"title" #"@id") with false. change (str_eqb #"title" #"@type") with false.
  change (str_eqb #"totalItems" #"@context") with false. change (str_eqb #"totalItems" #"@id") with false.
  change (str_eqb #"totalItems" #"@type") with false. cbn iota.
  rewrite (H #"title") by (cbn; auto). rewrite (H #"totalItems") by (cbn; auto 10).
  cbn [more]. change (str_eqb #"@id" (hydra #"title")) with false. change (str_eqb #"@type" (hydra #"title")) with false.
  change (str_eqb #"@id" (hydra #"totalItems")) with false. change (str_eqb #"@type" (hydra #"totalItems")) with false.
  cbn iota. cbn [more]. change (str_eqb (hydra #"title") (hydra #"totalItems")) with false. cbn iota. cbn [more].
  change #"dts:extensions" with (#"dts:" ++ #"extensions"). change #"dts:dublincore" with (#"dts:" ++ #"dublincore").
  change #"dts:citeDepth" with (#"dts:" ++ #"citeDepth"). change #"dts:citeStructure" with (#"dts:" ++ #"citeStructure").
  assert (M : forall k k' o, expand_iri ctx true k = k' ->
     map (fun f : str * json * list json => (expand_iri ctx true (fst (fst f)), JList (snd f)))
       (map (fun kv => (fst kv, snd kv, expand_value ctx (snd kv))) (opt k o)) = opt k' (values ctx o)).
  { intros k k' [v|] E; cbn [opt map fst snd values option_map]; rewrite ?E; reflexivity. }
  assert (Q : forall k k' o, expand_iri ctx true k = k' ->
     map (fun f : str * json * list json => expand_iri ctx true (fst (fst f)))
       (map (fun kv => (fst kv, snd kv, expand_value ctx (snd kv))) (opt k o)) = map fst (opt k' o)).
  { intros k k' [v|] E; cbn [opt map fst snd]; rewrite ?E; reflexivity. }
  rewrite assemble_plain.
  - unfold expanded_entries. rewrite !map_app.
    rewrite (M _ _ od (H #"description" ltac:(cbn; auto 10))), (M _ _ om (H #"member" ltac:(cbn; auto 10))).
    rewrite (M _ _ oe (D #"extensions" ltac:(cbn; auto 10))), (M _ _ ob (D #"dublincore" ltac:(cbn; auto 10))).
    rewrite (M _ _ op (D #"citeDepth" ltac:(cbn; auto 10))), (M _ _ os (D #"citeStructure" ltac:(cbn; auto 10))).
    reflexivity.
  - rewrite !map_app. rewrite !Forall_app.
    inversion NN as [|? ? N1 NN1]; subst. inversion NN1 as [|? ? N2 NN2]; subst. inversion NN2 as [|? ? N3 NN3]; subst.
    inversion NN3 as [|? ? N4 NN4]; subst. inversion NN4 as [|? ? N5 NN5]; subst. inversion NN5 as [|? ? N6 NN6]; subst.
    assert (G : forall k o, keyword k = false -> o <> Some JNull ->
      Forall (fun f : str * json * list json => keyword (fst (fst f)) = false /\ snd (fst f) <> JNull)
        (map (fun kv => (fst kv, snd kv, expand_value ctx (snd kv))) (opt k o))).
    { intros k [v|] K N; cbn [opt map]; constructor; [ | constructor ]. cbn. split; [ exact K | congruence ]. }
    repeat split; apply G; first [ reflexivity | assumption ].
  - rewrite !map_app.
    rewrite (Q _ _ od (H #"description" ltac:(cbn; auto 10))), (Q _ _ om (H #"member" ltac:(cbn; auto 10))).
    rewrite (Q _ _ oe (D #"extensions" ltac:(cbn; auto 10))), (Q _ _ ob (D #"dublincore" ltac:(cbn; auto 10))).
    rewrite (Q _ _ op (D #"citeDepth" ltac:(cbn; auto 10))), (Q _ _ os (D #"citeStructure" ltac:(cbn; auto 10))).
    apply differ_NoDup. destruct od, oe, ob, om, op, os; reflexivity.
Qed.

Lemma fields_of_entries : forall ctx id t l z od oe ob om op os,
  let fs := expanded_entries ctx id t l z od oe ob om op os in
  field #"@id" fs = Some (JStr id) /\ field #"@type" fs = Some (JList [JStr t]) /\
  field (hydra #"title") fs = Some (JList [JObj [(#"@value", JStr l)]]) /\
  field (hydra #"totalItems") fs = Some (JList [JObj [(#"@value", JInt z)]]) /\
  field (hydra #"description") fs = values ctx od /\ field (dts #"extensions") fs = values ctx oe /\
  field (dts #"dublincore") fs = values ctx ob /\ field (hydra #"member") fs = values ctx om /\
  field (dts #"citeDepth") fs = values ctx op /\ field (dts #"citeStructure") fs = values ctx os /\
  field (hydra #"view") fs = None.
Proof. intros. subst fs. destruct od, oe, ob, om, op, os; repeat split; reflexivity. Qed.

(** What a group of statements, the members, the depth and the structure say. *)
Definition group_says (ctx : context) (o : option json) (sts : list statement) : Prop :=
  (o = None /\ sts = []) \/
  exists v gs parts, o = Some v /\ expand_value ctx v = [JObj gs] /\
    Forall2 (fun kv part => exists js, snd kv = JList js /\ Forall2 (tells (fst kv)) js part) gs parts /\ sts = concat parts.
Definition structure_says (ctx : context) (o : option json) (c : option citation_set) : Prop :=
  (o = None /\ c = None) \/
  exists v x l s, o = Some v /\ expand_value ctx v = x :: l /\ set_ingest 0 (JList (x :: l)) = Ok s /\ c = Some s.
Definition members_say (ctx : context) (o : option json) (cs : list coll) : Prop :=
  (o = None /\ cs = []) \/ exists v, o = Some v /\ Forall2 says_coll (expand_value ctx v) cs.

Lemma entries_say : forall ctx id t l z od oe ob om (op : option Z) os a b c cs,
  group_says ctx ob a -> group_says ctx oe b -> members_say ctx om cs -> structure_says ctx os c ->
  says_coll (JObj (expanded_entries ctx id t l z (option_map JStr od) oe ob om (option_map JInt op) os))
    (Coll id (MkCMeta [JStr l] [JStr t] c (option_map JInt op) [JInt z] (match od with Some d => [JStr d] | None => [] end) (a ++ b)) cs false).
Proof.
  intros ctx id t l z od oe ob om op os a b c cs Ha Hb Hm Hs.
  destruct (fields_of_entries ctx id t l z (option_map JStr od) oe ob om (option_map JInt op) os)
    as [F1 [F2 [F3 [F4 [F5 [F6 [F7 [F8 [F9 [F10 F11]]]]]]]]]].
  set (fs := expanded_entries ctx id t l z (option_map JStr od) oe ob om (option_map JInt op) os) in *. clearbody fs.
  assert (One : forall k v, field k fs = Some (JList [JObj [(#"@value", v)]]) -> listed fs k [v]).
  { intros k v E. exists [JObj [(#"@value", v)]]. split; [ exact E | ]. constructor; [ | constructor ].
    exists [(#"@value", v)]. split; reflexivity. }
  assert (Told : forall k o sts, group_says ctx o sts -> field k fs = values ctx o -> told fs k sts).
  { intros k o sts [[-> ->]|[v [gs [parts [-> [E [P ->]]]]]]] F.
    - left. split; [ exact F | reflexivity ].
    - right. exists gs, [], parts. cbn [values option_map] in F. rewrite E in F. auto. }
  assert (Mem : exists ms, members fs ms /\ Forall2 says_coll ms cs).
  { destruct Hm as [[-> ->]|[v [-> P]]].
    - exists []. split; [ left; split; [ exact F8 | reflexivity ] | constructor ].
    - exists (expand_value ctx v). split; [ right; exact F8 | exact P ]. }
  destruct Mem as [ms [Mem1 Mem2]].
  apply (says_coll_intro fs id _ ms cs false); [ exact F1 | | exact Mem1 | exact Mem2 | exact F11 ].
  unfold says_meta. cbn [cm_labels cm_types cm_citation cm_depth cm_totals cm_descriptions cm_about].
  split; [ apply One; exact F3 | ]. split; [ exact F2 | ]. split.
  { destruct Hs as [[-> ->]|[v [x [l' [s [-> [E [I ->]]]]]]]].
    - left. split; [ exact F10 | reflexivity ].
    - right. exists x, l', s. cbn [values option_map] in F10. rewrite E in F10. auto. }
  split.
  { destruct op as [d|]; cbn [option_map gives_opt].
    - exists [(#"@value", JInt d)], []. split; [ exact F9 | reflexivity ].
    - exact F9. }
  split; [ apply One; exact F4 | ]. split.
  { destruct od as [d|].
    - right. apply One. exact F5.
    - left. split; [ exact F5 | reflexivity ]. }
  exists a, b. split; [ apply (Told _ _ _ Ha F7) | ]. split; [ apply (Told _ _ _ Hb F6) | reflexivity ].
Qed.

(** ** Addresses among the values *)

Lemma mapM_one_error : forall {A B} (f : A -> result B) e l, (forall a, In a l -> (exists b, f a = Ok b) \/ f a = Err e) ->
  ((exists bs, mapM f l = Ok bs) \/ mapM f l = Err e) /\ ((exists a, In a l /\ f a = Err e) -> mapM f l = Err e).
Proof.
  intros A B f e l. induction l as [|a l IH]; intros H; cbn [mapM].
  - split; [ left; eauto | intros [a [[] _]] ].
  - destruct IH as [I1 I2]; [ intros b J; apply H; right; exact J | ].
    destruct (H a (or_introl eq_refl)) as [[b E]|E]; rewrite E; cbn [bind].
    + split.
      * destruct I1 as [[bs ->]| ->]; cbn [bind]; eauto.
      * intros [a' [[<-|J] E']]; [ congruence | ]. rewrite I2 by eauto. reflexivity.
    + split; [ right | intros _ ]; reflexivity.
Qed.

Definition plain_value (v : json) : Prop :=
  (exists s, v = JStr s) \/ (exists z, v = JInt z) \/ exists s t, v = JObj [(#"@value", JStr s); (#"@language", JStr t)].
Definition address_value (v : json) : Prop := exists s, v = JObj [(#"@id", JStr s)].

Lemma expand_links : forall ctx l, (forall k v, In (k, v) l -> keyword k = false) ->
  (forall k k' v v', In (k, v) l -> In (k', v') l -> expand_iri ctx true k = expand_iri ctx true k' -> k = k') ->
  (forall k v, In (k, v) l -> plain_value v \/ address_value v) ->
  exists gs, expand_value ctx (JObj (groups l)) = [JObj gs] /\
    (forall kv, In kv gs -> exists js, snd kv = JList js /\ forall j, In j js -> (exists a, dict_to_literal j = Ok a) \/ dict_to_literal j = Err KeyError) /\
    ((exists k v, In (k, v) l /\ address_value v) -> exists kv js j, In kv gs /\ snd kv = JList js /\ In j js /\ dict_to_literal j = Err KeyError).
Proof.
  intros ctx l K I V.
  assert (A : Forall (fun kv => atom (snd kv) /\ snd kv <> JNull) l).
  { apply Forall_forall. intros [k v] J. cbn [snd]. destruct (V k v J) as [[[s ->]|[[z ->]|[s [t ->]]]]|[s ->]]; split; try discriminate; intros x; discriminate. }
  destruct (groups_spec l A) as [P [N [S Z]]].
  assert (K' : forall k, In k (map fst (groups l)) -> exists v, In (k, v) l).
  { intros k J. apply S in J. apply in_map_iff in J as [[a b] [<- J]]. exists b. exact J. }
  set (d := groups l) in *. cbn [expand_value].
  assert (F : field #"@value" d = None).
  { apply field_none. intros J. destruct (K' _ J) as [v J']. specialize (K _ _ J'). discriminate. }
  assert (W : forall k v w, In (k, v) d -> In w (vals v) -> exists k', In (k', w) l).
  { intros k v w J1 J2. exists k. eapply Permutation_in; [ exact P | ]. unfold flat. apply in_flat_map. exists (k, v). split; [ exact J1 | ].
    cbn [fst snd]. apply in_map. exact J2. }
  assert (B : forall v, expand_value ctx v = flat_map (expand_value ctx) (vals v)).
  { intros v. destruct v; cbn [vals flat_map]; rewrite ?app_nil_r; reflexivity. }
  rewrite F. unfold assemble. rewrite assemble_plain.
  - cbn [app]. rewrite map_map. cbn [fst snd].
    exists (map (fun kv => (expand_iri ctx true (fst kv), JList (expand_value ctx (snd kv)))) d). split; [ reflexivity | ].
    assert (L : forall s, exists j, expand_value ctx (JObj [(#"@id", JStr s)]) = [j] /\ dict_to_literal j = Err KeyError).
    { intros s. eexists. split; [ reflexivity | reflexivity ]. }
    split.
    + intros kv J. apply in_map_iff in J as [[k v] [<- J]]. cbn [fst snd]. eexists. split; [ reflexivity | ].
      intros j Hj. rewrite B in Hj. apply in_flat_map in Hj as [w [Hw Hj]]. destruct (W k v w J Hw) as [k' J'].
      destruct (V _ _ J') as [[[s ->]|[[z ->]|[s [t ->]]]]|[s ->]].
      * left. destruct Hj as [<-|[]]. eexists. reflexivity.
      * left. destruct Hj as [<-|[]]. eexists. reflexivity.
      * left. destruct Hj as [<-|[]]. eexists. reflexivity.
      * right. destruct (L s) as [j' [E Y]]. rewrite E in Hj. destruct Hj as [<-|[]]. exact Y.
    + intros [k [v [J [s ->]]]]. apply (Permutation_in _ (Permutation_sym P)) in J. unfold flat in J. apply in_flat_map in J as [[k' v'] [J1 J2]].
      cbn [fst snd] in J2. apply in_map_iff in J2 as [w [Ew J2]]. injection Ew as <- ->. destruct (L s) as [j [E Y]].
      eexists. eexists. exists j. split; [ apply in_map; exact J1 | ]. cbn [fst snd]. split; [ reflexivity | ]. split; [ | exact Y ].
      rewrite B. apply in_flat_map. exists (JObj [(#"@id", JStr s)]). split; [ exact J2 | ]. rewrite E. left. reflexivity.
  - rewrite Forall_map. apply Forall_forall. intros [k v] J. cbn [fst snd]. split; [ | apply (Z k v J) ].
    destruct (K' k (in_map fst _ _ J)) as [v' J']. apply (K k v' J').
  - cbn [map app]. rewrite map_map. cbn [fst snd].
    assert (IJ : forall k k', In k (map fst d) -> In k' (map fst d) -> expand_iri ctx true k = expand_iri ctx true k' -> k = k').
    { intros k k' J J'. destruct (K' k J) as [v X]. destruct (K' k' J') as [v' X']. eapply I; eassumption. }
    clear -N IJ. induction d as [|[k v] d IH]; cbn [map fst] in *; [ constructor | ].
    inversion N as [|? ? N1 N2]; subst. constructor.
    + intros J. apply in_map_iff in J as [[k' v'] [E J]]. cbn [fst] in E. apply (in_map fst) in J. cbn [fst] in J.
      apply IJ in E; [ subst; contradiction | right; exact J | left; reflexivity ].
    + apply IH; [ exact N2 | ]. intros a b A B. apply IJ; right; assumption.
Qed.

Lemma group_links : forall ctx l fs k, (forall k v, In (k, v) l -> keyword k = false) ->
  (forall k k' v v', In (k, v) l -> In (k', v') l -> expand_iri ctx true k = expand_iri ctx true k' -> k = k') ->
  (forall k v, In (k, v) l -> plain_value v \/ address_value v) ->
  field k fs = values ctx (match groups l with [] => None | d => Some (JObj d) end) ->
  ((exists r, parse_group k (JObj fs) = Ok r) \/ parse_group k (JObj fs) = Err KeyError) /\
  ((exists k v, In (k, v) l /\ address_value v) -> parse_group k (JObj fs) = Err KeyError).
Proof.
  intros ctx l fs k K I V F. destruct (expand_links ctx l K I V) as [gs [E [G L]]].
  assert (R : get_first (match field k fs with Some v => v | None => empty_object end) = Ok (JObj gs)).
  { rewrite F. destruct (groups l) as [|kv d]; [ cbn in E; injection E as <-; reflexivity | ].
    cbn [values option_map]. rewrite E. reflexivity. }
  unfold parse_group. cbn [jget bind]. rewrite R. cbn [bind jitems].
  set (f := fun kv : str * json => vs <- iter_json (snd kv) ;; mapM (fun x => '(a, l0) <- dict_to_literal x ;; Ok (fst kv, a, l0)) vs).
  assert (H : forall kv, In kv gs -> ((exists b, f kv = Ok b) \/ f kv = Err KeyError) /\
    forall js j, snd kv = JList js -> In j js -> dict_to_literal j = Err KeyError -> f kv = Err KeyError).
  { intros kv J. destruct (G kv J) as [js [E1 H]]. unfold f. rewrite E1. cbn [iter_json bind].
    destruct (mapM_one_error (fun x => '(a, l0) <- dict_to_literal x ;; Ok (fst kv, a, l0)) KeyError js) as [M1 M2].
    - intros a Ha. destruct (H a Ha) as [[[u w] ->]| ->]; [ left; eexists; reflexivity | right; reflexivity ].
    - split; [ exact M1 | ]. intros js' j Ej Hj X. injection Ej as <-. apply M2. exists j. split; [ exact Hj | ]. rewrite X. reflexivity. }
  destruct (mapM_one_error f KeyError gs (fun kv J => proj1 (H kv J))) as [M1 M2]. split.
  - destruct M1 as [[bs ->]| ->]; cbn [bind]; eauto.
  - intros X. destruct (L X) as [kv [js [j [J1 [J2 [J3 J4]]]]]]. rewrite M2; [ reflexivity | ]. exists kv. split; [ exact J1 | ].
    exact (proj2 (H kv J1) js j J2 J3 J4).
Qed.

(** Documents that differ in the statements only: when those of one cannot be read,
    it cannot. *)
Lemma entries_fail : forall ctx id t l z od oe ob om (op : option Z) os c cs e,
  members_say ctx om cs -> structure_says ctx os c ->
  let d := JObj (expanded_entries ctx id t l z (option_map JStr od) oe ob om (option_map JInt op) os) in
  parse_metadata d = Err e -> parse_coll d = Err e.
Proof.
  intros ctx id t l z od oe ob om op os c cs e M S d H.
  pose proof (entries_say ctx id t l z od None None om op os [] [] c cs (or_introl (conj eq_refl eq_refl)) (or_introl (conj eq_refl eq_refl)) M S) as X.
  inversion X as [fs i meta ms ks view H1 H2 H3 H4 H5 E1 E2]. apply says_meta_parse in H2.
  destruct (fields_of_entries ctx id t l z (option_map JStr od) None None om (option_map JInt op) os)
    as [F1 [F2 [F3 [F4 [F5 [_ [_ [F8 [F9 [F10 F11]]]]]]]]]].
  destruct (fields_of_entries ctx id t l z (option_map JStr od) oe ob om (option_map JInt op) os)
    as [G1 [G2 [G3 [G4 [G5 [_ [_ [G8 [G9 [G10 G11]]]]]]]]]].
  assert (P : parse_cmeta d = Err e).
  { revert H2. unfold d. subst d. set (fs1 := expanded_entries ctx id t l z (option_map JStr od) None None om (option_map JInt op) os) in *.
    set (fs2 := expanded_entries ctx id t l z (option_map JStr od) oe ob om (option_map JInt op) os) in *. clearbody fs1 fs2. clear X.
    unfold parse_cmeta, get_key, jget.
    change (hydra_term #"title") with (hydra #"title"). change (dts_term #"citeStructure") with (dts #"citeStructure").
    change (dts_term #"citeDepth") with (dts #"citeDepth"). change (hydra_term #"totalItems") with (hydra #"totalItems").
    change (hydra_term #"description") with (hydra #"description").
    rewrite F2, F3, F4, F5, F9, F10, G2, G3, G4, G5, G9, G10. rewrite H.
    repeat match goal with
    | |- context [bind (Ok _) _] => cbn [bind]
    | |- bind ?r _ = Ok _ -> _ => destruct r; [ cbn [bind] | cbn [bind]; discriminate ]
    end. reflexivity. }
  unfold d in *. cbn [parse_coll]. unfold get_key at 1. rewrite G1. cbn [bind as_id]. rewrite P. reflexivity.
Qed.
