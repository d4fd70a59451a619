(** The text written for an inventory, as a tree. *)

From Coq Require Import List NArith ZArith Arith Bool Lia Permutation.
From Verif Require Import PyStr PyStrFacts CiteSpec CiteModel CiteProofs XmlModel XmlProofs UrnModel MetaModel MetaSpec MetaProofs
  CollModel CollSpec CollProofs UtilModel UtilSpec XmlNodeProofs XmlReadSpec XmlReadProofs
  InvModel InvSpec InvProofs InvExport InvExportSpec Props_Cite.
Import ListNotations.

Definition lined (l : list raw) : list (raw * str) := map (fun r => (r, newline)) l.
Definition packed (l : list raw) : list (raw * str) := map (fun r => (r, [])) l.

Lemma escape_newline : escape newline = newline.
Proof. reflexivity. Qed.
Lemma newline_ok : text_ok newline.
Proof. intros c [<-|[]]. split; [ reflexivity | discriminate ]. Qed.
Lemma empty_ok : text_ok [].
Proof. intros c []. Qed.

Lemma prints_lined : forall rs ss, Forall2 prints rs ss ->
  prints_kids (lined rs) (flat_map (fun x => x ++ newline) ss).
Proof.
  induction 1 as [|r x rs ss H _ IH]; [ constructor | ].
  cbn [lined map flat_map]. rewrite <- app_assoc. rewrite <- escape_newline at 1.
  apply prints_cons; [ exact H | apply newline_ok | exact IH ].
Qed.

Lemma prints_packed : forall rs ss, Forall2 prints rs ss -> prints_kids (packed rs) (concat ss).
Proof.
  induction 1 as [|r x rs ss H _ IH]; [ constructor | ].
  cbn [packed map concat]. change (concat ss) with (escape [] ++ concat ss).
  apply prints_cons; [ exact H | apply empty_ok | exact IH ].
Qed.

Lemma join_lines : forall a ss b, join newline ([a] ++ ss ++ [b]) = a ++ newline ++ flat_map (fun x => x ++ newline) ss ++ b.
Proof.
  intros a ss b. revert a. induction ss as [|x ss IH]; intros a.
  - cbn [app]. rewrite join_cons by discriminate. reflexivity.
  - cbn [app]. rewrite join_cons by discriminate. specialize (IH x). cbn [app] in IH. rewrite IH.
    cbn [flat_map]. rewrite <- !app_assoc. reflexivity.
Qed.

Lemma lines_print : forall n attrs rs ss, is_name n -> attrs_ok attrs -> Forall2 prints rs ss ->
  prints (Raw n attrs newline (lined rs))
    (join newline ([make_xml_node n false (Some attrs) [] false []] ++ ss ++ [make_xml_node n true None [] false []])).
Proof.
  intros n attrs rs ss Hn Ha H. rewrite join_lines.
  change (make_xml_node n true None [] false []) with (#"</" ++ n ++ #">").
  rewrite <- escape_newline at 2.
  apply prints_node; [ exact Hn | exact Ha | apply newline_ok | left; reflexivity | apply prints_lined; exact H ].
Qed.

Lemma packed_print : forall n att attrs t rs ss, is_name n -> attrs_ok attrs -> text_ok t ->
  att = Some attrs \/ (att = None /\ attrs = []) -> Forall2 prints rs ss ->
  prints (Raw n attrs t (packed rs)) (make_xml_node n false att t true (concat ss)).
Proof.
  intros n att attrs t rs ss Hn Ha Ht Hatt H. rewrite pieces.
  change (make_xml_node n true att [] false []) with (#"</" ++ n ++ #">").
  apply prints_node; try assumption. apply prints_packed. exact H.
Qed.

(** ** Attributes *)
Lemma name_lit : forall n, n <> [] -> forallb name_char n = true -> is_name n.
Proof. intros n N H. split; [ exact N | ]. intros c Hc. rewrite forallb_forall in H. exact (H c Hc). Qed.

Lemma attrs_ok_nil : attrs_ok [].
Proof. split; [ intros n v [] | constructor ]. Qed.
Lemma attrs_ok_cons : forall n v a, is_name n -> plain_value v -> ~ In n (map fst a) -> attrs_ok a -> attrs_ok ((n, v) :: a).
Proof.
  intros n v a Hn Hv Hi [A D]. split; [ | constructor; assumption ].
  intros n' v' [E|H]; [ injection E as <- <-; split; assumption | apply A; exact H ].
Qed.
Lemma attrs_ok_app : forall a b, attrs_ok a -> attrs_ok b -> (forall n, In n (map fst a) -> ~ In n (map fst b)) ->
  attrs_ok (a ++ b).
Proof.
  induction a as [|[n v] a IH]; intros b Ha Hb H; [ exact Hb | ]. cbn [app].
  destruct Ha as [A D]. inversion D; subst. apply attrs_ok_cons.
  - apply (A n v). left. reflexivity.
  - apply (A n v). left. reflexivity.
  - rewrite map_app, in_app_iff. intros [X|X]; [ contradiction | ]. apply (H n); [ left; reflexivity | exact X ].
  - apply IH; [ | exact Hb | ].
    + split; [ | assumption ]. intros n' v' I. apply (A n' v'). right. exact I.
    + intros n' I. apply H. right. exact I.
Qed.

(** ** Namespaces *)
Definition is_decl (n : str) : Prop := exists p, declares_ns n = Some p.

Lemma decl_xmlns : declares_ns #"xmlns" = Some [].
Proof. reflexivity. Qed.
Lemma decl_prefix : forall p, declares_ns (#"xmlns:" ++ p) = Some p.
Proof.
  intros p. unfold declares_ns. replace (str_eqb (#"xmlns:" ++ p) #"xmlns") with false.
  - apply strip_prefix_app.
  - symmetry. apply str_eqb_neq. discriminate.
Qed.

Lemma In_dset : forall k0 (v0 : str) d k v, In (k, v) (dset k0 v0 d) -> (k = k0 /\ v = v0) \/ In (k, v) d.
Proof.
  intros k0 v0. induction d as [|[k' v'] d IH]; intros k v; cbn [dset].
  - intros [H|[]]. injection H as <- <-. left. auto.
  - destruct (str_eqb k' k0) eqn:E.
    + apply str_eqb_eq in E. subst k'. intros [H|H]; [ injection H as <- <-; left; auto | right; right; exact H ].
    + intros [H|H]; [ injection H as <- <-; right; left; reflexivity | ].
      apply IH in H as [H|H]; [ left; exact H | right; right; exact H ].
Qed.
Lemma keys_dset : forall k0 (v0 : str) d j, In j (map fst (dset k0 v0 d)) <-> j = k0 \/ In j (map fst d).
Proof.
  intros k0 v0 d j. induction d as [|[k' v'] d IH]; cbn [dset map fst].
  - cbn. intuition.
  - destruct (str_eqb k' k0) eqn:E; cbn [map fst].
    + apply str_eqb_eq in E. subst. cbn. intuition.
    + cbn [In]. rewrite IH. intuition.
Qed.

Section Header.
Variable cpt : bool.
Variable order : list term -> list term.
Hypothesis Ho : arranges order.
Variable qname : term -> str * str.

Definition key_of (p : term) : str := if truthy (fst (qname p)) then #"xmlns:" ++ fst (qname p) else #"xmlns".

Lemma fold_dset : forall l d,
  let r := fold_left (fun d p => let '(prefix, ns) := qname p in
                  dset (if truthy prefix then #"xmlns:" ++ prefix else #"xmlns") ns d) l d in
  (NoDup (map fst d) -> NoDup (map fst r)) /\
  (forall k v, In (k, v) r -> In (k, v) d \/ exists p, In p l /\ k = key_of p /\ v = snd (qname p)) /\
  (forall k, In k (map fst d) \/ In k (map key_of l) -> In k (map fst r)).
Proof using Type.
  induction l as [|p l IH]; intros d r.
  - split; [ auto | ]. split; [ auto | ]. intros k [H|[]]. exact H.
  - subst r. cbn [fold_left]. destruct (IH (dset (key_of p) (snd (qname p)) d)) as (A & B & C).
    assert (E : (let '(prefix, ns) := qname p in dset (if truthy prefix then #"xmlns:" ++ prefix else #"xmlns") ns d)
                = dset (key_of p) (snd (qname p)) d).
    { unfold key_of. destruct (qname p). reflexivity. }
    rewrite E. split; [ | split ].
    + intros N. apply A. apply NoDup_keys_dset. exact N.
    + intros k v H. apply B in H as [H|(q & Hq & Ek & Ev)].
      * apply In_dset in H as X.
        destruct X as [[-> ->]|X]; [ right; exists p; split; [ left; reflexivity | auto ] | left; exact X ].
      * right. exists q. split; [ right; exact Hq | auto ].
    + intros k H. apply C.
      rewrite keys_dset. cbn [map] in H. destruct H as [H|[H|H]]; auto.
Qed.

Variable s : store.
Hypothesis Hq : prefixes_fit qname s.

Lemma pred_in : forall p, In p (order (distinct (map (fun t : triple => snd (fst t)) (main_graph s)))) <->
  exists n o, In (n, p, o) (main_graph s).
Proof using Ho.
  intros p. transitivity (In p (distinct (map (fun t : triple => snd (fst t)) (main_graph s)))).
  - split; apply Permutation_in; [ apply Permutation_sym | ]; apply Ho.
  - rewrite In_distinct, in_map_iff. split.
    + intros ([[n q] o] & E & H). cbn in E. subst q. exists n, o. exact H.
    + intros (n & o & H). exists (n, p, o). split; [ reflexivity | exact H ].
Qed.

Definition cts_uri : str := #"http://chs.harvard.edu/xmlns/cts".

Definition cpt_uri : str := #"http://purl.org/capitains/ns/1.0#".

(** The entries before the fix for the CTS namespace. *)
Definition bindings : list (str * str) :=
  let d := fold_left (fun d p => let '(prefix, ns) := qname p in
                    dset (if truthy prefix then #"xmlns:" ++ prefix else #"xmlns") ns d)
             (order (distinct (map (fun t : triple => snd (fst t)) (main_graph s)))) [] in
  if cpt then dset #"xmlns:cpt" cpt_uri d else d.
Lemma header_bindings : namespaces_header cpt order qname (main_graph s) =
  map (fun kv => if str_eqb (snd kv) cts_ns then (fst kv, removelast (snd kv)) else kv) bindings.
Proof using Type. reflexivity. Qed.
Lemma header_keys : map fst (namespaces_header cpt order qname (main_graph s)) = map fst bindings.
Proof using Type.
  rewrite header_bindings, map_map. apply map_ext. intros [k v]. cbn [fst snd]. destruct (str_eqb v cts_ns); reflexivity.
Qed.

Lemma bindings_in : forall k v, In (k, v) bindings ->
  (cpt = true /\ k = #"xmlns:cpt" /\ v = cpt_uri) \/
  exists n p o, In (n, p, o) (main_graph s) /\ k = key_of p /\ v = snd (qname p).
Proof using Ho.
  intros k v H.
  destruct (fold_dset (order (distinct (map (fun t : triple => snd (fst t)) (main_graph s)))) []) as (_ & B & _).
  assert (X : forall k v, In (k, v) (fold_left (fun d p => let '(prefix, ns) := qname p in
                    dset (if truthy prefix then #"xmlns:" ++ prefix else #"xmlns") ns d)
             (order (distinct (map (fun t : triple => snd (fst t)) (main_graph s)))) []) ->
     exists n p o, In (n, p, o) (main_graph s) /\ k = key_of p /\ v = snd (qname p)).
  { intros k0 v0 I. apply B in I as [[]|(p & Hp & Ek & Ev)]. apply pred_in in Hp as (n & o & Hp). exists n, p, o. auto. }
  unfold bindings in H. destruct cpt; [ | right; apply X, H ].
  apply In_dset in H as [[-> ->]|H]; [ left; auto | right; apply X, H ].
Qed.
Lemma bindings_have : forall n p o, In (n, p, o) (main_graph s) -> In (key_of p) (map fst bindings).
Proof using Ho.
  intros n p o H.
  destruct (fold_dset (order (distinct (map (fun t : triple => snd (fst t)) (main_graph s)))) []) as (_ & _ & C).
  assert (X : In (key_of p) (map fst (fold_left (fun d p => let '(prefix, ns) := qname p in
                    dset (if truthy prefix then #"xmlns:" ++ prefix else #"xmlns") ns d)
             (order (distinct (map (fun t : triple => snd (fst t)) (main_graph s)))) []))).
  { apply C. right. apply in_map. apply pred_in. exists n, o. exact H. }
  unfold bindings. destruct cpt; [ apply keys_dset; right | ]; exact X.
Qed.

Lemma plain_lit : forall v, forallb (fun c => xml_char c && negb (mem c [34; 38; 60; 9; 10; 13]%N)) v = true -> plain_value v.
Proof using Type.
  intros v X c H. rewrite forallb_forall in X. apply X in H. apply andb_true_iff in H as [H1 H2]. split; [ exact H1 | ].
  intros I. apply mem_In in I. rewrite I in H2. discriminate.
Qed.
Lemma uri_plain : plain_value cts_uri.
Proof using Type. apply plain_lit. vm_compute. reflexivity. Qed.

Lemma header_entries : forall k v, In (k, v) (namespaces_header cpt order qname (main_graph s)) ->
  (k = #"xmlns" /\ v = cts_uri) \/
  (exists p, p <> [] /\ is_name p /\ k = #"xmlns:" ++ p /\ plain_value v /\
     ((cpt = true /\ p = #"cpt" /\ v = cpt_uri) \/ exists n q o, In (n, q, o) (main_graph s) /\ qname q = (p, v))).
Proof using Ho Hq.
  intros k v H. rewrite header_bindings in H. apply in_map_iff in H as ([k0 v0] & E & H). cbn [fst snd] in E.
  apply bindings_in in H as [(T & -> & ->)|(n & p & o & Hp & Ek & Ev)].
  - right. exists #"cpt". split; [ discriminate | ]. split; [ apply name_lit; [ discriminate | reflexivity ] | ].
    change (str_eqb cpt_uri cts_ns) with false in E. injection E as <- <-. split; [ reflexivity | ].
    split; [ apply plain_lit; vm_compute; reflexivity | left; auto ].
  - pose proof (Hq n p o Hp) as Q. unfold key_of in Ek. destruct (qname p) as [prefix ns] eqn:Ep. cbn [fst snd] in *.
    destruct Q as (_ & Q1 & Q2). subst k0 v0. destruct prefix as [|c prefix]; cbn [truthy] in E.
    + rewrite (Q1 eq_refl) in E. left. vm_compute in E. injection E as <- <-. split; reflexivity.
    + destruct (Q2 ltac:(discriminate)) as (N1 & _ & N2 & N3). right. exists (c :: prefix).
      destruct (str_eqb ns cts_ns) eqn:X; [ exfalso; apply str_eqb_eq in X; exact (N3 X) | ].
      injection E as <- <-. split; [ discriminate | ]. split; [ exact N1 | ]. split; [ reflexivity | ]. split; [ exact N2 | ].
      right. exists n, p, o. split; assumption.
Qed.

Lemma header_ok : attrs_ok (namespaces_header cpt order qname (main_graph s)).
Proof using Ho Hq.
  split.
  - intros k v H. apply header_entries in H as [[-> ->]|(p & Np & Hp & -> & Hv & _)].
    + split; [ apply name_lit; [ discriminate | reflexivity ] | apply uri_plain ].
    + split; [ | exact Hv ]. split; [ discriminate | ]. intros c Hc. apply in_app_iff in Hc as [Hc|Hc].
      * revert c Hc. apply forallb_forall. reflexivity.
      * apply Hp. exact Hc.
  - rewrite header_keys. unfold bindings.
    destruct (fold_dset (order (distinct (map (fun t : triple => snd (fst t)) (main_graph s)))) []) as (A & _).
    destruct cpt; [ apply NoDup_keys_dset | ]; apply A; constructor.
Qed.

Lemma dget_only : forall k v (d : list (str * str)), (forall v', In (k, v') d -> v' = v) -> In k (map fst d) -> dget k d = Some v.
Proof using Type.
  intros k v. induction d as [|[k' v'] d IH]; intros H I; [ contradiction | ]. cbn [dget].
  destruct (str_eqb k' k) eqn:E.
  - apply str_eqb_eq in E. subst. f_equal. apply H. left. reflexivity.
  - apply IH; [ intros v2 H2; apply H; right; exact H2 | ].
    destruct I as [I|I]; [ cbn in I; subst; rewrite str_eqb_refl in E; discriminate | exact I ].
Qed.

Lemma header_decls : forall n, In n (map fst (namespaces_header cpt order qname (main_graph s))) -> is_decl n.
Proof using Ho Hq.
  intros n H. apply in_map_iff in H as ([k v] & <- & H). cbn [fst].
  apply header_entries in H as [[-> _]|(p & _ & _ & -> & _)]; [ exists []; apply decl_xmlns | exists p; apply decl_prefix ].
Qed.

Lemma declared_key : forall k p (d : list (str * str)), declares_ns k = Some p -> In k (map fst d) -> In p (map fst (declarations d)).
Proof using Type.
  intros k p d D X. apply in_map_iff in X as ([k0 v] & Ek & X). cbn in Ek. subst k0.
  apply in_map_iff. exists (p, v). split; [ reflexivity | ]. unfold declarations. apply in_flat_map.
  exists (k, v). split; [ exact X | ]. cbn [fst snd]. rewrite D. left. reflexivity.
Qed.

Lemma header_default : mentions_cts s ->
  dget [] (declarations (namespaces_header cpt order qname (main_graph s))) = Some cts_uri.
Proof using Ho Hq.
  intros (n & name & o & H). apply dget_only.
  - intros v I. unfold declarations in I. apply in_flat_map in I as ([k w] & I & J). cbn [fst snd] in J.
    apply header_entries in I as [[-> ->]|(p & Np & _ & -> & _)].
    + rewrite decl_xmlns in J. destruct J as [J|[]]. injection J as <-. reflexivity.
    + rewrite decl_prefix in J. destruct J as [J|[]]. injection J as -> _. congruence.
  - apply (declared_key #"xmlns"); [ apply decl_xmlns | ]. rewrite header_keys.
    pose proof (bindings_have n (cts name) o H) as X. unfold key_of in X.
    pose proof (Hq n (cts name) o H) as Q. destruct (qname (cts name)) as [prefix ns]. cbn [fst] in X.
    destruct Q as ([_ Q] & _). rewrite Q in X; [ exact X | exists name; reflexivity ].
Qed.

Lemma header_prefix : forall p v, p <> [] ->
  (forall n q o, In (n, q, o) (main_graph s) -> fst (qname q) = p -> snd (qname q) = v) ->
  (cpt = true -> p = #"cpt" -> v = cpt_uri) ->
  In (#"xmlns:" ++ p) (map fst bindings) ->
  dget p (declarations (namespaces_header cpt order qname (main_graph s))) = Some v.
Proof using Ho Hq.
  intros p v Np H1 H2 I. apply dget_only.
  - intros v' J. unfold declarations in J. apply in_flat_map in J as ([k w] & I' & J). cbn [fst snd] in J.
    apply header_entries in I' as [[-> ->]|(p' & Np' & _ & -> & _ & X)].
    + rewrite decl_xmlns in J. destruct J as [J|[]]. injection J as <- _. congruence.
    + rewrite decl_prefix in J. destruct J as [J|[]]. injection J as -> ->.
      destruct X as [(T & -> & ->)|(n & q & o & Hin & E)]; [ symmetry; apply H2; auto | ].
      specialize (H1 n q o Hin). rewrite E in H1. apply H1. reflexivity.
  - apply (declared_key (#"xmlns:" ++ p)); [ apply decl_prefix | ]. rewrite header_keys. exact I.
Qed.

Lemma header_of_predicate : one_meaning qname s -> forall n p o, In (n, p, o) (main_graph s) -> fst (qname p) <> [] ->
  dget (fst (qname p)) (declarations (namespaces_header cpt order qname (main_graph s))) = Some (snd (qname p)).
Proof using Ho Hq.
  intros OM n p o H N. destruct (OM n p o H N) as [M1 M2]. apply header_prefix; [ exact N | exact M2 | auto | ].
  pose proof (bindings_have n p o H) as X. unfold key_of in X. destruct (fst (qname p)); [ congruence | exact X ].
Qed.

Lemma header_cpt : one_meaning qname s -> cpt = true ->
  dget #"cpt" (declarations (namespaces_header cpt order qname (main_graph s))) = Some cpt_uri.
Proof using Ho Hq.
  intros OM T. apply header_prefix; [ discriminate | | auto | ].
  - intros n q o H E. destruct (OM n q o H) as [M _]; [ rewrite E; discriminate | ]. apply M, E.
  - unfold bindings. rewrite T. apply keys_dset. left. reflexivity.
Qed.
End Header.
