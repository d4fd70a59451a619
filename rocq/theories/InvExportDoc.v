(** The document that the text written for an inventory is read as. *)

From Coq Require Import List NArith ZArith Arith Bool Lia Permutation.
From Verif Require Import PyStr PyStrFacts CiteSpec CiteModel CiteProofs XmlModel XmlProofs UrnModel MetaModel MetaSpec MetaProofs
  CollModel CollSpec CollProofs UtilModel UtilSpec XmlNodeProofs XmlReadSpec XmlReadProofs
  InvModel InvSpec InvProofs InvExport InvExportSpec InvExportProofs InvExportTree Props_Cite.
Import ListNotations.

Definition not_decl (kv : str * str) : bool := match declares_ns (fst kv) with Some _ => false | None => true end.

(** Names with a prefix, under the declarations [env]: an expanded name of
    another namespace than the CTS one. *)
Definition foreign (t : str) : bool :=
  match split 125%N t with
  | [c :: u; _] => N.eqb c 123 && negb (str_eqb u cts_uri)
  | _ => false
  end.

Section Doc.
Variable env : list (str * str).

Definition clark_attr (kv : str * str) : str * str :=
  if str_eqb (fst kv) #"xml:lang" then (#"{http://www.w3.org/XML/1998/namespace}lang", snd kv)
  else if mem 58%N (fst kv) then (match expanded env false (fst kv) with Some n => n | None => fst kv end, snd kv)
  else kv.
Definition tag_of (n : str) : str :=
  if mem 58%N n then match expanded env true n with Some t => if foreign t then t else [] | None => [] end
  else cts_tag n.

Fixpoint to_node (tail : str) (r : raw) : XmlModel.node :=
  match r with
  | Raw n attrs t kids =>
      Elem (tag_of n) (map clark_attr (filter not_decl attrs)) t tail
        (map (fun kt => to_node (snd kt) (fst kt)) kids)
  end.

Definition raw_name (r : raw) : str := match r with Raw n _ _ _ => n end.
Definition raw_attrs (r : raw) : list (str * str) := match r with Raw _ a _ _ => a end.

Definition fine_name (n : str) : Prop := ~ In 58%N n \/ expanded env true n = Some (tag_of n).
Definition fine_attr (k : str) : Prop :=
  declares_ns k = None /\ (k = #"xml:lang" \/ ~ In 58%N k \/ exists n, expanded env false k = Some n).

Inductive simple : bool -> raw -> Prop :=
| simple_node : forall root n attrs t kids, fine_name n ->
    (forall k v, In (k, v) attrs -> (root = true /\ is_decl k) \/ fine_attr k) ->
    (forall k x, In (k, x) kids -> simple false k) -> simple root (Raw n attrs t kids).

Lemma all_some_map : forall {A B} (f : A -> option B) (g : A -> B) l, (forall a, In a l -> f a = Some (g a)) ->
  all_some (map f l) = Some (map g l).
Proof using Type.
  intros A B f g. induction l as [|a l IH]; intros H; [ reflexivity | ]. cbn [map all_some].
  rewrite (H a (or_introl eq_refl)), IH; [ reflexivity | intros b Hb; apply H; right; exact Hb ].
Qed.

Lemma no_decls : forall attrs, (forall k v, In (k, v) attrs -> declares_ns k = None) -> declarations attrs = [].
Proof using Type.
  induction attrs as [|[k v] attrs IH]; intros H; [ reflexivity | ]. unfold declarations in *. cbn [flat_map fst].
  rewrite (H k v (or_introl eq_refl)). apply IH. intros k' v' I. apply (H k' v'). right. exact I.
Qed.

Lemma no_mem : forall c n, ~ In c n -> mem c n = false.
Proof using Type. intros c n H. destruct (mem c n) eqn:M; [ apply mem_In in M; contradiction | reflexivity ]. Qed.

Lemma expanded_attrs_simple : forall root attrs,
  (forall k v, In (k, v) attrs -> (root = true /\ is_decl k) \/ fine_attr k) ->
  expanded_attrs env attrs = Some (map clark_attr (filter not_decl attrs)).
Proof using Type.
  intros root. unfold expanded_attrs. induction attrs as [|[k v] attrs IH]; intros H; [ reflexivity | ].
  cbn [flat_map filter fst snd]. unfold not_decl at 1. cbn [fst].
  assert (IH' := IH (fun k' v' I => H k' v' (or_intror I))).
  destruct (H k v (or_introl eq_refl)) as [[_ [p E]]|[E X]]; rewrite E; cbn [app]; [ exact IH' | ].
  cbn [map all_some]. rewrite IH'. unfold clark_attr at 2. cbn [fst snd].
  destruct (str_eqb k #"xml:lang") eqn:Y.
  { apply str_eqb_eq in Y. subst k. reflexivity. }
  destruct X as [->|[X|[n X]]].
  - rewrite str_eqb_refl in Y. discriminate.
  - rewrite (no_mem _ _ X). unfold expanded. rewrite split_no_sep by (apply no_mem, X). reflexivity.
  - rewrite X. destruct (mem 58%N k) eqn:M; [ reflexivity | ]. unfold expanded in X. rewrite split_no_sep in X by exact M.
    injection X as <-. reflexivity.
Qed.

Lemma in_scope_simple : forall root r, simple root r -> forall env0 tail,
  declarations (raw_attrs r) ++ env0 = env -> dget [] env = Some cts_uri -> in_scope env0 tail r = Some (to_node tail r).
Proof using Type.
  induction 1 as [root n attrs t kids Hn Ha Hk IH]. intros env0 tail D0 D. cbn [raw_attrs] in D0. cbn [in_scope to_node].
  rewrite D0. rewrite (expanded_attrs_simple root attrs Ha).
  assert (E : expanded env true n = Some (tag_of n)).
  { destruct Hn as [Hn|Hn]; [ | exact Hn ]. unfold tag_of. rewrite (no_mem _ _ Hn).
    unfold expanded. rewrite split_no_sep by (apply no_mem, Hn). rewrite D. reflexivity. }
  rewrite E.
  rewrite (all_some_map _ (fun kt => to_node (snd kt) (fst kt))); [ reflexivity | ].
  intros [k x] I. cbn [fst snd]. apply (IH k x I); [ | exact D ].
  specialize (Hk k x I). inversion Hk as [root' n' attrs' t' kids' _ Ha' _ E1 E2]; subst k. cbn [raw_attrs].
  rewrite no_decls; [ reflexivity | ]. intros k' v' I'. destruct (Ha' k' v' I') as [[X _]|[X _]]; [ discriminate | exact X ].
Qed.

(** ** Elements *)
Lemma to_node_tag : forall tail r, n_tag (to_node tail r) = tag_of (raw_name r).
Proof using Type. intros tail [n a t k]. reflexivity. Qed.

Lemma foreign_not_cts : forall t name, foreign t = true -> t <> cts_tag name.
Proof using Type.
  intros t name F ->. unfold foreign, cts_tag in F.
  change (#"{http://chs.harvard.edu/xmlns/cts}" ++ name) with (([123%N] ++ cts_uri) ++ 125%N :: name) in F.
  rewrite split_app_sep in F by reflexivity. destruct (split 125%N name) as [|a [|b r]]; cbn [app] in F; [ discriminate | | discriminate ].
  rewrite str_eqb_refl in F. discriminate.
Qed.
Lemma foreign_qualified : forall t, foreign t = true ->
  exists ns name, t = [123%N] ++ ns ++ [125%N] ++ name /\ ~ In 125%N ns /\ ~ In 125%N name.
Proof using Type.
  intros t F. unfold foreign in F. destruct (split 125%N t) as [|[|c u] [|b [|d r]]] eqn:E; try discriminate F.
  apply andb_true_iff in F as [F _]. apply N.eqb_eq in F. subst c. apply split_two in E as (-> & A & B).
  exists u, b. split; [ reflexivity | ]. split; intros X; apply mem_In in X; [ | congruence ].
  cbn [mem existsb] in A. apply orb_false_iff in A as [_ A]. unfold mem in *. congruence.
Qed.
Lemma foreign_made : forall ns name, ~ In 125%N ns -> ~ In 125%N name -> ns <> cts_uri ->
  foreign ([123%N] ++ ns ++ [125%N] ++ name) = true.
Proof using Type.
  intros ns name A B C. unfold foreign.
  change ([123%N] ++ ns ++ [125%N] ++ name) with ((123%N :: ns) ++ 125%N :: name).
  rewrite split_app_sep, split_no_sep by (first [ apply no_mem, B | apply no_mem; intros [X|X]; [ discriminate | contradiction ] ]).
  rewrite N.eqb_refl. apply str_eqb_neq in C. rewrite C. reflexivity.
Qed.

Lemma cts_tag_eqb : forall a b, str_eqb (cts_tag a) (cts_tag b) = str_eqb a b.
Proof using Type.
  intros a b. destruct (str_eqb a b) eqn:E.
  - apply str_eqb_eq in E. subst. apply str_eqb_refl.
  - apply str_eqb_neq. intros X. apply app_inv_head in X. subst. rewrite str_eqb_refl in E. discriminate.
Qed.

(** Elements of the CTS namespace have names without prefix. *)
Lemma tag_eqb : forall n name, mem 58%N name = false -> str_eqb (tag_of n) (cts_tag name) = str_eqb n name.
Proof using Type.
  intros n name M. unfold tag_of. destruct (mem 58%N n) eqn:Mn; [ | apply cts_tag_eqb ].
  replace (str_eqb n name) with false by (symmetry; apply str_eqb_neq; intros ->; congruence).
  apply str_eqb_neq. destruct (expanded env true n) as [t|]; [ | discriminate ].
  destruct (foreign t) eqn:F; [ apply foreign_not_cts, F | discriminate ].
Qed.

Definition pick (name : str) (rs : list raw) : list raw := filter (fun r => str_eqb (raw_name r) name) rs.

Lemma named_tails : forall name n a t tail rs x, mem 58%N name = false ->
  named name (to_node tail (Raw n a t (map (fun r => (r, x)) rs))) = map (to_node x) (pick name rs).
Proof using Type.
  intros name n a t tail rs x M. unfold named. cbn [to_node n_kids]. rewrite map_map. cbn [fst snd].
  induction rs as [|r rs IH]; [ reflexivity | ]. cbn [map filter pick]. rewrite to_node_tag, tag_eqb by exact M.
  destruct (str_eqb (raw_name r) name); cbn [map]; rewrite IH; reflexivity.
Qed.

Lemma pick_app : forall name a b, pick name (a ++ b) = pick name a ++ pick name b.
Proof using Type. intros name. induction a as [|r a IH]; intros b; [ reflexivity | ]. cbn [app pick filter]. fold (pick name (a ++ b)). rewrite IH. destruct (str_eqb _ _); reflexivity. Qed.
Lemma pick_none : forall name rs, (forall r, In r rs -> raw_name r <> name) -> pick name rs = [].
Proof using Type.
  intros name. induction rs as [|r rs IH]; intros H; [ reflexivity | ]. cbn [pick filter].
  replace (str_eqb (raw_name r) name) with false by (symmetry; apply str_eqb_neq, H; left; reflexivity).
  apply IH. intros x Hx. apply H. right. exact Hx.
Qed.
Lemma pick_all : forall name rs, (forall r, In r rs -> raw_name r = name) -> pick name rs = rs.
Proof using Type.
  intros name. induction rs as [|r rs IH]; intros H; [ reflexivity | ]. cbn [pick filter].
  rewrite (H r (or_introl eq_refl)), str_eqb_refl. f_equal. apply IH. intros x Hx. apply H. right. exact Hx.
Qed.

(** ** All names in a tree *)
Fixpoint names_in (r : raw) : list str :=
  match r with Raw n _ _ kids => n :: flat_map (fun kt => names_in (fst kt)) kids end.

Fixpoint raw_ind2 (P : raw -> Prop)
  (step : forall n a t kids, (forall k x, In (k, x) kids -> P k) -> P (Raw n a t kids)) (r : raw) : P r :=
  match r with
  | Raw n a t kids =>
      step n a t kids
        ((fix go (l : list (raw * str)) : forall k x, In (k, x) l -> P k :=
            match l with
            | [] => fun k x H => match H with end
            | (k0, x0) :: l' => fun k x H =>
                match H with
                | or_introl E => match E in _ = y return P (fst y) with eq_refl => raw_ind2 P step k0 end
                | or_intror H' => go l' k x H'
                end
            end) kids)
  end.

Lemma order_tags : forall r tail e, In e (document_order (to_node tail r)) ->
  exists n, In n (names_in r) /\ n_tag e = tag_of n.
Proof using Type.
  induction r as [n a t kids IH] using raw_ind2. intros tail e H. cbn [to_node document_order] in H.
  destruct H as [<-|H]; [ exists n; split; [ left; reflexivity | reflexivity ] | ].
  apply in_flat_map in H as (c & Hc & H). apply in_map_iff in Hc as ([k x] & <- & Hk). cbn [fst snd] in H.
  destruct (IH k x Hk x e H) as (m & Hm & E). exists m. split; [ | exact E ].
  cbn [names_in]. right. apply in_flat_map. exists (k, x). split; [ exact Hk | exact Hm ].
Qed.

Lemma anywhere_none : forall name tail r, mem 58%N name = false -> ~ In name (names_in r) -> anywhere name (to_node tail r) = [].
Proof using Type.
  intros name tail r M N. unfold anywhere.
  assert (X : forall l, (forall e, In e l -> In e (document_order (to_node tail r))) ->
    filter (fun k => str_eqb (n_tag k) (cts_tag name)) l = []).
  { induction l as [|e l IH]; intros H; [ reflexivity | ]. cbn [filter].
    destruct (order_tags r tail e (H e (or_introl eq_refl))) as (m & Hm & ->). rewrite tag_eqb by exact M.
    destruct (str_eqb m name) eqn:E; [ apply str_eqb_eq in E; subst; contradiction | ].
    apply IH. intros x Hx. apply H. right. exact Hx. }
  apply X. auto.
Qed.

Lemma anywhere_self : forall name tail n a t kids, mem 58%N name = false -> n = name ->
  (forall k x, In (k, x) kids -> ~ In name (names_in k)) ->
  anywhere name (to_node tail (Raw n a t kids)) = [to_node tail (Raw n a t kids)].
Proof using Type.
  intros name tail n a t kids M -> H. unfold anywhere. cbn [to_node document_order filter n_tag].
  rewrite tag_eqb, str_eqb_refl by exact M. f_equal. induction kids as [|[k x] kids IH]; [ reflexivity | ].
  cbn [map flat_map fst snd]. rewrite filter_app.
  pose proof (anywhere_none name x k M (H k x (or_introl eq_refl))) as E. unfold anywhere in E. rewrite E.
  apply IH. intros k' x' I. apply (H k' x'). right. exact I.
Qed.

Lemma anywhere_kids : forall name tail n a t rs x, mem 58%N name = false -> n <> name ->
  (forall r, In r rs -> ~ In name (names_in r) \/
     (raw_name r = name /\ anywhere name (to_node x r) = [to_node x r])) ->
  anywhere name (to_node tail (Raw n a t (map (fun r => (r, x)) rs))) = map (to_node x) (pick name rs).
Proof using Type.
  intros name tail n a t rs x M N H. unfold anywhere. cbn [to_node document_order filter n_tag].
  rewrite tag_eqb by exact M. replace (str_eqb n name) with false by (symmetry; apply str_eqb_neq; exact N).
  rewrite map_map. cbn [fst snd]. induction rs as [|r rs IH]; [ reflexivity | ].
  cbn [map flat_map pick filter]. rewrite filter_app. rewrite IH by (intros y Hy; apply H; right; exact Hy).
  destruct (H r (or_introl eq_refl)) as [X|[E X]].
  - pose proof (anywhere_none name x r M X) as Y. unfold anywhere in Y. rewrite Y. cbn [app].
    destruct (str_eqb (raw_name r) name) eqn:Z; [ | reflexivity ].
    exfalso. apply str_eqb_eq in Z. apply X. destruct r as [m b u l]. cbn in Z. subst m. left. reflexivity.
  - unfold anywhere in X. rewrite X, E, str_eqb_refl. reflexivity.
Qed.


(** Attributes are found under the same names. *)
Lemma get_attr_app : forall k a b, get_attr k (a ++ b) = match get_attr k a with Some v => Some v | None => get_attr k b end.
Proof using Type. intros k. induction a as [|[k' v'] a IH]; intros b; [ reflexivity | ]. cbn [app get_attr]. destruct (str_eqb k' k); [ reflexivity | apply IH ]. Qed.

(** Structured metadata *)
Definition cpt_tag : str := #"{http://purl.org/capitains/ns/1.0#}structured-metadata".
Definition metas (rs : list raw) : list raw := filter (fun r => str_eqb (tag_of (raw_name r)) cpt_tag) rs.

Lemma structured_tails : forall n a t tail rs x,
  structured_in (to_node tail (Raw n a t (map (fun r => (r, x)) rs))) = flat_map n_kids (map (to_node x) (metas rs)).
Proof using Type.
  intros n a t tail rs x. unfold structured_in. cbn [to_node n_kids]. rewrite map_map. cbn [fst snd]. f_equal. fold cpt_tag.
  induction rs as [|r rs IH]; [ reflexivity | ]. cbn [map filter metas]. rewrite to_node_tag.
  destruct (str_eqb (tag_of (raw_name r)) cpt_tag); cbn [map]; rewrite IH; reflexivity.
Qed.
Lemma metas_app : forall a b, metas (a ++ b) = metas a ++ metas b.
Proof using Type. intros a b. apply filter_app. Qed.
Lemma metas_none : forall rs, (forall r, In r rs -> mem 58%N (raw_name r) = false) -> metas rs = [].
Proof using Type.
  induction rs as [|r rs IH]; intros H; [ reflexivity | ]. cbn [metas filter]. unfold tag_of. rewrite (H r (or_introl eq_refl)).
  destruct (str_eqb _ _) eqn:E; [ exfalso; apply str_eqb_eq in E; unfold cts_tag in E; discriminate | ].
  apply IH. intros x Hx. apply H. right. exact Hx.
Qed.

Lemma tree_clark : forall tail r, (forall n, In n (names_in r) -> In 58%N n \/ ~ In 125%N n) -> clark_names (to_node tail r).
Proof using Type.
  intros tail r H e He. destruct (order_tags r tail e He) as (n & Hn & E). unfold tag_of in E.
  destruct (mem 58%N n) eqn:M.
  - destruct (expanded env true n) as [t|]; [ | left; rewrite E; intros [] ].
    destruct (foreign t) eqn:F; [ | left; rewrite E; intros [] ].
    right. apply foreign_qualified in F as (ns & name & -> & A & B). exists ns, name. split; [ exact E | split; assumption ].
  - right. exists cts_uri, n. split; [ rewrite E; reflexivity | ]. split.
    + intros X. apply mem_In in X. vm_compute in X. discriminate.
    + destruct (H n Hn) as [X|X]; [ apply mem_In in X; congruence | exact X ].
Qed.
End Doc.
