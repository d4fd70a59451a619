(** Copies of collections answer as what they were copied from. *)

From Coq Require Import List NArith ZArith Arith Bool Lia.
From Verif Require Import PyStr UrnModel MetaModel CollModel UtilModel InvModel InvExport DtsOutModel CopyModel CopySpec.
Import ListNotations.

Lemma mapM_rename : forall {A B C D} (name : A -> B) (h : C -> D) (f : B -> result D) (g : A -> result C) l,
  (forall x, In x l -> f (name x) = outcome h (g x)) ->
  mapM f (map name l) = outcome (map h) (mapM g l).
Proof.
  induction l as [|x l IH]; intros E; cbn [map mapM]; [reflexivity|].
  rewrite E by (left; reflexivity). destruct (g x); cbn [outcome bind]; [|reflexivity].
  rewrite IH by (intros y I; apply E; right; exact I). destruct (mapM g l); reflexivity.
Qed.

Lemma mapM_same : forall {A B C} (name : A -> B) (f : B -> result C) (g : A -> result C) l,
  (forall x, In x l -> f (name x) = g x) -> mapM f (map name l) = mapM g l.
Proof.
  induction l as [|x l IH]; intros E; cbn [map mapM]; [reflexivity|].
  rewrite E by (left; reflexivity). destruct (g x); cbn [bind]; [|reflexivity].
  rewrite IH by (intros y I; apply E; right; exact I). reflexivity.
Qed.

Lemma filterM_rename : forall {A B} (name : A -> B) f g l,
  (forall x, In x l -> f (name x) = g x) ->
  filterM f (map name l) = outcome (map name) (filterM g l).
Proof.
  induction l as [|x l IH]; intros E; cbn [map filterM]; [reflexivity|].
  rewrite E by (left; reflexivity). destruct (g x) as [b|]; cbn [outcome bind]; [|reflexivity].
  rewrite IH by (intros y I; apply E; right; exact I).
  destruct (filterM g l); cbn [outcome bind]; [|reflexivity]. destruct b; reflexivity.
Qed.

Lemma find_rename : forall {A B} (name : A -> B) f g l,
  (forall x, In x l -> f (name x) = g x) ->
  find f (map name l) = option_map name (find g l).
Proof.
  induction l as [|x l IH]; intros E; cbn [map find]; [reflexivity|].
  rewrite E by (left; reflexivity). destruct (g x); [reflexivity|].
  apply IH. intros y I; apply E; right; exact I.
Qed.

Lemma filter_rename : forall {A B} (name : A -> B) f g l,
  (forall x, In x l -> f (name x) = g x) -> filter f (map name l) = map name (filter g l).
Proof.
  induction l as [|x l IH]; intros E; cbn [map filter]; [reflexivity|].
  rewrite E by (left; reflexivity). rewrite IH by (intros y I; apply E; right; exact I).
  destruct (g x); reflexivity.
Qed.

Lemma existsb_rename : forall {A B} (name : A -> B) f g l,
  (forall x, In x l -> f (name x) = g x) -> existsb f (map name l) = existsb g l.
Proof.
  induction l as [|x l IH]; intros E; cbn [map existsb]; [reflexivity|].
  rewrite E by (left; reflexivity). rewrite IH by (intros y I; apply E; right; exact I). reflexivity.
Qed.

Lemma map_rename : forall {A B C} (name : A -> B) (f : B -> C) g l,
  (forall x, In x l -> f (name x) = g x) -> map f (map name l) = map g l.
Proof. intros. rewrite map_map. apply map_ext_in. assumption. Qed.

Definition renamed (name gname : nat -> nat) (x : coll) : coll :=
  MkColl (c_kind x) (c_id x) (c_urn x) (option_map name (c_parent x))
    (map (fun e => (fst e, name (snd e))) (c_children x)) (gname (c_graph x)).

Section Alike.
Variables (s s' : store) (name gname : nat -> nat) (R : nat -> Prop).
Let st := s_state s.
Let st' := s_state s'.
Hypothesis Robj : forall x, R x -> obj st' (name x) = renamed name gname (obj st x).
Hypothesis Rparent : forall x p, R x -> c_parent (obj st x) = Some p -> R p.
Hypothesis Rchild : forall x k y, R x -> In (k, y) (c_children (obj st x)) -> R y.
Hypothesis Rgraph : forall x, R x ->
  nth (gname (c_graph (obj st x))) (graphs st') [] = nth (c_graph (obj st x)) (graphs st) [].
Hypothesis Rcite : forall x, R x -> text_citation s' (name x) = text_citation s x.
Hypothesis Rpath : forall x, R x -> text_path_of s' (name x) = text_path_of s x.

Local Ltac look := rewrite Robj by assumption; cbn [renamed c_kind c_id c_urn c_parent c_children c_graph].

Lemma kids : forall x, map snd (map (fun e : str * nat => (fst e, name (snd e))) (c_children (obj st x)))
  = map name (map snd (c_children (obj st x))).
Proof. intros x. rewrite !map_map. reflexivity. Qed.

Lemma kids_in : forall x y, R x -> In y (map snd (c_children (obj st x))) -> R y.
Proof using Rchild.
  intros x y Rx I. apply in_map_iff in I. destruct I as ((k & z) & <- & I). exact (Rchild x k z Rx I).
Qed.

Lemma kids' : forall x, R x -> map snd (c_children (obj st' (name x))) = map name (map snd (c_children (obj st x))).
Proof using Robj. intros x Rx. look. apply kids. Qed.

Lemma members_alike : forall x, R x -> CollModel.members st' (name x) = map name (CollModel.members st x).
Proof using Robj.
  intros x Rx. unfold CollModel.members. rewrite kids' by exact Rx. look.
  destruct (is_text (c_kind (obj st x))); reflexivity.
Qed.

Lemma members_in : forall x y, R x -> In y (CollModel.members st x) -> R y.
Proof using Rchild.
  unfold CollModel.members. intros x y Rx I. destruct (is_text _); [destruct I|]. exact (kids_in x y Rx I).
Qed.

Lemma parents_from_alike : forall fuel p, (forall q, p = Some q -> R q) ->
  parents_from fuel st' (option_map name p) = outcome (map name) (parents_from fuel st p).
Proof using Robj Rparent.
  induction fuel as [|fuel IH]; intros [q|] Rq; cbn [option_map parents_from]; try reflexivity.
  assert (R q) by (apply Rq; reflexivity). look.
  rewrite IH. { destruct (parents_from fuel st (c_parent (obj st q))); reflexivity. }
  intros r E. exact (Rparent q r H E).
Qed.

Lemma parents_alike : forall fuel x, R x -> parents fuel st' (name x) = outcome (map name) (parents fuel st x).
Proof using Robj Rparent.
  intros fuel x Rx. unfold parents. look. apply parents_from_alike. intros q E. exact (Rparent x q Rx E).
Qed.

Lemma descendants_alike : forall limit x, R x ->
  descendants limit st' (name x) = outcome (map name) (descendants limit st x).
Proof using Robj Rchild.
  induction limit as [|limit IH]; intros x Rx; cbn [descendants]; [reflexivity|].
  rewrite members_alike by exact Rx. look. destruct (is_text (c_kind (obj st x))); [reflexivity|].
  rewrite (mapM_rename name (map name) _ (descendants limit st))
    by (intros y I; apply IH; exact (members_in x y Rx I)).
  destruct (mapM (descendants limit st) (CollModel.members st x)); cbn [outcome bind]; [|reflexivity].
  rewrite map_app, concat_map. reflexivity.
Qed.

Lemma descendants_in : forall limit x l y, R x -> descendants limit st x = Ok l -> In y l -> R y.
Proof using Rchild.
  induction limit as [|limit IH]; intros x l y Rx E I; cbn [descendants] in E; [discriminate|].
  destruct (is_text (c_kind (obj st x))). { injection E as <-. destruct I. }
  destruct (mapM (descendants limit st) (CollModel.members st x)) as [ls|] eqn:M; [|discriminate].
  cbn [bind] in E. injection E as <-. apply in_app_or in I. destruct I as [I|I].
  - exact (members_in x y Rx I).
  - assert (G : forall ms, (forall m, In m ms -> R m) -> forall ls, mapM (descendants limit st) ms = Ok ls ->
        In y (concat ls) -> R y).
    { clear - IH. induction ms as [|m ms IHm]; intros Rm ls M I; cbn [mapM] in M.
      - injection M as <-. destruct I.
      - destruct (descendants limit st m) as [l|] eqn:D; [|discriminate]. cbn [bind] in M.
        destruct (mapM (descendants limit st) ms) as [ls'|]; [|discriminate]. cbn [bind] in M.
        injection M as <-. cbn [concat] in I. apply in_app_or in I. destruct I as [I|I].
        + exact (IH m l y (Rm m (or_introl eq_refl)) D I).
        + exact (IHm (fun z J => Rm z (or_intror J)) ls' eq_refl I). }
    exact (G _ (fun m J => members_in x m Rx J) ls M I).
Qed.

Lemma has_id_alike : forall key x, R x -> has_id st' key (name x) = has_id st key x.
Proof using Robj. intros key x Rx. unfold has_id. look. reflexivity. Qed.

Lemma readable_alike : forall x, R x -> readable st' (name x) = readable st x.
Proof using Robj. intros x Rx. unfold readable. look. reflexivity. Qed.

Lemma readable_descendants_alike : forall limit x, R x ->
  readable_descendants limit st' (name x) = outcome (map name) (readable_descendants limit st x).
Proof using Robj Rchild.
  intros limit x Rx. unfold readable_descendants. rewrite descendants_alike by exact Rx.
  destruct (descendants limit st x) as [l|] eqn:D; cbn [outcome bind]; [|reflexivity].
  f_equal. apply filter_rename. intros y I. apply readable_alike. exact (descendants_in _ _ _ y Rx D I).
Qed.

Lemma getitem_alike : forall limit x key, R x ->
  getitem limit st' (name x) key = outcome name (getitem limit st x key).
Proof using Robj Rchild.
  intros limit x key Rx. unfold getitem. rewrite has_id_alike by exact Rx.
  destruct (has_id st key x); [reflexivity|]. rewrite members_alike by exact Rx.
  rewrite (find_rename name _ (has_id st key)) by (intros y I; apply has_id_alike; exact (members_in x y Rx I)).
  destruct (find (has_id st key) (CollModel.members st x)); cbn [option_map]; [reflexivity|].
  rewrite descendants_alike by exact Rx.
  destruct (descendants limit st x) as [l|] eqn:D; cbn [outcome bind]; [|reflexivity].
  rewrite (find_rename name _ (has_id st key))
    by (intros y I; apply has_id_alike; exact (descendants_in _ _ _ y Rx D I)).
  destruct (find (has_id st key) l); reflexivity.
Qed.

Lemma getitem_in : forall limit x key y, R x -> getitem limit st x key = Ok y -> R y.
Proof using Rchild.
  intros limit x key y Rx. unfold getitem. destruct (has_id st key x). { intros [= <-]. exact Rx. }
  destruct (find (has_id st key) (CollModel.members st x)) eqn:F.
  { intros [= <-]. apply find_some in F. exact (members_in x _ Rx (proj1 F)). }
  destruct (descendants limit st x) as [l|] eqn:D; cbn [bind]; [|discriminate].
  destruct (find (has_id st key) l) eqn:F2; [|discriminate].
  intros [= <-]. apply find_some in F2. exact (descendants_in _ _ _ _ Rx D (proj1 F2)).
Qed.

Lemma contains_alike : forall limit x key, R x ->
  contains limit st' (name x) key = contains limit st x key.
Proof using Robj Rchild.
  intros limit x key Rx. unfold contains. rewrite descendants_alike by exact Rx.
  destruct (descendants limit st x) as [l|] eqn:D; cbn [outcome bind]; [|reflexivity].
  f_equal. change [name x] with (map name [x]). rewrite <- map_app. apply existsb_rename.
  intros y I. apply has_id_alike. apply in_app_or in I. destruct I as [I|[<-|[]]]; [|exact Rx].
  exact (descendants_in _ _ _ y Rx D I).
Qed.

Lemma texts_of_alike : forall x, R x -> texts_of st' (name x) = outcome (map name) (texts_of st x).
Proof using Robj.
  intros x Rx. unfold texts_of. rewrite kids' by exact Rx. look. destruct (c_kind (obj st x)); reflexivity.
Qed.
Lemma works_of_alike : forall x, R x -> works_of st' (name x) = outcome (map name) (works_of st x).
Proof using Robj.
  intros x Rx. unfold works_of. rewrite kids' by exact Rx. look. destruct (c_kind (obj st x)); reflexivity.
Qed.
Lemma textgroups_of_alike : forall x, R x -> textgroups_of st' (name x) = outcome (map name) (textgroups_of st x).
Proof using Robj.
  intros x Rx. unfold textgroups_of. rewrite kids' by exact Rx. look. destruct (c_kind (obj st x)); reflexivity.
Qed.
Lemma works_of_in : forall x l y, R x -> works_of st x = Ok l -> In y l -> R y.
Proof using Rchild.
  intros x l y Rx. unfold works_of. destruct (c_kind _); try discriminate. intros [= <-]. exact (kids_in x y Rx).
Qed.
Lemma textgroups_of_in : forall x l y, R x -> textgroups_of st x = Ok l -> In y l -> R y.
Proof using Rchild.
  intros x l y Rx. unfold textgroups_of. destruct (c_kind _); try discriminate. intros [= <-]. exact (kids_in x y Rx).
Qed.

Lemma flat_alike : forall (f g : nat -> result (list nat)) l,
  (forall y, In y l -> f (name y) = outcome (map name) (g y)) ->
  flat_mapM f (map name l) = outcome (map name) (flat_mapM g l).
Proof using.
  intros f g l E. unfold flat_mapM. rewrite (mapM_rename name (map name) f g l E).
  destruct (mapM g l); cbn [outcome bind]; [|reflexivity]. rewrite concat_map. reflexivity.
Qed.

Lemma texts_listed_alike : forall x, R x -> texts_listed st' (name x) = outcome (map name) (texts_listed st x).
Proof using Robj Rchild.
  intros x Rx. unfold texts_listed.
  assert (T : forall t, R t ->
    (ws <- works_of st' (name t) ;; flat_mapM (texts_of st') ws)
    = outcome (map name) (ws <- works_of st t ;; flat_mapM (texts_of st) ws)).
  { intros t Rt. rewrite works_of_alike by exact Rt.
    destruct (works_of st t) as [l|] eqn:W; cbn [outcome bind]; [|reflexivity].
    apply flat_alike. intros y I. apply texts_of_alike. exact (works_of_in t l y Rt W I). }
  assert (V : forall i, R i ->
    (ts <- textgroups_of st' (name i) ;;
       flat_mapM (fun t => ws <- works_of st' t ;; flat_mapM (texts_of st') ws) ts)
    = outcome (map name) (ts <- textgroups_of st i ;;
       flat_mapM (fun t => ws <- works_of st t ;; flat_mapM (texts_of st) ws) ts)).
  { intros i Ri. rewrite textgroups_of_alike by exact Ri.
    destruct (textgroups_of st i) as [l|] eqn:W; cbn [outcome bind]; [|reflexivity].
    apply flat_alike. intros y I. apply T. exact (textgroups_of_in i l y Ri W I). }
  rewrite members_alike by exact Rx. rewrite (T x Rx), (V x Rx), (texts_of_alike x Rx). look.
  destruct (c_kind (obj st x)); try reflexivity.
  apply flat_alike. intros y I. apply V. exact (members_in x y Rx I).
Qed.

Lemma len_alike : forall x, R x -> coll_len st' (name x) = coll_len st x.
Proof using Robj Rchild.
  intros x Rx. unfold coll_len. rewrite texts_listed_alike by exact Rx.
  destruct (texts_listed st x); cbn [outcome bind]; [|reflexivity]. rewrite map_length. reflexivity.
Qed.

Lemma lang_alike : forall order x, R x -> get_lang order st' (name x) = get_lang order st x.
Proof using Robj Rgraph.
  intros order x Rx. unfold get_lang, CollModel.node. look. rewrite Rgraph by exact Rx. reflexivity.
Qed.

Lemma translations_in_alike : forall order x key, R x ->
  get_translation_in order st' (name x) key = outcome (map name) (get_translation_in order st x key).
Proof using Robj Rgraph Rchild.
  intros order x key Rx. unfold get_translation_in. rewrite kids' by exact Rx.
  apply filterM_rename. intros y I. assert (R y) by exact (kids_in x y Rx I).
  rewrite lang_alike by assumption. look. reflexivity.
Qed.

Lemma translations_alike : forall order x key, R x ->
  text_translations order st' (name x) key = outcome (map name) (text_translations order st x key).
Proof using Robj Rgraph Rchild Rparent.
  intros order x key Rx. unfold text_translations. look.
  destruct (c_parent (obj st x)) as [w|] eqn:P; cbn [option_map]; [|reflexivity].
  assert (R w) by exact (Rparent x w Rx P). rewrite translations_in_alike by assumption. look.
  destruct (c_kind (obj st w)); reflexivity.
Qed.

Lemma editions_alike : forall x, R x -> text_editions st' (name x) = outcome (map name) (text_editions st x).
Proof using Robj Rchild Rparent.
  intros x Rx. unfold text_editions. look.
  destruct (c_parent (obj st x)) as [w|] eqn:P; cbn [option_map]; [|reflexivity].
  assert (R w) by exact (Rparent x w Rx P). rewrite kids' by assumption. cbn [outcome]. f_equal.
  apply filter_rename. intros y I. assert (R y) by exact (kids_in w y H I). look. reflexivity.
Qed.

Section Exports.
Variables (cpt : bool) (pairs : list (term * term) -> list (term * term)) (order : list term -> list term)
  (qname : term -> str * str).

Lemma values_alike : forall x n, R x -> values_of order s' (name x) n = values_of order s x n.
Proof using Robj Rgraph.
  intros x n Rx. unfold values_of, CollModel.node. fold st st'. look. rewrite Rgraph by exact Rx. reflexivity.
Qed.

Lemma properties_alike : forall x, R x -> property_nodes order s' (name x) = property_nodes order s x.
Proof using Robj Rgraph.
  intros x Rx. unfold property_nodes. fold st st'. look.
  assert (E : forall n, values_of order s' (name x) n = values_of order s x n) by (intros; apply values_alike; exact Rx).
  assert (M : forall l, mapM (fun n => mapM (property_node n) (values_of order s' (name x) n)) l
     = mapM (fun n => mapM (property_node n) (values_of order s x n)) l).
  { induction l as [|n l IH]; cbn [mapM]; [reflexivity|]. rewrite E, IH. reflexivity. }
  rewrite M. reflexivity.
Qed.

Lemma structured_alike : forall x, R x ->
  structured_nodes cpt pairs qname s' (name x) = structured_nodes cpt pairs qname s x.
Proof using Robj Rgraph.
  intros x Rx. unfold structured_nodes, own_statements, CollModel.node. fold st st'. look.
  rewrite Rgraph by exact Rx. reflexivity.
Qed.

Lemma parent_attr_alike : forall x n, R x -> parent_attr s' (name x) n = parent_attr s x n.
Proof using Robj Rparent.
  intros x n Rx. unfold parent_attr. fold st st'. look.
  destruct (c_parent (obj st x)) as [p|] eqn:P; cbn [option_map]; [|reflexivity].
  assert (R p) by exact (Rparent x p Rx P). look. reflexivity.
Qed.

Lemma header_alike : forall x ns, R x -> header cpt order qname s' ns (name x) = header cpt order qname s ns x.
Proof using Robj Rgraph.
  intros x ns Rx. unfold header. fold st st'. look. rewrite Rgraph by exact Rx. reflexivity.
Qed.

Lemma text_alike : forall x ns, R x ->
  export_text cpt pairs order qname s' ns (name x) = export_text cpt pairs order qname s ns x.
Proof using Robj Rgraph Rparent Rcite.
  intros x ns Rx. unfold export_text. fold st st'. rewrite lang_alike, properties_alike by exact Rx.
  unfold citation_nodes, link_nodes.
  rewrite Rcite, values_alike, structured_alike, parent_attr_alike, header_alike by exact Rx.
  look. reflexivity.
Qed.

Lemma attrs_alike : forall x, R x -> attrs_of order s' (name x) = attrs_of order s x.
Proof using Robj Rgraph Rparent.
  intros x Rx. unfold attrs_of. fold st st'. rewrite lang_alike, parent_attr_alike by exact Rx. look. reflexivity.
Qed.

Lemma imembers_alike : forall x, R x -> InvExport.members s' (name x) = map name (InvExport.members s x).
Proof using Robj. intros x Rx. unfold InvExport.members. fold st st'. apply kids'. exact Rx. Qed.

Lemma imembers_in : forall x y, R x -> In y (InvExport.members s x) -> R y.
Proof using Rchild. intros x y Rx I. exact (kids_in x y Rx I). Qed.

Lemma flat_members_alike : forall l, (forall y, In y l -> R y) ->
  flat_map (InvExport.members s') (map name l) = map name (flat_map (InvExport.members s) l).
Proof using Robj.
  induction l as [|y l IH]; intros Rl; cbn [map flat_map]; [reflexivity|].
  rewrite imembers_alike by (apply Rl; left; reflexivity).
  rewrite IH by (intros z I; apply Rl; right; exact I). rewrite map_app. reflexivity.
Qed.

Lemma export_alike : forall fuel ns x, R x ->
  export cpt pairs order qname s' fuel ns (name x) = export cpt pairs order qname s fuel ns x.
Proof using Robj Rgraph Rparent Rcite Rchild.
  induction fuel as [|fuel IH]; intros ns x Rx; cbn [export]; [reflexivity|]. fold st st'.
  rewrite text_alike, attrs_alike, properties_alike, structured_alike, header_alike, imembers_alike by exact Rx.
  rewrite flat_members_alike by (intros y I; exact (imembers_in x y Rx I)). look.
  assert (M : forall l, (forall y, In y l -> R y) ->
    mapM (export cpt pairs order qname s' fuel false) (map name l) = mapM (export cpt pairs order qname s fuel false) l).
  { intros l Rl. apply mapM_same. intros y I. apply IH. apply Rl. exact I. }
  assert (F : forall y, In y (flat_map (InvExport.members s) (InvExport.members s x)) -> R y).
  { intros y I. apply in_flat_map in I. destruct I as (z & Iz & Iy).
    exact (imembers_in z y (imembers_in x z Rx Iz) Iy). }
  rewrite (M _ F), (M _ (fun y I => imembers_in x y Rx I)).
  destruct (c_kind (obj st x)); reflexivity.
Qed.
End Exports.

Lemma brief_alike : forall x, R x -> brief_of s' (name x) = brief_of s x.
Proof using Robj Rgraph.
  intros x Rx. unfold brief_of, CollModel.size. fold st st'. rewrite members_alike by exact Rx. look.
  rewrite map_length, Rgraph by exact Rx. reflexivity.
Qed.

Lemma source_alike : forall x c, R x -> source_of s' (name x) c = source_of s x c.
Proof using Robj Rgraph Rchild.
  intros x c Rx. unfold source_of. fold st st'. rewrite brief_alike, members_alike by exact Rx. f_equal.
  apply map_rename. intros y I. apply brief_alike. exact (members_in x y Rx I).
Qed.

Lemma all_alike : forall x, R x -> answers_alike name s x s' (name x).
Proof using Robj Rgraph Rparent Rcite Rchild Rpath.
  intros x Rx. constructor; intros; fold st st'.
  - look. reflexivity.
  - look. reflexivity.
  - look. reflexivity.
  - look. reflexivity.
  - look. reflexivity.
  - look. apply Rgraph. exact Rx.
  - apply Rcite. exact Rx.
  - apply Rpath. exact Rx.
  - apply members_alike. exact Rx.
  - apply parents_alike. exact Rx.
  - apply descendants_alike. exact Rx.
  - apply readable_descendants_alike. exact Rx.
  - apply getitem_alike. exact Rx.
  - apply contains_alike. exact Rx.
  - apply len_alike. exact Rx.
  - apply lang_alike. exact Rx.
  - apply translations_in_alike. exact Rx.
  - apply translations_alike. exact Rx.
  - apply editions_alike. exact Rx.
  - apply export_alike. exact Rx.
  - rewrite source_alike by exact Rx. reflexivity.
Qed.
End Alike.
