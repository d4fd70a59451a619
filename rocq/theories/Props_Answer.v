(** C72: what a resolver answers about its collections, and what asking changes. *)

From Coq Require Import List NArith ZArith Arith Bool Lia.
From Verif Require Import PyStr PyStrFacts UrnModel UrnSpec UrnProofs XmlModel MetaModel MetaSpec MetaProofs CollModel CollSpec CollProofs
  InvModel InvSpec InvExport LocalModel LocalSpec LocalProofs LoadModel LoadSpec LoadFold LoadMore ServeModel
  AnswerModel AnswerSpec AnswerProofs AnswerGraph Props_Inv Props_Load Props_Serve.
Import ListNotations.

Lemma levels_cited : forall s x, has_citation s x = true <-> has_levels s x.
Proof.
  intros s x. rewrite has_citation_spec. unfold has_levels, text_citation, citation_of.
  destruct (find _ (s_cites s)) as [[a c]|]; cbn; split.
  - intros H. exists c. auto.
  - intros (c' & [= <-] & H). exact H.
  - intros H. congruence.
  - intros (c' & [=] & _).
Qed.

Lemma levels_text : forall s x, has_levels s x -> citation_of s x = Some (text_citation s x).
Proof. intros s x (c & H & _). unfold text_citation. unfold citation_of in *. destruct (find _ (s_cites s)) as [[a c']|]; [|discriminate]. reflexivity. Qed.

(** The metadata of a textgroup, work or text: a tree with exactly the texts that
    have a citation and whose URN begins with the same components, each with the
    citation it has in the resolver, and without a file. *)
Theorem C72_answer : forall limit order s root ns cts p, library (s_state s) root -> paths_known s ->
  plain_ns ns -> plain_ns cts -> plain_part p -> 1 <= part_size p ->
  ~ In (write_urn ns cts p None) (keys (c_children (obj (s_state s) root))) ->
  (exists x, within (s_state s) root ns cts p x /\ has_levels s x) ->
  exists s' c, resolver_metadata (5 + limit) order root (Some (write_urn ns cts p None)) s = (s', Ok c) /\
    c_id (obj (s_state s') c) = write_urn ns cts p None /\ kind_at (part_size p) (c_kind (obj (s_state s') c)) /\ tree (s_state s') c /\
    (forall x, within (s_state s) root ns cts p x -> has_levels s x -> exists t, inside s' c t /\ stands_for s x s' t) /\
    (forall t, inside s' c t -> text (s_state s') t ->
       exists x, within (s_state s) root ns cts p x /\ has_levels s x /\ stands_for s x s' t).
Proof.
  intros limit order s root ns cts p L PK H1 H2 H3 H4 NK (x0 & W0 & C0).
  destruct (metadata_state (5 + limit) order root (Some (write_urn ns cts p None)) s) as [ES _].
  destruct (metadata_found limit order (s_state s) root (has_citation s) ns cts p L H1 H2 H3 H4 NK) as (st' & c & inv & E & ID & KA & TR & _ & LC & CO & SO & BI & KI & _).
  { exists x0. split; [exact W0|]. apply levels_cited. exact C0. }
  rewrite E in ES. destruct (resolver_metadata (5 + limit) order root (Some (write_urn ns cts p None)) s) as [s' r] eqn:ER. cbn [fst snd] in ES. injection ES as <- ->.
  exists s', c. split; [reflexivity|]. split; [exact ID|]. split; [exact KA|]. split; [exact TR|].
  pose proof (metadata_kept (5 + limit) order root (Some (write_urn ns cts p None)) s) as K. rewrite ER in K. cbn [fst] in K.
  assert (BACK : forall t, inside s' c t -> text (s_state s') t ->
    exists x, within (s_state s) root ns cts p x /\ has_levels s x /\ stands_for s x s' t).
  { intros t IN T. destruct (SO t IN T) as (x & W & C & E1 & E2).
    assert (GE : length (objs (s_state s)) <= t).
    { destruct IN as [->|B]; [exact LC|].
      assert (G : forall q y, below (s_state s') q y -> length (objs (s_state s)) <= q -> length (objs (s_state s)) <= y).
      { intros q y BB. induction BB as [q m [_ [k M]]|q m d0 [_ [k M]] BB IH]; intros Q; [apply (ks_kids _ _ _ K q k m Q M)|].
        apply IH. apply (ks_kids _ _ _ K q k m Q M). }
      eapply G; eassumption. }
    destruct (metadata_cited _ _ _ _ _ _ _ ER NK t GE T) as (y & l & FT & Iy & Y1 & Y2 & Y3).
    destruct (found_texts _ _ _ _ _ _ _ FT y Iy) as [By Ty].
    assert (UY : c_id (obj (s_state s) y) = c_urn (obj (s_state s) y)).
    { destruct (library_placed (s_state s) root y L By Ty) as (w & g & i & Py & _).
      destruct (lib_names _ _ L y w g Py) as (? & ? & ? & ? & ? & _ & _ & _ & _ & _ & _ & Ex). exact Ex. }
    assert (y = x).
    { apply (tree_ids _ _ (lib_tree _ _ L)); [right; exact By|right; apply W|]. congruence. }
    subst y. exists x. split; [exact W|]. apply levels_cited in C. split; [exact C|]. split; [exact E1|]. split; [exact E2|].
    split; [rewrite Y3; symmetry; apply levels_text; exact C|].
    unfold path_of. rewrite (ks_paths _ _ _ K). destruct (find _ (s_paths s)) as [[a pa]|] eqn:F; [|reflexivity].
    apply find_some in F. destruct F as [I F]. apply Nat.eqb_eq in F. cbn in F. subst a. apply PK in I. lia. }
  split; [|exact BACK]. intros x W C. destruct (CO x W) as (t & IN & E1 & E2); [apply levels_cited; exact C|]. exists t. split; [exact IN|].
  destruct (BACK t IN) as (y & Wy & Cy & SY).
  { pose proof (proj1 (proj2 W)) as [b B]. exists b. congruence. }
  assert (y = x); [|subst y; exact SY]. apply (tree_ids _ _ (lib_tree _ _ L)); [right; apply Wy|right; apply W|]. destruct SY as [SY _]. congruence.
Qed.
Print Assumptions C72_answer.

(** A URN below which no text has a citation is unknown, also where there are texts. *)
Theorem C72_unknown : forall limit order s root ns cts p, library (s_state s) root ->
  plain_ns ns -> plain_ns cts -> plain_part p ->
  ~ In (write_urn ns cts p None) (keys (c_children (obj (s_state s) root))) ->
  (part_size p = 0 \/ forall x, within (s_state s) root ns cts p x -> ~ has_levels s x) ->
  snd (resolver_metadata (5 + limit) order root (Some (write_urn ns cts p None)) s) = Err UnknownCollection.
Proof.
  intros limit order s root ns cts p L H1 H2 H3 NK H.
  destruct (metadata_state (5 + limit) order root (Some (write_urn ns cts p None)) s) as [ES _].
  destruct (metadata_missing limit order (s_state s) root (has_citation s) ns cts p L H1 H2 H3 NK) as (st' & E & _).
  { destruct H as [H|H]; [left; exact H|right]. intros x W. destruct (has_citation s x) eqn:C; [|reflexivity].
    destruct (H x W). apply levels_cited. exact C. }
  rewrite E in ES. exact (f_equal snd ES).
Qed.
Print Assumptions C72_unknown.

(** Whatever is asked of whatever resolver, and whatever comes out: nothing that was
    there changes. *)
Theorem C72_kept : forall limit order root id s, same_objects s (fst (resolver_metadata limit order root id s)).
Proof.
  intros limit order root id s. pose proof (metadata_kept limit order root id s) as K. split; [exact (ks_len _ _ _ K)|].
  intros x X. split; [exact (ks_old _ _ _ K x X)|]. split; [exact (ks_cites _ _ _ K x X)|]. unfold path_of. rewrite (ks_paths _ _ _ K). reflexivity.
Qed.
Print Assumptions C72_kept.

(** The statements of the graphs: those about names, titles, descriptions and so on
    stay as they are. *)
Theorem C72_statements : forall limit order root id s g x q y, ~ about_structure q -> q <> language ->
  says (fst (resolver_metadata limit order root id s)) g (x, q, y) <-> says s g (x, q, y).
Proof.
  intros limit order root id s g x q y N1 N2. symmetry. apply others_metadata.
  - intros ->. apply N1. left. reflexivity.
  - intros ->. apply N1. right. left. reflexivity.
  - intros ->. apply N1. right. right. reflexivity.
  - exact N2.
Qed.
Print Assumptions C72_statements.

(** Those about languages stay when the languages are in order: C36 shows an edition
    that has not the language of its work. *)
Theorem C72_languages : forall limit order root id s g x y, arranges order -> library (s_state s) root -> languages_fit s root ->
  says (fst (resolver_metadata limit order root id s)) g (x, language, y) <-> says s g (x, language, y).
Proof.
  intros limit order root id s g x y Ho L LF. symmetry. apply lang_metadata; [exact Ho|]. intros t B T.
  destruct (library_placed (s_state s) root t L B T) as (w & gr & i & P & P1 & _).
  destruct (lib_names _ _ L t w gr P) as (? & ? & ? & ? & ? & _ & _ & _ & _ & _ & _ & Ex).
  split.
  - intros w' E. rewrite P1 in E. injection E as <-. destruct (LF t w gr P) as (l & S0 & S1 & S2). split; [exact Ex|]. exists l. auto.
  - intros w' E. rewrite P1 in E. injection E as <-. destruct P as (j & _ & _ & _ & [_ [k A4]]). exact (has_children _ _ _ _ A4).
Qed.
Print Assumptions C72_languages.

(** Questions and loadings in any order: a question changes nothing of what the
    resolver shows, so it shows in the end what it would show if nothing had been
    asked. *)
Theorem C72_history : forall order leaf nsmap raise_parsing texts limit d root tests deeds s L,
  arranges order -> sound_texts texts -> d_root d = root -> filters_by_name d tests ->
  (forall files f, In (Read files) deeds -> In f files -> named_file (snd f) /\
     forall n, choice_of tests (fst f) (own_urn (fst (snd f))) = Some n -> In n (keys L)) ->
  resolver_shows texts s root L ->
  resolver_shows texts
    (fold_left (fun s x => match x with
                           | Ask id => fst (resolver_metadata (5 + limit) order root id s)
                           | Read files => fst (load order leaf nsmap raise_parsing false (5 + limit) d (map as_file files) texts s)
                           end) deeds s)
    root
    (shelved_by tests (flat_map (fun x => match x with Ask _ => [] | Read files => files end) deeds) L).
Proof.
  intros order leaf nsmap rp texts limit d root tests deeds s L Ho ST Hd Hf. revert s L.
  induction deeds as [|x deeds IH]; intros s L HD RS; [exact RS|]. cbn [fold_left flat_map].
  destruct x as [id|files].
  - cbn [app]. apply IH; [intros files f I; apply HD; right; exact I|].
    pose proof (metadata_kept (5 + limit) order root id s) as K.
    eapply shows_grown; [exact RS|exact (ks_len _ _ _ K)| |exact (ks_paths _ _ _ K)]. intros j J. split; [exact (ks_old _ _ _ K j J)|exact (ks_cites _ _ _ K j J)].
  - destruct (C59_loading order leaf nsmap rp false texts limit d root tests files s L Ho ST Hd Hf) as (s' & E & RS').
    + intros f I. apply (HD files f (or_introl eq_refl) I).
    + exact RS.
    + intros f n I. apply (HD files f (or_introl eq_refl) I).
    + discriminate.
    + rewrite E. cbn [fst]. unfold shelved_by. rewrite map_app, fold_left_app. apply IH; [|exact RS'].
      intros fs f I J. destruct (HD fs f (or_intror I) J) as [A B]. split; [exact A|]. intros n C. unfold shelved_by. rewrite keys_shelves. exact (B n C).
Qed.
Print Assumptions C72_history.

(** The answer of a loaded resolver, from the files: the texts described in them
    under the URN, with the citation C59 speaks of, except those without one. *)
Theorem C72_loaded : forall limit order texts s root L ns cts p, resolver_shows texts s root L ->
  plain_ns ns -> plain_ns cts -> plain_part p -> 1 <= part_size p ->
  (exists u x p', held L u x /\ plain_part p' /\ u = write_urn ns cts p' None /\ cut_part (part_size p) p' = p /\
     ~ citation_from texts (src_element x) (src_folder x) []) ->
  exists s' c, resolver_metadata (5 + limit) order root (Some (write_urn ns cts p None)) s = (s', Ok c) /\
    c_id (obj (s_state s') c) = write_urn ns cts p None /\
    (forall u x p', held L u x -> plain_part p' -> u = write_urn ns cts p' None -> cut_part (part_size p) p' = p ->
       citation_from texts (src_element x) (src_folder x) [] \/
       exists t, inside s' c t /\ c_id (obj (s_state s') t) = u /\ c_kind (obj (s_state s') t) = KText (src_kind x)) /\
    (forall t, inside s' c t -> text (s_state s') t ->
       exists x p' levels, held L (c_id (obj (s_state s') t)) x /\ c_kind (obj (s_state s') t) = KText (src_kind x) /\
         plain_part p' /\ c_id (obj (s_state s') t) = write_urn ns cts p' None /\ cut_part (part_size p) p' = p /\
         citation_of s' t = Some levels /\ levels <> [] /\ citation_from texts (src_element x) (src_folder x) levels).
Proof.
  intros limit order texts s root L ns cts p RS H1 H2 H3 H4 (u0 & x0 & p0 & HH0 & PP0 & EU0 & CP0 & NC0).
  pose proof (C59_library _ _ _ _ RS) as LB.
  assert (UI : forall t, below (s_state s) root t -> text (s_state s) t -> c_id (obj (s_state s) t) = c_urn (obj (s_state s) t)).
  { intros t B T. destruct (library_placed (s_state s) root t LB B T) as (w & g & i & P & _).
    destruct (lib_names _ _ LB t w g P) as (? & ? & ? & ? & ? & _ & _ & _ & _ & _ & _ & Ex). exact Ex. }
  assert (AT : forall u x p', held L u x -> plain_part p' -> u = write_urn ns cts p' None -> cut_part (part_size p) p' = p ->
    ~ citation_from texts (src_element x) (src_folder x) [] ->
    exists t, within (s_state s) root ns cts p t /\ has_levels s t /\ c_id (obj (s_state s) t) = u /\ c_kind (obj (s_state s) t) = KText (src_kind x)).
  { intros u x p' HH PP EU CP NC. destruct (found texts s root L u x limit RS HH) as (t & _ & B & ID & KI & _ & (c & CC & CF) & _).
    assert (T : text (s_state s) t) by (eexists; exact KI).
    exists t. split; [|split; [|auto]].
    - split; [exact B|]. split; [exact T|]. exists p'. split; [exact PP|]. rewrite <- (UI t B T). split; [congruence|exact CP].
    - exists c. split; [exact CC|]. intros ->. exact (NC CF). }
  assert (NK : ~ In (write_urn ns cts p None) (keys (c_children (obj (s_state s) root)))).
  { intros I. apply in_map_iff in I. destruct I as ([k i] & E & I). cbn in E. subst k.
    pose proof (rs_shown _ _ _ _ RS) as SH. unfold shown_inventories, entries in SH.
    assert (Q : exists x, In x L /\ fst x = write_urn ns cts p None).
    { clear - SH I. induction SH as [|e x l L' H SH IH]; [destruct I|]. destruct I as [->|I].
      - exists x. split; [left; reflexivity|]. destruct H as [H _]. symmetry. exact H.
      - destruct (IH I) as (y & Y1 & Y2). exists y. split; [right; exact Y1|exact Y2]. }
    destruct Q as ([n l] & I' & E). destruct (io_names _ _ (rs_order _ _ _ _ RS) n l I') as [NU _]. cbn in E. subst n.
    apply (NU (ns ++ [c_colon] ++ cts ++ write_part p ++ [])). reflexivity. }
  destruct (AT u0 x0 p0 HH0 PP0 EU0 CP0 NC0) as (t0 & W0 & C0 & _).
  destruct (C72_answer limit order s root ns cts p LB (rs_paths _ _ _ _ RS) H1 H2 H3 H4 NK) as (s' & c & E & ID & _ & _ & CO & SO).
  { exists t0. auto. }
  exists s', c. split; [exact E|]. split; [exact ID|]. split.
  - intros u x p' HH PP EU CP. destruct (found texts s root L u x limit RS HH) as (t & _ & B & IDt & KI & _ & (levels & CC & CF) & _).
    destruct levels as [|lv levels]; [left; exact CF|]. right. assert (T : text (s_state s) t) by (eexists; exact KI).
    destruct (CO t) as (t' & IN & S1 & S2 & _).
    + split; [exact B|]. split; [exact T|]. exists p'. split; [exact PP|]. rewrite <- (UI t B T). split; [congruence|exact CP].
    + exists (lv :: levels). split; [exact CC|discriminate].
    + exists t'. split; [exact IN|]. split; congruence.
  - intros t IN T. destruct (SO t IN T) as (x & (B & TX & p' & PP & EU & CP) & (levels & CC & NE) & S1 & S2 & S3 & _).
    destruct (listed _ _ _ _ _ RS B TX) as (y & HH). destruct (found texts s root L _ y limit RS HH) as (t2 & _ & B2 & ID2 & KI & _ & (lv & CC2 & CF) & _).
    assert (t2 = x) by (apply (tree_ids _ _ (lib_tree _ _ LB)); [right; exact B2|right; exact B|exact ID2]). subst t2.
    exists y, p', levels. rewrite S1, S2. split; [exact HH|]. split; [exact KI|]. split; [exact PP|].
    split; [rewrite (UI x B TX); exact EU|]. split; [exact CP|]. split; [congruence|]. split; [exact NE|]. assert (lv = levels) by congruence. subst lv. exact CF.
Qed.
Print Assumptions C72_loaded.

(** ** The poems of Martial

    The answer for the work: the edition, with the citation of its file.  The
    translation and the commentary have no citation and are missing; asking for
    one of them fails.  A title that is known before is known after. *)
Definition martial_work : str := #"urn:cts:latinLit:phi1294.phi002".
Definition asked : store * result nat := resolver_metadata 5 same_order 0 (Some martial_work) loaded_epigrams.
Example C72_sample :
  snd asked = Ok 9 /\ c_id (obj (s_state (fst asked)) 9) = martial_work /\
  readable_descendants 5 (s_state loaded_epigrams) 0 = Ok [4; 5; 6] /\ readable_descendants 5 (s_state (fst asked)) 9 = Ok [10] /\
  c_id (obj (s_state (fst asked)) 10) = epigrams_urn /\ option_map (map fst) (citation_of (fst asked) 10) = Some [Some #"poem"; Some #"line"] /\
  citation_of (fst asked) 10 = citation_of loaded_epigrams 4 /\
  path_of loaded_epigrams 4 = Some epigrams_at /\ path_of (fst asked) 10 = None /\
  citation_of loaded_epigrams 5 = Some [] /\
  snd (resolver_metadata 5 same_order 0 (Some (c_id (obj (s_state loaded_epigrams) 5))) loaded_epigrams) = Err UnknownCollection /\
  snd (resolver_texts 5 same_order 0 (MkQuery (Some martial_work) None None) None loaded_epigrams) = Ok ([4], Some 0%Z, 1%Z).
Proof. vm_compute. repeat split. Qed.

(** It meets the hypotheses. *)
Lemma speaks_check : forall s id l,
  map snd (filter (matches (Some (URI id)) (Some dc_language) None) (nth 0 (graphs (s_state s)) [])) = [Literal l None None] -> speaks s id l.
Proof.
  intros s id l H o. unfold says, language.
  assert (E : In o (map snd (filter (matches (Some (URI id)) (Some dc_language) None) (nth 0 (graphs (s_state s)) []))) <-> o = Literal l None None).
  { rewrite H. cbn. split; [intros [<-|[]]; reflexivity|intros ->; left; reflexivity]. }
  rewrite <- E, in_map_iff. clear E. split.
  - intros I. exists (URI id, dc_language, o). split; [reflexivity|]. apply filter_In. split; [exact I|].
    apply matches_spec. rewrite !covers_some. auto using covers_none.
  - intros ([[a b] c] & <- & I). apply filter_In in I. destruct I as [I M]. apply matches_spec in M. rewrite !covers_some in M.
    destruct M as (M1 & M2 & _). subst a b. exact I.
Qed.
Example C72_meets : library (s_state loaded_epigrams) 0 /\ paths_known loaded_epigrams /\
  within (s_state loaded_epigrams) 0 #"cts" #"latinLit" (Work #"phi1294" #"phi002") 4 /\ has_levels loaded_epigrams 4 /\
  languages_fit loaded_epigrams 0.
Proof.
  assert (RS : exists L, resolver_shows (texts_at epigrams_only) loaded_epigrams 0 L).
  { destruct (C59_default same_order by_text no_ns true true (texts_at epigrams_only) 0 [martial_file] blank same_arranges epigrams_sound) as (s1 & d & s' & E1 & _ & E2 & RS).
    - intros t path [].
    - intros f [<-|[]]. apply example_named. left. reflexivity.
    - assert (E : loaded_epigrams = s' /\ d_root d = 0).
      { vm_compute in E1. injection E1 as <- <-. split; [|reflexivity]. vm_compute in E2. injection E2 as <-. reflexivity. }
      destruct E as [-> E]. rewrite E in RS. eauto. }
  destruct RS as (L & RS). pose proof (C59_library _ _ _ _ RS) as LB. split; [exact LB|]. split; [exact (rs_paths _ _ _ _ RS)|].
  assert (M : forall p k c, In (k, c) (c_children (obj (s_state loaded_epigrams) p)) -> (forall b, c_kind (obj (s_state loaded_epigrams) p) <> KText b) -> member (s_state loaded_epigrams) p c).
  { intros p k c I N. split; [intros [b B]; exact (N b B)|]. exists k. exact I. }
  split; [|split].
  - split; [|split; [eexists; reflexivity|]].
    + eapply below_more with (m := 1); [|eapply below_more with (m := 2); [|eapply below_more with (m := 3); [|constructor]]];
        (eapply M; [left; reflexivity|discriminate]).
    + exists (Version #"phi1294" #"phi002" #"perseus-lat2"). split; [plain_all|]. split; reflexivity.
  - eexists. split; [reflexivity|discriminate].
  - intros x w g (i & [_ [k1 A1]] & [_ [k2 A2]] & [_ [k3 A3]] & [_ [k4 A4]]).
    destruct A1 as [[= <- <-]|[]]. destruct A2 as [[= <- <-]|[]]. destruct A3 as [[= <- <-]|[]].
    destruct A4 as [[= <- <-]|[[= <- <-]|[[= <- <-]|[]]]].
    + exists #"lat". split; [|split; [|intros _]]; apply speaks_check; vm_compute; reflexivity.
    + exists #"eng". split; [|split; [|discriminate]]; apply speaks_check; vm_compute; reflexivity.
    + exists #"lat". split; [|split; [|discriminate]]; apply speaks_check; vm_compute; reflexivity.
Qed.

Example C72_loaded_meets : exists L, resolver_shows (texts_at epigrams_only) loaded_epigrams 0 L /\
  held L epigrams_urn (MkSource Edition example_edition (Some #"data/phi1294/phi002")) /\
  cut_part (part_size (Group #"phi1294")) (Version #"phi1294" #"phi002" #"perseus-lat2") = Group #"phi1294".
Proof.
  destruct (C59_default same_order by_text no_ns true true (texts_at epigrams_only) 0 [martial_file] blank same_arranges epigrams_sound) as (s1 & d & s' & E1 & _ & E2 & RS).
  - intros t path [].
  - intros f [<-|[]]. apply example_named. left. reflexivity.
  - assert (E : loaded_epigrams = s' /\ d_root d = 0).
    { vm_compute in E1. injection E1 as <- <-. split; [|reflexivity]. vm_compute in E2. injection E2 as <-. reflexivity. }
    destruct E as [-> E]. rewrite E in RS. eexists. split; [exact RS|]. split; [|reflexivity].
    eexists _, _, _, _, _, _. split; [left; reflexivity|]. split; [left; reflexivity|]. split; [left; reflexivity|]. left. reflexivity.
Qed.
