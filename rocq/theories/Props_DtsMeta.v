(** C78: what DTS collections report of the replies they were read from. *)

From Coq Require Import List NArith ZArith Arith Bool Lia Permutation.
From Verif Require Import PyStr PyStrFacts Json TreeModel HttpModel HttpSpec HttpProofs DtsModel MetaModel MetaSpec MetaProofs.
From Verif Require Import DtsMetaModel DtsMetaSpec DtsMetaProofs DtsMetaMore Props_Http.
Import ListNotations.

(** ** C78: whatever is asked of an endpoint, and in whatever order, a collection
    reports what the replies said of its identifier, all of it and nothing else *)

(** *** Statements *)

(** Nothing is invented: whether the requests succeed or fail, what a node has was
    there before, or some reply said it of that identifier. *)
Theorem C78_told : forall server r w ds n p o, p <> rdf_type -> p <> the_model ->
  In (n, p, o) (w_graph (after server r w ds)) ->
  In (n, p, o) (w_graph w) \/
  exists i fs, n = URI i /\ learnt server r w ds i fs /\ mentions fs p o.
Proof. intros server r w ds n p o. apply history_told. Qed.
Print Assumptions C78_told.

(** Nothing is lost: what was there stays, and when the requests succeed everything
    they said is there, from every reply and for every object of that identifier. *)
Theorem C78_kept : forall server r w ds i p o, p <> rdf_type -> p <> the_model ->
  has w i p o -> has (after server r w ds) i p o.
Proof. intros server r w ds i p o. apply history_kept. Qed.
Print Assumptions C78_kept.

Theorem C78_all : forall server r w ds i fs p o, p <> rdf_type -> p <> the_model ->
  succeed server r w ds -> learnt server r w ds i fs -> mentions fs p o ->
  has (after server r w ds) i p o.
Proof. intros server r w ds i fs p o. apply history_all. Qed.
Print Assumptions C78_all.

(** What no reply speaks of does not change at all, its type neither. *)
Theorem C78_others : forall server r w ds n p o,
  (forall i fs, learnt server r w ds i fs -> n <> URI i) ->
  (In (n, p, o) (w_graph (after server r w ds)) <-> In (n, p, o) (w_graph w)).
Proof. intros server r w ds n p o. apply history_others. Qed.
Print Assumptions C78_others.

(** Objects keep their identifier, and their citation unless they are retrieved. *)
Theorem C78_objects : forall server r w ds h, h < length (w_objs w) ->
  d_id (obj (after server r w ds) h) = d_id (obj w h) /\
  (~ In (Retrieve h) ds -> citation_of (after server r w ds) h = citation_of w h /\ depth_of (after server r w ds) h = depth_of w h).
Proof.
  intros server r w ds h H. destruct (history_objects server r ds w h H) as (_ & A & _ & B). split; [exact A|].
  intros N. unfold citation_of, depth_of. rewrite (B N). auto.
Qed.
Print Assumptions C78_objects.

(** *** What is asked *)

(** Each deed asks the endpoint at most once, for the collection it is about, the
    direction and the page; children and the first page go without saying. *)
Theorem C78_asked : forall server r w d, NoDup (map fst (rt_query r)) ->
  match d with
  | Retrieve h => d_known (obj w h) = true
  | _ => False
  end /\ w_sent (fst (perform server r d w)) = w_sent w \/
  exists q, w_sent (fst (perform server r d w)) = w_sent w ++ [q] /\
    asks q r
      match d with
      | Get None => []
      | Get (Some i) => [(#"id", StrParam i)]
      | Retrieve h => [(#"id", StrParam (d_id (obj w h)))]
      | Page h dir page => [(#"id", StrParam (d_id (obj w h)));
                            (#"nav", StrParam match dir with Children => #"children" | Parents => #"parents" end);
                            (#"page", if (page <=? 1)%Z then NoParam else IntParam page)]
      end [(#"nav", StrParam #"children")].
Proof.
  intros server r w d Hr. rewrite sent_perform.
  destruct (match d with Retrieve h => d_known (obj w h) | _ => false end) eqn:K.
  - left. destruct d as [id|h dir page|h]; try discriminate. split; [exact K|]. cbn [request_of]. rewrite K. reflexivity.
  - right. destruct (request_of r w d) as [q|] eqn:Q.
    2:{ destruct d as [id|h dir page|h]; cbn [request_of] in Q; [discriminate|discriminate|rewrite K in Q; discriminate]. }
    exists q. split; [reflexivity|].
    assert (X : exists id nav page, q = get_collection r id nav page /\
      (forall k p, In (k, p) [(#"id", id); (#"nav", nav); (#"page", page)] -> p <> NoParam ->
         ~ In (k, p) [(#"nav", StrParam #"children"); (#"page", IntParam 1)] <->
         In (k, p) match d with
      | Get None => []
      | Get (Some i) => [(#"id", StrParam i)]
      | Retrieve h => [(#"id", StrParam (d_id (obj w h)))]
      | Page h dir page => [(#"id", StrParam (d_id (obj w h)));
                            (#"nav", StrParam match dir with Children => #"children" | Parents => #"parents" end);
                            (#"page", if (page <=? 1)%Z then NoParam else IntParam page)]
      end /\ ~ In (k, p) [(#"nav", StrParam #"children")]) /\
      (forall k p, In (k, p) match d with
      | Get None => []
      | Get (Some i) => [(#"id", StrParam i)]
      | Retrieve h => [(#"id", StrParam (d_id (obj w h)))]
      | Page h dir page => [(#"id", StrParam (d_id (obj w h)));
                            (#"nav", StrParam match dir with Children => #"children" | Parents => #"parents" end);
                            (#"page", if (page <=? 1)%Z then NoParam else IntParam page)]
      end -> In (k, p) [(#"id", id); (#"nav", nav); (#"page", page)])).
    { destruct d as [id|h dir page|h]; cbn [request_of] in Q; [|idtac|rewrite K in Q]; injection Q as <-.
      - eexists _, _, _. split; [reflexivity|]. destruct id as [i|].
        + split; [|intros k p [X|[]]; left; exact X].
          intros k p [X|[X|[X|[]]]] N; injection X as <- <-; cbn; intuition (try congruence; try discriminate).
        + split; [|intros k p []].
          intros k p [X|[X|[X|[]]]] N; injection X as <- <-; cbn; intuition (try congruence; try discriminate).
      - eexists _, _, _. split; [reflexivity|].
        assert (P : (if (1 <? page)%Z then IntParam page else NoParam) = (if (page <=? 1)%Z then NoParam else IntParam page)).
        { rewrite Z.leb_antisym. destruct (1 <? page)%Z; reflexivity. }
        rewrite P. split.
        + intros k p I N. split; [|intros [_ A] B; apply A; destruct B as [B|[B|[]]]; [left; exact B|]].
          * intros A. split; [|intros B; apply A; destruct B as [B|[]]; left; exact B].
            destruct dir; exact I.
          * injection B as <- <-. destruct I as [I|[I|[I|[]]]]; try discriminate. injection I as I. destruct (page <=? 1)%Z eqn:L; [discriminate|].
            apply Z.leb_gt in L. injection I as ->. lia.
        + intros k p I. destruct dir; exact I.
      - eexists _, _, _. split; [reflexivity|]. split; [|intros k p [X|[]]; left; exact X].
        intros k p [X|[X|[X|[]]]] N; injection X as <- <-; cbn; intuition (try congruence; try discriminate). }
    destruct X as (id & nav & page & -> & X1 & X2).
    destruct (proj1 (C40_dts_requests r id nav NoParam NoParam NoParam NoParam page None [] Hr rf_none)) as (B1 & B2 & B3 & B4 & B5).
    split; [exact B1|]. split; [exact B2|]. split; [|split; [exact B4|]].
    + intros k p I N O. apply (B3 k p); [apply X2; exact I|exact N|]. apply (X1 k p); [apply X2; exact I|exact N|]. split; [exact I|exact O].
    + intros k vs I. destruct (B5 k vs I) as [Y|(Y & p & v & Z1 & Z2 & Z3 & Z4)]; [left; exact Y|right]. split; [exact Y|].
      exists p, v. assert (N : p <> NoParam) by (intros ->; destruct Z3). destruct (proj1 (X1 k p Z1 N) Z2) as [Z5 Z6].
      split; [exact Z5|]. split; [exact Z6|]. split; [exact Z3|exact Z4].
Qed.
Print Assumptions C78_asked.

(** *** The object that getMetadata returns *)

(** It has the identifier and the citation of the reply, its type is the last that
    the reply gives, and it counts as complete; its members do not. *)
Theorem C78_get : forall server r w id w' h hs, DtsMetaModel.get_metadata server r id w = (w', Ok (h, hs)) ->
  exists q empty fs rest,
    w_sent w' = w_sent w ++ [q] /\ p_good (server (w_sent w) q) = true /\
    p_body (server (w_sent w) q) = Some (empty, JObj fs :: rest) /\
    field #"@id" fs = Some (JStr (d_id (obj w' h))) /\ length (w_objs w) <= h < length (w_objs w') /\
    cites fs (MkSet [] None) (d_cite (obj w' h)) None (d_depth (obj w' h)) /\ d_known (obj w' h) = true /\
    (forall ms, field #"https://www.w3.org/ns/hydra/core#member" fs = Some (JList ms) ->
       Forall2 (fun m k => exists gs, m = JObj gs /\ field #"@id" gs = Some (JStr (d_id (obj w' k))) /\
                  length (w_objs w) <= k < length (w_objs w') /\ d_known (obj w' k) = false /\
                  cites gs (MkSet [] None) (d_cite (obj w' k)) None (d_depth (obj w' k))) ms hs).
Proof.
  intros server r w id w' h hs E.
  set (q := get_collection r (match id with Some i => StrParam i | None => NoParam end) (StrParam #"children") NoParam).
  unfold DtsMetaModel.get_metadata, andthen, send, check, json_of, lift in E. fold q in E.
  destruct (p_good (server (w_sent w) q)) eqn:PG; [|discriminate].
  destruct (p_body (server (w_sent w) q)) as [[e [|x l]]|] eqn:PB; try discriminate. cbn [snd] in E.
  change (MkWorld (w_graph w) (w_objs w) (w_sent w ++ [q])) with (asked w q) in E.
  unfold parse_top in E. apply then_ok in E. destruct E as (h1 & w1 & E1 & E). apply then_ok in E. destruct E as (hs1 & w2 & E2 & E).
  injection E as <- <- <-.
  destruct (parse_head_gained true x (asked w q) w1 (Ok h1) E1) as [G1 O1].
  destruct (O1 h1 eq_refl) as (i & fs & [-> A1] & A2 & A3 & A4 & A5 & A6 & _).
  destruct (parse_members_gained (JObj fs) w1 w2 (Ok hs1) E2) as [G2 O2]. destruct (O2 hs1 eq_refl) as [M _].
  cbn [asked w_objs] in A2.
  assert (K : obj w2 h1 = obj w1 h1) by (destruct G2 as (_ & _ & G3 & _); apply G3; lia).
  assert (L : length (w_objs w1) <= length (w_objs w2)) by apply G2.
  exists q, e, fs, l. split; [destruct G1 as (S1 & _); destruct G2 as (S2 & _); rewrite S2, S1; reflexivity|].
  split; [exact PG|]. split; [exact PB|]. rewrite K, A4, A5. split; [exact A1|]. split; [lia|]. split; [exact A6|]. split; [reflexivity|].
  intros ms F. destruct (M fs ms eq_refl F) as [M1 M2].
  assert (B : forall k, In k hs1 -> length (w_objs w) <= k) by (intros k X; rewrite M2 in X; apply in_seq in X; lia).
  clear M2 E2 O2 M F G2. revert B. induction M1 as [|m k ms hs2 (j & gs & [X1 X2] & X3 & X4 & X5 & X6) _ IH]; intros B; constructor.
  - exists gs. split; [exact X1|]. rewrite X4. split; [exact X2|]. split; [split; [apply B; left; reflexivity|exact X3]|]. split; [exact X5|exact X6].
  - apply IH. intros k' X. apply B. right; exact X.
Qed.
Print Assumptions C78_get.

(** *** Types *)

(** After a request that succeeded, the type of a collection it spoke of (in one
    way) is the last that the reply gives for it.  A request for a collection or a
    page makes a new object, of type dts:collection, before the types are read. *)
Theorem C78_types : forall server r w d w' i fs ts o, perform server r d w = (w', Ok tt) ->
  learns server r w d i fs -> (forall gs, learns server r w d i gs -> gs = fs) -> typed fs ts ->
  (forall o, ~ mentions fs rdf_type o) ->
  (forall h, d = Retrieve h -> h < length (w_objs w) /\ ts <> []) ->
  (has w' i rdf_type o <-> o = match ts with [] => URI #"https://w3id.org/dts/api#collection" | _ => URI (last ts []) end).
Proof.
  intros server r w d w' i fs ts o E L U T N RT. unfold has. destruct d as [id|h dir page|h]; cbn [perform] in E.
  - apply void_ok in E. destruct E as (r' & E & OK). destruct r' as [[h hs]|e]; [|elim (proj1 OK eq_refl)].
    pose proof (get_types server r w id w' h hs E i fs L U ts o T) as F. rewrite F. split; [intros [X|X]; [exact X|elim (N o X)]|auto].
  - apply void_ok in E. destruct E as (r' & E & OK). destruct r' as [hs|e]; [|elim (proj1 OK eq_refl)].
    pose proof (page_types server r w h dir page w' hs E i fs L U ts o T) as F. rewrite F. split; [intros [X|X]; [exact X|elim (N o X)]|auto].
  - apply void_ok in E. destruct E as (r' & E & OK). destruct r' as [b|e]; [|elim (proj1 OK eq_refl)].
    destruct (RT h eq_refl) as [H NT].
    assert (K : d_known (obj w h) = false).
    { destruct (d_known (obj w h)) eqn:K; [|reflexivity]. elim (learns_none server r (Retrieve h) w i fs); [cbn; rewrite K; reflexivity|exact L]. }
    destruct (retrieve_more server r h w w' b K H E) as (gs & G1 & _ & G2 & _).
    assert (I : i = d_id (obj w h)).
    { destruct L as (q & em & data & rest & _ & _ & S). inversion S; subst. reflexivity. }
    rewrite <- I in *. apply U in G1. subst gs. specialize (G2 ts o T). unfold has in G2. rewrite G2.
    destruct ts as [|t ts]; [congruence|]. split; [intros [X|X]; [exact X|elim (N o X)]|auto].
Qed.
Print Assumptions C78_types.

(** *** What the properties report *)

(** The metadata of an object: the values of its identifier. *)
Theorem C78_values : forall order w h key, arranges order ->
  exists l, values order w h key = Ok l /\ forall o, In o l <-> has w (d_id (obj w h)) key o.
Proof. intros order w h key Ho. eexists. split; [reflexivity|]. intros o. apply (In_objects order Ho). Qed.
Print Assumptions C78_values.

(** So two objects of one identifier report the same, one object's requests showing
    in the other. *)
Theorem C78_alike : forall order w h k key, d_id (obj w h) = d_id (obj w k) ->
  values order w h key = values order w k key /\ size order w h = size order w k /\
  type_of order w h = type_of order w k /\ readable order w h = readable order w k /\
  forall lang, label_of order w h lang = label_of order w k lang.
Proof. intros order w h k key E. unfold values, size, type_of, readable, type_of, label_of. rewrite E. auto. Qed.
Print Assumptions C78_alike.

Lemma digit_not_dash : forall s c, forallb is_digit s = true -> In c s -> N.eqb c c_dash = false.
Proof.
  intros s c F I. rewrite forallb_forall in F. specialize (F c I). unfold is_digit in F. apply andb_true_iff in F. destruct F as [F _].
  apply N.leb_le in F. apply N.eqb_neq. unfold c_dash. lia.
Qed.

Lemma int_of_numeral : forall z s, numeral z s -> int_of s = Ok z.
Proof.
  intros z s (d & D1 & D2 & D3 & ->). destruct (z <? 0)%Z eqn:Z.
  - apply Z.ltb_lt in Z. cbn [app int_of]. rewrite N.eqb_refl. destruct d as [|c d]; [congruence|]. rewrite D2, D3. f_equal. lia.
  - apply Z.ltb_ge in Z. cbn [app]. destruct d as [|c d]; [congruence|]. unfold int_of.
    rewrite (digit_not_dash (c :: d) c D2 (or_introl eq_refl)), D2, D3. f_equal. lia.
Qed.

(** The size, when the replies agree on it: the number of members they told. *)
Theorem C78_size : forall order w h z, arranges order ->
  (exists o, has w (d_id (obj w h)) (URI #"https://www.w3.org/ns/hydra/core#totalItems") o) ->
  (forall o, has w (d_id (obj w h)) (URI #"https://www.w3.org/ns/hydra/core#totalItems") o -> written (JInt z) None o) ->
  size order w h = Ok z.
Proof.
  intros order w h z Ho (o & X) A. unfold size, md_get_single.
  pose proof (fun o => In_objects order Ho (w_graph w) (URI (d_id (obj w h))) total_items o) as I.
  destruct (g_objects order (URI (d_id (obj w h))) total_items (w_graph w)) as [|t l] eqn:G.
  - apply I in X. destruct X.
  - cbn [hd_error bind]. assert (Y : written (JInt z) None t) by (apply A; apply I; left; reflexivity).
    inversion Y; subst. cbn [text_of].
    match goal with H : numeral z ?s |- _ => pose proof (int_of_numeral z s H) as V; destruct s; [discriminate V|exact V] end.
Qed.
Print Assumptions C78_size.

(** Otherwise it is one of the numbers they told. *)
Theorem C78_size_told : forall order w h, arranges order ->
  (exists o, has w (d_id (obj w h)) (URI #"https://www.w3.org/ns/hydra/core#totalItems") o) ->
  (forall o, has w (d_id (obj w h)) (URI #"https://www.w3.org/ns/hydra/core#totalItems") o -> exists z, written (JInt z) None o) ->
  exists z o, size order w h = Ok z /\ written (JInt z) None o /\
    has w (d_id (obj w h)) (URI #"https://www.w3.org/ns/hydra/core#totalItems") o.
Proof.
  intros order w h Ho (o & X) A. unfold size, md_get_single.
  pose proof (fun o => In_objects order Ho (w_graph w) (URI (d_id (obj w h))) total_items o) as I.
  destruct (g_objects order (URI (d_id (obj w h))) total_items (w_graph w)) as [|t l] eqn:G.
  - apply I in X. destruct X.
  - cbn [hd_error bind]. assert (B : has w (d_id (obj w h)) (URI #"https://www.w3.org/ns/hydra/core#totalItems") t) by (apply I; left; reflexivity).
    destruct (A t B) as (z & Y). exists z, t. split; [|split; [exact Y|exact B]].
    inversion Y; subst. cbn [text_of].
    match goal with H : numeral z ?s |- _ => pose proof (int_of_numeral z s H) as V; destruct s; [discriminate V|exact V] end.
Qed.
Print Assumptions C78_size_told.

Theorem C78_no_size : forall order w h, arranges order ->
  (forall o, ~ has w (d_id (obj w h)) (URI #"https://www.w3.org/ns/hydra/core#totalItems") o) -> size order w h = Ok 0%Z.
Proof.
  intros order w h Ho N. unfold size, md_get_single.
  pose proof (fun o => In_objects order Ho (w_graph w) (URI (d_id (obj w h))) total_items o) as I.
  destruct (g_objects order (URI (d_id (obj w h))) total_items (w_graph w)) as [|t l]; [reflexivity|].
  elim (N t). apply I. left; reflexivity.
Qed.
Print Assumptions C78_no_size.

(** An object is readable when its type is hydra:Resource. *)
Theorem C78_readable : forall order w h t, arranges order ->
  (forall o, has w (d_id (obj w h)) rdf_type o <-> o = t) ->
  type_of order w h = Ok t /\
  (readable order w h = Ok true <-> t = URI #"https://www.w3.org/ns/hydra/core#Resource").
Proof.
  intros order w h t Ho A.
  assert (T : type_of order w h = Ok t).
  { unfold type_of. pose proof (fun o => In_objects order Ho (w_graph w) (URI (d_id (obj w h))) a_type o) as I.
    destruct (g_objects order (URI (d_id (obj w h))) a_type (w_graph w)) as [|u l].
    - elim (proj2 (I t)). apply A. reflexivity.
    - f_equal. apply A. apply I. left; reflexivity. }
  split; [exact T|]. unfold readable. rewrite T. cbn [bind]. split.
  - intros X. apply Ok_inj in X. apply term_eqb_eq in X. exact X.
  - intros ->. rewrite term_eqb_refl. reflexivity.
Qed.
Print Assumptions C78_readable.

(** The label in no particular language is one of the titles the replies gave. *)
Theorem C78_label : forall order w h, arranges order ->
  exists l, label_of order w h None = Ok l /\
    match l with
    | Some o => has w (d_id (obj w h)) (URI #"http://www.w3.org/2000/01/rdf-schema#label") o
    | None => forall o, ~ has w (d_id (obj w h)) (URI #"http://www.w3.org/2000/01/rdf-schema#label") o
    end.
Proof.
  intros order w h Ho. unfold label_of, get_label.
  pose proof (fun o => In_objects order Ho (w_graph w) (URI (d_id (obj w h))) rdfs_label o) as I.
  destruct (g_objects order (URI (d_id (obj w h))) rdfs_label (w_graph w)) as [|t l].
  - exists None. split; [reflexivity|]. intros o X. apply I in X. destruct X.
  - exists (Some t). split; [reflexivity|]. apply I. left; reflexivity.
Qed.
Print Assumptions C78_label.

(** *** Retrieving *)

(** An object that is complete is not asked for. *)
Theorem C78_retrieve_known : forall server r h w, d_known (obj w h) = true ->
  retrieve server r h w = (w, Ok true).
Proof. exact retrieve_known. Qed.
Print Assumptions C78_retrieve_known.

(** One that is not makes one request, for its identifier, and reads the reply as
    any other: the type is the last given, the citation is replaced if one is given. *)
Theorem C78_retrieve : forall server r h w, NoDup (map fst (rt_query r)) -> h < length (w_objs w) -> d_known (obj w h) = false ->
  exists q, asks q r [(#"id", StrParam (d_id (obj w h)))] [] /\
    w_sent (fst (retrieve server r h w)) = w_sent w ++ [q] /\
    match p_body (server (w_sent w) q) with
    | None => snd (retrieve server r h w) = Err ValueError /\ w_graph (fst (retrieve server r h w)) = w_graph w
    | Some (true, _) => snd (retrieve server r h w) = Err UnknownCollection /\ w_graph (fst (retrieve server r h w)) = w_graph w
    | Some (false, []) => snd (retrieve server r h w) = Err IndexError /\ w_graph (fst (retrieve server r h w)) = w_graph w
    | Some (false, JObj fs :: _) => forall b, snd (retrieve server r h w) = Ok b -> b = true /\
        (forall p o, p <> rdf_type -> (has (fst (retrieve server r h w)) (d_id (obj w h)) p o <-> has w (d_id (obj w h)) p o \/ mentions fs p o)) /\
        (forall ts o, typed fs ts -> (has (fst (retrieve server r h w)) (d_id (obj w h)) rdf_type o <->
           match ts with [] => has w (d_id (obj w h)) rdf_type o | _ => o = URI (last ts []) end \/ mentions fs rdf_type o)) /\
        cites fs (d_cite (obj w h)) (d_cite (obj (fst (retrieve server r h w)) h)) (d_depth (obj w h)) (d_depth (obj (fst (retrieve server r h w)) h))
    | Some (false, _ :: _) => exists e, snd (retrieve server r h w) = Err e
    end.
Proof.
  intros server r h w Hr H K.
  pose proof (retrieve_cases server r h w K) as C. cbn zeta in C.
  exists (get_collection r (StrParam (d_id (obj w h))) (StrParam #"children") NoParam).
  set (q := get_collection r (StrParam (d_id (obj w h))) (StrParam #"children") NoParam) in *.
  split; [|split].
  - set (name := d_id (obj w h)) in *.
    destruct (proj1 (C40_dts_requests r (StrParam name) (StrParam #"children") NoParam NoParam NoParam NoParam NoParam None [] Hr rf_none)) as (B1 & B2 & B3 & B4 & B5).
    split; [exact B1|]. split; [exact B2|]. split; [|split; [exact B4|]].
    + intros k p [E|[]] Hp _. inversion E; subst. apply (B3 _ (StrParam name)); [left; reflexivity|exact Hp|]. intros X. cbn in X. repeat (destruct X as [X|X]; [discriminate|]); exact X.
    + intros k vs X. destruct (B5 k vs X) as [Y|(Y & p & v & Z1 & Z2 & Z3 & Z4)]; [left; exact Y|right]. split; [exact Y|].
      cbn in Z1. destruct Z1 as [Z1|[Z1|[Z1|[]]]]; inversion Z1; subst.
      * exists (StrParam name), v. split; [left; reflexivity|]. split; [intros []|]. split; [exact Z3|reflexivity].
      * destruct Z2. left. reflexivity.
      * destruct Z3.
  - pose proof (sent_perform server r (Retrieve h) w) as S. cbn [perform request_of] in S. rewrite K in S. fold q in S.
    destruct (retrieve server r h w) as [w' r']. exact S.
  - destruct (p_body (server (w_sent w) q)) as [[[|] [|x l]]|] eqn:PB; rewrite C; cbn [fst snd]; auto.
    destruct x as [| | | | |fs]; try (eexists; reflexivity).
    intros b B.
    destruct (read_metadata h (JObj fs) (asked w q)) as [w2 [u|e]] eqn:RM; cbn [fst snd] in *; [|discriminate]. injection B as <-.
    split; [reflexivity|].
    pose proof (read_learned h (d_id (obj w h)) fs (asked w q) w2 (Ok u) eq_refl RM) as (A1 & A2 & A3 & A4 & A5 & A6 & A7 & A8).
    split.
    + intros p o P. unfold has. split; [apply (A7 p o P)|]. intros [X|X]; [apply (A6 p o P X)|apply (A8 Logic.I p o P X)].
    + apply (read_more h (d_id (obj w h))) in RM; [|reflexivity]. destruct RM as [M1 M2]. split; [exact M1|apply M2; exact H].
Qed.
Print Assumptions C78_retrieve.

(** Retrieving again from an unchanged endpoint changes nothing. *)
Theorem C78_again : forall server r h w w1 w2 b1 b2 i fs ts, h < length (w_objs w) -> d_known (obj w h) = false ->
  retrieve server r h w = (w1, Ok b1) -> retrieve server r h w1 = (w2, Ok b2) ->
  learns server r w (Retrieve h) i fs -> learns server r w1 (Retrieve h) i fs -> typed fs ts ->
  same_graph w1 w2.
Proof.
  intros server r h w w1 w2 b1 b2 i fs ts H K E1 E2 L1 L2 T.
  assert (P1 : perform server r (Retrieve h) w = (w1, Ok tt)) by (cbn [perform]; rewrite E1; reflexivity).
  assert (P2 : perform server r (Retrieve h) w1 = (w2, Ok tt)) by (cbn [perform]; rewrite E2; reflexivity).
  pose proof (perform_advance server r _ _ _ _ P1) as (_ & LN & O & _ & _ & _ & ALL).
  pose proof (perform_advance server r _ _ _ _ P2) as (_ & _ & _ & OTH & KEEP & NEW & _).
  destruct (O h H) as (ID & KN & _). rewrite K in KN.
  destruct (retrieve_more server r h w w1 b1 K H E1) as (g1 & G1 & _ & T1 & _).
  destruct (retrieve_more server r h w1 w2 b2 KN (Nat.lt_le_trans _ _ _ H LN) E2) as (g2 & G2 & _ & T2 & _).
  assert (ONE : forall w i j fs gs, learns server r w (Retrieve h) i fs -> learns server r w (Retrieve h) j gs -> i = j /\ fs = gs).
  { clear. intros w i j fs gs (q & e & d & l & S1 & B1 & X1) (q' & e' & d' & l' & S2 & B2 & X2).
    rewrite S1 in S2. apply app_inv_head in S2. injection S2 as <-. rewrite B1 in B2. injection B2 as <- <- <-.
    inversion X1; subst. inversion X2; subst. match goal with H : JObj _ = JObj _ |- _ => injection H as -> end. auto. }
  destruct (ONE _ _ _ _ _ L1 G1) as [I1 <-]. destruct (ONE _ _ _ _ _ L2 G2) as [_ <-]. rewrite ID in T2. rewrite <- I1 in T1, T2.
  intros [[n p] o]. destruct (term_eq_dec n (URI i)) as [->|N].
  - destruct (term_eq_dec p rdf_type) as [->|P].
    + specialize (T1 ts o T). specialize (T2 ts o T). unfold has in *. rewrite T2. destruct ts as [|t ts].
      * split; [auto|]. intros [X|X]; [exact X|apply T1; auto].
      * exact T1.
    + pose proof (retrieve_cases server r h w1 KN) as C. cbn zeta in C.
      set (q := get_collection r (StrParam (d_id (obj w1 h))) (StrParam #"children") NoParam) in *.
      pose proof (retrieve_cases server r h w K) as C0. cbn zeta in C0.
      set (q0 := get_collection r (StrParam (d_id (obj w h))) (StrParam #"children") NoParam) in *.
      assert (R1 : request_of r w1 (Retrieve h) = Some q) by (cbn; rewrite KN; reflexivity).
      assert (R0 : request_of r w (Retrieve h) = Some q0) by (cbn; rewrite K; reflexivity).
      apply (learns_inv server r _ _ _ _ q R1) in L2. destruct L2 as (e2 & d2 & l2 & B2 & S2). rewrite B2, E2 in C.
      apply (learns_inv server r _ _ _ _ q0 R0) in L1. destruct L1 as (e0 & d0 & l0 & B0 & S0). rewrite B0, E1 in C0.
      inversion S2; subst d2. inversion S0; subst d0. destruct e2, e0; try discriminate.
      destruct (read_metadata h (JObj fs) (asked w1 q)) as [v2 [u2|x2]] eqn:RM2; cbn [fst snd] in C; [|discriminate].
      destruct (read_metadata h (JObj fs) (asked w q0)) as [v0 [u0|x0]] eqn:RM0; cbn [fst snd] in C0; [|discriminate].
      injection C as <- _. injection C0 as <- _.
      pose proof (read_learned h i fs (asked w1 q) w2 (Ok u2) (eq_trans ID (eq_sym I1)) RM2) as (_ & _ & _ & _ & _ & A6 & A7 & _).
      pose proof (read_learned h i fs (asked w q0) w1 (Ok u0) (eq_sym I1) RM0) as (_ & _ & _ & _ & _ & _ & _ & A8).
      split; [apply (A6 p o P)|]. intros X. destruct (A7 p o P X) as [Y|Y]; [exact Y|]. apply (A8 Logic.I p o P Y).
  - symmetry. apply OTH. intros j gs X. destruct (ONE _ _ _ _ _ X L2) as [-> _]. exact N.
Qed.
Print Assumptions C78_again.

(** *** Examples and findings *)

Definition one (v : json) : json := JList [JObj [(#"@value", v)]].
Definition entry (id title : str) (types : list str) (total : Z) (more : list (str * json)) : list (str * json) :=
  [(#"@id", JStr id); (#"@type", JList (map JStr types));
   (#"https://www.w3.org/ns/hydra/core#title", one (JStr title));
   (#"https://www.w3.org/ns/hydra/core#totalItems", one (JInt total))] ++ more.
Definition resource : str := #"https://www.w3.org/ns/hydra/core#Resource".
Definition listing : str := #"https://www.w3.org/ns/hydra/core#Collection".
Definition member (l : list (list (str * json))) : str * json :=
  (#"https://www.w3.org/ns/hydra/core#member", JList (map JObj l)).
Definition creator : list (str * json) :=
  [(#"https://w3id.org/dts/api#dublincore",
    JList [JObj [(#"http://purl.org/dc/terms/creator",
                  JList [JObj [(#"@value", JStr #"Homer"); (#"@language", JStr #"en")]])]])].

(** The replies in order. *)
Definition replies (l : list (bool * option (list (str * json)))) (sent : list request) (q : request) : reply :=
  match nth_error l (length sent) with
  | Some (good, Some fs) => MkReply good (Some (false, [JObj fs]))
  | Some (good, None) => MkReply good (Some (true, []))
  | None => MkReply false None
  end.
Definition route_c : route := MkRoute #"/c" [].
Definition start : world := MkWorld [] [] [].
Definition brief : list (str * json) := entry #"a" #"A" [resource] 0 [].
Definition full : list (str * json) := entry #"a" #"A" [resource] 0 creator.
Definition top : list (str * json) := entry #"c" #"C" [listing] 1 [member [brief]].

(** A collection with one member, whose metadata are then retrieved. *)
Definition story : list deed := [Get (Some #"c"); Retrieve 1; Page 0 Children 1].
Definition story_server := replies [(true, Some top); (true, Some full); (true, Some (entry #"c" #"C" [listing] 1 [member [brief]]))].
Example C78_sample :
  let w := after story_server route_c start story in
  succeed story_server route_c start story /\
  learnt story_server route_c start story #"a" full /\
  mentions full (URI #"http://purl.org/dc/terms/creator") (Literal #"Homer" (Some #"en") None) /\
  (forall o, ~ mentions full rdf_type o) /\
  map d_id (w_objs w) = [#"c"; #"a"; #"a"] /\ length (w_sent w) = 3 /\
  size (fun l => l) w 0 = Ok 1%Z /\ readable (fun l => l) w 1 = Ok true /\ readable (fun l => l) w 0 = Ok false /\
  values (fun l => l) w 2 (URI #"http://purl.org/dc/terms/creator") = Ok [Literal #"Homer" (Some #"en") None] /\
  label_of (fun l => l) w 0 None = Ok (Some (Literal #"C" None None)).
Proof.
  cbv zeta. split; [vm_compute; auto|]. split; [|split].
  - exists [Get (Some #"c")], (Retrieve 1), [Page 0 Children 1]. split; [reflexivity|].
    eexists _, false, (JObj full), []. split; [vm_compute; reflexivity|]. split; [vm_compute; reflexivity|].
    apply speaks_self; [reflexivity|vm_compute; reflexivity].
  - eapply (mentions_other full #"https://w3id.org/dts/api#dublincore"); [left; reflexivity|vm_compute; reflexivity|left; reflexivity|left; reflexivity|vm_compute; reflexivity|].
    apply written_in. discriminate.
  - split; [|repeat split; vm_compute; reflexivity].
    intros o M. inversion M as [v o' A B C|v o' A B C|v o' A B C|v o' A B C|group groups rest key js x v o' G F A B C D E]; try (subst; discriminate).
    destruct G as [-> | ->]; vm_compute in F; [|discriminate]. injection F as <- <-. destruct A as [A|[]]. discriminate A.
Qed.

(** The requests of [retrieve] and the hypotheses of [C78_again]. *)
Example C78_meets :
  let s := replies [(true, Some top); (true, Some full); (true, Some full)] in
  let w := after s route_c start [Get (Some #"c")] in
  d_known (obj w 1) = false /\ 1 < length (w_objs w) /\
  exists w1 w2, retrieve s route_c 1 w = (w1, Ok true) /\ retrieve s route_c 1 w1 = (w2, Ok true) /\
    learns s route_c w (Retrieve 1) #"a" full /\ learns s route_c w1 (Retrieve 1) #"a" full /\ typed full [resource].
Proof.
  cbv zeta. split; [vm_compute; reflexivity|]. split; [vm_compute; lia|]. eexists _, _. split; [vm_compute; reflexivity|]. split; [vm_compute; reflexivity|].
  split; [|split].
  - eexists _, false, (JObj full), []. split; [vm_compute; reflexivity|]. split; [vm_compute; reflexivity|]. apply speaks_self; [reflexivity|vm_compute; reflexivity].
  - eexists _, false, (JObj full), []. split; [vm_compute; reflexivity|]. split; [vm_compute; reflexivity|]. apply speaks_self; [reflexivity|vm_compute; reflexivity].
  - vm_compute. reflexivity.
Qed.

(** Retrieved metadata do not make an object complete: each call asks again. *)
Theorem C78_retrieve_once_refuted : exists server r w h w1 w2,
  retrieve server r h w = (w1, Ok true) /\ retrieve server r h w1 = (w2, Ok true) /\
  length (w_sent w1) = S (length (w_sent w)) /\ length (w_sent w2) = S (length (w_sent w1)).
Proof.
  exists (replies [(true, Some top); (true, Some full); (true, Some full)]), route_c.
  exists (after (replies [(true, Some top); (true, Some full); (true, Some full)]) route_c start [Get (Some #"c")]), 1.
  eexists _, _. split; [vm_compute; reflexivity|]. split; [vm_compute; reflexivity|]. split; reflexivity.
Qed.
Print Assumptions C78_retrieve_once_refuted.

(** [retrieve] does not look at the status of the reply: an error page in JSON-LD is
    read as metadata. *)
Theorem C78_status_refuted : exists server r w h w1 o,
  (forall q, p_good (server (w_sent w) q) = false) /\ retrieve server r h w = (w1, Ok true) /\
  ~ has w (d_id (obj w h)) (URI #"http://www.w3.org/2000/01/rdf-schema#label") o /\
  has w1 (d_id (obj w h)) (URI #"http://www.w3.org/2000/01/rdf-schema#label") o.
Proof.
  set (s := replies [(true, Some top); (false, Some (entry #"error" #"Not found" [listing] 0 []))]).
  exists s, route_c, (after s route_c start [Get (Some #"c")]), 1. eexists _, (Literal #"Not found" None None).
  split; [intros q; reflexivity|]. split; [vm_compute; reflexivity|]. split.
  - intros X. vm_compute in X. repeat (destruct X as [X|X]; [discriminate X|]). exact X.
  - vm_compute. repeat (first [left; reflexivity|right]).
Qed.
Print Assumptions C78_status_refuted.

(** A request that fails leaves what it had read: here a page lists a collection
    without types, and the object the caller already had is no longer readable. *)
Theorem C78_failure_refuted : exists server r w d w' h order, arranges order /\
  perform server r d w = (w', Err KeyError) /\ readable order w h = Ok true /\ readable order w' h = Ok false.
Proof.
  set (bad := [(#"@id", JStr #"a"); (#"https://www.w3.org/ns/hydra/core#title", one (JStr #"A"))]).
  set (s := replies [(true, Some top); (true, Some (entry #"c" #"C" [listing] 1 [member [bad]]))]).
  exists s, route_c, (after s route_c start [Get (Some #"c")]), (Page 0 Children 1). eexists _, 1, (fun l => l).
  split; [intros l; apply Permutation_refl|]. split; [vm_compute; reflexivity|]. split; vm_compute; reflexivity.
Qed.
Print Assumptions C78_failure_refuted.

(** When the endpoint changes the number of members, both numbers are kept and the
    size can stay the old one. *)
Theorem C78_new_size_refuted : exists server r w id w' h hs order fs, arranges order /\
  DtsMetaModel.get_metadata server r id w = (w', Ok (h, hs)) /\
  learns server r w (Get id) (d_id (obj w' h)) fs /\
  has_value fs #"https://www.w3.org/ns/hydra/core#totalItems" (JInt 5) /\ size order w' h = Ok 1%Z.
Proof.
  set (fs := entry #"c" #"C" [listing] 5 []).
  set (s := replies [(true, Some top); (true, Some fs)]).
  exists s, route_c, (after s route_c start [Get (Some #"c")]), (Some #"c"). eexists _, 2, [], (fun l => l), fs.
  split; [intros l; apply Permutation_refl|]. split; [vm_compute; reflexivity|]. split; [|split; [|vm_compute; reflexivity]].
  - eexists _, false, (JObj fs), []. split; [vm_compute; reflexivity|]. split; [vm_compute; reflexivity|]. apply speaks_top; vm_compute; reflexivity.
  - eexists _, _. split; [vm_compute; reflexivity|]. split; [left; reflexivity|vm_compute; reflexivity].
Qed.
Print Assumptions C78_new_size_refuted.

(** A reply to [retrieve] is taken to be about the object, whatever identifier it
    gives. *)
Theorem C78_identifier_refuted : exists server r w h w1 fs, retrieve server r h w = (w1, Ok true) /\
  learns server r w (Retrieve h) (d_id (obj w h)) fs /\ field #"@id" fs = Some (JStr #"b") /\ d_id (obj w h) = #"a" /\
  has w1 #"a" (URI #"http://www.w3.org/2000/01/rdf-schema#label") (Literal #"B" None None).
Proof.
  set (fs := entry #"b" #"B" [resource] 0 []).
  set (s := replies [(true, Some top); (true, Some fs)]).
  exists s, route_c, (after s route_c start [Get (Some #"c")]), 1. eexists _, fs.
  split; [vm_compute; reflexivity|]. split; [|split; [reflexivity|split; [vm_compute; reflexivity|]]].
  - eexists _, false, (JObj fs), []. split; [vm_compute; reflexivity|]. split; [vm_compute; reflexivity|]. apply speaks_self; reflexivity.
  - vm_compute. repeat (first [left; reflexivity|right]).
Qed.
Print Assumptions C78_identifier_refuted.
