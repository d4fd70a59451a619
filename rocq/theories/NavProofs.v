(** Proofs about walking through a remote text. *)

From Coq Require Import List NArith ZArith Arith Bool Lia.
From Verif Require Import PyStr PyStrFacts RefModel RefSpec RefProofs UrnModel UrnSpec UrnProofs XmlModel XmlSpec InvModel InvSpec PassageModel ServeModel.
From Verif Require Import TeiModel TeiSpec TeiProofs HttpModel HttpSpec HttpProofs RemoteModel RemoteSpec RemoteProofs TextMetaModel TextMetaSpec TextMetaProofs.
From Verif Require Import NavModel NavSpec.
Import ListNotations.
Open Scope nav_scope.

(** ** Replies *)

Lemma request_learnt : forall x own, repeats_request x ->
  exists e l c, filter (fun t => tag_is (ti #"request") (fst t)) (elements [] x) = e :: l /\ ingest_top x e own = Ok c.
Proof.
  intros x own (p & e & F & H).
  pose proof (first_element (tag_is (ti #"request")) request x (test_one _)) as G.
  destruct (filter _ _) as [|[tags e'] l].
  { exfalso. destruct F as (b & a & _ & (ts & T & K) & _). exact (G _ _ T K). }
  destruct G as (p' & F' & T). cbn [fst snd] in F', T. destruct (first_once _ _ _ _ _ _ F F') as [<- <-]. subst tags.
  destruct (first_in _ _ _ _ F) as [_ A].
  pose proof (ingest_learns x p e own (ex_intro _ _ A)) as L. exists (rev (tags_to x p), e), l.
  inversion L as [N E|k lv S N B LV E|S T B E].
  - eexists. split; reflexivity.
  - eexists. split; reflexivity.
  - exfalso. destruct H as [H|[H [k K]]]; [exact (H T)|]. destruct B as [B|B]; [exact (H B)|exact (B _ K)].
Qed.

Lemma request_there : forall x, repeats_request x -> has_tag x (cts_tag #"request").
Proof.
  intros x R. destruct (request_learnt x [] R) as (e & l & c & F & _).
  apply existsb_tag. apply existsb_exists. exists e.
  assert (I : In e (e :: l)) by (left; reflexivity). rewrite <- F in I. apply filter_In in I. exact I.
Qed.

Lemma passage_made : forall x, repeats_request x -> (exists p e, first_at x passage_tei p e) ->
  exists p e c, first_at x passage_tei p e /\ new_remote x = Ok (e, c).
Proof.
  intros x (q & d & FR & H) (p & e & F). unfold new_remote.
  pose proof (first_element (tag_in (tei #"TEI") (ti #"passage")) passage_tei x (test_two _ _)) as G.
  destruct (filter _ _) as [|[tags e'] l].
  { exfalso. destruct F as (b & a & _ & (ts & T & K) & _). exact (G _ _ T K). }
  destruct G as (p' & F' & T). cbn [fst snd] in *. destruct (first_once _ _ _ _ _ _ F F') as [<- <-].
  pose proof (root_learns x unset) as L. destruct (ingest_top x ([n_tag x], x) unset) as [c|err]; [cbn [bind]; eauto|].
  exfalso. inversion L as [| |S HT B]; subst. destruct H as [H|[H [k K]]]; [exact (H HT)|]. destruct B as [(ts & T' & I)|B].
  - apply H. inversion T'; subst. destruct I as [I|[]].
    destruct FR as (b & a & _ & (ts & T2 & _) & _). exists ts. split; [exact T2|]. inversion T2; subst; left; exact I.
  - pose proof (first_filter x) as FF. destruct (filter cit_test (tl (document_order x))) as [|k0 l0] eqn:Q; [|exact (B _ FF)].
    destruct K as (b & a & E & TK & _).
    assert (I : In k (tl (document_order x))).
    { destruct (first_in _ _ _ _ FR) as [I _].
      assert (Ik : In k (tl (document_order d))) by (rewrite E; apply in_or_app; right; left; reflexivity).
      destruct x as [t at_ tx tl_ kids]. cbn [document_order tl] in I |- *. destruct I as [<-|I]; [exact Ik|].
      apply in_flat_map in I. destruct I as (z & Hz & I). apply in_flat_map. exists z. split; [exact Hz|].
      eapply order_trans; [exact I|]. destruct d. cbn [document_order tl] in Ik |- *. right. exact Ik. }
    assert (X : In k (filter cit_test (tl (document_order x)))).
    { apply filter_In. split; [exact I|]. unfold cit_test. rewrite TK. apply str_eqb_refl. }
    rewrite Q in X. destruct X.
Qed.

Lemma identifiers_once : forall kind x l l', identifiers kind x l -> identifiers kind x l' -> l = l'.
Proof.
  intros kind x l l' (k & Hk & Hl) (k' & Hk' & Hl'). assert (k = k').
  { clear Hl Hl'. revert k' Hk'. induction Hk as [|a b c H1 H2 IH|a b c H1 H2 IH]; intros k' Hk'; inversion Hk'; subst; try contradiction.
    - reflexivity.
    - f_equal. apply IH. assumption.
    - apply IH. assumption. }
  subst k'. clear Hk Hk'. revert l' Hl'. induction Hl as [|s c ss cs H HF IH]; intros l' Hl'; inversion Hl' as [|? c' ? cs' H' HF']; subst; [reflexivity|].
  f_equal; [|apply IH; exact HF'].
  assert (U : forall a b c d : str, ~ In c_colon c -> ~ In c_colon d -> a ++ #":" ++ c = b ++ #":" ++ d -> c = d).
  { induction a as [|z a IHa]; intros b c0 d Hc Hd E; destruct b as [|y b]; cbn in E.
    - injection E as E. exact E.
    - destruct Hc. injection E as E1 E2. rewrite E2. apply in_or_app. right. left. reflexivity.
    - destruct Hd. injection E as E1 E2. rewrite <- E2. apply in_or_app. right. left. reflexivity.
    - injection E as E1 E2. eapply IHa; eassumption. }
  destruct H as [Hc [->|[a E]]], H' as [Hc' [E'|[a' E']]].
  - exact E'.
  - destruct Hc. rewrite E'. apply in_or_app. right. left. reflexivity.
  - destruct Hc'. rewrite <- E', E. apply in_or_app. right. left. reflexivity.
  - apply (U a a'); [exact Hc|exact Hc'|congruence].
Qed.
Lemma siblings_once : forall x p n p' n', siblings_of x p n -> siblings_of x p' n' -> p = p' /\ n = n'.
Proof.
  intros x p n p' n' (e & (b & P & a & E & Ht & HF) & (lp & Hp & ->) & (ln & Hn & ->)) (e' & (b' & P' & a' & E' & Ht' & HF') & (lp' & Hp' & ->) & (ln' & Hn' & ->)).
  assert (e = e').
  { rewrite E in E'. clear E Hp Hn Hp' Hn'. revert b' E' HF'. induction HF as [|[q m] b Hm HF IH]; intros b' E' HF'; destruct HF' as [|[q' m'] b' Hm' HF']; cbn in E'.
    - congruence.
    - injection E' as E1 E2 _. subst m'. destruct Hm'. exact Ht.
    - injection E' as E1 E2 _. subst m. destruct Hm. exact Ht'.
    - injection E' as _ _ E'. exact (IH b' E' HF'). }
  subst e'. split; f_equal; eapply identifiers_once; eassumption.
Qed.
Lemma siblings_read : forall x p n, siblings_of x p n -> read_prevnext x = (Known p, Known n).
Proof.
  intros x p n S. destruct (read_prevnext_spec x) as [(p' & n' & E & S')|[N _]].
  - destruct (siblings_once _ _ _ _ _ S S') as [-> ->]. exact E.
  - exfalso. apply N. destruct S as (e & F & _). eapply first_has. exact F.
Qed.
Lemma no_siblings_read : forall x, ~ has_tag x (tag_of #"prevnext") -> read_prevnext x = (Unknown, Unknown).
Proof.
  intros x N. destruct (read_prevnext_spec x) as [(p' & n' & E & S')|[_ E]]; [|exact E].
  exfalso. apply N. destruct S' as (e & F & _). eapply first_has. exact F.
Qed.
Lemma first_read : forall x o, identifier (fun ts => exists a, ts = a ++ [tag_of #"reply"; tag_of #"urn"]) x o -> read_first x = o.
Proof.
  intros x o (l & I & ->). destruct (read_first_spec x) as (l' & I' & ->). f_equal. eapply identifiers_once; eassumption.
Qed.
Lemma references_read : forall x l, repeats_request x ->
  identifiers (fun ts => exists a b, ts = a ++ [tag_of #"reply"] ++ b ++ [tag_of #"urn"]) x l -> read_reffs x = Ok l.
Proof.
  intros x l R I. destruct (proj1 (read_reffs_spec x) (request_there x R)) as (l' & E & I'). rewrite E. f_equal. eapply identifiers_once; eassumption.
Qed.

(** ** Lists of references *)

Lemma same_ref_eq : forall a b, same_ref a b = true <-> a = b.
Proof. intros a b. unfold same_ref. destruct (list_eq_dec _ a b); split; congruence. Qed.
Lemma after_in : forall l r q, after r l = Some q -> In q l.
Proof.
  induction l as [|a l IH]; intros r q H; [discriminate|]. cbn in H. destruct (same_ref a r).
  - right. destruct l as [|b l]; [discriminate|]. injection H as <-. left. reflexivity.
  - right. eapply IH. exact H.
Qed.
Lemma hd_in : forall {A} (l : list A) x, hd_error l = Some x -> In x l.
Proof. intros A [|a l] x H; [discriminate|]. injection H as ->. left. reflexivity. Qed.
Lemma rev_in : forall {A} (l : list A) x t, rev l = x :: t -> In x l.
Proof. intros A l x t H. apply in_rev. rewrite H. left. reflexivity. Qed.

(** ** Addresses *)

Lemma names_plain : forall r, r <> [] -> Forall name_of_unit r -> plain_levels r.
Proof. intros r N F. split; [exact N|]. eapply Forall_impl; [|exact F]. intros a [H _]. exact H. Qed.
Lemma names_written : forall r, r <> [] -> Forall name_of_unit r -> plain_ref (write_levels r).
Proof.
  intros r N F. split; [|split].
  - intros X. pose proof (write_passage_nonnil r None (names_plain r N F)) as Y. unfold write_passage in Y. rewrite X in Y. apply Y. reflexivity.
  - intros X. apply mem_In in X. rewrite write_levels_join, mem_join in X; [discriminate|reflexivity|].
    eapply Forall_impl; [|exact F]. intros a (_ & H & _). apply not_mem. exact H.
  - intros X. apply mem_In in X. rewrite write_levels_join, mem_join in X; [discriminate|reflexivity|].
    eapply Forall_impl; [|exact F]. intros a (_ & _ & H). apply not_mem. exact H.
Qed.
Lemma write_alone : forall r, write_passage r None = write_levels r.
Proof. intros r. unfold write_passage. apply app_nil_r. Qed.

Definition whole_ref (r : list str) : ref := MkRef (write_levels r) None (write_levels r).
Lemma written_reference : forall r, r <> [] -> Forall name_of_unit r -> cts_reference (VStr (write_levels r)) = Ok (Some (whole_ref r)).
Proof.
  intros r N F. unfold cts_reference. cbn [val_truthy val_str]. pose proof (names_written r N F) as [X _].
  destruct (write_levels r) as [|a s] eqn:E; [congruence|]. cbn [truthy negb]. rewrite <- E.
  rewrite cts_reference_string_single; [reflexivity|].
  rewrite <- write_alone. apply write_passage_no_dash; [exact (names_plain r N F)|exact I].
Qed.

Section Served.
Variables (ns cts : str) (wp : work_part) (E : nat -> call -> result XmlModel.node) (c : contents).
Hypothesis Hns : plain_ns ns.
Hypothesis Hcts : plain_ns cts.
Hypothesis Hp : plain_part wp.
Hypothesis Hsize : 2 <= part_size wp.
Hypothesis RC : readable c.
Let text := write_urn ns cts wp None.
Hypothesis SV : serves E text c.

(** The URN that is read from the address of a reference. *)
Definition place_urn (r : list str) : urn :=
  match r with
  | [] => parsed_urn ns cts wp None None
  | _ => parsed_urn ns cts wp (Some (write_levels r)) (Some (whole_ref r))
  end.
Lemma known_names : forall r, known_ref c r -> Forall name_of_unit r.
Proof using RC. intros r [->|H]; [constructor|]. eapply (rd_names c RC). exact H. Qed.
Lemma work_there : wp <> NoWork.
Proof using Hsize. clear - Hsize. destruct wp; cbn in Hsize; [lia|discriminate..]. Qed.
Definition passage_text (r : list str) : option str := match r with [] => None | _ => Some (write_levels r) end.
Lemma address_written : forall r, address text r = write_urn ns cts wp (passage_text r).
Proof using. intros [|a r]; [reflexivity|]. unfold address, text. rewrite write_colon. reflexivity. Qed.
Lemma passage_written : forall r, known_ref c r -> written_ref wp (passage_text r).
Proof using RC Hsize.
  intros r K. pose proof (known_names r K) as F. destruct r as [|a r]; [exact I|]. split; [exact work_there|].
  apply names_written; [discriminate|exact F].
Qed.
Lemma place_parsed : forall r, known_ref c r -> urn_parse (address text r) = Ok (place_urn r).
Proof using RC Hsize Hp Hcts Hns.
  intros r K. rewrite address_written. pose proof (known_names r K) as F. destruct r as [|a r].
  - apply urn_parse_written; auto.
  - cbn [passage_text place_urn]. apply urn_parse_written; auto. split; [exact work_there|]. split.
    + apply names_written; [discriminate|exact F].
    + apply written_reference; [discriminate|exact F].
Qed.
Lemma place_parsed' : forall r, known_ref c r -> urn_parse (write_urn ns cts wp (passage_text r)) = Ok (place_urn r).
Proof using RC Hsize Hp Hcts Hns. intros r K. rewrite <- address_written. apply place_parsed. exact K. Qed.
Lemma place_str : forall r, known_ref c r -> to_str (place_urn r) = Ok (address text r).
Proof using RC Hsize Hp Hcts Hns.
  intros r K. rewrite address_written. eapply addr_str; eauto using passage_written, place_parsed'.
Qed.
Lemma place_level : forall r z, known_ref c r -> reffs_level (place_urn r) z = (z + Z.of_nat (length r))%Z.
Proof using RC Hsize Hp Hcts Hns.
  intros r z K. pose proof (known_names r K) as F. destruct r as [|a r]; [cbn; lia|].
  unfold reffs_level. cbn [place_urn u_ref parsed_urn]. f_equal. f_equal.
  unfold whole_ref. rewrite <- write_alone. apply (depth_range_plain (a :: r) None (a :: r) None); try exact I; apply names_plain; auto; discriminate.
Qed.
Lemma place_node : forall r q, known_ref c r -> known_ref c q -> q <> [] ->
  asked_node (place_urn r) (ByText (write_levels q)) = Ok (address text q).
Proof using RC Hsize Hp Hcts Hns.
  intros r q K Kq N. rewrite address_written. destruct q as [|a q]; [congruence|]. cbn [passage_text].
  eapply (addr_text ns cts wp (passage_text r)); eauto using passage_written, place_parsed'.
  apply (names_written (a :: q)); [discriminate|apply known_names; exact Kq].
Qed.
Lemma place_sibling : forall r, known_ref c r -> r <> [] -> passage_request (place_urn r) = Ok (address text r).
Proof using RC Hsize Hp Hcts Hns.
  intros r K N. rewrite address_written. unfold passage_request.
  assert (X : item_str (u_ref (place_urn r)) = write_levels r) by (destruct r; [congruence|reflexivity]). rewrite X.
  erewrite (addr_sibling ns cts wp (passage_text r)); eauto using passage_written, place_parsed'. destruct r; [congruence|reflexivity].
Qed.
Lemma place_parent : forall a b r, known_ref c (a :: b :: r) -> ref_parent (whole_ref (a :: b :: r)) = Ok (Some (whole_ref (removelast (a :: b :: r)))).
Proof using RC.
  intros a b r K. pose proof (known_names _ K) as F. set (l := removelast (a :: b :: r)).
  assert (X : a :: b :: r = l ++ [last (a :: b :: r) a]) by (apply app_removelast_last; discriminate).
  assert (N : l <> []) by (unfold l; discriminate).
  rewrite X in F. apply Forall_app in F. destruct F as [F1 F2]. inversion F2 as [|? ? [F3 _] _]; subst.
  unfold whole_ref. rewrite X. rewrite <- !write_alone. apply parent_step; [apply names_plain; assumption|exact F3|exact I].
Qed.
Lemma place_top : forall a, known_ref c [a] -> ref_parent (whole_ref [a]) = Ok None.
Proof using RC.
  intros a K. pose proof (known_names _ K) as F. unfold whole_ref. rewrite <- !write_alone. apply parent_top; [|exact I].
  apply names_plain; [discriminate|exact F].
Qed.

(** ** References there are *)

Lemma below_known : forall r k q, In q (below c r k) -> k <> 0 -> known_ref c q /\ q <> [].
Proof using RC.
  intros r k q H N. apply filter_In in H. destruct H as [H _]. pose proof (rd_length c RC _ _ H) as L. split.
  - right. rewrite L. exact H.
  - intros ->. cbn in L. congruence.
Qed.
Lemma child_known : forall r q, In q (children_of c r) -> known_ref c q /\ q <> [].
Proof using RC. intros r q H. eapply below_known; [exact H|discriminate]. Qed.
Lemma neighbour_known : forall r q l, r <> [] -> after r l = Some q -> (forall x, In x l -> In x (c (length r))) -> known_ref c q /\ q <> [].
Proof using RC.
  intros r q l N A I. apply after_in in A. apply I in A. pose proof (rd_length c RC _ _ A) as L. split.
  - right. rewrite L. exact A.
  - intros ->. destruct r; [congruence|discriminate].
Qed.
Lemma next_known : forall r q, r <> [] -> next_of c r = Some q -> known_ref c q /\ q <> [].
Proof using RC. intros r q N A. eapply neighbour_known; eauto. Qed.
Lemma previous_known : forall r q, r <> [] -> previous_of c r = Some q -> known_ref c q /\ q <> [].
Proof using RC. intros r q N A. eapply neighbour_known; eauto. intros x H. apply in_rev. exact H. Qed.
Lemma above_known : forall a b r, known_ref c (a :: b :: r) -> known_ref c (removelast (a :: b :: r)) /\ removelast (a :: b :: r) <> [].
Proof using RC.
  intros a b r [K|K]; [discriminate|]. set (l := removelast (a :: b :: r)).
  assert (X : a :: b :: r = l ++ [last (a :: b :: r) a]) by (apply app_removelast_last; discriminate).
  assert (N : l <> []) by (unfold l; discriminate). split; [|exact N].
  right. rewrite X in K. rewrite app_length in K. cbn [length] in K. rewrite Nat.add_1_r in K.
  eapply (rd_above c RC); [exact N|exact K].
Qed.

(** ** Objects *)

Definition told_siblings (r : list str) (o : remote) : Prop :=
  r_prev o = Known (option_map write_levels (previous_of c r)) /\ r_next o = Known (option_map write_levels (next_of c r)).
Record fits (p : place) (o : remote) : Prop := {
  f_urn : r_urn o = place_urn (ref_at p);
  f_kind : r_passage o = match p with TheText => false | _ => true end;
  f_known : known_ref c (ref_at p);
  f_place : p <> Passage [];
  f_sib : match p with Passage r => (r_prev o = Unknown /\ r_next o = Unknown) \/ told_siblings r o | _ => True end;
  f_children : r_children o = None \/ r_children o = Some (map write_levels (children_of c (ref_at p)));
  f_first : r_first o = None \/ r_first o = Some (option_map write_levels (hd_error (children_of c (ref_at p))));
  f_last : r_last o = None \/ exists q l, rev (children_of c (ref_at p)) = q :: l /\ r_last o = Some (write_levels q);
  f_xml : p <> TheText -> exists n x q e, E n (MkCall #"GetPassage" (address text (ref_at p)) None) = Ok x /\
     first_at x passage_tei q e /\ r_xml o = Some e
}.
Definition holds (ps : list place) (w : world) : Prop := Forall2 fits ps (w_objs w).

Lemma holds_nth : forall ps os i p, Forall2 fits ps os -> nth_error ps i = Some p -> fits p (nth i os blank).
Proof using.
  intros ps os i p H. revert i. induction H as [|q o ps os F H IH]; intros [|i] N; try discriminate.
  - injection N as ->. exact F.
  - apply IH. exact N.
Qed.
Lemma holds_change : forall ps w i p f, holds ps w -> nth_error ps i = Some p -> (forall o, fits p o -> fits p (f o)) ->
  exists w', change i f w = (w', Ok tt) /\ holds ps w' /\ nth i (w_objs w') blank = f (nth i (w_objs w) blank) /\ w_log w' = w_log w.
Proof using.
  intros ps w i p f H N F. unfold change. eexists. split; [reflexivity|]. unfold holds in *. cbn [w_objs w_log].
  split; [|split; [|reflexivity]].
  - revert i N. induction H as [|q o ps os Fo H IH]; intros [|i] N; try discriminate; cbn [change_at].
    + injection N as ->. constructor; auto.
    + constructor; auto.
  - revert i N. induction H as [|q o ps os Fo H IH]; intros [|i] N; try discriminate; cbn [change_at nth]; auto.
Qed.
Lemma holds_length : forall ps w, holds ps w -> length (w_objs w) = length ps.
Proof using. intros ps w H. induction H; cbn; congruence. Qed.

Lemma cite_fits : forall p l o, fits p o -> fits p (with_cite l o).
Proof using. intros p l o []. split; assumption. Qed.
Lemma children_fits : forall p o, fits p o -> fits p (with_children (map write_levels (children_of c (ref_at p))) o).
Proof using. intros p o []. split; try assumption. right. reflexivity. Qed.
Lemma first_fits : forall p o, fits p o -> fits p (with_first (option_map write_levels (hd_error (children_of c (ref_at p)))) o).
Proof using. intros p o []. split; try assumption. right. reflexivity. Qed.
Lemma last_fits : forall p o q l, rev (children_of c (ref_at p)) = q :: l -> fits p o -> fits p (with_last (write_levels q) o).
Proof using. intros p o q l R []. split; try assumption. right. exists q, l. split; [exact R|reflexivity]. Qed.

Lemma asked_holds : forall ps w cl, holds ps w -> holds ps (MkWorld (w_objs w) (w_log w ++ [cl])).
Proof using. intros ps w cl H. exact H. Qed.

Lemma learnt : forall ps w i p x, holds ps w -> nth_error ps i = Some p -> repeats_request x ->
  exists w', learn_request i x w = (w', Ok tt) /\ holds ps w'.
Proof using.
  intros ps w i p x H N R. unfold learn_request, andthen, look. cbn beta iota zeta.
  destruct (request_learnt x (r_cite (nth i (w_objs w) blank)) R) as (e & l & cc & F & G). rewrite F. unfold lift. rewrite G.
  destruct (holds_change ps w i p (with_cite cc) H N (cite_fits p cc)) as (w' & C & H' & _). rewrite C. eauto.
Qed.

Lemma reffs_run : forall ps w i p k, holds ps w -> nth_error ps i = Some p -> 1 <= k ->
  exists w', get_remote_reffs E i (Z.of_nat k) None w = (w', Ok (map write_levels (below c (ref_at p) (k + length (ref_at p))))) /\ holds ps w'.
Proof using SV RC Hsize Hp Hcts Hns.
  intros ps w i p k H N K. pose proof (holds_nth _ _ _ _ H N) as F. pose proof (f_known _ _ F) as KN.
  unfold get_remote_reffs, get_valid_reff, andthen at 1, look at 1. cbn beta iota zeta. unfold andthen at 1, look at 1. cbn beta iota zeta.
  rewrite (f_urn _ _ F), place_level by exact KN. cbn [asked_below]. rewrite place_str by exact KN.
  unfold lift at 1, andthen at 1. cbn beta iota zeta.
  assert (V : forall m, valid_level m (Z.of_nat k + Z.of_nat (length (ref_at p))) = Z.of_nat (k + length (ref_at p))).
  { intros m. unfold valid_level. destruct (Z.eqb_spec (Z.of_nat k + Z.of_nat (length (ref_at p))) (-1)); lia. }
  rewrite V. unfold andthen at 1, ask_for.
  destruct (sv_references E text c SV (length (w_log w)) (ref_at p) (k + length (ref_at p)) KN ltac:(lia)) as (x & X & R & I).
  rewrite X. cbn beta iota zeta.
  destruct (learnt ps _ i p x (asked_holds _ _ (MkCall #"GetValidReff" (address text (ref_at p)) (Some (Z.of_nat (k + length (ref_at p))))) H) N R) as (w' & L & H').
  unfold andthen. rewrite L. unfold lift. rewrite (references_read x _ R I). eauto.
Qed.

Lemma node_run : forall ps w i p a q, holds ps w -> nth_error ps i = Some p -> known_ref c (ref_at q) -> q <> Passage [] -> q <> TheText ->
  asked_node (place_urn (ref_at p)) a = Ok (address text (ref_at q)) ->
  exists w', get_remote_node E i a w = (w', Ok (length ps)) /\ holds (ps ++ [q]) w'.
Proof using SV RC Hsize Hp Hcts Hns.
  intros ps w i p a q H N KQ NQ NT A. pose proof (holds_nth _ _ _ _ H N) as F.
  unfold get_remote_node, andthen at 1, look at 1. cbn beta iota zeta. rewrite (f_urn _ _ F), A.
  unfold lift at 1, andthen at 1. cbn beta iota zeta. unfold andthen at 1, ask_for.
  destruct (sv_passage E text c SV (length (w_log w)) (ref_at q) KQ) as (x & X & R & T & S).
  rewrite X. cbn beta iota zeta.
  destruct (learnt ps _ i p x (asked_holds _ _ (MkCall #"GetPassage" (address text (ref_at q)) None) H) N R) as (w' & L & H').
  unfold andthen at 1. rewrite L. unfold make_passage, andthen at 1, lift at 1. rewrite place_parsed by exact KQ.
  destruct (passage_made x R T) as (pp & e & cc & FA & NR). unfold andthen at 1, lift at 1. rewrite NR. cbn [fst snd].
  destruct (read_prevnext x) as [sp sn] eqn:PN. unfold make. rewrite (holds_length _ _ H').
  eexists. split; [reflexivity|]. unfold holds. cbn [w_objs]. apply Forall2_app; [exact H'|]. constructor; [|constructor].
  split; cbn; try (left; reflexivity); auto.
  - destruct q; congruence || reflexivity.
  - destruct q as [| |r]; try exact I. unfold told_siblings. cbn [r_prev r_next].
    assert (Nr : r <> []) by congruence. destruct (S Nr) as [S1|S1].
    + rewrite (no_siblings_read _ S1) in PN. injection PN as <- <-. left. auto.
    + rewrite (siblings_read _ _ _ S1) in PN. injection PN as <- <-. right. auto.
  - intros _. exists (length (w_log w)), x, pp, e. auto.
Qed.
Lemma node_ref_run : forall ps w i p r, holds ps w -> nth_error ps i = Some p -> known_ref c r -> r <> [] ->
  exists w', get_remote_node E i (ByText (write_levels r)) w = (w', Ok (length ps)) /\ holds (ps ++ [Passage r]) w'.
Proof using SV RC Hsize Hp Hcts Hns.
  intros ps w i p r H N K NR. apply (node_run ps w i p _ (Passage r)); auto; try congruence.
  cbn [ref_at]. apply place_node; auto. exact (f_known _ _ (holds_nth _ _ _ _ H N)).
Qed.

Lemma siblings_run : forall ps w i r, holds ps w -> nth_error ps i = Some (Passage r) ->
  exists w', ask_siblings E i w = (w', Ok tt) /\ holds ps w' /\ told_siblings r (nth i (w_objs w') blank) /\ r_passage (nth i (w_objs w') blank) = true.
Proof using SV RC Hsize Hp Hcts Hns.
  intros ps w i r H N. pose proof (holds_nth _ _ _ _ H N) as F. pose proof (f_known _ _ F) as KN. pose proof (f_place _ _ F) as NP.
  assert (NR : r <> []) by congruence. cbn [ref_at] in KN.
  unfold ask_siblings, andthen at 1, look at 1. cbn beta iota zeta. rewrite (f_urn _ _ F). cbn [ref_at]. rewrite place_sibling by assumption.
  unfold lift at 1, andthen at 1. cbn beta iota zeta. unfold andthen at 1, ask_for.
  destruct (sv_siblings E text c SV (length (w_log w)) r KN NR) as (x & X & S). rewrite X. cbn beta iota zeta.
  rewrite (siblings_read _ _ _ S).
  edestruct (holds_change ps (MkWorld (w_objs w) (w_log w ++ [MkCall #"GetPrevNextUrn" (address text r) None])) i (Passage r)
    (with_siblings (Known (option_map write_levels (previous_of c r))) (Known (option_map write_levels (next_of c r)))))
    as (w' & C & H' & O & _); [exact H|exact N| |].
  - intros o []. split; try assumption. cbn. right. split; reflexivity.
  - rewrite C. exists w'. split; [reflexivity|]. split; [exact H'|]. rewrite O. split; [split; reflexivity|exact (f_kind _ _ F)].
Qed.

Lemma known_unknown : forall s, unknown (Known s) = false.
Proof using. reflexivity. Qed.

Lemma prev_run : forall ps w i r, holds ps w -> nth_error ps i = Some (Passage r) ->
  exists w', prev_id E i w = (w', Ok (Known (option_map write_levels (previous_of c r)))) /\ holds ps w'.
Proof using SV RC Hsize Hp Hcts Hns.
  intros ps w i r H N. pose proof (holds_nth _ _ _ _ H N) as F.
  unfold prev_id, andthen at 1, look at 1. cbn beta iota zeta. rewrite (f_kind _ _ F).
  destruct (f_sib _ _ F) as [[S1 S2]|[S1 S2]]; rewrite S1; cbn [unknown].
  - destruct (siblings_run ps w i r H N) as (w' & Q & H' & [T1 T2] & _). unfold andthen. rewrite Q. unfold look. cbn beta iota zeta.
    unfold ret. rewrite T1. eauto.
  - unfold andthen, ret, look. cbn beta iota zeta. rewrite S1. eauto.
Qed.
Lemma next_run : forall ps w i r, holds ps w -> nth_error ps i = Some (Passage r) ->
  exists w', next_id E i w = (w', Ok (Known (option_map write_levels (next_of c r)))) /\ holds ps w'.
Proof using SV RC Hsize Hp Hcts Hns.
  intros ps w i r H N. pose proof (holds_nth _ _ _ _ H N) as F.
  unfold next_id, andthen at 1, look at 1. cbn beta iota zeta. rewrite (f_kind _ _ F).
  destruct (f_sib _ _ F) as [[S1 S2]|[S1 S2]]; rewrite S2; cbn [unknown].
  - destruct (siblings_run ps w i r H N) as (w' & Q & H' & [T1 T2] & _). unfold andthen. rewrite Q. unfold look. cbn beta iota zeta.
    unfold ret. rewrite T2. eauto.
  - unfold andthen, ret, look. cbn beta iota zeta. rewrite S2. eauto.
Qed.
Lemma both_run : forall ps w i r, holds ps w -> nth_error ps i = Some (Passage r) ->
  exists w', siblings_id E i w = (w', Ok (Known (option_map write_levels (previous_of c r)), Known (option_map write_levels (next_of c r)))) /\ holds ps w'.
Proof using SV RC Hsize Hp Hcts Hns.
  intros ps w i r H N. pose proof (holds_nth _ _ _ _ H N) as F.
  unfold siblings_id, andthen at 1, look at 1. cbn beta iota zeta. rewrite (f_kind _ _ F).
  destruct (f_sib _ _ F) as [[S1 S2]|[S1 S2]]; rewrite S1, S2; cbn [unknown orb].
  - destruct (siblings_run ps w i r H N) as (w' & Q & H' & [T1 T2] & _). unfold andthen. rewrite Q. unfold look. cbn beta iota zeta.
    unfold ret. rewrite T1, T2. eauto.
  - unfold andthen, ret, look. cbn beta iota zeta. rewrite S1, S2. eauto.
Qed.

Lemma children_run : forall ps w i p, holds ps w -> nth_error ps i = Some p ->
  exists w', children_ids E i w = (w', Ok (map write_levels (children_of c (ref_at p)))) /\ holds ps w'.
Proof using SV RC Hsize Hp Hcts Hns.
  intros ps w i p H N. pose proof (holds_nth _ _ _ _ H N) as F.
  unfold children_ids, andthen at 1, look at 1. cbn beta iota zeta. destruct (f_children _ _ F) as [C|C]; rewrite C.
  - destruct (reffs_run ps w i p 1 H N (le_n 1)) as (w1 & R & H1). unfold andthen at 1. change 1%Z with (Z.of_nat 1). rewrite R.
    destruct (holds_change ps w1 i p _ H1 N (children_fits p)) as (w2 & C2 & H2 & _). change (1 + length (ref_at p)) with (S (length (ref_at p))). fold (children_of c (ref_at p)).
    unfold andthen. rewrite C2. unfold ret. eauto.
  - unfold ret. eauto.
Qed.
Lemma first_run : forall ps w i p, holds ps w -> nth_error ps i = Some p ->
  exists w', remote_first_id E i w = (w', Ok (option_map write_levels (hd_error (children_of c (ref_at p))))) /\ holds ps w'.
Proof using SV RC Hsize Hp Hcts Hns.
  intros ps w i p H N. pose proof (holds_nth _ _ _ _ H N) as F. pose proof (f_known _ _ F) as KN.
  unfold remote_first_id, andthen at 1, look at 1. cbn beta iota zeta. destruct (f_first _ _ F) as [C|C]; rewrite C; [|unfold ret; eauto].
  rewrite (f_urn _ _ F). cbn [asked_first]. rewrite place_str by exact KN. unfold andthen at 1, lift at 1. unfold andthen at 1, ask_for.
  destruct (sv_first E text c SV (length (w_log w)) (ref_at p) KN) as (x & X & I). rewrite X. rewrite (first_read _ _ I).
  edestruct (holds_change ps (MkWorld (w_objs w) (w_log w ++ [MkCall #"GetFirstUrn" (address text (ref_at p)) None])) i p) as (w2 & C2 & H2 & _); [exact H|exact N|exact (first_fits p)|].
  cbn zeta. unfold andthen. rewrite C2. unfold ret. eauto.
Qed.
Lemma last_run : forall ps w i p, holds ps w -> nth_error ps i = Some p ->
  exists w', remote_last_id E i w = (w', match rev (children_of c (ref_at p)) with q :: _ => Ok (write_levels q) | [] => Err IndexError end) /\ holds ps w'.
Proof using SV RC Hsize Hp Hcts Hns.
  intros ps w i p H N. pose proof (holds_nth _ _ _ _ H N) as F.
  unfold remote_last_id, andthen at 1, look at 1. cbn beta iota zeta. destruct (f_last _ _ F) as [C|(q & l & R & C)]; rewrite C.
  - destruct (children_run ps w i p H N) as (w1 & Q & H1). unfold andthen at 1. rewrite Q. rewrite <- map_rev.
    destruct (rev (children_of c (ref_at p))) as [|q l] eqn:R; cbn [map]; [unfold fail; eauto|].
    destruct (holds_change ps w1 i p _ H1 N (fun o => last_fits p o q l R)) as (w2 & C2 & H2 & _).
    unfold andthen. rewrite C2. unfold ret. eauto.
  - rewrite R. unfold ret. eauto.
Qed.
Lemma each_run : forall l ps w i p, holds ps w -> nth_error ps i = Some p -> (forall q, In q l -> known_ref c q /\ q <> []) ->
  exists w', get_each E i (map write_levels l) w = (w', Ok (seq (length ps) (length l))) /\ holds (ps ++ map Passage l) w'.
Proof using SV RC Hsize Hp Hcts Hns.
  induction l as [|q l IH]; intros ps w i p H N K; cbn [map get_each length seq].
  - unfold ret. rewrite app_nil_r. eauto.
  - destruct (K q (or_introl eq_refl)) as [K1 K2]. destruct (node_ref_run ps w i p q H N K1 K2) as (w1 & Q & H1).
    unfold andthen at 1. rewrite Q.
    destruct (IH (ps ++ [Passage q]) w1 i p H1) as (w2 & Q2 & H2); [rewrite nth_error_app1; [exact N|apply nth_error_Some; congruence]|intros q0 I0; apply K; right; exact I0|].
    unfold andthen. rewrite Q2. unfold ret. rewrite app_length, Nat.add_1_r. rewrite <- app_assoc in H2. cbn [length]. eauto.
Qed.

(** ** Moves *)

Lemma one_new : forall ps q w, holds (ps ++ [q]) w -> holds (ps ++ arrivals (Moves [q])) w.
Proof using. auto. Qed.
Lemma no_new : forall ps w, holds ps w -> holds (ps ++ []) w.
Proof using. intros ps w H. rewrite app_nil_r. exact H. Qed.

Lemma sibling_move : forall ps w i r (id : nat -> M sibling) q, holds ps w -> nth_error ps i = Some (Passage r) ->
  (forall w0, holds ps w0 -> exists w', id i w0 = (w', Ok (Known (option_map write_levels q))) /\ holds ps w') ->
  (forall x, q = Some x -> known_ref c x /\ x <> []) ->
  exists w', answered ANew (go_sibling E i id w) =
      (w', ANew (seq (length ps) (length (match q with Some x => [Passage x] | None => [] end)))) /\
    holds (ps ++ match q with Some x => [Passage x] | None => [] end) w'.
Proof using SV RC Hsize Hp Hcts Hns.
  intros ps w i r id q H N R K. destruct (R w H) as (w1 & Q1 & H1). destruct q as [x|]; cbn [option_map] in *.
  - destruct (R w1 H1) as (w2 & Q2 & H2). destruct (K x eq_refl) as [K1 K2].
    destruct (node_ref_run ps w2 i _ x H2 N K1 K2) as (w3 & Q3 & H3).
    assert (G : go_sibling E i id w = (w3, Ok [length ps])).
    { unfold go_sibling, andthen. rewrite Q1, Q2. cbn [sibling_arg]. rewrite Q3. reflexivity. }
    unfold answered. rewrite G. cbn. eauto.
  - assert (G : go_sibling E i id w = (w1, Ok [])) by (unfold go_sibling, andthen; rewrite Q1; reflexivity).
    unfold answered. rewrite G. cbn. rewrite app_nil_r. eauto.
Qed.

Lemma move_run : forall ps w i p m o, holds ps w -> nth_error ps i = Some p -> expected c p m o ->
  exists w', make_move E w i m = (w', shown (length ps) o) /\ holds (ps ++ arrivals o) w'.
Proof using SV RC Hsize Hp Hcts Hns.
  intros ps w i p m o H N X. pose proof (holds_nth _ _ _ _ H N) as F. pose proof (f_known _ _ F) as KN.
  destruct m; cbn [expected] in X; unfold make_move.
  - destruct (children_run ps w i p H N) as (w' & Q & H'). subst o. unfold answered. rewrite Q. exists w'. split; [reflexivity|apply no_new; exact H'].
  - destruct (first_run ps w i p H N) as (w' & Q & H'). subst o. unfold answered. rewrite Q. exists w'. split; [reflexivity|apply no_new; exact H'].
  - destruct (last_run ps w i p H N) as (w' & Q & H'). unfold answered. rewrite Q. exists w'. subst o.
    destruct (rev (children_of c (ref_at p))); (split; [reflexivity|apply no_new; exact H']).
  - destruct p as [| |r]; [|destruct X|].
    + subst o. unfold answered, prev_id, andthen, look. rewrite (f_kind _ _ F). exists w. split; [reflexivity|apply no_new; exact H].
    + destruct (prev_run ps w i r H N) as (w' & Q & H'). subst o. unfold answered. rewrite Q. exists w'. split; [reflexivity|apply no_new; exact H'].
  - destruct p as [| |r]; [|destruct X|].
    + subst o. unfold answered, next_id, andthen, look. rewrite (f_kind _ _ F). exists w. split; [reflexivity|apply no_new; exact H].
    + destruct (next_run ps w i r H N) as (w' & Q & H'). subst o. unfold answered. rewrite Q. exists w'. split; [reflexivity|apply no_new; exact H'].
  - destruct p as [| |r]; [|destruct X|].
    + subst o. unfold answered, siblings_id, andthen, look. rewrite (f_kind _ _ F). exists w. split; [reflexivity|apply no_new; exact H].
    + destruct (both_run ps w i r H N) as (w' & Q & H'). subst o. unfold answered. rewrite Q. exists w'. split; [reflexivity|apply no_new; exact H'].
  - unfold answered, remote_parent_id, andthen, look. rewrite (f_kind _ _ F), (f_urn _ _ F).
    destruct p as [| |[|a [|b r]]]; try (destruct X; fail); cbn [ref_at place_urn u_ref parsed_urn];
      try (subst o; exists w; split; [reflexivity|apply no_new; exact H]).
    + unfold andthen, lift. rewrite place_top by exact KN. subst o. exists w. split; [reflexivity|apply no_new; exact H].
    + unfold andthen, lift. rewrite place_parent by exact KN. subst o. exists w. split; [reflexivity|apply no_new; exact H].
  - destruct (children_run ps w i p H N) as (w1 & Q & H1).
    destruct (each_run (children_of c (ref_at p)) ps w1 i p H1 N) as (w2 & Q2 & H2); [intros q I; exact (child_known (ref_at p) q I)|].
    subst o. unfold answered, go_children, andthen. rewrite Q, Q2. exists w2. cbn [fst snd shown arrivals]. rewrite map_length. split; [reflexivity|exact H2].
  - destruct (first_run ps w i p H N) as (w1 & Q & H1). subst o.
    destruct (hd_error (children_of c (ref_at p))) as [q|] eqn:HD; cbn [option_map] in Q.
    + destruct (child_known _ _ (hd_in _ _ HD)) as [K1 K2]. destruct (first_run ps w1 i p H1 N) as (w2 & Q2 & H2). rewrite HD in Q2. cbn [option_map] in Q2.
      destruct (node_ref_run ps w2 i p q H2 N K1 K2) as (w3 & Q3 & H3). assert (G : go_first E i w = (w3, Ok [length ps])) by (unfold go_first, andthen; rewrite Q, Q2, Q3; reflexivity).
      unfold answered. rewrite G. exists w3. split; [reflexivity|exact H3].
    + assert (G : go_first E i w = (w1, Ok [])) by (unfold go_first, andthen; rewrite Q; reflexivity).
      unfold answered. rewrite G. exists w1. split; [reflexivity|apply no_new; exact H1].
  - destruct (last_run ps w i p H N) as (w1 & Q & H1). subst o.
    destruct (rev (children_of c (ref_at p))) as [|q l] eqn:HD.
    + assert (G : go_last E i w = (w1, Err IndexError)) by (unfold go_last, andthen; rewrite Q; reflexivity).
      unfold answered. rewrite G. exists w1. split; [reflexivity|apply no_new; exact H1].
    + destruct (child_known _ _ (rev_in _ _ _ HD)) as [K1 K2]. destruct (last_run ps w1 i p H1 N) as (w2 & Q2 & H2). rewrite HD in Q2.
      destruct (node_ref_run ps w2 i p q H2 N K1 K2) as (w3 & Q3 & H3). assert (G : go_last E i w = (w3, Ok [length ps])) by (unfold go_last, andthen; rewrite Q, Q2, Q3; reflexivity).
      unfold answered. rewrite G. exists w3. split; [reflexivity|exact H3].
  - destruct p as [| |r]; [|destruct X|].
    + subst o. unfold answered, go_sibling, prev_id, andthen, look. rewrite (f_kind _ _ F). exists w. split; [reflexivity|apply no_new; exact H].
    + assert (NR : r <> []) by (pose proof (f_place _ _ F); congruence).
      destruct (sibling_move ps w i r (prev_id E) (previous_of c r) H N) as (w' & Q & H').
      * intros w0 H0. apply prev_run; assumption.
      * intros x Hx. eapply previous_known; eassumption.
      * rewrite Q. subst o. exists w'. destruct (previous_of c r); (split; [reflexivity|exact H']).
  - destruct p as [| |r]; [|destruct X|].
    + subst o. unfold answered, go_sibling, next_id, andthen, look. rewrite (f_kind _ _ F). exists w. split; [reflexivity|apply no_new; exact H].
    + assert (NR : r <> []) by (pose proof (f_place _ _ F); congruence).
      destruct (sibling_move ps w i r (next_id E) (next_of c r) H N) as (w' & Q & H').
      * intros w0 H0. apply next_run; assumption.
      * intros x Hx. eapply next_known; eassumption.
      * rewrite Q. subst o. exists w'. destruct (next_of c r); (split; [reflexivity|exact H']).
  - unfold answered, go_parent, remote_parent_id, andthen, look. rewrite (f_kind _ _ F), (f_urn _ _ F).
    destruct p as [| |[|a [|b r]]]; try (destruct X; fail); cbn [ref_at place_urn u_ref parsed_urn];
      try (subst o; exists w; split; [reflexivity|apply no_new; exact H]).
    unfold lift. rewrite place_parent by exact KN. destruct (above_known _ _ _ KN) as [K1 K2]. unfold ret. cbn [item_str whole_ref r_str].
    destruct (node_ref_run ps w i _ _ H N K1 K2) as (w3 & Q3 & H3). rewrite Q3. subst o. exists w3. split; [reflexivity|exact H3].
  - destruct X as (k & -> & K & ->). destruct (reffs_run ps w i p k H N K) as (w' & Q & H'). unfold answered. rewrite Q.
    exists w'. split; [reflexivity|apply no_new; exact H'].
  - destruct X as (r & NR & I & -> & ->). destruct (node_ref_run ps w i p r H N (or_intror I) NR) as (w' & Q & H'). unfold answered. rewrite Q.
    exists w'. split; [reflexivity|exact H'].
  - assert (Y : exists q, o = Moves [q] /\ ref_at q = ref_at p /\ q <> Passage [] /\ q <> TheText).
    { subst o. destruct p as [| |r]; eexists; (split; [reflexivity|]); repeat split; try discriminate. exact (f_place _ _ F). }
    destruct Y as (q & -> & Eq & N1 & N2).
    destruct (node_run ps w i p ByNothing q H N) as (w' & Q & H'); [rewrite Eq; exact KN|exact N1|exact N2| |].
    + rewrite Eq. cbn [asked_node]. apply place_str. exact KN.
    + unfold answered. rewrite Q. exists w'. split; [reflexivity|exact H'].
Qed.

Lemma travels_run : forall h ps w ps' l, holds ps w -> travels c ps h ps' l ->
  exists w', make_moves E w h = (w', l) /\ holds ps' w'.
Proof using SV RC Hsize Hp Hcts Hns.
  intros h ps w ps' l H T. revert w H. induction T as [ps|ps i m p o h ps' l N X T IH]; intros w H; cbn [make_moves].
  - eauto.
  - destruct (move_run ps w i p m o H N X) as (w1 & Q & H1). rewrite Q. destruct (IH w1 H1) as (w2 & Q2 & H2). rewrite Q2. eauto.
Qed.

Lemma text_fits : forall cs, fits TheText (new_text (parsed_urn ns cts wp None None) cs).
Proof using. intros cs. split; cbn; try reflexivity; auto; try discriminate. - left. reflexivity. - congruence. Qed.

Lemma fits_stands : forall p o, fits p o -> stands E text p o.
Proof using RC Hsize Hp Hcts Hns.
  intros p o F. split; [|split].
  - rewrite (f_urn _ _ F). apply place_str. exact (f_known _ _ F).
  - rewrite (f_kind _ _ F). destruct p; split; congruence || discriminate.
  - exact (f_xml _ _ F).
Qed.
End Served.

(** ** What is remembered, whatever the endpoint *)

Definition coherent (o : remote) : Prop :=
  (r_prev o = Unknown <-> r_next o = Unknown) /\
  (forall s, r_last o = Some s -> exists l t, r_children o = Some l /\ rev l = s :: t).
(** What an object becomes: what it knows stays. *)
Definition grows (o o' : remote) : Prop :=
  r_urn o' = r_urn o /\ r_passage o' = r_passage o /\
  (r_prev o <> Unknown -> r_prev o' = r_prev o) /\ (r_next o <> Unknown -> r_next o' = r_next o) /\
  (r_children o <> None -> r_children o' = r_children o) /\ (r_first o <> None -> r_first o' = r_first o) /\
  (r_last o <> None -> r_last o' = r_last o).
Lemma grows_refl : forall o, grows o o.
Proof. intros o. repeat split; auto. Qed.
Lemma grows_trans : forall a b d, grows a b -> grows b d -> grows a d.
Proof.
  intros a b d (A1 & A2 & A3 & A4 & A5 & A6 & A7) (B1 & B2 & B3 & B4 & B5 & B6 & B7). repeat split; try congruence.
  - intros N. rewrite B3, A3; auto. rewrite A3; auto.
  - intros N. rewrite B4, A4; auto. rewrite A4; auto.
  - intros N. rewrite B5, A5; auto. rewrite A5; auto.
  - intros N. rewrite B6, A6; auto. rewrite A6; auto.
  - intros N. rewrite B7, A7; auto. rewrite A7; auto.
Qed.
