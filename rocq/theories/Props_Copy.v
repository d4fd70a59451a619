(** C68: copies of collections. *)

From Coq Require Import List NArith ZArith Arith Bool Lia.
From Verif Require Import PyStr UrnModel MetaModel CollModel UtilModel InvModel InvExport DtsOutModel CopyModel CopySpec CopyProofs.
From Verif Require Import PyStrFacts MetaProofs CollProofs CollMerge CopyFence CopyDone.
Import ListNotations.

(** ** C68: pickling a collection, or copying it deeply, gives a collection that
    answers alike, now and after whatever is done with the original *)

(** Nothing a program does makes an object refer to one that does not exist, so
    that the stores below are those programs can reach. *)
Theorem C68_sound : forall s held, runs (fun _ => True) nothing [] s held ->
  sound s /\ forall x, In x held -> x < length (objs (s_state s)).
Proof. exact reached_sound. Qed.
Print Assumptions C68_sound.

(** The collection loaded answers as the one that was saved did when it was
    saved, whatever the process that loads it holds: members, parents,
    descendants, items, languages, metadata, citations and exports. *)
Theorem C68_copy : forall saved later c, sound saved -> sound later ->
  c < length (objs (s_state saved)) ->
  answers_alike (loaded later) saved c (loads saved later) (loaded later c).
Proof. intros saved later c S T L. apply copy_alike; assumption. Qed.
Print Assumptions C68_copy.

(** Loading leaves the collections of the process alone. *)
Theorem C68_others : forall saved later x, sound saved -> sound later ->
  x < length (objs (s_state later)) ->
  answers_alike (fun i => i) later x (loads saved later) x.
Proof. intros saved later c S T L. apply old_alike; assumption. Qed.
Print Assumptions C68_others.

(** What loading gives can be saved again. *)
Theorem C68_again : forall saved later, sound saved -> sound later -> sound (loads saved later).
Proof. exact sound_loads. Qed.
Print Assumptions C68_again.

(** A program that holds the originals and the graph of the process, and not the
    copy, does not change what the copy answers. *)
Theorem C68_independent : forall saved later held s' held' c, sound saved -> sound later ->
  (forall y, In y held -> y < length (objs (s_state later))) ->
  runs (fun _ => True) (loads saved later) held s' held' ->
  c < length (objs (s_state saved)) ->
  answers_alike (loaded later) saved c s' (loaded later c).
Proof. exact copy_stays. Qed.
Print Assumptions C68_independent.

(** A program that holds the copy, makes no new collection and does not ask for
    the graph of the process, does not change what the originals answer. *)
Theorem C68_original : forall saved later held s' held' x, sound saved -> sound later ->
  (forall y, In y held -> exists c, c < length (objs (s_state saved)) /\ y = loaded later c) ->
  runs (fun d => ~ global d) (loads saved later) held s' held' ->
  x < length (objs (s_state later)) ->
  answers_alike (fun i => i) later x s' x.
Proof. exact original_stays. Qed.
Print Assumptions C68_original.

(** The copy that the merge of textgroups works with is this one. *)
Theorem C68_deepcopy : forall s c,
  s_state (fst (deep_copy s c)) = fst (deepcopy (s_state s) c) /\
  snd (deep_copy s c) = snd (deepcopy (s_state s) c).
Proof. intros. split; reflexivity. Qed.
Print Assumptions C68_deepcopy.

(** Copies are equal among themselves as the originals are. *)
Theorem C68_same_equal : forall saved later a b,
  a < length (objs (s_state saved)) -> b < length (objs (s_state saved)) ->
  coll_eq (s_state (loads saved later)) (loaded later a) (loaded later b) = coll_eq (s_state saved) a b.
Proof.
  intros saved later a b A B. unfold coll_eq, cts_eq. rewrite !obj_loads_new by assumption.
  cbn [shift c_kind c_urn]. unfold loaded. set (n := length (objs (s_state later))).
  assert (E : forall a b, (n + a =? n + b) = (a =? b))
    by (intros x y; destruct (Nat.eqb_spec x y), (Nat.eqb_spec (n + x) (n + y)); lia || reflexivity).
  rewrite !E. reflexivity.
Qed.
Print Assumptions C68_same_equal.

(** The copy of a CTS collection is equal to it, on either side. *)
Theorem C68_equal : forall s c, c < length (objs (s_state s)) ->
  c_kind (obj (s_state s) c) <> KCollection ->
  coll_eq (s_state (loads s s)) c (loaded s c) = true /\
  coll_eq (s_state (loads s s)) (loaded s c) c = true.
Proof.
  intros s c L N. unfold coll_eq, cts_eq. rewrite !obj_loads_new, !obj_loads_old by assumption.
  cbn [shift c_kind c_urn]. rewrite str_eqb_refl.
  assert (E : instance_of (c_kind (obj (s_state s) c)) (c_kind (obj (s_state s) c)) = true)
    by (destruct (c_kind (obj (s_state s) c)) as [|[]| | | |]; reflexivity).
  rewrite E. cbn [negb andb]. rewrite !orb_true_r.
  destruct (c_kind (obj (s_state s) c)); try (split; reflexivity). congruence.
Qed.
Print Assumptions C68_equal.

(** The copy of a plain collection is not. *)
Theorem C68_plain_refuted : forall s c, c < length (objs (s_state s)) ->
  c_kind (obj (s_state s) c) = KCollection ->
  coll_eq (s_state (loads s s)) c (loaded s c) = false.
Proof.
  intros s c L N. unfold coll_eq. rewrite !obj_loads_new, !obj_loads_old by assumption.
  cbn [shift c_kind]. rewrite N. apply Nat.eqb_neq. unfold loaded. lia.
Qed.
Print Assumptions C68_plain_refuted.

(** ** Examples *)
Module CopyExamples.

Definition inventory : str := #"shelf".
Definition group : str := #"urn:cts:latinLit:phi1294".
Definition work : str := #"urn:cts:latinLit:phi1294.phi002".
Definition edition : str := #"urn:cts:latinLit:phi1294.phi002.perseus-lat2".
Definition same (l : list term) : list term := l.

Definition deeds : list deed :=
  [Create KInventory inventory [];
   CreateCts same KTextgroup group (Some 0) None;
   Edit 1 (fun g => (URI group, cts_term #"groupname", Literal #"Martial" (Some #"eng") None) :: g);
   CreateCts same KWork work (Some 1) None;
   SetLang 2 #"lat";
   CreateCts same (KText Edition) edition (Some 2) None;
   SetCitation 3 [(Some #"book", Some #"#xpath(/tei:TEI/tei:div[@n='$1'])")]].

Definition shelf : store := fold_left perform deeds nothing.

Fixpoint doable (s : store) (held : list nat) (l : list deed) : bool :=
  match l with
  | [] => true
  | d :: l' => forallb (fun x => existsb (Nat.eqb x) held) (needs d)
               && doable (perform s d) (receives s d ++ held) l'
  end.

Lemma doable_runs : forall allowed l s0 h0 s held, runs allowed s0 h0 s held -> doable s held l = true ->
  (forall d, In d l -> allowed d) ->
  exists held', runs allowed s0 h0 (fold_left perform l s) held'.
Proof.
  induction l as [|d l IH]; intros s0 h0 s held Rn D A; [exists held; exact Rn|].
  cbn [doable] in D. apply andb_prop in D. destruct D as (N & D).
  apply (IH s0 h0 (perform s d) (receives s d ++ held)); [|exact D|intros e J; apply A; right; exact J].
  apply runs_do; [exact Rn|apply A; left; reflexivity|].
  intros x I. rewrite forallb_forall in N. specialize (N x I).
  apply existsb_exists in N. destruct N as (y & J & E). apply Nat.eqb_eq in E. subst. exact J.
Qed.

Lemma shelf_sound : sound shelf.
Proof.
  destruct (doable_runs (fun _ => True) deeds nothing [] nothing [] (runs_none _ _ _)) as (h & Rn);
    [vm_compute; reflexivity|trivial|]. exact (proj1 (reached_sound _ _ Rn)).
Qed.

Definition qn (_ : term) : str * str := ([], cts_ns).
Definition written (s : store) (i : nat) : result str := export false (fun l => l) same qn s 10 true i.

(** The inventory is pickled, the graph of the process is emptied, and the
    inventory is loaded again. *)
Definition emptied : store := perform shelf (EditShared (fun _ => [])).

Example pickled :
  c_children (obj (s_state shelf) 2) = [(edition, 3)] /\
  get_lang same (s_state shelf) 3 = Ok #"lat" /\
  text_citation shelf 3 <> [] /\
  get_lang same (s_state emptied) 3 = Ok #"None" /\
  get_lang same (s_state (loads shelf emptied)) (loaded emptied 3) = Ok #"lat" /\
  getitem 10 (s_state (loads shelf emptied)) (loaded emptied 0) edition = Ok (loaded emptied 3) /\
  (exists x, written shelf 0 = Ok x /\ 300 < length x /\
     written (loads shelf emptied) (loaded emptied 0) = Ok x /\ written emptied 0 <> Ok x).
Proof.
  repeat split; try (vm_compute; congruence).
  destruct (written shelf 0) as [x|] eqn:E; [|vm_compute in E; discriminate].
  exists x. split; [reflexivity|]. vm_compute in E. injection E as <-.
  split; [apply Nat.ltb_lt; vm_compute; reflexivity|]. split; [vm_compute; reflexivity|vm_compute; congruence].
Qed.

(** A program with the originals that deletes the work, and one with the copy. *)
Example deletes :
  exists held', runs (fun _ => True) (loads shelf shelf) [0]
    (perform (loads shelf shelf) (Delete 10 10 0 work)) held' /\
  getitem 10 (s_state (perform (loads shelf shelf) (Delete 10 10 0 work))) 0 work = Err UnknownCollection /\
  getitem 10 (s_state (perform (loads shelf shelf) (Delete 10 10 0 work))) (loaded shelf 0) work
    = Ok (loaded shelf 2).
Proof.
  destruct (doable_runs (fun _ => True) [Delete 10 10 0 work] (loads shelf shelf) [0] _ _ (runs_none _ _ _))
    as (h & Rn); [vm_compute; reflexivity|trivial|].
  exists h. split; [exact Rn|]. split; vm_compute; reflexivity.
Qed.

Example deletes_copy :
  exists held', runs (fun d => ~ global d) (loads shelf shelf) [loaded shelf 0]
    (perform (loads shelf shelf) (Delete 10 10 (loaded shelf 0) work)) held' /\
  getitem 10 (s_state (perform (loads shelf shelf) (Delete 10 10 (loaded shelf 0) work))) 0 work = Ok 2 /\
  getitem 10 (s_state (perform (loads shelf shelf) (Delete 10 10 (loaded shelf 0) work))) (loaded shelf 0) work
    = Err UnknownCollection.
Proof.
  destruct (doable_runs (fun d => ~ global d) [Delete 10 10 (loaded shelf 0) work] (loads shelf shelf) [loaded shelf 0]
    _ _ (runs_none _ _ _)) as (h & Rn); [vm_compute; reflexivity|intros d [<-|[]] []|].
  exists h. split; [exact Rn|]. split; vm_compute; reflexivity.
Qed.
End CopyExamples.
Import CopyExamples.

(** A program that holds the copy and only adds a text to it changes what the
    original is said to be: new collections are described in the graph of the
    process, not in that of the copy. *)
Theorem C68_addition_refuted : exists s c p x s' held',
  sound s /\ c_id (obj (s_state s) x) = edition /\ c < length (objs (s_state s)) /\
  runs (fun d => match d with CreateCts _ _ _ parent _ => parent = Some p | _ => False end)
    (loads s s) [loaded s c] s' held' /\ p = loaded s c /\
  obj (s_state s') x = obj (s_state s) x /\
  In (URI edition, rdf_type, type_uri (KText Edition)) (nth (c_graph (obj (s_state s) x)) (graphs (s_state s)) []) /\
  ~ In (URI edition, rdf_type, type_uri (KText Edition)) (nth (c_graph (obj (s_state s') x)) (graphs (s_state s')) []) /\
  nth (c_graph (obj (s_state s') (loaded s x))) (graphs (s_state s')) []
    = nth (c_graph (obj (s_state s) x)) (graphs (s_state s)) [].
Proof.
  set (d := CreateCts same (KText Translation) edition (Some (loaded shelf 2)) (Some #"eng")).
  destruct (doable_runs (fun d => match d with CreateCts _ _ _ parent _ => parent = Some (loaded shelf 2) | _ => False end)
    [d] (loads shelf shelf) [loaded shelf 2] _ _ (runs_none _ _ _)) as (h & Rn);
    [vm_compute; reflexivity|intros e [<-|[]]; reflexivity|].
  exists shelf, 2, (loaded shelf 2), 3, (perform (loads shelf shelf) d), h.
  split; [exact shelf_sound|]. split; [vm_compute; reflexivity|].
  split; [apply Nat.ltb_lt; vm_compute; reflexivity|].
  split; [exact Rn|]. split; [reflexivity|]. split; [vm_compute; reflexivity|].
  assert (T : forall t l, In t l <-> existsb (triple_eqb t) l = true).
  { intros t l. rewrite existsb_exists. split.
    - intros I. exists t. split; [exact I|]. apply triple_eqb_eq; reflexivity.
    - intros (u & I & E). apply triple_eqb_eq in E. subst. exact I. }
  split; [refine (proj2 (T _ _) _); vm_compute; reflexivity|].
  split; [intros J; pose proof (proj1 (T _ _) J) as E; vm_compute in E; discriminate|].
  vm_compute. reflexivity.
Qed.
Print Assumptions C68_addition_refuted.

(** A text added to the copy and deleted from it again leaves its statements
    behind: deletion looks for them in the graph of the copy. *)
Theorem C68_deletion_refuted : exists s w id s1 s2 t,
  sound s /\ w < length (objs (s_state s)) /\
  contains 10 (s_state s) w id = Ok false /\
  s1 = perform (loads s s) (CreateCts same (KText Translation) id (Some (loaded s w)) (Some #"eng")) /\
  t = length (objs (s_state (loads s s))) /\
  s2 = perform s1 (Delete 10 10 (loaded s w) id) /\
  delitem 10 10 (s_state s1) (loaded s w) id = (s_state s2, Ok tt) /\
  contains 10 (s_state s1) (loaded s w) id = Ok true /\
  contains 10 (s_state s2) (loaded s w) id = Ok false /\
  filter (matches (Some (URI id)) None None) (nth (c_graph (obj (s_state s2) t)) (graphs (s_state s2)) []) <> [].
Proof.
  exists shelf, 2, (work ++ #".perseus-eng1").
  eexists. eexists. eexists. split; [exact shelf_sound|].
  split; [apply Nat.ltb_lt; vm_compute; reflexivity|].
  split; [vm_compute; reflexivity|]. split; [reflexivity|]. split; [reflexivity|]. split; [reflexivity|].
  do 3 (split; [vm_compute; reflexivity|]). vm_compute. discriminate.
Qed.
Print Assumptions C68_deletion_refuted.
