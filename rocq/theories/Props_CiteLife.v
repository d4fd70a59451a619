(** C77: citations that are built, changed and copied. *)

From Coq Require Import List NArith ZArith Arith Bool Lia.
From Verif Require Import PyStr TreeModel CiteLifeModel CiteLifeSpec CiteLifeProofs CiteLifeMore.
Import ListNotations.

(** ** C77: whatever a program does with citations, assignments do what they
    say, and pickling or deep copying gives citations that answer alike and live
    on their own *)

(** What citations refer to exists, so that the theorems below speak of every
    world a program can reach. *)
Theorem C77_sound : forall w held, runs (fun _ => True) nothing [] w held ->
  sound w /\ forall x, In x held -> x < length (objects w).
Proof.
  intros w held Rn. apply (runs_sound _ _ _ _ _ Rn); [intros i L; inversion L|intros i []].
Qed.
Print Assumptions C77_sound.

(** ** Making citations *)

(** A new citation is what it was made with, and what was given to it as children
    is told it is the root; nothing else changes. *)
Theorem C77_new : forall w name refs vals r, sound w ->
  (forall i, In i (given vals) -> i < length (objects w)) ->
  Forall (fun v => match v with VNone => True | VOther => False | VCit i => o_kind (cob w i) = KCit end) vals ->
  let self := length (objects w) in
  let w' := fst (new_citation w name refs vals r) in
  snd (new_citation w name refs vals r) = Ok tt /\
  o_kind (cob w' self) = KCit /\ o_name (cob w' self) = name /\ o_refs (cob w' self) = refs /\
  o_root (cob w' self) = r /\ children w' self = given vals /\
  (forall x, In x (given vals) -> o_root (cob w' x) = Some self) /\
  (forall x, x < self -> ~ In x (given vals) -> o_root (cob w' x) = o_root (cob w x)) /\
  (forall x, x < self -> children w' x = children w x /\ o_kind (cob w' x) = o_kind (cob w x) /\
     o_name (cob w' x) = o_name (cob w x) /\ o_refs (cob w' x) = o_refs (cob w x)).
Proof. exact new_citation_ok. Qed.
Print Assumptions C77_new.

Theorem C77_new_set : forall w vals, sound w ->
  (forall i, In i (given vals) -> i < length (objects w)) -> ~ In VOther vals ->
  let self := length (objects w) in
  let w' := fst (new_set w vals) in
  snd (new_set w vals) = Ok tt /\
  o_kind (cob w' self) = KSet /\ children w' self = given vals /\
  (forall x, In x (given vals) -> o_root (cob w' x) = Some self) /\
  (forall x, x < self -> ~ In x (given vals) -> o_root (cob w' x) = o_root (cob w x)) /\
  (forall x, x < self -> children w' x = children w x /\ o_kind (cob w' x) = o_kind (cob w x) /\
     o_name (cob w' x) = o_name (cob w x) /\ o_refs (cob w' x) = o_refs (cob w x)).
Proof. exact new_set_ok. Qed.
Print Assumptions C77_new_set.

(** So the children of a citation made with a root are told another one than
    it has. *)
Theorem C77_new_root_refuted : exists w name vals r x, sound w /\ In x (given vals) /\
  let w' := fst (new_citation w name None vals (Some r)) in
  root w' (length (objects w)) = r /\ root w' x <> r.
Proof.
  exists (MkWorld [MkObj KSet None None 0 None; MkObj KCit (Some #"line") None 1 None] [[]; []]),
         (Some #"book"), [VCit 1], 0, 1.
  split.
  { intros i L. cbn in L. destruct i as [|[|i]]; [| |lia]; cbn; (split; [lia|]; split; [intros j []|discriminate]). }
  split; [left; reflexivity|]. split; [reflexivity|]. cbn. discriminate.
Qed.
Print Assumptions C77_new_root_refuted.

(** ** Assignments *)

(** The children assigned are the children, without the None among them; those
    given are told the root, and nothing else changes anywhere. *)
Theorem C77_assign : forall w c vals, sound w -> c < length (objects w) ->
  (forall i, In i (given vals) -> i < length (objects w)) ->
  Forall (fits w c) vals ->
  let w' := fst (set_children w c vals) in
  snd (set_children w c vals) = Ok tt /\
  children w' c = given vals /\
  (forall x, x < length (objects w) -> x <> c -> children w' x = children w x) /\
  (forall x, In x (given vals) -> o_root (cob w' x) = Some (top w c)) /\
  (forall x, ~ In x (given vals) -> o_root (cob w' x) = o_root (cob w x)) /\
  (forall x, o_kind (cob w' x) = o_kind (cob w x) /\ o_name (cob w' x) = o_name (cob w x) /\
             o_refs (cob w' x) = o_refs (cob w x)).
Proof. intros w c vals So L G F. exact (set_children_ok w c vals L G So F). Qed.
Print Assumptions C77_assign.

(** Something that is not a citation is refused, and every list of children is
    left as it was. *)
Theorem C77_assign_error : forall w c vals, ~ Forall (fits w c) vals ->
  let w' := fst (set_children w c vals) in
  snd (set_children w c vals) = Err TypeError /\
  (forall x, children w' x = children w x) /\
  (forall x, o_kind (cob w' x) = o_kind (cob w x) /\ o_name (cob w' x) = o_name (cob w x) /\
             o_refs (cob w' x) = o_refs (cob w x)).
Proof. exact set_children_error. Qed.
Print Assumptions C77_assign_error.

(** But the citations that come before it are told a root to which they do not
    belong. *)
Theorem C77_assign_atomic_refuted : exists w c vals x, sound w /\ c < length (objects w) /\
  snd (set_children w c vals) = Err TypeError /\
  o_root (cob w x) = None /\
  o_root (cob (fst (set_children w c vals)) x) = Some c /\
  ~ In x (children (fst (set_children w c vals)) c).
Proof.
  exists (MkWorld [MkObj KCit (Some #"book") None 0 None; MkObj KCit (Some #"line") None 1 None] [[]; []]),
         0, [VCit 1; VOther], 1.
  split.
  { intros i L. cbn in L. destruct i as [|[|i]]; [| |lia]; cbn; (split; [lia|]; split; [intros j []|discriminate]). }
  split; [cbn; lia|]. split; [reflexivity|]. split; [reflexivity|]. split; [reflexivity|]. intros [].
Qed.
Print Assumptions C77_assign_atomic_refuted.

(** The property [child]: the same with one citation. *)
Theorem C77_child : forall w c i, sound w -> c < length (objects w) -> i < length (objects w) ->
  o_kind (cob w c) = KCit -> o_kind (cob w i) = KCit ->
  let w' := fst (set_child w c (Some i)) in
  snd (set_child w c (Some i)) = Ok tt /\
  child w' c = Some i /\ children w' c = [i] /\
  (forall x, x < length (objects w) -> x <> c -> children w' x = children w x) /\
  root w' i = top w c /\
  (forall x, x <> i -> o_root (cob w' x) = o_root (cob w x)) /\
  (forall x, o_kind (cob w' x) = o_kind (cob w x) /\ o_name (cob w' x) = o_name (cob w x) /\
             o_refs (cob w' x) = o_refs (cob w x)).
Proof.
  intros w c i So Lc Li Kc Ki w'. destruct (set_child_ok w c i Lc Li So Kc Ki) as (A & B & C & D & E & F).
  fold w' in A, B, C, D, E, F. split; [exact A|]. split; [unfold child; rewrite B; reflexivity|].
  split; [exact B|]. split; [exact C|]. split; [unfold root; rewrite D; reflexivity|]. split; assumption.
Qed.
Print Assumptions C77_child.

(** Assigning None takes the child away. *)
Theorem C77_no_child : forall w c, sound w -> c < length (objects w) ->
  let w' := fst (set_child w c None) in
  child w' c = None /\
  (forall x, x < length (objects w) -> x <> c -> children w' x = children w x) /\
  (forall x, o_root (cob w' x) = o_root (cob w x)).
Proof.
  intros w c So L w'. destruct (set_children_ok w c [] L) as (_ & B & C & _ & E & _);
    [intros i []|exact So|constructor|].
  split; [unfold child, w'; cbn [set_child given] in *; rewrite B; reflexivity|]. split; [exact C|].
  intros x. apply E. intros [].
Qed.
Print Assumptions C77_no_child.

(** A child added comes last; nothing is told a root. *)
Theorem C77_add : forall w c i, sound w -> c < length (objects w) -> o_kind (cob w i) = KCit ->
  children (add_child w c (VCit i)) c = children w c ++ [i] /\
  forall x, cob (add_child w c (VCit i)) x = cob w x.
Proof.
  intros w c i So L K. rewrite add_child_children by assumption. rewrite Nat.eqb_refl. split; [reflexivity|].
  intros x. unfold add_child. rewrite K. reflexivity.
Qed.
Print Assumptions C77_add.

(** Anything else is silently left out, sets of citations among it. *)
Theorem C77_add_other : forall w c v,
  match v with VCit i => o_kind (cob w i) = KSet | _ => True end -> add_child w c v = w.
Proof. intros w c [|i|] H; try reflexivity. cbn [add_child]. rewrite H. reflexivity. Qed.
Print Assumptions C77_add_other.

(** In a program that does not use copy.copy it shows nowhere else. *)
Theorem C77_add_others : forall w held c i x,
  runs (fun d => match d with CopyCopy _ => False | _ => True end) nothing [] w held ->
  c < length (objects w) -> x < length (objects w) -> x <> c ->
  children (add_child w c (VCit i)) x = children w x.
Proof.
  intros w held c i x Rn Lc Lx N. pose proof (separate_runs _ _ Rn) as Sp.
  assert (So : sound w).
  { destruct (runs_sound _ _ _ _ _ Rn) as (So & _); [intros j L; inversion L|intros j []|exact So]. }
  destruct (o_kind (cob w i)) eqn:K; [cbn [add_child]; rewrite K; reflexivity|].
  rewrite add_child_children by assumption.
  destruct (Nat.eqb_spec (o_list (cob w c)) (o_list (cob w x))) as [E|E]; [|reflexivity].
  destruct (Sp c Lc) as (_ & U). exfalso. apply N. symmetry. exact (U x Lx E).
Qed.
Print Assumptions C77_add_others.

(** So a citation that was added and not assigned is its own root, and is matched
    as a scheme of its own. *)
Theorem C77_add_root_refuted : exists w held c i,
  runs (fun _ => True) nothing [] w held /\ In i (children w c) /\ c <> i /\ is_root w c = true /\
  is_root w i = true /\ root w i = i.
Proof.
  set (d1 := NewCitation (Some #"book") None [] None). set (d2 := NewCitation (Some #"line") None [] None).
  set (d3 := AddChild 0 (VCit 1)).
  exists (perform (perform (perform nothing d1) d2) d3), [1; 0], 0, 1.
  split; [|repeat split; try reflexivity; [left; reflexivity|discriminate]].
  change [1; 0] with (receives (perform (perform nothing d1) d2) d3 ++ [1; 0]).
  apply runs_do; [|exact I|intros x [<-|[<-|[]]]; [right; left|left]; reflexivity].
  change [1; 0] with (receives (perform nothing d1) d2 ++ [0]).
  apply runs_do; [|exact I|intros x []].
  change [0] with (receives nothing d1 ++ []).
  apply runs_do; [apply runs_none|exact I|intros x []].
Qed.
Print Assumptions C77_add_root_refuted.

(** ** Reading *)

(** Where no citation hangs below itself, reading comes to an end, within as many
    levels as there are citations.  The listing, the depth, the length and the
    levels are those of the tree that hangs below. *)
Theorem C77_reading : forall w i fuel, sound w -> i < length (objects w) -> ~ circular w i ->
  (forall j, below w i j -> o_kind (cob w j) = KCit) -> length (objects w) <= fuel ->
  exists t l, tree fuel w i = Ok t /\ iterate fuel w i = Ok l /\
    map (fun j => o_name (cob w j)) l = names t /\
    depth fuel w i = Ok (citation_depth t) /\
    size fuel w i = Ok (citation_len t) /\
    forall k, (S k < fuel) -> map (fun j => o_name (cob w j)) (at_level k w i) = level_names k t.
Proof.
  intros w i fuel So L N K F. destruct (tree_defined w i So L N fuel F) as (t & E).
  destruct (tree_iterate w fuel i t E K) as (l & A & B). exists t, l.
  split; [exact E|]. split; [exact A|]. split; [exact B|]. split; [apply tree_depth; assumption|].
  split; [apply tree_size; assumption|]. intros k H. apply (tree_level w k fuel); assumption.
Qed.
Print Assumptions C77_reading.

(** Reading a level: counted from above it is what as many steps and one more lead to,
    counted from below it is the level as far above the depth. *)
Theorem C77_level : forall w i fuel item l, getitem fuel w i item = Ok l ->
  exists k, (forall j, In j l <-> leads w (S k) i j) /\
    if (item <? 0)%Z then exists d, depth fuel w i = Ok d /\ Z.of_nat k = (Z.of_nat d + item)%Z else Z.of_nat k = item.
Proof.
  intros w i fuel item l E. unfold getitem in E. destruct (Z.ltb_spec item 0) as [N|N].
  - destruct (depth fuel w i) as [d|] eqn:D; [|discriminate E]. cbn [bind] in E. destruct (Z.ltb_spec (Z.of_nat d + item) 0) as [M|M]; [discriminate E|].
    injection E as <-. exists (Z.to_nat (Z.of_nat d + item)). split; [intros j; apply level_leads|]. exists d. split; [reflexivity|lia].
  - injection E as <-. exists (Z.to_nat item). split; [intros j; apply level_leads|lia].
Qed.
Print Assumptions C77_level.

Theorem C77_level_error : forall w i fuel item e, getitem fuel w i item = Err e ->
  (item < 0)%Z /\ (depth fuel w i = Err e \/ exists d, depth fuel w i = Ok d /\ (Z.of_nat d + item < 0)%Z /\ e = CitationDepthError).
Proof.
  intros w i fuel item e E. unfold getitem in E. destruct (Z.ltb_spec item 0) as [N|N]; [|discriminate E]. split; [exact N|].
  destruct (depth fuel w i) as [d|] eqn:D; [|left; cbn in E; congruence]. right. cbn [bind] in E. exists d. split; [reflexivity|].
  destruct (Z.ltb_spec (Z.of_nat d + item) 0) as [M|M]; [|discriminate E]. split; [exact M|congruence].
Qed.
Print Assumptions C77_level_error.

(** The depth is the number of citations on the longest way down, the citation itself
    included. *)
Theorem C77_depth : forall w i fuel d, (forall n j, leads w (S n) i j -> o_kind (cob w j) = KCit) -> depth fuel w i = Ok d ->
  let own := match o_kind (cob w i) with KSet => 0 | KCit => 1 end in
  own <= d /\ (exists j, leads w (d - own) i j) /\ forall n j, leads w n i j -> own + n <= d.
Proof. intros w i fuel d K E. exact (depth_leads w fuel i d K E). Qed.
Print Assumptions C77_depth.

(** The last level of a set holds citations, when there are any, and none of them has
    children. *)
Theorem C77_last_level : forall w i fuel l, (forall n j, leads w (S n) i j -> o_kind (cob w j) = KCit) -> o_kind (cob w i) = KSet ->
  getitem fuel w i (-1) = Ok l -> l <> [] /\ forall j, In j l -> children w j = [].
Proof.
  intros w i fuel l K S E. destruct (C77_level w i fuel (-1) l E) as (k & H & d & D & Ek).
  destruct (C77_depth w i fuel d K D) as (_ & (j & Hj) & M). rewrite S in *. rewrite Nat.sub_0_r in Hj. split.
  - intros ->. apply (proj2 (H j)). replace (Datatypes.S k) with d by lia. exact Hj.
  - intros j' I'. apply H in I'. destruct (children w j') as [|c cs] eqn:C; [reflexivity|exfalso].
    specialize (M (Datatypes.S (Datatypes.S k)) c). assert (X : leads w (Datatypes.S (Datatypes.S k)) i c); [|specialize (M X); lia].
    apply (leads_snoc w (Datatypes.S k) i j' c I'). rewrite C. left. reflexivity.
Qed.
Print Assumptions C77_last_level.

(** Finding: the last level of a citation is always empty, because its depth counts the
    citation itself and its levels do not. *)
Theorem C77_last_level_refuted : forall w i fuel l, (forall n j, leads w (S n) i j -> o_kind (cob w j) = KCit) -> o_kind (cob w i) = KCit ->
  getitem fuel w i (-1) = Ok l -> l = [].
Proof.
  intros w i fuel l K S E. destruct (C77_level w i fuel (-1) l E) as (k & H & d & D & Ek).
  destruct (C77_depth w i fuel d K D) as (_ & _ & M). rewrite S in M. destruct l as [|j l]; [reflexivity|exfalso].
  specialize (M (Datatypes.S k) j (proj1 (H j) (or_introl eq_refl))). lia.
Qed.
Print Assumptions C77_last_level_refuted.

(** A citation can be put below itself, and then reading never ends. *)
Theorem C77_circular : forall w i, circular w i -> forall fuel,
  tree fuel w i = Err RecursionError /\ iterate fuel w i = Err RecursionError.
Proof.
  intros w i C fuel. pose proof (circular_undefined w i C fuel) as E. split; [exact E|].
  pose proof (iterate_tree w fuel i) as H. rewrite E in H. exact H.
Qed.
Print Assumptions C77_circular.

Theorem C77_itself_refuted : exists w held i,
  runs (fun _ => True) nothing [] w held /\ In i held /\ forall fuel, iterate fuel w i = Err RecursionError.
Proof.
  set (d1 := NewCitation (Some #"book") None [] None). set (d2 := SetChild 0 (Some 0)).
  exists (perform (perform nothing d1) d2), [0], 0. split; [|split; [left; reflexivity|]].
  - change [0] with (receives (perform nothing d1) d2 ++ [0]).
    apply runs_do; [|exact I|intros x [<-|[<-|[]]]; left; reflexivity].
    change [0] with (receives nothing d1 ++ []).
    apply runs_do; [apply runs_none|exact I|intros x []].
  - intros fuel. apply C77_circular. exists 0, 0. split; [constructor|]. split; [left; reflexivity|constructor].
Qed.
Print Assumptions C77_itself_refuted.

(** ** Pickles and deep copies *)

(** The citation loaded answers as the one that was saved did. *)
Theorem C77_copy : forall saved later i, sound saved -> i < length (objects saved) ->
  answers_alike (loaded later) saved i (loads saved later) (loaded later i).
Proof. exact copy_alike. Qed.
Print Assumptions C77_copy.

Theorem C77_others : forall saved later i, sound later -> i < length (objects later) ->
  answers_alike (fun x => x) later i (loads saved later) i.
Proof. exact old_alike. Qed.
Print Assumptions C77_others.

Theorem C77_again : forall saved later, sound saved -> sound later -> sound (loads saved later).
Proof. exact sound_loads. Qed.
Print Assumptions C77_again.

(** A program that holds the originals and not the copy does not change what the
    copy answers, whatever it does. *)
Theorem C77_independent : forall saved later held w' held' c, sound saved -> sound later ->
  (forall y, In y held -> y < length (objects later)) ->
  runs (fun _ => True) (loads saved later) held w' held' ->
  c < length (objects saved) ->
  answers_alike (loaded later) saved c w' (loaded later c).
Proof. exact copy_stays. Qed.
Print Assumptions C77_independent.

(** Nor does one that holds the copy change what the originals answer. *)
Theorem C77_original : forall saved later held w' held' x, sound saved -> sound later ->
  (forall y, In y held -> exists c, c < length (objects saved) /\ y = loaded later c) ->
  runs (fun _ => True) (loads saved later) held w' held' ->
  x < length (objects later) ->
  answers_alike (fun i => i) later x w' x.
Proof. exact original_stays. Qed.
Print Assumptions C77_original.

(** ** copy.copy *)

(** The copy has the same name, pattern, root and children; the others are as
    they were. *)
Theorem C77_shallow : forall w c, sound w -> c < length (objects w) ->
  cob (copy_copy w c) (length (objects w)) = cob w c /\
  children (copy_copy w c) (length (objects w)) = children w c /\
  forall x, x < length (objects w) -> answers_alike (fun i => i) w x (copy_copy w c) x.
Proof. exact copy_copy_same. Qed.
Print Assumptions C77_shallow.

(** But the list of children is one: until children are assigned to one of the
    two, they have the same children, whatever the program does, and a child
    added to one is added to the other. *)
Theorem C77_shallow_refuted : forall w c held w' held', sound w -> c < length (objects w) ->
  let copy := length (objects w) in
  (forall y, In y held -> y <= length (objects w)) ->
  runs (fun d => ~ assigns c d /\ ~ assigns copy d) (copy_copy w c) held w' held' ->
  children w' c = children w' copy /\
  forall i, o_kind (cob w' i) = KCit ->
    children (add_child w' c (VCit i)) copy = children w' copy ++ [i].
Proof.
  intros w c held w' held' So L copy H Rn.
  assert (E : cob (copy_copy w c) copy = cob w c) by apply (copy_copy_same w c So L).
  assert (E' : cob (copy_copy w c) c = cob w c) by (unfold cob, copy_copy; cbn [objects]; apply app_nth1, L).
  assert (Len : length (objects (copy_copy w c)) = S (length (objects w)))
    by (unfold copy_copy; cbn [objects]; rewrite app_length; cbn [length]; lia).
  assert (So1 : sound (copy_copy w c)).
  { destruct (runs_sound (fun _ => True) w [c] (perform w (CopyCopy c)) (receives w (CopyCopy c) ++ [c])) as (X & _).
    - apply runs_do; [apply runs_none|exact I|intros x J; exact J].
    - exact So.
    - intros i [<-|[]]. exact L.
    - exact X. }
  destruct (shared_stay c copy _ _ _ _ Rn) as (A & B & D); [lia|unfold copy; lia|congruence|].
  destruct (runs_sound _ _ _ _ _ Rn So1) as (So2 & _); [intros i J; specialize (H i J); lia|].
  split; [unfold children; rewrite D; reflexivity|].
  intros i K. rewrite add_child_children by assumption. rewrite D, Nat.eqb_refl. reflexivity.
Qed.
Print Assumptions C77_shallow_refuted.

(** ** Examples *)
Module CiteLifeExamples.

Fixpoint doable (w : world) (held : list nat) (l : list deed) : bool :=
  match l with
  | [] => true
  | d :: l' => forallb (fun x => existsb (Nat.eqb x) held) (needs d)
               && doable (perform w d) (receives w d ++ held) l'
  end.

Lemma doable_runs : forall (allowed : deed -> Prop) l w0 h0 w held, runs allowed w0 h0 w held -> doable w held l = true ->
  (forall d, In d l -> allowed d) ->
  exists held', runs allowed w0 h0 (fold_left perform l w) held'.
Proof.
  induction l as [|d l IH]; intros w0 h0 w held Rn D A; [exists held; exact Rn|].
  cbn [doable] in D. apply andb_prop in D. destruct D as (N & D).
  apply (IH w0 h0 (perform w d) (receives w d ++ held)); [|exact D|intros e J; apply A; right; exact J].
  apply runs_do; [exact Rn|apply A; left; reflexivity|].
  intros x I. rewrite forallb_forall in N. specialize (N x I).
  apply existsb_exists in N. destruct N as (y & J & E). apply Nat.eqb_eq in E. subst. exact J.
Qed.

(** book (poem (line), preface), in a set. *)
Definition deeds : list deed :=
  [NewCitation (Some #"line") (Some #"/l[@n='$1']") [] None;
   NewCitation (Some #"poem") None [VCit 0] None;
   NewCitation (Some #"preface") None [VNone] None;
   NewCitation (Some #"book") None [VCit 1; VNone; VCit 2] None;
   NewSet [VCit 3]].
Definition made : world := fold_left perform deeds nothing.

Lemma made_runs : exists held, runs (fun d => match d with CopyCopy _ => False | _ => True end) nothing [] made held.
Proof.
  apply (doable_runs _ deeds nothing [] nothing [] (runs_none _ _ _)); [vm_compute; reflexivity|].
  intros d I. repeat (destruct I as [<-|I]; [exact Logic.I|]). destruct I.
Qed.

Lemma made_sound : sound made.
Proof.
  destruct made_runs as (h & Rn).
  destruct (runs_sound _ _ _ _ _ Rn) as (So & _); [intros i L; inversion L|intros i []|exact So].
Qed.

Example made_is :
  children made 3 = [1; 2] /\ children made 1 = [0] /\ children made 4 = [3] /\
  root made 3 = 4 /\ root made 1 = 3 /\ root made 0 = 1 /\ is_root made 4 = true /\
  iterate 10 made 3 = Ok [3; 1; 0; 2] /\ depth 10 made 3 = Ok 3 /\ depth 10 made 4 = Ok 3 /\
  size 10 made 4 = Ok 4 /\ getitem 10 made 4 (-1) = Ok [0] /\ getitem 10 made 4 1 = Ok [1; 2] /\
  getitem 10 made 4 (-4) = Err CitationDepthError.
Proof. repeat split; vm_compute; reflexivity. Qed.

(** The hypotheses of the theorems about levels. *)
Example last_levels :
  getitem 10 made 4 (-1) = Ok [0] /\ o_kind (cob made 4) = KSet /\ children made 0 = [] /\
  getitem 10 made 3 (-1) = Ok [] /\ o_kind (cob made 3) = KCit /\ getitem 10 made 3 (-2) = Ok [0] /\
  forall i n j, i < 5 -> leads made (S n) i j -> o_kind (cob made j) = KCit.
Proof.
  repeat (split; [vm_compute; reflexivity|]).
  assert (G : forall n i j, i < 5 -> leads made n i j -> j = i \/ j < 4).
  { induction n as [|n IH]; intros i j L H; [left; symmetry; exact H|]. destruct H as (k & Hk & H).
    assert (K : k < 4).
    { do 5 (destruct i as [|i]; [vm_compute in Hk; repeat (destruct Hk as [<-|Hk]; [lia|]); destruct Hk|]). lia. }
    destruct (IH k j ltac:(lia) H) as [->|J]; lia. }
  intros i n j L (k & Hk & H).
  assert (K : k < 4).
  { do 5 (destruct i as [|i]; [vm_compute in Hk; repeat (destruct Hk as [<-|Hk]; [lia|]); destruct Hk|]). lia. }
  assert (J : j < 4) by (destruct (G n k j ltac:(lia) H) as [->|J]; lia).
  do 4 (destruct j as [|j]; [reflexivity|]). lia.
Qed.

(** The hypotheses of the theorems about assignments. *)
Example assigned :
  Forall (fits made 3) [VCit 0; VNone] /\ ~ Forall (fits made 3) [VCit 0; VCit 4] /\
  children (fst (set_children made 3 [VCit 0; VNone])) 3 = [0] /\
  root (fst (set_children made 3 [VCit 0; VNone])) 0 = 4 /\
  snd (set_children made 3 [VCit 0; VCit 4]) = Err TypeError.
Proof.
  split; [repeat constructor|]. split.
  - intros F. inversion F as [|? ? _ F2]; subst. inversion F2 as [|? ? F3 _]; subst. destruct F3; discriminate.
  - repeat split; vm_compute; reflexivity.
Qed.

(** The hypotheses of [C77_reading]. *)
Lemma below_down_inv : forall w i j, below w i j -> j = i \/ exists k, In k (children w i) /\ below w k j.
Proof.
  intros w i j B. induction B as [|j k B IH I]; [left; reflexivity|]. right.
  destruct IH as [->|(m & M & N)]; [exists k; split; [exact I|constructor]|].
  exists m. split; [exact M|]. eapply below_child; eassumption.
Qed.

Lemma made_below : forall i j, i < 4 -> below made i j -> j <= i \/ i = 1 /\ j = 0 \/ i = 3 /\ j <= 3.
Proof.
  assert (B0 : forall j, below made 0 j -> j = 0)
    by (intros j B; destruct (below_down_inv _ _ _ B) as [->|(k & [] & _)]; reflexivity).
  assert (B1 : forall j, below made 1 j -> j <= 1).
  { intros j B. destruct (below_down_inv _ _ _ B) as [->|(k & [<-|[]] & C)]; [lia|]. rewrite (B0 j C). lia. }
  assert (B2 : forall j, below made 2 j -> j = 2)
    by (intros j B; destruct (below_down_inv _ _ _ B) as [->|(k & [] & _)]; reflexivity).
  intros i j L B. destruct i as [|[|[|[|i]]]]; [| | | |lia].
  - rewrite (B0 j B). lia.
  - pose proof (B1 j B). lia.
  - rewrite (B2 j B). lia.
  - destruct (below_down_inv _ _ _ B) as [->|(k & [<-|[<-|[]]] & C)]; [lia| |].
    + pose proof (B1 j C). lia.
    + rewrite (B2 j C). lia.
Qed.

Example readable : 3 < length (objects made) /\ ~ circular made 3 /\
  (forall j, below made 3 j -> o_kind (cob made j) = KCit).
Proof.
  split; [cbn; lia|]. split.
  - intros (j & k & A & B & C).
    assert (j <= 3) by (pose proof (made_below 3 j ltac:(lia) A); lia).
    destruct j as [|[|[|[|j]]]]; try lia; cbn in B.
    + destruct B.
    + destruct B as [<-|[]]. pose proof (made_below 0 1 ltac:(lia) C). lia.
    + destruct B.
    + destruct B as [<-|[<-|[]]]; [pose proof (made_below 1 3 ltac:(lia) C)|pose proof (made_below 2 3 ltac:(lia) C)]; lia.
  - intros j B. assert (j <= 3) by (pose proof (made_below 3 j ltac:(lia) B); lia).
    destruct j as [|[|[|[|j]]]]; try lia; reflexivity.
Qed.

(** A deep copy of the set, and a program that takes the original apart. *)
Example apart :
  exists held', runs (fun _ => True) (loads made made) [4]
    (fold_left perform [SetChildren 4 []] (loads made made)) held' /\
  iterate 10 (perform (loads made made) (SetChildren 4 [])) 4 = Ok [] /\
  iterate 10 (perform (loads made made) (SetChildren 4 [])) (loaded made 4) = Ok (map (loaded made) [3; 1; 0; 2]).
Proof.
  destruct (doable_runs (fun _ => True) [SetChildren 4 []] (loads made made) [4] _ _ (runs_none _ _ _))
    as (h & Rn); [vm_compute; reflexivity|trivial|].
  exists h. split; [exact Rn|]. split; vm_compute; reflexivity.
Qed.

(** A copy by copy.copy that gets a child with the original, and is left alone
    once children are assigned. *)
Example together :
  let w := add_child (copy_copy made 3) 3 (VCit 0) in
  children w 5 = [1; 2; 0] /\
  children (fst (set_children w 3 [VCit 2])) 3 = [2] /\
  children (fst (set_children w 3 [VCit 2])) 5 = [1; 2; 0].
Proof. repeat split; vm_compute; reflexivity. Qed.

End CiteLifeExamples.
