(** Reading the metadata files of a folder. *)

From Coq Require Import List NArith ZArith Arith Bool Lia.
From Verif Require Import PyStr PyStrFacts UrnModel UrnSpec UrnProofs XmlModel MetaModel MetaSpec CollModel CollSpec CollProofs CollMerge
  InvModel InvSpec InvProofs InvTrace InvTree InvDone Props_Inv LocalModel LocalSpec LocalProofs LoadModel LoadSpec LoadDict LoadBridge.
Import ListNotations.

Lemma yields_ok : forall {A} (m : act A) s (wf : Prop) (Q : store -> A -> Prop), yields m s wf Q -> wf -> exists s' a, m s = (s', Ok a) /\ Q s' a.
Proof. intros A m s wf Q Y W. unfold yields in Y. destruct (m s) as [s' [a|e]]; [destruct Y; eauto|contradiction]. Qed.

Lemma F2_length : forall {X Y} (P : X -> Y -> Prop) l l', Forall2 P l l' -> length l = length l'.
Proof. intros X Y P l l' H. induction H; cbn; congruence. Qed.

Notation size s := (length (objs (s_state s))).

Lemma shows_work_same : forall s s' e p i ts, shows_work s e p i ts -> size s <= size s' ->
  (forall j, j = i \/ In j ts -> obj (s_state s') j = obj (s_state s) j /\ citation_of s' j = citation_of s j) ->
  shows_work s' e p i ts.
Proof.
  intros s s' e p i ts ((M1 & M2) & (C1 & C2) & D) L H. destruct (H i (or_introl eq_refl)) as [Ei _].
  split; [unfold made_for; rewrite Ei; split; [lia|exact M2]|].
  split; [split; [exact C1|rewrite Ei; exact C2]|].
  eapply F2_with; [exact D|]. cbn beta. intros [k c] j _ J ((T1 & T2) & T3 & T4). cbn [fst snd] in *.
  destruct (H j (or_intror J)) as [Ej Cj]. split; [unfold made_for; rewrite Ej; split; [lia|exact T2]|].
  rewrite Ej, Cj. auto.
Qed.

(** Reading metadata sets no path. *)
Definition keeps {A} (m : act A) : Prop := forall s, s_paths (fst (m s)) = s_paths s.
Lemma keeps_ret : forall {A} (a : A), keeps (ret a).
Proof. intros A a s. reflexivity. Qed.
Lemma keeps_raise : forall {A} e, keeps (@raise A e).
Proof. intros A e s. reflexivity. Qed.
Lemma keeps_andthen : forall {A B} (m : act A) (k : A -> act B), keeps m -> (forall a, keeps (k a)) -> keeps (andthen m k).
Proof.
  intros A B m k M K s. unfold andthen. pose proof (M s) as E. destruct (m s) as [s1 [a|e]]; cbn [fst] in *; [|exact E].
  rewrite (K a s1). exact E.
Qed.
Lemma keeps_for_each : forall {A} (l : list A) f, (forall a, keeps (f a)) -> keeps (for_each l f).
Proof. intros A l f F. induction l as [|a l IH]; cbn [for_each]; [apply keeps_ret|]. apply keeps_andthen; [apply F|intros; exact IH]. Qed.
Lemma keeps_collect : forall {A B} (l : list A) (f : A -> act B), (forall a, keeps (f a)) -> keeps (collect l f).
Proof.
  intros A B l f F. induction l as [|a l IH]; cbn [collect]; [apply keeps_ret|]. apply keeps_andthen; [apply F|]. intros b.
  apply keeps_andthen; [exact IH|]. intros r. apply keeps_ret.
Qed.
Section Keeps.
Variable order : list term -> list term.
Variable leaf : XmlModel.node -> guess.
Variable nsmap : XmlModel.node -> list (str * str).
Ltac keeping := repeat (first
  [ apply keeps_ret | apply keeps_raise | apply keeps_for_each; intros | apply keeps_collect; intros | apply keeps_andthen; intros ]).
Lemma keeps_on_graph : forall i f, keeps (on_graph i f).
Proof using Type. intros i f s. reflexivity. Qed.
Lemma keeps_make : forall k e p, keeps (make order k e p).
Proof using Type.
  intros k e p s. unfold make. destruct (get_attr #"urn" (n_attrs e)) as [u|]; [|reflexivity].
  destruct (new_cts order (s_state s) k u p None); reflexivity.
Qed.
Lemma keeps_structured : forall i e, keeps (parse_structured leaf nsmap i e).
Proof using Type.
  intros i e. unfold parse_structured. keeping. destruct (structured_value leaf nsmap a) as [[[[tag v] l]|]|x]; keeping. apply keeps_on_graph.
Qed.
Lemma keeps_labels : forall i k n e, keeps (parse_labels i k n e).
Proof using Type. intros i k n e. unfold parse_labels. keeping. destruct (get_attr xml_lang (n_attrs a)); keeping. apply keeps_on_graph. Qed.
Lemma keeps_lang : forall i e, keeps (assign_lang i e).
Proof using Type. intros i e s. unfold assign_lang. destruct (get_attr xml_lang (n_attrs e)); reflexivity. Qed.
Lemma keeps_about : forall i e, keeps (parse_about i e).
Proof using Type. intros i e. unfold parse_about. keeping. destruct (get_attr #"urn" (n_attrs a)); keeping. apply keeps_on_graph. Qed.
Lemma keeps_text : forall k e p, keeps (parse_text order leaf nsmap k e p).
Proof using Type.
  intros k e p. unfold parse_text.
  repeat first [apply keeps_make|apply keeps_labels|apply keeps_about|apply keeps_structured|apply keeps_ret|apply keeps_andthen; intros].
  - destruct k; first [apply keeps_ret|apply keeps_lang].
  - intros s. reflexivity.
Qed.
Lemma keeps_work : forall e p, keeps (parse_work order leaf nsmap e p).
Proof using Type.
  intros e p. unfold parse_work.
  repeat first [apply keeps_make|apply keeps_labels|apply keeps_lang|apply keeps_structured|apply keeps_text|apply keeps_ret|
    apply keeps_andthen; intros|apply keeps_collect; intros].
Qed.
Lemma keeps_textgroup : forall e p, keeps (parse_textgroup order leaf nsmap e p).
Proof using Type.
  intros e p. unfold parse_textgroup.
  repeat first [apply keeps_make|apply keeps_labels|apply keeps_structured|apply keeps_work|apply keeps_ret|
    apply keeps_andthen; intros|apply keeps_collect; intros].
Qed.
Lemma keeps_wrapped : forall {A} rp doc (p : XmlModel.node -> act A), (forall x, keeps (p x)) -> keeps (wrapped rp doc p).
Proof using Type.
  intros A rp doc p P s. unfold wrapped. destruct doc as [x|e]; [|reflexivity]. pose proof (P x s) as E.
  destruct (p x s) as [s1 [a|e]]; exact E.
Qed.
Lemma keeps_groups : forall rp fs, keeps (read_groups order leaf nsmap rp fs).
Proof using Type. intros rp fs. unfold read_groups. keeping. apply keeps_wrapped. intros x. apply keeps_textgroup. Qed.
Lemma keeps_works : forall rp gs, keeps (read_works order leaf nsmap rp gs).
Proof using Type. intros rp gs. unfold read_works. keeping. apply keeps_wrapped. intros x. apply keeps_work. Qed.
End Keeps.

(** The works of a group, those described with it and those read so far. *)
Definition works_read (s : store) (o : nat) (e : XmlModel.node) (ws : list XmlModel.node) (rs : list (nat * list nat)) : Prop :=
  made_for s KTextgroup e None o /\
  c_children (obj (s_state s) o) = first_of_each (combine (urn_list ws) (map fst rs)) /\
  Forall2 (fun w r => shows_work s w (Some o) (fst r) (snd r)) ws rs.

Lemma works_read_other : forall s s' o q es e ws rs, works_read s o e ws rs -> extends (Some q) es s s' -> q <> o ->
  c_kind (obj (s_state s) q) = KTextgroup -> works_read s' o e ws rs.
Proof.
  intros s s' o q es e ws rs ((M1 & M2) & C & D) [L X] N K.
  assert (S : forall j, j < size s -> q <> j -> obj (s_state s') j = obj (s_state s) j /\ citation_of s' j = citation_of s j).
  { intros j Hj Nj. destruct (X j Hj) as (A & _ & B). split; [apply A; congruence|exact B]. }
  destruct (S o M1 N) as [Eo _]. split; [unfold made_for; rewrite Eo; split; [lia|exact M2]|].
  split; [rewrite Eo; exact C|]. eapply F2_with; [exact D|]. cbn beta. intros w [i ts] _ _ Hw. cbn [fst snd] in *.
  eapply shows_work_same; [exact Hw|exact L|]. destruct Hw as ((W1 & W2 & _) & _ & T).
  intros j [->|J].
  - apply S; [exact W1|]. intros ->. congruence.
  - destruct (F2_in_r _ _ _ _ T J) as ((k & c) & _ & ((T1 & T2 & _) & _)). apply S; [exact T1|]. intros ->. congruence.
Qed.

Section Read.
Variable order : list term -> list term.
Hypothesis Ho : arranges order.
Variable leaf : XmlModel.node -> guess.
Variable nsmap : XmlModel.node -> list (str * str).
Variable raise_parsing : bool.

Lemma combine_snoc : forall {A B} (l : list A) (l' : list B) a b, length l = length l' ->
  combine (l ++ [a]) (l' ++ [b]) = combine l l' ++ [(a, b)].
Proof.
  intros A B l. induction l as [|x l IH]; intros [|y l'] a b E; try discriminate; [reflexivity|].
  cbn [app combine]. f_equal. apply IH. injection E as E. exact E.
Qed.

Lemma read_work : forall w o e ws rs s, works_read s o e ws rs -> good_work w -> fine_work w ->
  exists s' r, parse_work order leaf nsmap w (Some o) s = (s', Ok r) /\ works_read s' o e (ws ++ [w]) (rs ++ [r]) /\
    (exists es, extends (Some o) es s s') /\ size s <= fst r < size s'.
Proof using Ho.
  intros w o e ws rs s (M & C & D) G F. pose proof M as (M1 & M2).
  destruct (yields_ok _ _ _ _ (parse_work_yields order Ho leaf nsmap w (Some o) s (conj M1 I) F) G)
    as (s' & r & E & R & u & U & X & S & _).
  exists s', r. split; [exact E|]. pose proof X as [L X0].
  assert (R1 : size s <= fst r < size s') by (split; [lia|exact (proj1 (proj1 S))]).
  split; [|split; [eauto|exact R1]].
  destruct (X0 o M1) as (_ & Eo & _). specialize (Eo eq_refl).
  split; [unfold made_for; rewrite Eo; split; [lia|exact M2]|]. split.
  - rewrite Eo. cbn [c_children put_children]. rewrite C, <- !add_all_empty. unfold add_all.
    rewrite <- fold_left_app. f_equal. unfold urn_list. rewrite !map_app. cbn [map]. rewrite U.
    rewrite combine_snoc; [reflexivity|]. rewrite !map_length. eapply F2_length. exact D.
  - apply Forall2_app; [|constructor; [exact S|constructor]].
    eapply F2_with; [exact D|]. cbn beta. intros w' [i ts] _ _ Hw. cbn [fst snd] in *.
    eapply shows_work_same; [exact Hw|exact L|]. destruct Hw as ((W1 & W2 & _) & _ & T).
    intros j [->|J].
    + destruct (X0 i W1) as (A & _ & B). split; [|exact B]. apply A. intros Y. injection Y as ->. destruct M2. congruence.
    + destruct (F2_in_r _ _ _ _ T J) as ((k & c) & _ & ((T1 & T2 & _) & _)).
      destruct (X0 j T1) as (A & _ & B). split; [|exact B]. apply A. intros Y. injection Y as ->. destruct M2. congruence.
Qed.

(** The works of the subfolders of a group. *)
Definition files_of (o : nat) (f : located_group) : act (list (list (nat * str))) :=
  collect (gf_works (as_file f)) (fun dw =>
    r <-- wrapped raise_parsing (snd dw) (fun x => parse_work order leaf nsmap x (Some o)) ;;
    ret (map (fun t => (t, fst dw)) (snd r))).

Lemma read_files : forall (l : list (str * XmlModel.node)) o e ws rs s, works_read s o e ws rs ->
  (forall dw, In dw l -> good_work (snd dw) /\ fine_work (snd dw)) ->
  exists s' v rs', 
    collect (map (fun dw => (fst dw, @Ok XmlModel.node (snd dw))) l) (fun dw =>
      r <-- wrapped raise_parsing (snd dw) (fun x => parse_work order leaf nsmap x (Some o)) ;;
      ret (map (fun t => (t, fst dw)) (snd r))) s = (s', Ok v) /\
    works_read s' o e (ws ++ map snd l) (rs ++ rs') /\ (exists es, extends (Some o) es s s') /\
    (forall r, In r rs' -> size s <= fst r < size s') /\ NoDup (map fst rs') /\
    (forall t dir, In (t, dir) (concat v) <-> exists w r, In ((dir, w), r) (combine l rs') /\ In t (snd r)).
Proof using Ho.
  intros l. induction l as [|[d w] l IH]; intros o e ws rs s W G.
  - exists s, [], []. cbn [map collect]. rewrite !app_nil_r. split; [reflexivity|]. split; [exact W|].
    split; [exists []; apply extends_refl|]. split; [intros ? []|]. split; [constructor|].
    intros t dir. cbn. split; [intros []|]. intros (w & r & [] & _).
  - destruct (G (d, w) (or_introl eq_refl)) as [Gw Fw]. cbn [snd] in Gw, Fw.
    destruct (read_work w o e ws rs s W Gw Fw) as (s1 & r & E & W1 & (es1 & X1) & R1).
    destruct (IH o e _ _ s1 W1 (fun dw H => G dw (or_intror H))) as (s' & v & rs' & E' & W' & (es' & X') & R' & N' & V').
    exists s', (map (fun t => (t, d)) (snd r) :: v), (r :: rs'). split; [|split; [|split; [|split; [|split]]]].
    + cbn [map collect fst snd]. unfold wrapped at 1. unfold andthen at 1 2. rewrite E. unfold ret at 1. unfold andthen at 1.
      rewrite E'. reflexivity.
    + rewrite <- !app_assoc in W'. exact W'.
    + exists (es1 ++ es'). eapply extends_trans; eassumption.
    + pose proof X1 as [L1 _]. pose proof X' as [L' _]. intros x [<-|Hx]; [lia|]. apply R' in Hx. lia.
    + cbn [map]. constructor; [|exact N']. intros Hx. apply in_map_iff in Hx. destruct Hx as (x & Ex & Hx). apply R' in Hx. lia.
    + intros t dir. cbn [concat combine]. rewrite in_app_iff, V'. split.
      * intros [H|(w' & r' & H & T)]; [|exists w', r'; split; [right; exact H|exact T]].
        apply in_map_iff in H. destruct H as (t' & Et & Ht). injection Et as <- <-. exists w, r. split; [left; reflexivity|exact Ht].
      * intros (w' & r' & [H|H] & T); [|right; eauto]. injection H as <- <- <-. left. apply in_map_iff. eauto.
Qed.

(** All groups. *)
Definition group_read : Type := (located_group * nat * list (nat * list nat))%type.
Definition the_place (g : group_read) : located_group := fst (fst g).
Definition the_file (g : group_read) : described_group := snd (the_place g).
Definition the_group (g : group_read) : nat := snd (fst g).

Definition nested (f : described_group) : list XmlModel.node := named #"work" (fst f).

Lemma read_works_ok : forall (gs : list group_read) s,
  (forall g, In g gs -> works_read s (the_group g) (fst (the_file g)) (nested (the_file g)) (snd g) /\
    forall dw, In dw (snd (the_file g)) -> good_work (snd dw) /\ fine_work (snd dw)) ->
  NoDup (map the_group gs) ->
  exists s' v fs, 
    read_works order leaf nsmap raise_parsing (map (fun g => (the_group g, as_file (the_place g))) gs) s = (s', Ok v) /\
    Forall2 (fun g rs' => works_read s' (the_group g) (fst (the_file g)) (nested (the_file g) ++ map snd (snd (the_file g))) (snd g ++ rs') /\
      forall r, In r rs' -> size s <= fst r < size s') gs fs /\
    NoDup (map fst (concat fs)) /\ size s <= size s' /\
    (forall j, j < size s -> ~ In j (map the_group gs) -> obj (s_state s') j = obj (s_state s) j) /\
    (forall j, j < size s -> citation_of s' j = citation_of s j) /\
    (forall t dir, In (t, dir) v <-> exists g rs' w r, In (g, rs') (combine gs fs) /\
       In ((dir, w), r) (combine (snd (the_file g)) rs') /\ In t (snd r)).
Proof using Ho.
  intros gs s. unfold read_works.
  enough (X : forall gs s,
    (forall g, In g gs -> works_read s (the_group g) (fst (the_file g)) (nested (the_file g)) (snd g) /\
      forall dw, In dw (snd (the_file g)) -> good_work (snd dw) /\ fine_work (snd dw)) ->
    NoDup (map the_group gs) ->
    exists s' v fs, 
      collect (map (fun g => (the_group g, as_file (the_place g))) gs) (fun g =>
          collect (gf_works (snd g)) (fun dw =>
            r <-- wrapped raise_parsing (snd dw) (fun x => parse_work order leaf nsmap x (Some (fst g))) ;;
            ret (map (fun t => (t, fst dw)) (snd r)))) s = (s', Ok v) /\
      Forall2 (fun g rs' => works_read s' (the_group g) (fst (the_file g)) (nested (the_file g) ++ map snd (snd (the_file g))) (snd g ++ rs') /\
        forall r, In r rs' -> size s <= fst r < size s') gs fs /\
      NoDup (map fst (concat fs)) /\ size s <= size s' /\
      (forall j, j < size s -> ~ In j (map the_group gs) -> obj (s_state s') j = obj (s_state s) j) /\
      (forall j, j < size s -> citation_of s' j = citation_of s j) /\
      (forall o e ws rs, works_read s o e ws rs -> ~ In o (map the_group gs) -> works_read s' o e ws rs) /\
      (forall t dir, In (t, dir) (concat (concat v)) <-> exists g rs' w r, In (g, rs') (combine gs fs) /\
         In ((dir, w), r) (combine (snd (the_file g)) rs') /\ In t (snd r))).
  { intros H N. destruct (X gs s H N) as (s' & v & fs & E & A1 & A2 & A3 & A4 & A5 & _ & A6).
    exists s', (concat (concat v)), fs. split; [unfold andthen at 1; rewrite E; reflexivity|]. auto 10. }
  clear gs s. induction gs as [|g gs IH]; intros s H N.
  - exists s, [], []. cbn [map collect concat combine]. split; [reflexivity|]. split; [constructor|]. split; [constructor|]. split; [lia|].
    split; [reflexivity|]. split; [reflexivity|]. split; [auto|]. intros t dir. split; [intros []|]. intros (g & rs' & w & r & [] & _).
  - destruct (H g (or_introl eq_refl)) as [Wg Gg].
    destruct (read_files (snd (the_file g)) _ _ _ _ s Wg Gg) as (s1 & v1 & rs1 & E1 & W1 & (es1 & X1) & R1 & N1 & V1).
    cbn [map] in N. apply NoDup_cons_iff in N. destruct N as [NI N].
    pose proof X1 as [L1 Y1].
    assert (K : c_kind (obj (s_state s) (the_group g)) = KTextgroup) by apply Wg.
    destruct (IH s1) as (s' & v & fs & E' & F' & N' & L' & O' & C' & W' & V').
    { intros g' Hg'. destruct (H g' (or_intror Hg')) as [A B]. split; [|exact B].
      eapply works_read_other; [exact A|exact X1| |exact K]. intros Y. apply NI. rewrite Y. apply in_map. exact Hg'. }
    { exact N. }
    exists s', (v1 :: v), (rs1 :: fs). split; [|split; [|split; [|split; [|split; [|split; [|split]]]]]].
    + cbn [map collect fst snd]. unfold as_file at 1. cbn [gf_works]. change (snd (the_place g)) with (the_file g). unfold andthen at 1. rewrite E1. unfold andthen at 1. rewrite E'. reflexivity.
    + constructor.
      * split; [apply W'; [exact W1|exact NI]|]. intros r Hr. apply R1 in Hr. lia.
      * eapply F2_with; [exact F'|]. cbn beta. intros g' rs' _ _ [A B]. split; [exact A|]. intros r Hr. apply B in Hr. lia.
    + cbn [concat]. rewrite map_app. apply NoDup_app_; [exact N1|exact N'|].
      intros x Hx Hy. apply in_map_iff in Hx. destruct Hx as (r & <- & Hr). apply R1 in Hr.
      apply in_map_iff in Hy. destruct Hy as (r' & Er & Hr'). apply in_concat in Hr'. destruct Hr' as (rs' & I1 & I2).
      destruct (F2_in_r _ _ _ _ F' I1) as (g' & _ & _ & B). apply B in I2. lia.
    + lia.
    + intros j Hj NJ. cbn [map] in NJ. rewrite O'; [|lia|intros Y; apply NJ; right; exact Y].
      destruct (Y1 j Hj) as (A & _ & _). apply A. intros Z. apply NJ. left. congruence.
    + intros j Hj. rewrite C' by lia. apply Y1. exact Hj.
    + intros o e ws rs A NJ. apply W'; [|intros Y; apply NJ; right; exact Y].
      eapply works_read_other; [exact A|exact X1| |exact K]. intros Y. apply NJ. left. exact Y.
    + intros t dir. cbn [concat combine]. rewrite concat_app, in_app_iff, V1, V'. split.
      * intros [(w & r & A & B)|(g' & rs' & w & r & A & B)]; [exists g, rs1, w, r; split; [left; reflexivity|auto]|].
        exists g', rs', w, r. split; [right; exact A|exact B].
      * intros (g' & rs' & w & r & [A|A] & B); [injection A as <- <-; left; eauto|right; eauto 8].
Qed.

(** The textgroup files. *)
Lemma read_groups_ok : forall (fs : list located_group) s,
  (forall f, In f fs -> good_group (fst (snd f)) /\ fine_group (fst (snd f))) ->
  exists s' gs, 
    read_groups order leaf nsmap raise_parsing (map as_file fs) s = (s', Ok (map (fun g => (the_group g, as_file (the_place g))) gs)) /\
    map the_place gs = fs /\ NoDup (map the_group gs) /\ size s <= size s' /\
    (forall j, j < size s -> obj (s_state s') j = obj (s_state s) j /\ citation_of s' j = citation_of s j) /\
    (forall g, In g gs -> (size s <= the_group g /\ forall r, In r (snd g) -> the_group g < fst r) /\
       works_read s' (the_group g) (fst (the_file g)) (nested (the_file g)) (snd g)).
Proof using Ho.
  intros fs. induction fs as [|f fs IH]; intros s G.
  - exists s, []. cbn [map]. split; [reflexivity|]. split; [reflexivity|]. split; [constructor|]. split; [lia|]. split; [auto|intros ? []].
  - destruct (G f (or_introl eq_refl)) as [Gf Ff].
    destruct (yields_ok _ _ _ _ (parse_textgroup_yields order Ho leaf nsmap (fst (snd f)) None s I Ff) Gf)
      as (s1 & i & E & Ei & u & U & [L1 X1] & S & _).
    destruct (IH s1 (fun f' H => G f' (or_intror H))) as (s' & gs & E' & M' & N' & L' & O' & W').
    destruct S as (M & ws & (MA & MB) & D).
    assert (CH : exists rs, map fst rs = ws /\ Forall2 (fun w r => shows_work s1 w (Some i) (fst r) (snd r)) (named #"work" (fst (snd f))) rs).
    { clear -D. induction D as [|w j l l' [ts H] D (rs & A & B)]; [exists []; split; [reflexivity|constructor]|].
      exists ((j, ts) :: rs). cbn [map fst]. split; [f_equal; exact A|]. constructor; [exact H|exact B]. }
    destruct CH as (rs & CH1 & CH2).
    exists s', ((f, i, rs) :: gs). split; [|split; [|split; [|split; [|split]]]].
    + unfold read_groups in *. cbn [map collect gf_doc as_file fst snd]. unfold wrapped at 1. unfold andthen at 1 2. rewrite E. unfold ret at 1.
      unfold andthen at 1. rewrite E'. reflexivity.
    + cbn [map]. unfold the_place at 1. cbn [fst]. f_equal. exact M'.
    + cbn [map]. constructor; [|exact N']. intros X. apply in_map_iff in X. destruct X as (g & Eg & Hg). apply W' in Hg.
      unfold the_group at 2 in Eg. cbn [fst snd] in Eg. destruct M as [M _]. lia.
    + lia.
    + intros j Hj. destruct (O' j ltac:(lia)) as [A B]. destruct (X1 j Hj) as (A1 & _ & B1). rewrite A, B, A1, B1 by discriminate. auto.
    + intros g [<-|Hg].
      * unfold the_group, the_file, the_place, nested. cbn [fst snd]. split; [split; [lia|intros r Hr; apply MA; rewrite <- CH1; apply in_map; exact Hr]|].
        destruct M as [M1 M2].
        destruct (O' i M1) as [A _]. split; [unfold made_for; rewrite A; split; [lia|exact M2]|].
        split; [rewrite A, CH1; exact MB|]. eapply F2_with; [exact CH2|]. cbn beta. intros w [j ts] _ _ Hw. cbn [fst snd] in *.
        eapply shows_work_same; [exact Hw|exact L'|]. destruct Hw as ((W1 & _) & _ & T). intros x [->|J]; [apply O'; exact W1|].
        destruct (F2_in_r _ _ _ _ T J) as ((k & c) & _ & ((T1 & _) & _)). apply O'. exact T1.
      * destruct (W' g Hg) as [[A C] B]. split; [split; [lia|exact C]|exact B].
Qed.
End Read.
