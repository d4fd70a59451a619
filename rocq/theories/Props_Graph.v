(** Property C43: the part of a graph around a node. *)

From Coq Require Import List NArith ZArith Arith Bool Lia Permutation.
From Verif Require Import PyStr PyStrFacts MetaModel MetaSpec MetaProofs GraphModel GraphSpec GraphProofs.
Import ListNotations.

(** ** C43: subgraph extraction is reachability *)

(** Without a limit downwards the statements are exactly those about the nodes
    that the target reaches; for one and two levels, those at that distance,
    blank objects of the last level left out.  Upwards, likewise, for no limit
    and for one level.  This holds whatever the order in which the graph
    enumerates its statements. *)
Theorem C43_exact : forall name order, arranges order -> forall g fuel l t a d out,
  names_differ name g t ->
  ((d < 0)%Z \/ d = 0%Z \/ d = 1%Z \/ d = 2%Z) -> ((a < 0)%Z \/ a = 0%Z \/ a = 1%Z) ->
  extract name order fuel (Prefixes l) g t a d = Ok out ->
  forall s p o, In (s, p, o) out <-> In (s, p, o) g /\ (below g t d s o \/ above g t a d s o).
Proof. exact extract_exact. Qed.
Print Assumptions C43_exact.

(** The two settings that the library uses. *)
Theorem C43_closure : forall name order, arranges order -> forall g fuel l t out,
  names_differ name g t -> extract name order fuel (Prefixes l) g t 1 (-1) = Ok out ->
  forall s p o, In (s, p, o) out <-> In (s, p, o) g /\ (reaches g t s \/ o = t).
Proof.
  intros name order A g fuel l t out N E s p o.
  rewrite (extract_exact name order A g fuel l t 1 (-1) out N) by (auto; lia).
  unfold below, above. split.
  - intros [I [[[_ R]|[[? _]|[? _]]]|[[? _]|[_ [O _]]]]]; try lia; auto.
  - intros [I [R|O]]; (split; [ exact I | ]); [ left; left | right; right ]; (split; [ lia | ]); [ exact R | ].
    split; [ exact O | intros; lia ].
Qed.
Print Assumptions C43_closure.

Theorem C43_dts_graph : forall name order, arranges order -> forall fuel g t out,
  dts_graph name order fuel false g t = Ok out ->
  forall s p o, In (s, p, o) out <-> In (s, p, o) g /\ s = t /\ ~ blank o.
Proof.
  intros name order A fuel g t out E s p o. unfold dts_graph in E.
  destruct (extract_split name order g fuel [] t 0 1 out E) as [G1 [D1 [U2 [S1 S2]]]].
  apply search_zero in S2. injection S2 as <- _.
  destruct (search_one name (adj_down order g) _ _ _ _ _ (@in_nil _ _) S1) as [_ X]. cbn [fst] in X. rewrite X. split.
  - intros [[]|[x I]]. apply (In_adj_down order A g) in I as [q [Q [J B]]]. injection Q as -> -> ->. auto.
  - intros [J [-> B]]. right. exists o. apply (In_adj_down order A g). eauto.
Qed.
Print Assumptions C43_dts_graph.

(** For every depth: nothing else is extracted. *)
Theorem C43_sound : forall name order, arranges order -> forall g fuel l t a d out,
  extract name order fuel (Prefixes l) g t a d = Ok out ->
  forall s p o, In (s, p, o) out -> In (s, p, o) g /\
    (((d < 0)%Z /\ reaches g t s)
     \/ (exists k, (Z.of_nat k < d)%Z /\ steps g t k s /\ (Z.of_nat (S k) = d -> ~ blank o))
     \/ (a <> 0%Z /\ climbs g (d <> 0 /\ d <> 1)%Z t o /\ (blank s -> (d <> 0 /\ d <> 1)%Z /\ o = t))).
Proof. exact extract_sound. Qed.
Print Assumptions C43_sound.

(** It ends on every graph, cyclic or not, within a recursion limit above the
    number of statements. *)
Theorem C43_ends : forall name order, arranges order -> forall g fuel l t a d, length g < fuel ->
  exists out, extract name order fuel (Prefixes l) g t a d = Ok out.
Proof. exact extract_ends. Qed.
Print Assumptions C43_ends.

(** A cyclic graph with a blank node and two literals that only differ in
    language meets the hypotheses. *)
Definition names (t : term) : str := match t with URI s => s | BNode n => 95%N :: [n] | Literal s _ _ => s end.
Definition ring : graph :=
  [(URI #"a", URI #"p", URI #"b"); (URI #"b", URI #"p", URI #"a"); (URI #"b", URI #"t", Literal #"x" (Some #"en") None);
   (URI #"b", URI #"t", Literal #"x" (Some #"la") None); (URI #"b", URI #"q", BNode 1); (URI #"c", URI #"p", URI #"a");
   (URI #"c", URI #"p", URI #"d")].

Example C43_ring : names_differ names ring (URI #"a") /\
  exists out, extract names (fun l => l) 20 (Prefixes []) ring (URI #"a") 1 (-1) = Ok out /\ length out = 6.
Proof.
  split.
  - intros x y X Y E.
    assert (X' : In x [URI #"a"; URI #"b"; URI #"c"]).
    { destruct X as [->|[p [o I]]]; [ left; reflexivity | ]. cbn in I.
      repeat (destruct I as [I|I]; [ injection I as <- _ _; cbn; tauto | ]). contradiction. }
    assert (Y' : In y [URI #"a"; URI #"b"; URI #"d"; Literal #"x" (Some #"en") None; Literal #"x" (Some #"la") None; BNode 1]).
    { destruct Y as [->|[s [p I]]]; [ left; reflexivity | ]. cbn in I.
      repeat (destruct I as [I|I]; [ injection I as _ _ <-; cbn; tauto | ]). contradiction. }
    cbn in X', Y'.
    repeat (destruct X' as [<-|X']; [ repeat (destruct Y' as [<-|Y']; [ first [ reflexivity | discriminate E ] | ]); contradiction | ]).
    contradiction.
  - eexists. split; [ vm_compute; reflexivity | reflexivity ].
Qed.

(** With three levels a statement at distance three can be missed, and whether
    it is depends on the order of enumeration. *)
Theorem C43_depth_refuted : exists g t tr order, arranges order /\ names_differ names g t /\
  (exists u k, tr = (u, URI #"p", URI #"e") /\ In tr g /\ steps g t k u /\ k < 3) /\
  (exists out, extract names (fun l => l) 20 (Prefixes []) g t 0 3 = Ok out /\ ~ In tr out) /\
  (exists out, extract names order 20 (Prefixes []) g t 0 3 = Ok out /\ In tr out).
Proof.
  set (g := [(URI #"t", URI #"p", URI #"a"); (URI #"a", URI #"p", URI #"b"); (URI #"t", URI #"p", URI #"b");
             (URI #"b", URI #"p", URI #"c"); (URI #"c", URI #"p", URI #"e")]).
  exists g, (URI #"t"), (URI #"c", URI #"p", URI #"e"), (@rev triple). split; [ | split; [ | split; [ | split ] ] ].
  - intros l. apply Permutation_rev.
  - intros x y X Y E.
    assert (U : forall z, (z = URI #"t" \/ (exists p o, In (z, p, o) g)) \/ (exists s p, In (s, p, z) g) -> exists s, z = URI s).
    { intros z [[->|[p [o I]]]|[s [p I]]]; [ eauto | | ]; cbn in I;
        repeat (destruct I as [I|I]; [ injection I; intros; subst; eauto | ]); contradiction. }
    destruct (U x) as [sx ->]; [ tauto | ]. destruct (U y) as [sy ->]; [ destruct Y; tauto | ]. cbn in E. congruence.
  - exists (URI #"c"), 2. split; [ reflexivity | ]. split; [ cbn; tauto | ]. split; [ | lia ].
    eapply steps_more; [ eapply steps_more; [ constructor | ] | ]; cbn; eauto 8.
  - eexists. split; [ vm_compute; reflexivity | ]. cbn. intuition discriminate.
  - eexists. split; [ vm_compute; reflexivity | ]. cbn. tauto.
Qed.
Print Assumptions C43_depth_refuted.

(** A literal spelled like a resource hides what is said about it. *)
Theorem C43_literal_refuted : exists g t tr out,
  In tr g /\ reaches g t (fst (fst tr)) /\
  extract names (fun l => l) 20 (Prefixes []) g t 0 (-1) = Ok out /\ ~ In tr out.
Proof.
  exists [(URI #"t", URI #"id", Literal #"urn:x" None None); (URI #"t", URI #"p", URI #"urn:x");
          (URI #"urn:x", URI #"p", URI #"b")], (URI #"t"), (URI #"urn:x", URI #"p", URI #"b").
  eexists. split; [ cbn; tauto | ]. split; [ | split; [ vm_compute; reflexivity | ] ].
  - eapply (reach_step _ _ (URI #"t")); [ constructor | ]. cbn. eauto.
  - cbn. intuition discriminate.
Qed.
Print Assumptions C43_literal_refuted.

(** For every recursion limit there is a graph that exceeds it. *)
Theorem C43_recursion_refuted : forall limit, exists g t,
  extract names (fun l => l) limit (Prefixes []) g t 0 (-1) = Err RecursionError.
Proof.
  intros limit. exists (chain_graph limit), (link 0). unfold extract. cbn [new_subgraph bind].
  rewrite down_eq.
  pose proof (chain_search names (fun i j H => link_inj i j (f_equal URI H)) limit limit 0 [] []) as C.
  change (-1 - Z.of_nat 0)%Z with (-1)%Z in C.
  match goal with |- context [search ?a ?b ?c ?d ?e ?f] => replace (search a b c d e f) with (@Err (graph * list str) RecursionError) end;
    [ reflexivity | symmetry; apply C; [ lia | intros ? [] ] ].
Qed.
Print Assumptions C43_recursion_refuted.

(** The JSON-LD and RDF exports of a collection, and a DTS export that is given
    a manager of prefixes, fail before they start. *)
Theorem C43_bindings_refuted : forall name order fuel g t,
  rdf_graph name order fuel g t = Err AttributeError
  /\ dts_graph name order fuel true g t = Err AttributeError
  /\ (forall a d, extract name order fuel NoBindings g t a d = Err AttributeError).
Proof. intros. repeat split. Qed.
Print Assumptions C43_bindings_refuted.
