(** Properties C16, C17 and C52: citation trees. *)

From Coq Require Import List NArith ZArith Arith Permutation.
From Verif Require Import PyStr Json TreeModel TreeSpec TreeProofs.
Import ListNotations.

(** C16.  [ps] are all the positions of the forest in document order. *)
Theorem C16_listing : forall f declared ps, all_positions f ps ->
  let s := MkSet f declared in
  map Some (set_iter s) = map (at_path f) ps /\
  set_len s = length ps /\
  (forall k : nat, exists l, set_getitem s (Z.of_nat k) = Ok l /\
     map Some l = map (at_path f) (filter (fun p => length p =? S k) ps)).
Proof. exact set_by_positions. Qed.
Print Assumptions C16_listing.

Theorem C16_depth : forall f ps, all_positions f ps ->
  exists d : nat, set_depth (MkSet f None) = Z.of_nat d /\
    (forall p, In p ps -> length p <= d) /\ (f = [] -> d = 0) /\ (f <> [] -> exists p, In p ps /\ length p = d).
Proof. exact set_depth_positions. Qed.
Print Assumptions C16_depth.

Theorem C16_positions_exist : forall f, exists ps, all_positions f ps.
Proof. exact (fun f => ex_intro _ _ (forest_positions f)). Qed.
Print Assumptions C16_positions_exist.

Theorem C16_levels : forall f, exists levels,
  mapM (fun k => set_getitem (MkSet f None) (Z.of_nat k)) (seq 0 (Z.to_nat (set_depth (MkSet f None)))) = Ok levels /\
  Permutation (set_iter (MkSet f None)) (concat levels).
Proof. exact set_levels. Qed.
Print Assumptions C16_levels.

Theorem C16_negative : forall f declared (k : nat),
  let s := MkSet f declared in 1 <= k ->
  set_getitem s (- Z.of_nat k) =
    if (Z.of_nat k <=? set_depth s)%Z then set_getitem s (set_depth s - Z.of_nat k) else Err CitationDepthError.
Proof. exact negative_index. Qed.
Print Assumptions C16_negative.

(** A forest with two schemes of different depth. *)
Definition C16_forest : list citation :=
  [Cite (Some #"book") (Some 0) [Cite (Some #"poem") (Some 0) [Cite (Some #"line") (Some 0) []];
                                 Cite (Some #"preface") (Some 0) []];
   Cite (Some #"letter") (Some 0) []].
Example C16_example :
  map c_name (set_iter (MkSet C16_forest None)) =
    [Some #"book"; Some #"poem"; Some #"line"; Some #"preface"; Some #"letter"] /\
  set_len (MkSet C16_forest None) = 5 /\ set_depth (MkSet C16_forest None) = 3%Z /\
  (exists l, set_getitem (MkSet C16_forest None) 1 = Ok l /\ map c_name l = [Some #"poem"; Some #"preface"]) /\
  (exists l, set_getitem (MkSet C16_forest None) (-1) = Ok l /\ map c_name l = [Some #"line"]) /\
  set_getitem (MkSet C16_forest None) (-4) = Err CitationDepthError.
Proof. repeat split; try reflexivity; eexists; split; reflexivity. Qed.

(** On a citation, as opposed to a set, [-1] is not the deepest level: its depth
    counts the citation itself. *)
Theorem C16_citation_negative_refuted : exists c,
  citation_depth c = 2 /\ citation_getitem c (-1) = Ok [] /\
  citation_getitem c 0 = Ok (c_children c) /\ length (c_children c) = 1.
Proof.
  exact (ex_intro _ (Cite (Some #"book") None [Cite (Some #"line") None []])
           (conj eq_refl (conj eq_refl (conj eq_refl eq_refl)))).
Qed.
Print Assumptions C16_citation_negative_refuted.

(** A declared depth (DtsCitationSet.depth = d) that is too large makes negative
    indices miss the deepest level. *)
Example C16_declared_depth : set_getitem (MkSet C16_forest (Some 5%Z)) (-1) = Ok [].
Proof. reflexivity. Qed.

(** C17.  [expand] is the JSON-LD expansion of the exported document. *)
Theorem C17_ingest_export : forall type_term structure_term s self,
  exists s', set_ingest self (expand type_term structure_term (set_export type_term structure_term s)) = Ok s' /\
    map shape_of (s_children s') = map shape_of (s_children s) /\
    Forall (fun c => c_root c = Some self) (set_iter s').
Proof. exact set_json_round_trip. Qed.
Print Assumptions C17_ingest_export.

Theorem C17_export : forall type_term structure_term s s',
  map shape_of (s_children s) = map shape_of (s_children s') ->
  set_export type_term structure_term s = set_export type_term structure_term s'.
Proof. exact export_same_shape. Qed.
Print Assumptions C17_export.

Theorem C17_without_set : forall type_term structure_term c, exists c',
  citation_ingest None (expand type_term structure_term (citation_export type_term structure_term c)) = Ok c' /\
  shape_of c' = shape_of c /\
  Forall (fun x => citation_is_root x = true) (citation_iter c').
Proof. exact ingest_without_root. Qed.
Print Assumptions C17_without_set.

Example C17_example :
  set_export #"dts:citeType" #"dts:citeStructure" (MkSet C16_forest None) =
  JList [JObj [(#"dts:citeType", JStr #"book");
               (#"dts:citeStructure", JList [
                  JObj [(#"dts:citeType", JStr #"poem");
                        (#"dts:citeStructure", JList [JObj [(#"dts:citeType", JStr #"line")]])];
                  JObj [(#"dts:citeType", JStr #"preface")]])];
         JObj [(#"dts:citeType", JStr #"letter")]].
Proof. reflexivity. Qed.

(** C52.  Two citations ingested into sets are equal exactly when they belong to
    the same set object and have the same names and nesting. *)
Theorem C52_equality : forall h s s' t,
  (exists l, nth_error h s = Some (OSet l)) -> (exists l, nth_error h s' = Some (OSet l)) ->
  forall fuel a b t', shape_depth t < fuel -> ingested h s a t -> ingested h s' b t' ->
  exists r, citation_eq fuel h a b = Ok r /\ (r = true <-> s = s' /\ t = t').
Proof. exact ingested_eq. Qed.
Print Assumptions C52_equality.

Example C52_example : exists h t,
  ingested h 0 1 t /\ ingested h 0 3 t /\ ingested h 5 6 t /\
  nth_error h 0 = Some (OSet [1; 3]) /\ nth_error h 5 = Some (OSet [6]) /\
  citation_eq 9 h 1 3 = Ok true /\ citation_eq 9 h 1 6 = Ok false.
Proof.
  exists [OSet [1; 3]; OCit (Some #"a") (Some 0) [2]; OCit None (Some 0) [];
          OCit (Some #"a") (Some 0) [4]; OCit None (Some 0) [];
          OSet [6]; OCit (Some #"a") (Some 5) [7]; OCit None (Some 5) []],
         (Shape (Some #"a") [Shape None []]).
  repeat split; try reflexivity;
    (econstructor; [reflexivity|constructor; [econstructor; [reflexivity|constructor]|constructor]]).
Qed.

(** Citations nested by hand are not comparable: the recursion never ends. *)
Theorem C52_hand_made_refuted : exists h a b,
  nth_error h a = Some (OCit (Some #"book") None [S a]) /\ nth_error h (S a) = Some (OCit (Some #"line") (Some a) []) /\
  nth_error h b = Some (OCit (Some #"book") None [S b]) /\ nth_error h (S b) = Some (OCit (Some #"line") (Some b) []) /\
  forall fuel, citation_eq fuel h a b = Err RecursionError.
Proof.
  exact (ex_intro _ loop_heap (ex_intro _ 0 (ex_intro _ 2
    (conj eq_refl (conj eq_refl (conj eq_refl (conj eq_refl (fun fuel => proj1 (eq_loops fuel))))))))).
Qed.
Print Assumptions C52_hand_made_refuted.
