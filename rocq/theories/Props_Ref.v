(** Properties C01-C06 and C46: CTS references. *)

From Coq Require Import List NArith Arith.
From Verif Require Import PyStr RefModel RefSpec RefProofs.
Import ListNotations.

(** C01.  Every string falls in exactly one of four cases, and the constructor
    does the right thing in each. *)
Theorem C01_reference_parsing : forall s,
  (s = [] /\ cts_reference (VStr s) = Ok None) \/
  (s <> [] /\ ~ In c_dash s /\
     exists r, cts_reference (VStr s) = Ok (Some r) /\
       r_start r = s /\ r_end r = None /\ r_str r = s /\ is_range r = false) \/
  (exists a b, s = a ++ [c_dash] ++ b /\ ~ In c_dash a /\ ~ In c_dash b /\
     exists r, cts_reference (VStr s) = Ok (Some r) /\
       r_start r = a /\ r_end r = Some b /\ r_str r = s /\ is_range r = true) \/
  (exists a b c, s = a ++ [c_dash] ++ b ++ [c_dash] ++ c /\
     cts_reference (VStr s) = Err ValueError).
Proof. exact parse_cases. Qed.
Print Assumptions C01_reference_parsing.

Example C01_example_single :
  cts_reference (VStr #"1.pr.1@Achilles[2]")
  = Ok (Some (MkRef #"1.pr.1@Achilles[2]" None #"1.pr.1@Achilles[2]")).
Proof. vm_compute; reflexivity. Qed.
Example C01_example_range :
  cts_reference (VStr #"1.1-2.3") = Ok (Some (MkRef #"1.1" (Some #"2.3") #"1.1-2.3")).
Proof. vm_compute; reflexivity. Qed.
Example C01_example_bad : cts_reference (VStr #"1-2-3") = Err ValueError.
Proof. vm_compute; reflexivity. Qed.

(** Finding: a trailing hyphen makes a "range" with an empty end. *)
Theorem C01_trailing_hyphen_is_range : exists r,
  cts_reference (VStr #"1-") = Ok (Some r) /\ is_range r = true /\ r_end r = Some [].
Proof. eexists; vm_compute; auto. Qed.
Print Assumptions C01_trailing_hyphen_is_range.

(** C02. *)
Theorem C02_equality_is_string_equality : forall s t r q,
  cts_reference (VStr s) = Ok (Some r) -> cts_reference (VStr t) = Ok (Some q) ->
  (ref_eqb r q = true <-> s = t).
Proof. exact cts_reference_eq. Qed.
Print Assumptions C02_equality_is_string_equality.

Theorem C02_constructors_agree : forall a b,
  a <> [] -> b <> [] -> ~ In c_dash a -> ~ In c_dash b ->
  cts_reference (VStr (a ++ [c_dash] ++ b)) = Ok (Some (cts_reference2 a b)) /\
  cts_reference_tuple (VStr a) (VStr b) = Ok (cts_reference2 a b) /\
  r_start (cts_reference2 a b) = a /\ r_end (cts_reference2 a b) = Some b.
Proof. exact constructors_agree. Qed.
Print Assumptions C02_constructors_agree.

Theorem C02_rebuilding_from_tuple : forall s r, cts_reference (VStr s) = Ok (Some r) ->
  exists r', cts_reference_again r = Ok r' /\ ref_eqb r' r = true /\ r_str r' = s.
Proof. exact tuple_roundtrip. Qed.
Print Assumptions C02_rebuilding_from_tuple.

(** A tuple whose end is missing or empty is the single reference. *)
Theorem C02_tuple_without_end : forall a, a <> [] ->
  cts_reference_tuple (VStr a) VNone = Ok (MkRef a None a) /\
  cts_reference_tuple (VStr a) (VStr []) = Ok (MkRef a None a) /\
  cts_reference_tuple VNone (VStr a) = Err AttributeError.
Proof. exact tuple_without_end. Qed.
Print Assumptions C02_tuple_without_end.

Example C02_example :
  exists r q, cts_reference (VStr #"1.1") = Ok (Some r) /\ cts_reference (VStr #"1.1-1.2") = Ok (Some q)
  /\ ref_eqb r q = false /\ ref_eqb q q = true.
Proof. do 2 eexists; vm_compute; auto. Qed.

(** C03.  Reading back the levels and the word of a written passage, and
    writing back what was read. *)
Theorem C03_read_written : forall l w, l <> [] ->
  Forall (fun p => ~ In c_dot p /\ ~ In c_at p) l ->
  match w with Some w => ~ In c_at w | None => True end ->
  id_list (write_passage l w) = l /\
  id_subref_text (write_passage l w) = w /\
  id_depth (write_passage l w) =
    length l + match w with Some w => count c_dot w | None => 0 end.
Proof. exact passage_id_levels. Qed.
Print Assumptions C03_read_written.

Theorem C03_write_read : forall s, count c_at s <= 1 ->
  write_levels (id_list s) ++
    match id_subref_text s with Some w => [c_at] ++ w | None => [] end = s /\
  1 <= length (id_list s) <= id_depth s.
Proof. exact passage_id_lossless. Qed.
Print Assumptions C03_write_read.

(** A passage has a word exactly when it has one '@', and it is what follows. *)
Theorem C03_word : forall s w,
  id_subref_text s = Some w <->
  exists a, s = a ++ [c_at] ++ w /\ ~ In c_at a /\ ~ In c_at w.
Proof. exact word_iff. Qed.
Print Assumptions C03_word.

Example C03_example :
  id_list #"1.pr.1@Achilles[2]" = [#"1"; #"pr"; #"1"] /\
  id_subref_text #"1.pr.1@Achilles[2]" = Some #"Achilles[2]" /\
  id_depth #"1.pr.1@Achilles[2]" = 3.
Proof. vm_compute; auto. Qed.

(** Finding: depth counts the dots of the word, so it need not be the number of
    levels. *)
Theorem C03_depth_is_number_of_levels_refuted :
  exists s, count c_at s <= 1 /\ id_depth s <> length (id_list s).
Proof. exists #"1.1@e.g". vm_compute; split; [|discriminate]; repeat constructor. Qed.
Print Assumptions C03_depth_is_number_of_levels_refuted.

(** C04. *)
Theorem C04_parent_of_top_level : forall x w s, plain_levels [x] -> plain_word w ->
  ref_parent (MkRef (write_passage [x] w) None s) = Ok None.
Proof. exact parent_top. Qed.
Print Assumptions C04_parent_of_top_level.

Theorem C04_parent_drops_last_level : forall l x w s,
  plain_levels l -> plain_level x -> plain_word w ->
  ref_parent (MkRef (write_passage (l ++ [x]) w) None s) =
    Ok (Some (MkRef (write_passage l w) None (write_passage l w))).
Proof. exact parent_step. Qed.
Print Assumptions C04_parent_drops_last_level.

(** Following [parent] n times from a reference of n levels ends in None, and
    after fewer steps gives the corresponding prefix. *)
Theorem C04_parent_chain_ends : forall l w, plain_levels l -> plain_word w ->
  parent_chain (length l) (Some (MkRef (write_passage l w) None (write_passage l w))) = Ok None.
Proof. exact parent_chain_end. Qed.
Print Assumptions C04_parent_chain_ends.

Theorem C04_parent_chain_prefix : forall l2 l1 w,
  l1 <> [] -> plain_levels (l1 ++ l2) -> plain_word w ->
  parent_chain (length l2)
    (Some (MkRef (write_passage (l1 ++ l2) w) None (write_passage (l1 ++ l2) w)))
  = Ok (Some (MkRef (write_passage l1 w) None (write_passage l1 w))).
Proof. exact parent_chain_plain. Qed.
Print Assumptions C04_parent_chain_prefix.

Theorem C04_parent_of_range : forall l1 x1 w1 l2 x2 w2 s,
  plain_levels l1 -> plain_level x1 -> plain_word w1 ->
  plain_levels l2 -> plain_level x2 -> plain_word w2 ->
  (l1 = l2 /\ w1 = None /\ w2 = None ->
   ref_parent (MkRef (write_passage (l1 ++ [x1]) w1) (Some (write_passage (l2 ++ [x2]) w2)) s)
   = Ok (Some (MkRef (write_passage l1 None) None (write_passage l1 None)))) /\
  (~ (l1 = l2 /\ w1 = None /\ w2 = None) ->
   ref_parent (MkRef (write_passage (l1 ++ [x1]) w1) (Some (write_passage (l2 ++ [x2]) w2)) s)
   = Ok (Some (MkRef (write_passage l1 w1) (Some (write_passage l2 w2))
                     (write_passage l1 w1 ++ [c_dash] ++ write_passage l2 w2)))).
Proof. exact parent_range_cases. Qed.
Print Assumptions C04_parent_of_range.

Theorem C04_parent_of_mixed_range : forall a b s,
  (id_depth a = 1 /\ 1 < id_depth b) \/ (1 < id_depth a /\ id_depth b = 1) ->
  ref_parent (MkRef a (Some b) s) = Ok None.
Proof. exact parent_mixed. Qed.
Print Assumptions C04_parent_of_mixed_range.

Example C04_example_hypotheses :
  plain_levels [#"1"; #"pr"; #"12"] /\ plain_word (Some #"Achilles[1]").
Proof.
  split; [split; [discriminate|]|];
    repeat (constructor || (repeat split; cbn; intuition discriminate)).
Qed.
Example C04_example :
  ref_parent (MkRef #"1.pr.12" None #"1.pr.12") = Ok (Some (MkRef #"1.pr" None #"1.pr")) /\
  ref_parent (MkRef #"1.1" (Some #"1.2") #"1.1-1.2") = Ok (Some (MkRef #"1" None #"1")) /\
  ref_parent (MkRef #"1.1" (Some #"2") #"1.1-2") = Ok None.
Proof. vm_compute; auto. Qed.

(** Finding: with a dotted word the parent of a one-level reference is not None
    but a reference without any level name. *)
Theorem C04_dotted_word_parent_refuted : exists s r,
  cts_reference (VStr s) = Ok (Some r) /\ length (id_list (r_start r)) = 1 /\
  ref_parent r <> Ok None.
Proof. exists #"1@e.g", (MkRef #"1@e.g" None #"1@e.g"). vm_compute. repeat split; discriminate. Qed.
Print Assumptions C04_dotted_word_parent_refuted.

(** C05. *)
Theorem C05_highest : forall r,
  match r_end r with
  | None => ref_highest r = r_start r
  | Some e => (ref_highest r = r_start r /\ id_depth (r_start r) <= id_depth e) \/
              (ref_highest r = e /\ id_depth e < id_depth (r_start r))
  end.
Proof. exact highest_spec. Qed.
Print Assumptions C05_highest.

Theorem C05_depth : forall l1 w1 l2 w2 s,
  plain_levels l1 -> plain_word w1 -> plain_levels l2 -> plain_word w2 ->
  ref_depth (MkRef (write_passage l1 w1) (Some (write_passage l2 w2)) s)
    = Nat.min (length l1) (length l2) /\
  ref_depth (MkRef (write_passage l1 w1) None s) = length l1.
Proof. exact depth_range_plain. Qed.
Print Assumptions C05_depth.

Example C05_example :
  ref_highest (MkRef #"1.1" (Some #"1.2.8") #"1.1-1.2.8") = #"1.1" /\
  ref_highest (MkRef #"1.1" (Some #"2") #"1.1-2") = #"2" /\
  ref_depth (MkRef #"1.2.8" (Some #"1.3") #"1.2.8-1.3") = 2.
Proof. vm_compute; auto. Qed.

(** C06. For every classification of word characters that does not count '[' as
    one. *)
Theorem C06_word_and_counter : forall is_word w n,
  is_word c_lbracket = false -> forallb is_word w = true ->
  cts_word_reference is_word (w ++ [c_lbracket] ++ str_of_N n ++ [c_rbracket]) =
  MkWord (c_at :: w ++ [c_lbracket] ++ str_of_N n ++ [c_rbracket]) w n.
Proof. exact word_counter. Qed.
Print Assumptions C06_word_and_counter.

Theorem C06_word_alone : forall is_word w, forallb is_word w = true ->
  cts_word_reference is_word w = MkWord (c_at :: w) w 0%N.
Proof. exact word_no_counter. Qed.
Print Assumptions C06_word_alone.

Example C06_example :
  cts_word_reference is_alpha #"Atreus[13]" = MkWord #"@Atreus[13]" #"Atreus" 13%N /\
  cts_word_reference is_alpha #"[3]" = MkWord #"@[3]" [] 3%N.
Proof. vm_compute; auto. Qed.

(** C46. *)
Theorem C46_membership : forall l s r, cts_reference (VStr s) = Ok (Some r) ->
  (refset_contains l (VStr s) = Ok true <->
     exists x, In x l /\ r_start x = r_start r /\ r_end x = r_end r) /\
  (refset_contains l (VStr s) = Ok true \/ refset_contains l (VStr s) = Ok false) /\
  refset_contains_ref l r = refset_contains l (VStr s).
Proof. exact refset_membership. Qed.
Print Assumptions C46_membership.

Theorem C46_position : forall l s r i, cts_reference (VStr s) = Ok (Some r) ->
  (refset_index l (VStr s) = Ok i <->
     (exists x, nth_error l i = Some x /\ r_start x = r_start r /\ r_end x = r_end r) /\
     (forall j y, j < i -> nth_error l j = Some y ->
        ~ (r_start y = r_start r /\ r_end y = r_end r))) /\
  refset_index_ref l r = refset_index l (VStr s).
Proof. exact refset_position. Qed.
Print Assumptions C46_position.

Theorem C46_missing : forall l s r, cts_reference (VStr s) = Ok (Some r) ->
  (refset_index l (VStr s) = Err ValueError <-> refset_contains l (VStr s) = Ok false).
Proof. exact refset_index_missing. Qed.
Print Assumptions C46_missing.

Example C46_example :
  let l := [MkRef #"1.1" None #"1.1"; MkRef #"1.2" None #"1.2"; MkRef #"1.1" None #"1.1"] in
  refset_contains l (VStr #"1.2") = Ok true /\ refset_index l (VStr #"1.2") = Ok 1 /\
  refset_index l (VStr #"1.1") = Ok 0 /\ refset_contains l (VStr #"1.3") = Ok false.
Proof. vm_compute; auto. Qed.
