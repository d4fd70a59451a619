(** Properties C20, C21 and C22 for the extraction of a passage from a tree; the
    same through the references of a text is in Props_Passage.v. *)

From Coq Require Import List NArith Arith Bool Lia.
From Verif Require Import PyStr XmlModel XmlSpec XmlProofs.
Import ListNotations.

(** C20.  The two expressions select one element each, the start being before the
    end.  A range whose end is inside its start is the start. *)
Theorem C20_extraction : forall root xs1 xs2 P1 P2,
  xs1 <> [] -> xs2 <> [] -> selects_only xs1 root P1 -> selects_only xs2 root P2 ->
  is_prefix P1 P2 = true \/ precedes P1 P2 = true ->
  exists R, extract identity_only root xs1 xs2 = Ok R /\
    lines 0 R = passage_lines (part_of P1 (if is_prefix P1 P2 then P1 else P2)) root.
Proof.
  exact (fun root xs1 xs2 P1 P2 h1 h2 s1 s2 o =>
    extract_lines identity_only root xs1 xs2 P1 P2 h1 h2 s1 s2 (alone_identity root P1) (alone_identity root P2) o).
Qed.
Print Assumptions C20_extraction.

(** The lines of a tree determine it. *)
Theorem C20_lines_faithful : forall n1 n2, lines 0 n1 = lines 0 n2 -> n1 = n2.
Proof. exact (lines_inj 0). Qed.
Print Assumptions C20_lines_faithful.

Theorem C20_unknown : forall root xs1 xs2,
  (forall p, ~ selects xs1 root p) \/ (forall p, ~ selects xs2 root p) ->
  extract identity_only root xs1 xs2 = Err IndexError.
Proof. exact (extract_nothing identity_only). Qed.
Print Assumptions C20_unknown.

(** An end that contains the start is an error, not a passage. *)
Theorem C20_inverted : forall root xs1 xs2 P2 a P,
  selects_only xs1 root (P2 ++ a :: P) -> selects_only xs2 root P2 ->
  extract identity_only root xs1 xs2 = Err IndexError.
Proof.
  exact (fun root xs1 xs2 P2 a P s1 s2 =>
    extract_inverted identity_only root xs1 xs2 P2 a P s1 s2 (alone_identity root _)).
Qed.
Print Assumptions C20_inverted.

(** A book with two poems; the passage 1.2-2.1. *)
Definition C20_line (n x : str) : node := Elem #"l" [(#"n", n)] x #"_" [].
Definition C20_book : node :=
  Elem #"TEI" [] #"t" #"" [Elem #"div" [(#"n", #"1")] #"a" #"-" [C20_line #"1" #"p"; C20_line #"2" #"q"; C20_line #"3" #"r"];
                           Elem #"div" [(#"n", #"2")] #"b" #"-" [C20_line #"1" #"s"; C20_line #"2" #"t"]].
Definition C20_steps (a b : str) : list step :=
  [MkStep true (Some #"div") [[PEq #"n" a]]; MkStep false (Some #"l") [[PEq #"n" b]]].
Example C20_example :
  selects_only (C20_steps #"1" #"2") C20_book [0; 1] /\ selects_only (C20_steps #"2" #"1") C20_book [1; 0] /\
  precedes [0; 1] [1; 0] = true /\
  extract identity_only C20_book (C20_steps #"1" #"2") (C20_steps #"2" #"1") =
    Ok (Elem #"TEI" [] [] [] [Elem #"div" [(#"n", #"1")] [] [] [Elem #"l" [(#"n", #"2")] #"q" [] [];
                                                                Elem #"l" [(#"n", #"3")] #"r" [] []];
                              Elem #"div" [(#"n", #"2")] [] [] [Elem #"l" [(#"n", #"1")] #"s" [] []]]).
Proof.
  split; [|split; [|split; reflexivity]]; (apply selects_only_xpath; [discriminate|reflexivity]).
Qed.

(** C20.  The tail of a complete element is lost at the cut level, although it lies
    between the start and the end. *)
Theorem C20_text_between_refuted : exists root xs1 xs2 P1 P2 R,
  selects_only xs1 root P1 /\ selects_only xs2 root P2 /\ precedes P1 P2 = true /\
  extract identity_only root xs1 xs2 = Ok R /\
  text_of root = #"one and two" /\ text_of R = #"onetwo" /\ P1 = [0] /\ P2 = [1] /\ length (n_kids root) = 2.
Proof. exact tail_dropped. Qed.
Print Assumptions C20_text_between_refuted.

(** C21.  With objectify, elements that have no children compare equal when their
    texts do.  The extraction is the same as for a plain tree when no other leaf
    beside the start, or beside the end, compares equal to it. *)
Theorem C21_objectified : forall eqv root xs1 xs2 P1 P2,
  xs1 <> [] -> xs2 <> [] -> selects_only xs1 root P1 -> selects_only xs2 root P2 ->
  (forall P a i m j ki kj, P = P1 \/ P = P2 -> P = a ++ [i] -> at_position root a m ->
     nth_error (n_kids m) i = Some ki -> nth_error (n_kids m) j = Some kj -> j <> i ->
     n_kids ki = [] -> n_kids kj = [] -> eqv (n_text kj) (n_text ki) = false) ->
  is_prefix P1 P2 = true \/ precedes P1 P2 = true ->
  exists R, extract (objectified eqv) root xs1 xs2 = Ok R /\ extract identity_only root xs1 xs2 = Ok R.
Proof. exact extract_objectified. Qed.
Print Assumptions C21_objectified.
Example C21_example : forall P a i m j ki kj, P = [0; 1] \/ P = [1; 0] -> P = a ++ [i] -> at_position C20_book a m ->
  nth_error (n_kids m) i = Some ki -> nth_error (n_kids m) j = Some kj -> j <> i ->
  n_kids ki = [] -> n_kids kj = [] -> str_eqb (n_text kj) (n_text ki) = false.
Proof.
  intros P a i m j ki kj HP E Hm Hi Hj Hne _ _. destruct HP as [-> | ->];
  [apply (app_inj_tail [0] a 1 i) in E|apply (app_inj_tail [1] a 0 i) in E];
  destruct E as [<- <-]; apply at_position_lookup in Hm; cbn in Hm; injection Hm as <-;
  cbn in Hi, Hj; injection Hi as <-;
  destruct j as [|[|[|[|j]]]]; cbn in Hj; try congruence; injection Hj as <-; reflexivity.
Qed.

(** Without that hypothesis the passage 3-4 of four lines starts at line 1, ... *)
Theorem C21_start_early_refuted : exists root xs1 xs2 P1 P2 R,
  selects_only xs1 root P1 /\ selects_only xs2 root P2 /\ precedes P1 P2 = true /\
  extract (objectified str_eqb) root xs1 xs2 = Ok R /\ P1 = [2] /\ P2 = [3] /\
  map (fun k => get_attr #"n" (n_attrs k)) (n_kids R) = [Some #"1"; Some #"2"; Some #"3"; Some #"4"].
Proof. exact objectified_starts_early. Qed.
Print Assumptions C21_start_early_refuted.

(** ... and the passage 1-3 is line 1 alone. *)
Theorem C21_end_lost_refuted : exists root xs1 xs2 P1 P2 R,
  selects_only xs1 root P1 /\ selects_only xs2 root P2 /\ precedes P1 P2 = true /\
  extract (objectified str_eqb) root xs1 xs2 = Ok R /\ P1 = [0] /\ P2 = [2] /\
  map (fun k => get_attr #"n" (n_attrs k)) (n_kids R) = [Some #"1"].
Proof. exact objectified_loses_end. Qed.
Print Assumptions C21_end_lost_refuted.

(** C22.  A single reference that selects something gives the passage of one of the
    elements selected, with its full text, for any comparison of elements. *)
Theorem C22_single : forall same root xs, xs <> [] -> (exists p, selects xs root p) ->
  exists R P e, extract same root xs xs = Ok R /\ selects xs root P /\ at_position root P e /\
    text_of R = text_of e /\ lines 0 R = passage_lines (part_of P P) root.
Proof. exact extract_single. Qed.
Print Assumptions C22_single.
Example C22_example : exists p, selects (C20_steps #"2" #"2") C20_book p.
Proof. exists [1; 1]. apply matches_selects. reflexivity. Qed.
