(** Checking a local text: getValidReff with [_debug], and test.

    Models /repo/MyCapytain/resources/texts/local/capitains/cts.py lines 174-288 with
    _debug=True (lines 197-200 and 264-288) and lines 490-499. *)

From Coq Require Import List NArith ZArith Arith Bool.
From Verif Require Import PyStr RefModel UrnModel CiteModel SchemeModel XmlModel XPathModel PassageModel.
Import ListNotations.

(** The calls of warnings.warn: level 0 with a reference that is no range, references
    that occur more than once (with the message), and empty references (with the
    numbers of the message). *)
Inductive warning := WLevel | WDuplicate (message : str) | WEmpty (number : nat) (level : Z).

(** Lines 267-273: the sets [seen] and [duplicates]; a set is given by its elements. *)
Definition set_add (s : str) (l : list str) : list str := if existsb (str_eqb s) l then l else s :: l.
Fixpoint duplicates_of (seen duplicates : list str) (l : list str) : list str :=
  match l with
  | [] => duplicates
  | n :: l' => if existsb (str_eqb n) seen then duplicates_of seen (set_add n duplicates) l'
               else duplicates_of (set_add n seen) duplicates l'
  end.

(** n.rstrip('.') *)
Fixpoint rstrip_dot (s : str) : str :=
  match s with
  | [] => []
  | c :: s' => match rstrip_dot s' with
               | [] => if N.eqb c c_dot then [] else [c]
               | t => c :: t
               end
  end.

(** Line 278. *)
Definition counts_empty (n : str) : bool := negb (str_eqb (rstrip_dot n) n) || str_eqb n [].

Section Audit.
Variable scheme : list str.
Variable same : node -> node -> bool.

(** The order in which a set is read by ", ".join. *)
Variable order : list str -> list str.

(** Lines 266-281. *)
Definition complaints (texts : list str) (level : Z) : list warning :=
  let duplicates := duplicates_of [] [] texts in
  let empties := filter counts_empty texts in
  (if Nat.ltb 0 (length duplicates) then [WDuplicate (join #", " (order duplicates))] else []) ++
  (if Nat.ltb 0 (length empties) then [WEmpty (length empties) level] else []).

(** Lines 192-200. *)
Definition level_complaint (level : option Z) (reference : option ref) : list warning :=
  match reference with
  | Some r => if is_range r then [] else match level with Some 0%Z => [WLevel] | _ => [] end
  | None => []
  end.

(** getValidReff (lines 174-288) with _debug=True: what is warned, and what is
    returned. *)
Definition audited_reff (self : tobj) (level : option Z) (reference : option ref)
  : list warning * result (list (option ref) * Z) :=
  let first := level_complaint level reference in
  match reff_start scheme same self level reference with
  | Err e => (first, Err e)
  | Ok (xml, parts, level) =>
      let level := match level with None => 1%Z | Some l => l end in
      let len := Z.of_nat (length parts) in
      let level := if (level <=? len)%Z && match reference with Some _ => true | None => false end
                   then (len + 1)%Z else level in
      if (Z.of_nat (length scheme) <? level)%Z then (first, Err CitationDepthError) else
      match (passages <- extend_times scheme (Z.to_nat (level - len)) xml [map Some parts] ;; mapM (join_opt c_dot) passages) with
      | Err e => (first, Err e)
      | Ok texts =>
          (first ++ complaints texts level,
           refs <- mapM (fun s => cts_reference (VStr s)) texts ;;
           _ <- citation_at scheme (level - 1) ;;
           Ok (refs, level))
      end
  end.

(** CapitainsCtsText.test (lines 490-499): the scope of the first citation
    (_capitains_cts.py lines 719-726) must select something. *)
Definition text_test (x : node) : result unit :=
  '(scope, _) <- parse_xpath_scope (match scheme with rd :: _ => Some rd | [] => None end) ;;
  found <- eval_abs x scope ;;
  match found with [] => Err RefsDeclError | _ => Ok tt end.
End Audit.
