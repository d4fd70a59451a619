(** CTS URNs.
    Models class URN of /repo/MyCapytain/common/reference/_capitains_cts.py
    lines 300-657. *)

From Coq Require Import List NArith Arith Bool.
From Verif Require Import PyStr RefModel.
Import ListNotations.

(** The private attributes: [__urn] (cached text, None when stale) and the
    dictionary [__parsed] with its six fixed keys (lines 341-342, 614-627). *)
Record urn := MkUrn {
  u_cache : option str;
  u_ns : option str;      (* "urn_namespace" *)
  u_cts : option str;     (* "cts_namespace" *)
  u_tg : option str;      (* "textgroup" *)
  u_wk : option str;      (* "work" *)
  u_vs : option str;      (* "version" *)
  u_ref : option ref      (* "reference" *)
}.

(** [URN(s)]: __init__ and __parse__ (lines 340-342, 629-657). *)
Definition urn_parse (s : str) : result urn :=
  let base := hd [] (split c_hash s) in
  let parts := split c_colon base in
  match parts with
  | _ :: ns :: cts :: rest =>
      rf <- match rest with
            | [_; r] => cts_reference (VStr r)       (* len(urn) == 5 *)
            | _ => Ok None
            end ;;
      match rest with
      | [] => Ok (MkUrn (Some base) (Some ns) (Some cts) None None None rf)
      | mid :: _ =>                                   (* len(urn) >= 4 *)
          let comps := split c_dot mid in
          Ok (MkUrn (Some base) (Some ns) (Some cts)
                (nth_error comps 0) (nth_error comps 1) (nth_error comps 2) rf)
      end
  | _ => Err ValueError                               (* "URN is empty" *)
  end.

(** Setters (lines 353-429): every one clears the cache first. *)
Definition set_ns (v : option str) (u : urn) : urn :=
  MkUrn None v (u_cts u) (u_tg u) (u_wk u) (u_vs u) (u_ref u).
Definition set_cts (v : option str) (u : urn) : urn :=
  MkUrn None (u_ns u) v (u_tg u) (u_wk u) (u_vs u) (u_ref u).
Definition set_tg (v : option str) (u : urn) : urn :=
  MkUrn None (u_ns u) (u_cts u) v (u_wk u) (u_vs u) (u_ref u).
Definition set_wk (v : option str) (u : urn) : urn :=
  MkUrn None (u_ns u) (u_cts u) (u_tg u) v (u_vs u) (u_ref u).
Definition set_vs (v : option str) (u : urn) : urn :=
  MkUrn None (u_ns u) (u_cts u) (u_tg u) (u_wk u) v (u_ref u).

(** [urn.reference = value] (lines 423-429): a reference object is stored as it
    is, anything else goes through the constructor, whose exception escapes
    after the cache has been cleared. *)
Inductive ref_arg := RefObj (r : ref) | RefVal (v : pyval).

Definition set_ref (v : ref_arg) (u : urn) : urn * option exn :=
  let put r := MkUrn None (u_ns u) (u_cts u) (u_tg u) (u_wk u) (u_vs u) r in
  match v with
  | RefObj r => (put (Some r), None)
  | RefVal v => match cts_reference v with
                | Ok r => (put r, None)
                | Err e => (put (u_ref u), Some e)
                end
  end.

(** The text computed by __str__ when the cache is empty (lines 520-530).  A
    reference is a two-element tuple, hence truthy. *)
Definition urn_render (u : urn) : result str :=
  match u_ns u with
  | None => Err TypeError
  | Some ns =>
      Ok (#"urn:" ++ ns ++
        match u_cts u with
        | Some ((_ :: _) as cts) => [c_colon] ++ cts ++
            match u_tg u with
            | Some ((_ :: _) as tg) => [c_colon] ++ tg ++
                match u_wk u with
                | Some ((_ :: _) as wk) => [c_dot] ++ wk ++
                    match u_vs u with
                    | Some ((_ :: _) as vs) => [c_dot] ++ vs
                    | _ => []
                    end ++
                    match u_ref u with
                    | Some r => [c_colon] ++ r_str r
                    | None => []
                    end
                | _ => []
                end
            | _ => []
            end
        | _ => []
        end)
  end.

(** [str(urn)] (lines 509-532): returns the text and stores it. *)
Definition urn_str (u : urn) : result str * urn :=
  match u_cache u with
  | Some s => (Ok s, u)
  | None => match urn_render u with
            | Ok s => (Ok s, MkUrn (Some s) (u_ns u) (u_cts u) (u_tg u) (u_wk u) (u_vs u) (u_ref u))
            | Err e => (Err e, u)
            end
  end.

Definition to_str (u : urn) : result str := fst (urn_str u).

(** [len(urn)] (lines 431-449). *)
Definition present {A} (o : option A) : nat := match o with Some _ => 1 | None => 0 end.

Definition urn_len (u : urn) : nat :=
  present (u_ns u) + present (u_cts u) + present (u_tg u) + present (u_wk u) + present (u_vs u).

(** [a > b], [a < b] (lines 451-483) and [a == b] for two URNs (lines 485-498). *)
Definition urn_gt (a b : urn) : bool := Nat.ltb (urn_len b) (urn_len a).
Definition urn_lt (a b : urn) : bool := Nat.ltb (urn_len a) (urn_len b).
Definition urn_eq (a b : urn) : result bool :=
  x <- to_str a ;; y <- to_str b ;; Ok (str_eqb x y).

(** [upTo(key)] (lines 534-612).  The string pieces may be None after
    assignments, and joining None raises TypeError. *)
Inductive upto_key :=
| NAMESPACE | TEXTGROUP | WORK | VERSION | PASSAGE | PASSAGE_START | PASSAGE_END
| NO_PASSAGE | COMPLETE.

Fixpoint some_all (l : list (option str)) : result (list str) :=
  match l with
  | [] => Ok []
  | Some s :: l' => r <- some_all l' ;; Ok (s :: r)
  | None :: _ => Err TypeError
  end.

Definition join_opt (sep : char) (l : list (option str)) : result str :=
  r <- some_all l ;; Ok (join [sep] r).

Definition keep_some (l : list (option str)) : list str :=
  flat_map (fun o => match o with Some s => [s] | None => [] end) l.

Definition urn_upto (k : upto_key) (u : urn) : result str :=
  let middle := Some (join [c_dot] (keep_some [u_tg u; u_wk u; u_vs u])) in
  let head := [Some #"urn"; u_ns u; u_cts u] in
  match k with
  | COMPLETE => to_str u
  | NAMESPACE => join_opt c_colon head
  | TEXTGROUP =>
      if truthy_opt (u_tg u) then join_opt c_colon (head ++ [u_tg u]) else Err KeyError
  | WORK =>
      if truthy_opt (u_wk u)
      then m <- join_opt c_dot [u_tg u; u_wk u] ;; join_opt c_colon (head ++ [Some m])
      else Err KeyError
  | VERSION =>
      if truthy_opt (u_vs u) then join_opt c_colon (head ++ [middle]) else Err KeyError
  | NO_PASSAGE =>
      if truthy_opt (u_wk u) then join_opt c_colon (head ++ [middle]) else Err KeyError
  | PASSAGE =>
      match u_ref u with
      | Some r => join_opt c_colon (head ++ [middle; Some (r_str r)])
      | None => Err KeyError
      end
  | PASSAGE_START =>
      match u_ref u with
      | Some r => join_opt c_colon (head ++ [middle; Some (r_start r)])
      | None => Err KeyError
      end
  | PASSAGE_END =>
      match u_ref u with
      | Some r => match r_end r with
                  | Some e => join_opt c_colon (head ++ [middle; Some e])
                  | None => Err KeyError
                  end
      | None => Err KeyError
      end
  end.

(** Histories: what a client can do to a URN object. *)
Inductive urn_op :=
| OpNs (v : option str) | OpCts (v : option str) | OpTg (v : option str)
| OpWk (v : option str) | OpVs (v : option str) | OpRef (v : ref_arg)
| OpStr.

Definition urn_step (u : urn) (o : urn_op) : urn :=
  match o with
  | OpNs v => set_ns v u
  | OpCts v => set_cts v u
  | OpTg v => set_tg v u
  | OpWk v => set_wk v u
  | OpVs v => set_vs v u
  | OpRef v => fst (set_ref v u)
  | OpStr => snd (urn_str u)
  end.

Definition urn_run (u : urn) (h : list urn_op) : urn := fold_left urn_step h u.
