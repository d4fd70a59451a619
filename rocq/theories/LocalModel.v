(** The local resolver: dispatching, paginated listings, metadata and text lookup.

    Models /repo/MyCapytain/resolvers/utils.py and
    /repo/MyCapytain/resolvers/cts/local.py lines 58-70, 241-257 and 304-470.
    Files are not modelled: what is in them arrives as collections (CollModel.v),
    and whether a text has a citation is an argument. *)

From Coq Require Import List NArith ZArith Arith Bool.
From Verif Require Import PyStr PyStrFacts UrnModel MetaModel CollModel.
Import ListNotations.

(** ** Dispatching (utils.py)

    A filter is called with a collection and the keyword arguments of [dispatch]:
    here the path, which may be missing.  What counts is whether it returns True
    itself.  It may raise, and it is supposed not to change anything. *)
Definition filter_fun := state -> nat -> option str -> result bool.
Record dispatcher := MkDispatcher { d_root : nat; d_methods : list (str * filter_fun) }.

(** Lines 16-20. *)
Definition new_dispatcher (st : state) (root : nat) (default : option str) : result dispatcher :=
  name <- match default with
          | Some n => Ok n
          | None => match c_children (obj st root) with
                    | (_, i) :: _ => Ok (c_id (obj st i))
                    | [] => Err IndexError
                    end
          end ;;
  Ok (MkDispatcher root [(name, fun _ _ _ => Ok true)]).

(** Lines 33-42 and 44-66: [add], also as a decorator. *)
Definition add_filter (d : dispatcher) (f : filter_fun) (name : str) : dispatcher :=
  MkDispatcher (d_root d) (d_methods d ++ [(name, f)]).

(** [collection.children[name]] with a missing name: inventories, textgroups and
    works have default dictionaries, that make an object without URN, which fails. *)
Definition child (st : state) (c : nat) (name : str) : state * result nat :=
  match dget name (c_children (obj st c)) with
  | Some i => (st, Ok i)
  | None =>
      match c_kind (obj st c) with
      | KInventory => (fst (new_object st KTextgroup [] []), Err ValueError)
      | KTextgroup => (fst (new_object st KWork #"None" []), Err AttributeError)
      | KWork => (fst (new_object st (KText Unknown) [] []), Err ValueError)
      | _ => (st, Err KeyError)
      end
  end.

(** Lines 68-80: [dispatch]. *)
Fixpoint dispatch_in (st : state) (root c : nat) (path : option str) (l : list (str * filter_fun)) : state * result unit :=
  match l with
  | [] => (st, Err UndispatchedTextError)
  | (name, f) :: l' =>
      match f st c path with
      | Err e => (st, Err e)
      | Ok true =>
          let '(st1, r) := child st root name in
          match r with
          | Ok i => (set_parent st1 c i, Ok tt)
          | Err e => (st1, Err e)
          end
      | Ok false => dispatch_in st root c path l'
      end
  end.
Definition dispatch (st : state) (d : dispatcher) (c : nat) (path : option str) : state * result unit :=
  dispatch_in st (d_root d) c path (rev (d_methods d)).

(** ** Pagination (local.py lines 398-422) *)

Definition ceil_div (a b : Z) : Z := (- ((- a) / b))%Z.
(** [value or default]. *)
Definition or_default (v : option Z) (d : Z) : Z :=
  match v with Some z => if (z =? 0)%Z then d else z | None => d end.

(** The numbers are integers: the division of line 413 is one of floating point
    numbers in the code. *)
Definition pagination (page limit : option Z) (length : Z) : Z * Z * option Z * Z :=
  let limit := or_default limit 10 in
  let limit := if (limit <? 1)%Z || (100 <? limit)%Z then 10%Z else limit in
  let start := ((or_default page 1 - 1) * limit)%Z in
  let '(start, real, count) :=
    if (length <? start)%Z then
      let real := ceil_div length limit in ((limit * (real - 1))%Z, Some real, (length - 1)%Z)
    else if (limit - 1 + start <? length)%Z then (start, page, (limit - 1 + start)%Z)
    else (start, page, (length - 1)%Z) in
  (start, (count + 1)%Z, real, (count - start + 1)%Z).

(** [l[a:b]]: negative bounds count from the end. *)
Definition bound (n : nat) (z : Z) : nat :=
  if (z <? 0)%Z then Z.to_nat (Z.of_nat n + z) else Nat.min (Z.to_nat z) n.
Definition slice {A} (a b : Z) (l : list A) : list A :=
  let n := length l in
  firstn (bound n b - bound n a) (skipn (bound n a) l).

(** ** Listing texts (lines 338-396) *)

Definition subtype_name (k : kind) : str :=
  match k with
  | KText Edition => #"edition"
  | KText Translation => #"translation"
  | KText Commentary => #"commentary"
  | _ => #"unknown"
  end.

(** Line 376: the level of a URN; it has at most five components. *)
Definition part_of (n : nat) : result upto_key :=
  match n with
  | 2 => Ok NAMESPACE | 3 => Ok TEXTGROUP | 4 => Ok WORK | 5 => Ok VERSION | 6 => Ok COMPLETE
  | _ => Err NotImplementedError
  end.

Record query := MkQuery { q_urn : option str; q_lang : option str; q_category : option str }.

(** Line 384: [text.urn.upTo(part) == urn]. *)
Definition urn_test (st : state) (part : upto_key) (urn : option str) (t : nat) : result bool :=
  match urn with
  | None => Ok true
  | Some s => u <- urn_parse (c_urn (obj st t)) ;; x <- urn_upto part u ;; Ok (str_eqb x s)
  end.
Definition lang_test (order : list term -> list term) (st : state) (lang : option str) (t : nat) : result bool :=
  match lang with
  | None => Ok true
  | Some l => x <- get_lang order st t ;; Ok (str_eqb l x)
  end.
(** Lines 386-389; the names are in lower case. *)
Definition category_test (st : state) (cat : option str) (t : nat) : bool :=
  match cat with
  | Some c => if existsb (str_eqb c) [#"edition"; #"translation"; #"commentary"]
              then str_eqb c (subtype_name (c_kind (obj st t))) else true
  | None => true
  end.

Definition keep_text (order : list term -> list term) (st : state) (cited : nat -> bool) (part : upto_key) (q : query) (t : nat)
  : result bool :=
  a <- lang_test order st (q_lang q) t ;;
  if negb a then Ok false else
  b <- urn_test st part (q_urn q) t ;;
  if negb b then Ok false else
  Ok (cited t && category_test st (q_category q) t).

Definition find_texts (limit : nat) (order : list term -> list term) (st : state) (root : nat) (cited : nat -> bool) (q : query)
  : result (list nat) :=
  part <- match q_urn q with
          | Some s => u <- urn_parse s ;; part_of (urn_len u)
          | None => Ok COMPLETE
          end ;;
  l <- readable_descendants limit st root ;;
  filterM (keep_text order st cited part q) l.

Definition list_texts (limit : nat) (order : list term -> list term) (st : state) (root : nat) (cited : nat -> bool) (q : query)
    (paginated : option (option Z * option Z)) : result (list nat * option Z * Z) :=
  m <- find_texts limit order st root cited q ;;
  Ok match paginated with
     | Some (page, per) =>
         let '(a, b, page', count) := pagination page per (Z.of_nat (length m)) in (slice a b m, page', count)
     | None => (m, Some 0%Z, Z.of_nat (length m))
     end.

(** ** [getMetadata] (lines 424-470) *)

Definition up (st : state) (c : nat) : result nat :=
  match c_parent (obj st c) with Some p => Ok p | None => Err AttributeError end.

(** Lines 441-445: [len(set(names)) == 1] holds of a list that is not empty and whose
    names are all the same. *)
Definition inventory_name (names : list str) : str :=
  match names with
  | n :: l => if forallb (str_eqb n) l then n else #"defaultInventory"
  | [] => #"defaultInventory"
  end.

(** An object of the new inventory, made if it is missing (lines 453-457). *)
Definition ensure (order : list term -> list term) (st : state) (k : kind) (p : nat) (urn : str) : state * result nat :=
  match dget urn (c_children (obj st p)) with
  | Some i => (st, Ok i)
  | None =>
      let '(st1, r) := new_cts order st k urn (Some p) None in
      match r with
      | Err e => (st1, Err e)
      | Ok _ => child st1 p urn
      end
  end.

(** Lines 448-468: one text.  Its citation is in AnswerModel.v. *)
Definition rebuild (order : list term -> list term) (inv : nat) (sr : state * result unit) (t : nat) : state * result unit :=
  let '(st, r) := sr in
  match r with
  | Err _ => sr
  | Ok _ =>
      match (w <- up st t ;; g <- up st w ;; Ok (w, g)) with
      | Err e => (st, Err e)
      | Ok (w, g) =>
          let '(st1, rg) := ensure order st KTextgroup inv (c_urn (obj st g)) in
          match rg with
          | Err e => (st1, Err e)
          | Ok g' =>
              let '(st2, rw) := ensure order st1 KWork g' (c_urn (obj st w)) in
              match rw with
              | Err e => (st2, Err e)
              | Ok w' =>
                  match c_kind (obj st t) with
                  | KText Edition =>
                      let '(st3, r3) := new_cts order st2 (KText Edition) (c_urn (obj st t)) (Some w') None in
                      (st3, _ <- r3 ;; Ok tt)
                  | KText Translation | KText Commentary =>
                      match get_lang order st2 t with
                      | Err e => (st2, Err e)
                      | Ok l =>
                          let '(st3, r3) := new_cts order st2 (c_kind (obj st t)) (c_urn (obj st t)) (Some w') (Some l) in
                          (st3, _ <- r3 ;; Ok tt)
                      end
                  | _ => (st2, Ok tt)
                  end
              end
          end
      end
  end.

Definition get_metadata (limit : nat) (order : list term -> list term) (st : state) (root : nat) (cited : nat -> bool)
    (id : option str) : state * result nat :=
  match id with
  | None => (st, Ok root)
  | Some key =>
      if existsb (str_eqb key) (map fst (c_children (obj st root))) then (st, getitem limit st root key)
      else
        match (l <- find_texts limit order st root cited (MkQuery (Some key) None None) ;;
               names <- mapM (fun t => w <- up st t ;; g <- up st w ;; i <- up st g ;; Ok (c_id (obj st i))) l ;;
               Ok (l, names)) with
        | Err e => (st, Err e)
        | Ok (l, names) =>
            let '(st1, inv) := new_object st KInventory (inventory_name names) [] in
            let '(st2, r) := fold_left (rebuild order inv) l (st1, Ok tt) in
            match r with
            | Err e => (st2, Err e)
            | Ok _ => (st2, getitem limit st2 inv key)
            end
        end
  end.

(** ** [__getText__] (lines 314-338): the URN of the text that is read, and the
    text *)

Definition read_urn (limit : nat) (st : state) (root : nat) (urn : str) : result UrnModel.urn :=
  u <- urn_parse urn ;;
  match urn_len u with
  | 5 => Ok u
  | 4 =>
      p <- urn_upto WORK u ;;
      l <- readable_descendants limit st root ;;
      match filter (fun t => startswith (c_id (obj st t)) p && is_edition (c_kind (obj st t))) l with
      | [] => Err UnknownObjectError
      | t :: _ => urn_parse (c_id (obj st t))
      end
  | _ => Err InvalidURN
  end.

Definition get_text (limit : nat) (st : state) (root : nat) (urn : str) : result nat :=
  u <- read_urn limit st root urn ;; s <- to_str u ;; getitem limit st root s.

(** ** Entering a textgroup in the inventory (lines 241-257)

    Only textgroups and works have [update]. *)
Definition update_any (st : state) (self other : nat) : state * result unit :=
  match c_kind (obj st self) with
  | KTextgroup => textgroup_update st self other
  | KWork => work_update st self other
  | _ => (st, Err AttributeError)
  end.

Definition enter_work (limit : nat) (root tg : nat) (sr : state * result unit) (e : str * nat) : state * result unit :=
  let '(st, r) := sr in
  match r with
  | Err _ => sr
  | Ok _ =>
      match getitem limit st root (c_id (obj st tg)) with
      | Err e => (st, Err e)
      | Ok g =>
          if existsb (str_eqb (fst e)) (map fst (c_children (obj st g))) then
            match getitem limit st root (fst e) with
            | Err e => (st, Err e)
            | Ok w => update_any st w (snd e)
            end
          else (st, Ok tt)
      end
  end.

Definition enter (limit : nat) (st : state) (d : dispatcher) (tg : nat) (path : str) : state * result unit :=
  match contains limit st (d_root d) (c_id (obj st tg)) with
  | Err e => (st, Err e)
  | Ok b =>
      let '(st1, r) :=
        if b then
          match getitem limit st (d_root d) (c_id (obj st tg)) with
          | Err e => (st, Err e)
          | Ok g => update_any st g tg
          end
        else dispatch st d tg (Some path) in
      match r with
      | Err e => (st1, Err e)
      | Ok _ => fold_left (enter_work limit (d_root d) tg) (c_children (obj st1 tg)) (st1, Ok tt)
      end
  end.
