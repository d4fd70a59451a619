(** The local resolver answering questions about its collections: LocalModel.v
    with the citations of the texts.

    Models /repo/MyCapytain/resolvers/cts/local.py lines 350-470.  The store holds
    the citations (InvModel.v), so the tests [text.citation is not None] and the
    assignments [x.citation = text.citation] are those of the code.  The object of
    a citation is shared between the two texts: nothing here changes citations in
    place, so a copy of the levels stands for it. *)

From Coq Require Import List NArith ZArith Arith Bool.
From Verif Require Import PyStr MetaModel CollModel InvModel InvExport LocalModel.
Import ListNotations.

(** Something done to the objects and graphs only. *)
Definition on_state {A} (f : state -> state * result A) : act A :=
  fun s => let '(st, r) := f (s_state s) in (MkStore st (s_cites s) (s_paths s), r).

(** Line 385: [text.citation is not None]. *)
Definition has_citation (s : store) (t : nat) : bool :=
  match text_citation s t with [] => false | _ => true end.

(** [__getTextMetadata__] (lines 350-396). *)
Definition resolver_texts (limit : nat) (order : list term -> list term) (root : nat) (q : query)
    (paginated : option (option Z * option Z)) : act (list nat * option Z * Z) :=
  fun s => (s, list_texts limit order (s_state s) root (has_citation s) q paginated).

(** [x.citation = text.citation] (lines 462, 465 and 468). *)
Definition same_citation (t x : nat) : act unit := fun s => set_citation x (text_citation s t) s.

(** Lines 448-468: one text.  The three URNs are read first; the class of an object
    never changes. *)
Definition rebuild_text (order : list term -> list term) (inv t : nat) : act unit :=
  fun s =>
    let st := s_state s in
    match (w <- up st t ;; g <- up st w ;; Ok (c_urn (obj st g), c_urn (obj st w), c_urn (obj st t))) with
    | Err e => (s, Err e)
    | Ok (tg_urn, wk_urn, txt_urn) =>
        (g <-- on_state (fun st => ensure order st KTextgroup inv tg_urn) ;;
         w <-- on_state (fun st => ensure order st KWork g wk_urn) ;;
         match c_kind (obj st t) with
         | KText Edition =>
             x <-- on_state (fun st => new_cts order st (KText Edition) txt_urn (Some w) None) ;;
             same_citation t x
         | KText Translation =>
             l <-- on_state (fun st => (st, get_lang order st t)) ;;
             x <-- on_state (fun st => new_cts order st (KText Translation) txt_urn (Some w) (Some l)) ;;
             same_citation t x
         | KText Commentary =>
             l <-- on_state (fun st => (st, get_lang order st t)) ;;
             x <-- on_state (fun st => new_cts order st (KText Commentary) txt_urn (Some w) (Some l)) ;;
             same_citation t x
         | _ => ret tt
         end) s
    end.

(** getMetadata (lines 426-470). *)
Definition resolver_metadata (limit : nat) (order : list term -> list term) (root : nat) (id : option str) : act nat :=
  match id with
  | None => ret root
  | Some key =>
      fun s =>
        if existsb (str_eqb key) (map fst (c_children (obj (s_state s) root))) then (s, getitem limit (s_state s) root key)
        else
          (found <-- resolver_texts limit order root (MkQuery (Some key) None None) None ;;
           let l := fst (fst found) in
           names <-- on_state (fun st => (st, mapM (fun t => w <- up st t ;; g <- up st w ;; i <- up st g ;; Ok (c_id (obj st i))) l)) ;;
           inv <-- on_state (fun st => let '(st1, i) := new_object st KInventory (inventory_name names) [] in (st1, Ok i)) ;;
           _ <-- for_each l (rebuild_text order inv) ;;
           on_state (fun st => (st, getitem limit st inv key))) s
  end.
