(** Independent vocabulary for documents of a DTS resolver. *)

From Coq Require Import List NArith ZArith Arith Bool.
From Verif Require Import PyStr Json TreeModel HttpModel HttpSpec DtsModel DtsDocModel.
Import ListNotations.

(** The sessions a user can come to: documents are opened with the resolver, then
    asked things. *)
Inductive session_of {X} (dec : str -> str) (rs : resolver X) : session X -> Prop :=
| so_empty : session_of dec rs (MkSession [] [])
| so_open : forall w id r w' x, session_of dec rs w -> open_document dec rs id r w = (w', x) -> session_of dec rs w'
| so_ask : forall w i a w' x, session_of dec rs w -> do_ask dec rs w i a = (w', x) -> session_of dec rs w'.

(** The identifier a call is about. *)
Definition about (c : call) : str :=
  match c with CallDocument id _ => id | CallCollection id => id | CallReffs id _ _ => id end.

(** What does not change in a document, and what is not forgotten. *)
Definition same_document {X} (d d' : document X) : Prop :=
  dd_id d' = dd_id d /\ dd_ref d' = dd_ref d /\ dd_body d' = dd_body d /\
  dd_prev d' = dd_prev d /\ dd_next d' = dd_next d /\ dd_parent d' = dd_parent d /\
  (forall h, dd_coll d = Some h -> dd_coll d' = Some h) /\
  (forall l, dd_kids d = Some l -> dd_kids d' = Some l).

(** A reply with a header made of links that need no escape.  Of relations named
    parent there are none: with one, what is read is that of up (see C49). *)
Definition replies {X} (reply : list link * X) (links : list doc_link) (body : X) : Prop :=
  reply = (map (fun l => (fst l, write_doc_link (snd l))) links, body) /\
  Forall (fun l => plain_link (snd l)) links /\
  (forall ps, gives links #"parent" ps -> ~ filled ps).

(** A text as a list of passages: the resolver has them all, and the header of each
    names its neighbours. *)
Definition publishes {X} (rs : resolver X) (id : str) (ps : list (dref * X)) : Prop :=
  forall calls k r body, nth_error ps k = Some (r, body) ->
    exists reply links, ask_document rs calls id (Some (DRef r)) = Ok reply /\ replies reply links body /\
      leads links #"next" (option_map fst (nth_error ps (S k))) /\
      leads links #"prev" (match k with 0 => None | S j => option_map fst (nth_error ps j) end).

(** A reader with a document: next and prev, when there is one, take them to
    another; whatever else they ask, they keep it. *)
Fixpoint travel {X} (dec : str -> str) (rs : resolver X) (w : session X) (i : nat) (l : list ask) : session X * nat :=
  match l with
  | [] => (w, i)
  | a :: l' =>
      match a, do_ask dec rs w i a with
      | AskNext, (w', Ok (ADocument j)) => travel dec rs w' j l'
      | AskPrev, (w', Ok (ADocument j)) => travel dec rs w' j l'
      | _, (w', _) => travel dec rs w' i l'
      end
  end.
(** Where they should be, in a text of [n] passages. *)
Fixpoint journey (n k : nat) (l : list ask) : nat :=
  match l with
  | [] => k
  | AskNext :: l' => journey n (if S k <? n then S k else k) l'
  | AskPrev :: l' => journey n (Nat.pred k) l'
  | _ :: l' => journey n k l'
  end.

(** A document of which the collection is known. *)
Definition knows {X} (w : session X) (i : nat) (c : coll) : Prop :=
  exists d, nth_error (ss_docs w) i = Some d /\ dd_coll d = Some (HColl c).
Definition given_documents (a : answer) (j : nat) : Prop :=
  match a with ADocument i => j = i | ADocuments l => In j l | _ => False end.

(** The depth of the text a collection describes: the one declared, unless it is 0
    or missing; then that of its citation. *)
Inductive says_depth (m : cmeta) : json -> Prop :=
| sd_declared : forall z, cm_depth m = Some (JInt z) -> z <> 0%Z -> says_depth m (JInt z)
| sd_levels : forall s, cm_depth m = None \/ cm_depth m = Some (JInt 0) -> cm_citation m = Some s -> says_depth m (JInt (set_depth s))
| sd_nothing : cm_depth m = None \/ cm_depth m = Some (JInt 0) -> cm_citation m = None -> says_depth m (JInt 0).

(** A listing of references and ranges. *)
Definition member (r : dref) (x : set_item) : Prop :=
  exists ty ab, x = Whole (MkDR (JStr (d_start r)) (match d_end r with Some e => JStr e | None => JNull end) ty ab).
Definition listing (l : reffs) (refs : list dref) : Prop := Forall2 member refs (rs_items l).
