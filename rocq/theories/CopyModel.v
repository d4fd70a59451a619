(** Copies of collections: pickle and copy.deepcopy.

    No class of /repo/MyCapytain/resources/prototypes/metadata.py,
    /repo/MyCapytain/resources/prototypes/cts/inventory.py or
    /repo/MyCapytain/common/metadata.py says how it is pickled, so an object is
    saved with its attributes and so is whatever they lead to: the parent, the
    children and the graph (metadata.py lines 50-61), the citation and the path.
    Citations save their dictionary of attributes
    (/repo/MyCapytain/common/reference/_base.py lines 136-145), which is what
    Python does by itself.  rdflib saves a graph with its store. *)

From Coq Require Import List NArith ZArith Arith Bool.
From Verif Require Import PyStr UrnModel MetaModel CollModel UtilModel InvModel InvExport DtsOutModel.
Import ListNotations.

(** [pickle.loads(pickle.dumps(c))], as a store: the objects and graphs saved
    from [saved] are made anew in [later], sharing kept.  Simplification: all
    that [saved] holds is made anew; the part that does not hang together with
    the object saved cannot be seen from anywhere.  The object saved as [c] is
    now object [length (objs (s_state later)) + c]. *)
Definition loads (saved later : store) : store :=
  let n := length (objs (s_state later)) in
  let g := length (graphs (s_state later)) in
  MkStore
    (MkState (objs (s_state later) ++ map (shift n g) (objs (s_state saved)))
             (graphs (s_state later) ++ graphs (s_state saved)))
    (s_cites later ++ map (fun e => (n + fst e, snd e)) (s_cites saved))
    (s_paths later ++ map (fun e => (n + fst e, snd e)) (s_paths saved)).

Definition loaded (later : store) (c : nat) : nat := length (objs (s_state later)) + c.

(** [copy.deepcopy(c)]: the same, at once. *)
Definition deep_copy (s : store) (c : nat) : store * nat := (loads s s, loaded s c).

(** The attribute [path] of a text (inventory.py line 219); none for None. *)
Definition text_path_of (s : store) (i : nat) : option str :=
  match find (fun e => Nat.eqb (fst e) i) (s_paths s) with
  | Some (_, p) => Some p
  | None => None
  end.

(** What the DTS export asks of a collection of the store (metadata.py lines
    68-79 and 257-263); the structure of its citations is given. *)
Definition brief_of (s : store) (i : nat) : brief :=
  Brief (c_id (obj (s_state s) i))
    (nth (c_graph (obj (s_state s) i)) (graphs (s_state s)) [])
    (Z.of_nat (size (s_state s) i)).
Definition source_of (s : store) (i : nat) (c : cites) : source :=
  Source (brief_of s i) (map (brief_of s) (CollModel.members (s_state s) i)) c.
