(** Collections from a CTS endpoint.

    Models [getMetadata] of /repo/MyCapytain/resolvers/cts/api.py, lines 101-116,
    after the request (HttpModel.v): the reply is parsed as an inventory (InvModel.v)
    and the object is looked for in it. *)

From Coq Require Import List NArith ZArith Arith Bool.
From Verif Require Import PyStr XmlModel MetaModel CollModel InvModel.
Import ListNotations.

(** [limit] is the recursion limit of the interpreter. *)
Definition api_metadata (order : list term -> list term) (leaf : XmlModel.node -> guess) (nsmap : XmlModel.node -> list (str * str))
    (limit : nat) (objectId : option str) (reply : XmlModel.node) : act nat :=
  i <-- parse_inventory order leaf nsmap reply ;;
  match objectId with
  | Some (c :: id) => fun s =>
      (s, l <- descendants limit (s_state s) i ;;
          match filter (fun x => str_eqb (c_id (obj (s_state s) x)) (c :: id)) (i :: l) with
          | x :: _ => Ok x
          | [] => Err IndexError
          end)
  | _ => ret i
  end.
