(** JSON values as json.loads gives them; dictionaries keep insertion order. *)

From Coq Require Import List NArith ZArith Bool.
From Verif Require Import PyStr.
Import ListNotations.

Inductive json :=
| JNull
| JBool (b : bool)
| JInt (z : Z)
| JStr (s : str)
| JList (l : list json)
| JObj (fields : list (str * json)).

(** Lookup in a dictionary: keys are unique, the first match is the match. *)
Fixpoint field (k : str) (fs : list (str * json)) : option json :=
  match fs with
  | [] => None
  | (k', v) :: fs' => if str_eqb k' k then Some v else field k fs'
  end.

(** v[k] for a JSON value and a string key. *)
Definition get_key (v : json) (k : str) : result json :=
  match v with
  | JObj fs => match field k fs with Some x => Ok x | None => Err KeyError end
  | _ => Err TypeError
  end.

(** v[0] for a JSON value. *)
Definition get_first (v : json) : result json :=
  match v with
  | JList (x :: _) => Ok x
  | JList [] => Err IndexError
  | JStr (c :: _) => Ok (JStr [c])
  | JStr [] => Err IndexError
  | JObj _ => Err KeyError
  | _ => Err TypeError
  end.
