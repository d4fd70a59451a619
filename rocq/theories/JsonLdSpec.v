(** The expansion of JSON-LD documents, after the algorithm of the W3C
    (JSON-LD API, Expansion).

    Covered: one context, at the top, of prefixes and @vocab; node objects, value
    objects, texts, numbers, booleans, null and lists.  Left out: other
    keywords, terms with definitions that are not texts, base addresses, and the
    order of keys, which the readers here do not look at. *)

From Coq Require Import List NArith ZArith Arith Bool.
From Verif Require Import PyStr Json.
Import ListNotations.

Record context := Context { terms : list (str * str); vocab : str }.

Fixpoint entry (k : str) (l : list (str * str)) : option str :=
  match l with
  | [] => None
  | (k', v) :: l' => if str_eqb k' k then Some v else entry k l'
  end.

(** The text before the first colon and the text after it. *)
Fixpoint cut (s : str) : option (str * str) :=
  match s with
  | [] => None
  | c :: s' => if N.eqb c 58 then Some ([], s')
               else match cut s' with Some (a, b) => Some (c :: a, b) | None => None end
  end.

(** A term can be used as a prefix when its address ends so: in one of
    : / ? # [ ] @ . *)
Definition delimiter (c : char) : bool := existsb (N.eqb c) [58; 47; 63; 35; 91; 93; 64]%N.
Definition usable (ns : str) : bool := match rev ns with c :: _ => delimiter c | [] => false end.

Definition keyword (s : str) : bool := match s with c :: _ => N.eqb c 64 | [] => false end.
Definition slashes (s : str) : bool := match s with a :: b :: _ => N.eqb a 47 && N.eqb b 47 | _ => false end.

Section Expand.
Variable ctx : context.

(** The expansion of an address: with [terms_too], of one that may be a term
    (a key, a type) and not an identifier. *)
Definition expand_iri (terms_too : bool) (s : str) : str :=
  if keyword s then s
  else match (if terms_too then entry s (terms ctx) else None) with
       | Some u => u
       | None =>
           match cut s with
           | Some (p, rest) =>
               if slashes rest then s
               else match entry p (terms ctx) with
                    | Some ns => if usable ns then ns ++ rest else s
                    | None => s
                    end
           | None => if terms_too then vocab ctx ++ s else s
           end
       end.

(** More values for a key. *)
Fixpoint more (k : str) (vs : list json) (d : list (str * json)) : list (str * json) :=
  match d with
  | [] => [(k, JList vs)]
  | (k', v) :: d' => if str_eqb k' k
                     then (k', JList (match v with JList l => l ++ vs | _ => vs end)) :: d'
                     else (k', v) :: more k vs d'
  end.

(** A node object, from its keys, their values and what these expand to. *)
Definition assemble (fs : list (str * json * list json)) : list (str * json) :=
  fold_left (fun d f =>
      let '(k, v, vs) := f in
      if str_eqb k #"@context" then d
      else if str_eqb k #"@id" then
        match v with JStr s => d ++ [(#"@id", JStr (expand_iri false s))] | _ => d end
      else if str_eqb k #"@type" then
        match v with JStr s => d ++ [(#"@type", JList [JStr (expand_iri true s)])] | _ => d end
      else match v with JNull => d | _ => more (expand_iri true k) vs d end) fs [].

(** The values a JSON value stands for. *)
Fixpoint expand_value (j : json) : list json :=
  match j with
  | JNull => []
  | JBool _ | JInt _ | JStr _ => [JObj [(#"@value", j)]]
  | JList l => flat_map expand_value l
  | JObj fs =>
      match field #"@value" fs with
      | Some _ => [j]
      | None => [JObj (assemble (map (fun kv => (fst kv, snd kv, expand_value (snd kv))) fs))]
      end
  end.
End Expand.

Definition context_in (fs : list (str * json)) : context :=
  match field #"@context" fs with
  | Some (JObj c) =>
      Context (flat_map (fun kv => match kv with
                                   | (k, JStr v) => if keyword k then [] else [(k, v)]
                                   | _ => []
                                   end) c)
              (match field #"@vocab" c with Some (JStr v) => v | _ => [] end)
  | _ => Context [] []
  end.

(** The expansion of a document. *)
Definition expand_document (j : json) : list json :=
  match j with
  | JObj fs => expand_value (context_in fs) j
  | _ => []
  end.
