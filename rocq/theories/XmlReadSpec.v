(** Reading XML documents: nested elements and namespaces.

    Extends the reader of UtilSpec.v, which it uses for names, attributes and
    character data, to elements that contain elements (XML 1.0, production 43)
    and to the scoping of namespace declarations (Namespaces in XML 1.0, 6.1 and
    6.2).  No comments, processing instructions or declarations. *)

From Coq Require Import List NArith Arith Bool.
From Verif Require Import PyStr XmlModel UtilSpec.
Import ListNotations.

(** Elements as written: name, attributes, text, and the elements inside, each
    with the text that follows it. *)
Inductive raw := Raw (name : str) (attrs : list (str * str)) (text : str) (kids : list (raw * str)).

Fixpoint read_node (fuel : nat) (s : str) : option (raw * str) :=
  match fuel with
  | 0 => None
  | S fuel' =>
      match strip_prefix #"<" s with
      | None => None
      | Some r =>
          let '(n, r1) := read_name r in
          match n, read_attributes (S (length r1)) [] r1 with
          | _ :: _, Some (attrs, r2) =>
              match read_text (S (length r2)) r2 with
              | Some (t, r3) =>
                  match read_kids fuel' r3 with
                  | Some (kids, r4) =>
                      match strip_prefix (#"</" ++ n ++ #">") r4 with
                      | Some r5 => Some (Raw n attrs t kids, r5)
                      | None => None
                      end
                  | None => None
                  end
              | None => None
              end
          | _, _ => None
          end
      end
  end
with read_kids (fuel : nat) (s : str) : option (list (raw * str) * str) :=
  match fuel with
  | 0 => None
  | S fuel' =>
      if startswith s #"</" then Some ([], s)
      else match read_node fuel' s with
           | Some (k, r) =>
               match read_text (S (length r)) r with
               | Some (t, r') =>
                   match read_kids fuel' r' with
                   | Some (l, r'') => Some ((k, t) :: l, r'')
                   | None => None
                   end
               | None => None
               end
           | None => None
           end
  end.

(** Namespace declarations among the attributes; the default one has the empty
    prefix. *)
Definition declares_ns (name : str) : option str :=
  if str_eqb name #"xmlns" then Some []
  else strip_prefix #"xmlns:" name.
Definition declarations (attrs : list (str * str)) : list (str * str) :=
  flat_map (fun kv => match declares_ns (fst kv) with Some p => [(p, snd kv)] | None => [] end) attrs.

(** A name with its namespace.  Attributes without prefix are in none. *)
Definition expanded (env : list (str * str)) (element : bool) (n : str) : option str :=
  match split 58%N n with
  | [l] =>
      if element then
        match dget [] env with
        | Some (c :: u) => Some ([123%N] ++ (c :: u) ++ [125%N] ++ l)
        | _ => Some l
        end
      else Some l
  | [p; l] =>
      if str_eqb p #"xml" then Some (#"{http://www.w3.org/XML/1998/namespace}" ++ l)
      else match dget p env with
           | Some u => Some ([123%N] ++ u ++ [125%N] ++ l)
           | None => None
           end
  | _ => None
  end.

Fixpoint all_some {A} (l : list (option A)) : option (list A) :=
  match l with
  | [] => Some []
  | Some x :: l' => match all_some l' with Some r => Some (x :: r) | None => None end
  | None :: _ => None
  end.

Definition expanded_attrs (env : list (str * str)) (attrs : list (str * str)) : option (list (str * str)) :=
  all_some (flat_map (fun kv =>
    match declares_ns (fst kv) with
    | Some _ => []
    | None => [match expanded env false (fst kv) with Some n => Some (n, snd kv) | None => None end]
    end) attrs).

(** The element tree of a document; innermost declarations come first. *)
Fixpoint in_scope (env : list (str * str)) (tail : str) (r : raw) : option XmlModel.node :=
  match r with
  | Raw n attrs t kids =>
      let env' := declarations attrs ++ env in
      match expanded env' true n, expanded_attrs env' attrs,
            all_some (map (fun kt => in_scope env' (snd kt) (fst kt)) kids) with
      | Some n', Some attrs', Some kids' => Some (Elem n' attrs' t tail kids')
      | _, _, _ => None
      end
  end.

Definition read_document (s : str) : option XmlModel.node :=
  match read_node (S (length s)) s with
  | Some (r, []) => in_scope [] [] r
  | _ => None
  end.
