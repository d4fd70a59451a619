(** Small utilities: white space, nested dictionaries, export dispatch and the
    printing of XML nodes.  Models /repo/MyCapytain/common/utils/_generic.py
    lines 6-63, /repo/MyCapytain/common/base.py lines 9-49,
    /repo/MyCapytain/common/utils/xml.py lines 27-67 and
    /repo/MyCapytain/common/utils/_graph.py lines 70-81. *)

From Coq Require Import List NArith Arith Bool.
From Verif Require Import PyStr PyRe.
Import ListNotations.

(** ** normalize (_generic.py lines 53-63)

    The pattern is "([ ]{2,})+".  Simplification: the outer repetition is
    dropped, since one round of the greedy inner one takes the whole run. *)
Definition strip_items : list item := [It (is_char c_space) 2 None].
Definition normalize (s : str) : str := re_sub strip_items (fun _ => [c_space]) s.

(** ** Nested dictionaries (_generic.py lines 6-50)

    [Dict auto entries] is an OrderedDefaultDict: [auto] tells whether its
    default_factory is nested_ordered_dictionary (as in every dictionary that
    nested_ordered_dictionary makes) or None.  Values are arbitrary leaves.
    Reading a missing key of an [auto] dictionary stores a new dictionary under
    it, so reading returns the dictionary it leaves behind as well. *)
Inductive nested (V : Type) : Type :=
| Leaf (v : V)
| Dict (auto : bool) (entries : list (str * nested V)).
Arguments Leaf {V} v.
Arguments Dict {V} auto entries.

(** nested_ordered_dictionary() (lines 24-30). *)
Definition nested_ordered_dictionary {V} : nested V := Dict true [].

(** d[k], with __missing__ (lines 16-20): the value and the new state of d.
    Indexing a leaf is a TypeError: the leaves are texts, and a str index of a
    str raises it. *)
Definition get_item {V} (d : nested V) (k : str) : result (nested V * nested V) :=
  match d with
  | Leaf _ => Err TypeError
  | Dict auto es =>
      match dget k es with
      | Some x => Ok (x, d)
      | None => if auto then Ok (nested_ordered_dictionary, Dict auto (dset k nested_ordered_dictionary es))
                else Err KeyError
      end
  end.

(** d[k] = v. *)
Definition set_item {V} (d : nested V) (k : str) (v : nested V) : result (nested V) :=
  match d with
  | Leaf _ => Err TypeError
  | Dict auto es => Ok (Dict auto (dset k v es))
  end.

(** nested_get (lines 33-40): the value and the state the reading leaves.
    Simplification: when a step fails, the dictionaries that earlier steps
    created are not in the result. *)
Fixpoint nested_get {V} (d : nested V) (ks : list str) : result (nested V * nested V) :=
  match ks with
  | [] => Ok (d, d)
  | k :: ks' =>
      '(x, d1) <- get_item d k ;;
      '(y, x') <- nested_get x ks' ;;
      d2 <- set_item d1 k x' ;;
      Ok (y, d2)
  end.

(** Replace the dictionary found at a path, which exists: the mutation of the
    object that nested_get returned, seen from the root. *)
Fixpoint nested_put {V} (d : nested V) (ks : list str) (x : nested V) : nested V :=
  match ks, d with
  | [], _ => x
  | k :: ks', Dict auto es =>
      match dget k es with
      | Some y => Dict auto (dset k (nested_put y ks' x) es)
      | None => d
      end
  | _, Leaf _ => d
  end.

(** nested_set (lines 43-50); keys[-1] of an empty list is an IndexError. *)
Definition nested_set {V} (d : nested V) (ks : list str) (v : nested V) : result (nested V) :=
  '(target, d1) <- nested_get d (removelast ks) ;;
  match rev ks with
  | [] => Err IndexError
  | k :: _ =>
      target' <- set_item target k v ;;
      Ok (nested_put d1 (removelast ks) target')
  end.

(** ** Exportable (common/base.py lines 9-49)

    A class is known by a number.  [mro] is inspect.getmro, [own_exports] and
    [own_export] the EXPORT_TO and __export__ that the body of a class defines.
    Attribute lookup on a class goes through its own linearisation.  The
    default mimetype is the DEFAULT_EXPORT of the object, given as an
    argument. *)
Section Export.
Variable Impl : Type.
Variable mro : nat -> list nat.
Variable own_exports : nat -> option (list str).
Variable own_export : nat -> option Impl.

Fixpoint first_some {A} (f : nat -> option A) (l : list nat) : option A :=
  match l with
  | [] => None
  | c :: l' => match f c with Some x => Some x | None => first_some f l' end
  end.

(** cls.EXPORT_TO and cls.__export__. *)
Definition exports_of (c : nat) : option (list str) := first_some own_exports (mro c).
Definition export_of (c : nat) : option Impl := first_some own_export (mro c).

(** export_capacities (lines 21-25). *)
Definition export_capacities (c : nat) : list str :=
  flat_map (fun k => match exports_of k with Some l => l | None => [] end) (mro c).

Definition str_in (s : str) (l : list str) : bool := existsb (str_eqb s) l.

(** The loop of export (lines 42-46): the implementation that is called. *)
Fixpoint pick (output : str) (l : list nat) : option (option Impl) :=
  match l with
  | [] => None
  | k :: l' =>
      match exports_of k with
      | Some es => if str_in output es then Some (export_of k) else pick output l'
      | None => pick output l'
      end
  end.

(** export (lines 36-49). *)
Definition export (c : nat) (default output : option str) : result Impl :=
  match match output with Some o => Some o | None => default end with
  | None => Err NotImplementedError
  | Some o =>
      if str_in o (export_capacities c) then
        match pick o (mro c) with
        | Some (Some i) => Ok i
        | Some None => Err AttributeError
        | None => Err NotImplementedError
        end
      else Err NotImplementedError
  end.
End Export.

(** ** make_xml_node (common/utils/xml.py lines 27-67)

    [name] is the qualified name that graph.namespace_manager.qname(name)
    returns.  Attribute values are already strings.

    escape is xml.sax.saxutils.escape: three replacements, the ampersand
    first. *)
Definition replace_char (c : char) (by_ : str) (s : str) : str :=
  flat_map (fun x => if N.eqb x c then by_ else [x]) s.
Definition escape (s : str) : str :=
  replace_char c_lt #"&lt;" (replace_char c_gt #"&gt;" (replace_char c_amp #"&amp;" s)).

(** A double quote, which Coq strings cannot hold comfortably. *)
Definition dq : str := [c_dquote].

Definition attribute_strings (attributes : list (str * str)) : str :=
  join #" " (map (fun kv => fst kv ++ #"=" ++ dq ++ snd kv ++ dq) attributes).

Definition make_xml_node (name : str) (close : bool) (attributes : option (list (str * str)))
  (text : str) (complete : bool) (innerXML : str) : str :=
  if complete then
    match attributes with
    | Some a => #"<" ++ name ++ #" " ++ attribute_strings a ++ #">" ++ escape text ++ innerXML ++ #"</" ++ name ++ #">"
    | None => #"<" ++ name ++ #">" ++ escape text ++ innerXML ++ #"</" ++ name ++ #">"
    end
  else if close then #"</" ++ name ++ #">"
  else match attributes with
       | Some a => #"<" ++ name ++ #" " ++ attribute_strings a ++ #">"
       | None => #"<" ++ name ++ #">"
       end.

(** ** expand_namespace (common/utils/_graph.py lines 70-81)

    s.replace(p, r): leftmost occurrences, not overlapping.  Simplification: all
    prefixes are strings (lxml uses None for the default namespace; the code
    skips it). *)
Fixpoint replace_fuel (fuel : nat) (p r s : str) : str :=
  match fuel with
  | 0 => s
  | S fuel' =>
      match s with
      | [] => []
      | c :: s' => if startswith s p then r ++ replace_fuel fuel' p r (skipn (length p) s)
                   else c :: replace_fuel fuel' p r s'
      end
  end.
Definition replace (p r s : str) : str := replace_fuel (S (length s)) p r s.

Fixpoint expand_namespace (nsmap : list (str * str)) (s : str) : str :=
  match nsmap with
  | [] => s
  | (ns, uri) :: l => if startswith s (ns ++ #":") then replace (ns ++ #":") uri s
                      else expand_namespace l s
  end.
