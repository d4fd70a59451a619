(** The DTS JSON export of the CTS collections.

    Models /repo/MyCapytain/resources/prototypes/cts/inventory.py lines 754-758
    (collections of inventories), /repo/MyCapytain/common/base.py lines 36-52 (the
    other classes take [Collection.__export__]), and what
    /repo/MyCapytain/resources/prototypes/metadata.py lines 97-99 and 257-263 and
    inventory.py lines 211 and 235-243 say of the size, the members and the
    citation. *)

From Coq Require Import List NArith ZArith Arith Bool.
From Verif Require Import PyStr Json MetaModel GraphModel TreeModel CollModel InvModel InvExport DtsOutModel.
Import ListNotations.

(** [citation]: the levels of a text, one in the other. *)
Fixpoint levels_tree (l : list level) : list citation :=
  match l with
  | [] => []
  | (name, _) :: l' => [Cite name None (levels_tree l')]
  end.
Definition cites_of (s : store) (i : nat) : cites :=
  match CollModel.c_kind (obj (s_state s) i) with
  | KText _ => match levels_tree (text_citation s i) with
               | c :: _ => CiteRoot c
               | [] => NoCites
               end
  | _ => NoCites
  end.

(** [members]: texts have none. *)
Definition listed (s : store) (i : nat) : list nat :=
  match CollModel.c_kind (obj (s_state s) i) with
  | KText _ => []
  | _ => map snd (CollModel.c_children (obj (s_state s) i))
  end.
Definition brief_of (s : store) (i : nat) : brief :=
  let x := obj (s_state s) i in
  Brief (c_id x) (nth (c_graph x) (graphs (s_state s)) []) (Z.of_nat (length (listed s i))).
Definition source_of (s : store) (i : nat) : source :=
  Source (brief_of s i) (map (brief_of s) (listed s i)) (cites_of s i).

Section Export.
Variable name : term -> str.
Variable objects_order : list term -> list term.
Variable triples_order : graph -> graph.
Variable predicates_order : list str -> list str.
Variable qn : str -> str * str * str.
Variable to_python : str -> option str -> json.
Variable s : store.

(** [fuel] is Python's recursion limit. *)
Fixpoint dts_export_of (fuel : nat) (i : nat) : result json :=
  match fuel with
  | 0 => Err RecursionError
  | S fuel' =>
      let plain := dts_export name objects_order triples_order predicates_order qn to_python fuel' (source_of s i) in
      match CollModel.c_kind (obj (s_state s) i) with
      | KInventoryCollection =>
          if 1 <? length (listed s i) then plain
          else match listed s i with
               | [] => Err IndexError
               | m :: _ => dts_export_of fuel' m
               end
      | _ => plain
      end
  end.
End Export.
