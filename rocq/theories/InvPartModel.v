(** Parts of an inventory on their own, and the export to a tree.

    Models [PrototypeCtsCollection.__export__] of
    /repo/MyCapytain/resources/prototypes/cts/inventory.py lines 182-184 and the
    [parse] of every class of /repo/MyCapytain/resources/collections/cts.py when
    it is given no parent. *)

From Coq Require Import List NArith ZArith Arith Bool.
From Verif Require Import PyStr XmlModel UrnModel MetaModel CollModel UtilModel XmlReadSpec InvModel InvExport.
Import ListNotations.

(** inventory.py lines 182-184, the default export (line 48): the CTS export,
    with its namespaces, parsed.  None stands for the XMLSyntaxError of
    xmlparser. *)
Definition export_tree (pairs : list (term * term) -> list (term * term)) (order : list term -> list term)
  (qname : term -> str * str) (s : store) (fuel : nat) (i : nat) : result (option XmlModel.node) :=
  text <- export false pairs order qname s fuel true i ;;
  Ok (read_document text).

(** The class that reads an exported object, without parent: cts.py lines
    211-215 (editions), 222-230 (translations), 237-245 (commentaries), 256-294
    (works; [_with_children] is False), 303-321 (textgroups) and 330-339
    (inventories).  [xmlparser] (common/utils/xml.py) gives an element back as it
    is, so that a text and its tree are read alike. *)
Definition parse_part (order : list term -> list term) (leaf : XmlModel.node -> guess)
  (nsmap : XmlModel.node -> list (str * str)) (k : kind) (e : XmlModel.node) : act nat :=
  match k with
  | KText sub => parse_text order leaf nsmap sub e None
  | KWork => r <-- parse_work order leaf nsmap e None ;; ret (fst r)
  | KTextgroup => parse_textgroup order leaf nsmap e None
  | _ => parse_inventory order leaf nsmap e
  end.
