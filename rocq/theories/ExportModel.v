(** The classes of the library that can be exported.

    The table transcribes the class statements, the EXPORT_TO lists and the
    branches of the __export__ methods of /repo/MyCapytain; each row cites its
    class.  [linearise] models Python's method resolution order (C3).  A class
    is known by its row number.  The classes that override [export] itself, and
    not only [__export__], are CtsText (
    resources/texts/remote/cts.py lines 368-379) and Citation
    (common/reference/_capitains_cts.py lines 918-921); those overrides are not
    in the table. *)

From Coq Require Import List NArith Arith Bool.
From Verif Require Import PyStr UtilModel.
Import ListNotations.

(** Mimetypes (common/constants.py lines 46-108). *)
Definition m_json := #"application/text".
Definition m_jsonld := #"application/ld+json".
Definition m_dts := #"application/ld+json:DTS".
Definition m_xml := #"text/xml".
Definition m_rdf := #"application/rdf+xml".
Definition m_rdfa := #"application/rdfa+xml".
Definition m_cts := #"text/xml:CTS".
Definition m_tei := #"text/xml:tei".
Definition m_capitains := #"text/xml:CTS_CapiTainS".
Definition m_nested := #"python/NestedDict".
Definition m_etree := #"python/lxml".
Definition m_plain := #"text/plain".

Record row := Row {
  r_name : str;
  r_bases : list nat;
  r_exports : option (list str);   (* EXPORT_TO in the class body *)
  r_handles : option (list str)    (* the mimetypes that __export__ has a branch for *)
}.

Definition table : list row := [
  (* 0  common/base.py lines 9-49; object itself is left out *)
  Row #"Exportable" [] (Some []) (Some []);
  (* 1  common/reference/_base.py lines 390-469 *)
  Row #"NodeId" [] None None;
  (* 2  common/metadata.py lines 22-225 *)
  Row #"Metadata" [0] (Some [m_json; m_rdf; m_rdfa; m_jsonld; m_capitains])
    (Some [m_json; m_jsonld; m_rdf; m_capitains]);
  (* 3  common/reference/_base.py lines 9-180 *)
  Row #"BaseCitationSet" [0] (Some [m_dts]) (Some [m_dts]);
  (* 4  common/reference/_base.py lines 183-313 *)
  Row #"BaseCitation" [3] None (Some [m_dts]);
  (* 5  common/reference/_capitains_cts.py lines 660-921 *)
  Row #"Citation" [4] (Some [m_cts; m_tei]) (Some [m_cts; m_tei]);
  (* 6, 7  common/reference/_dts_1.py lines 59, 102 *)
  Row #"DtsCitation" [4] None None;
  Row #"DtsCitationSet" [3] None None;
  (* 8-11  resources/prototypes/text.py lines 29, 172, 212, 257 *)
  Row #"TextualElement" [0] None None;
  Row #"TextualNode" [8; 1] None None;
  Row #"TextualGraph" [9] None None;
  Row #"InteractiveTextualNode" [10] None None;
  (* 12-14  resources/prototypes/cts/text.py lines 18, 126, 156 *)
  Row #"PrototypeCtsNode" [11] None None;
  Row #"PrototypeCtsPassage" [12] None None;
  Row #"PrototypeCtsText" [12] None None;
  (* 15  resources/texts/base/tei.py lines 22-131 *)
  Row #"TeiResource" [11] (Some [m_etree; m_xml; m_nested; m_plain; m_tei])
    (Some [m_etree; m_xml; m_tei; m_nested; m_plain]);
  (* 16-19  resources/texts/local/capitains/cts.py lines 49, 312, 457, 502 *)
  Row #"_SharedMethods" [15] None None;
  Row #"_SimplePassage" [16; 13] None None;
  Row #"CapitainsCtsText" [16; 14] None None;
  Row #"CapitainsCtsPassage" [16; 13] None None;
  (* 20-22  resources/texts/remote/cts.py lines 30, 317, 382 *)
  Row #"_SharedMethod" [11] None None;
  Row #"CtsText" [20; 14] None None;
  Row #"CtsPassage" [20; 13; 15] None None;
  (* 23  resources/texts/remote/dts/_resolver_v1.py line 17 *)
  Row #"DtsResolverDocument" [15] None None;
  (* 24  resources/prototypes/metadata.py lines 36-440 *)
  Row #"Collection" [0] (Some [m_jsonld; m_dts; m_rdf]) (Some [m_dts; m_jsonld; m_rdf]);
  (* 25  resources/prototypes/metadata.py line 443 *)
  Row #"ResourceCollection" [24] None None;
  (* 26  resources/prototypes/cts/inventory.py lines 36-184 *)
  Row #"PrototypeCtsCollection" [24] (Some [m_etree]) (Some [m_etree]);
  (* 27  resources/prototypes/cts/inventory.py lines 187-340 *)
  Row #"CtsTextMetadata" [25; 26] (Some [m_cts; m_capitains]) (Some [m_cts; m_capitains]);
  (* 28-30  resources/prototypes/cts/inventory.py lines 379, 392, 407 *)
  Row #"CtsEditionMetadata" [27] None None;
  Row #"CtsTranslationMetadata" [27] None None;
  Row #"CtsCommentaryMetadata" [27] None None;
  (* 31  resources/prototypes/cts/inventory.py lines 422-541 *)
  Row #"CtsWorkMetadata" [26] (Some [m_cts; m_capitains]) (Some [m_cts; m_capitains]);
  (* 32  resources/prototypes/cts/inventory.py lines 544-629 *)
  Row #"CtsTextgroupMetadata" [26] (Some [m_cts; m_capitains]) (Some [m_cts; m_capitains]);
  (* 33  resources/prototypes/cts/inventory.py lines 632-688 *)
  Row #"CtsTextInventoryMetadata" [26] (Some [m_cts; m_capitains]) (Some [m_cts; m_capitains]);
  (* 34  resources/prototypes/cts/inventory.py lines 691-748 *)
  Row #"CtsTextInventoryCollection" [26] (Some [m_cts; m_dts; m_capitains]) (Some [m_cts; m_dts]);
  (* 35  resources/collections/cts.py line 37 *)
  Row #"XmlCtsCitation" [5] None None;
  (* 36-42  resources/collections/cts.py lines 140, 207, 218, 233, 248, 297, 324 *)
  Row #"XmlCtsTextMetadata" [27] None None;
  Row #"XmlCtsEditionMetadata" [28; 36] None None;
  Row #"XmlCtsTranslationMetadata" [29; 36] None None;
  Row #"XmlCtsCommentaryMetadata" [30; 36] None None;
  Row #"XmlCtsWorkMetadata" [31] None None;
  Row #"XmlCtsTextgroupMetadata" [32] None None;
  Row #"XmlCtsTextInventoryMetadata" [33] None None;
  (* 43  resources/collections/dts/_base.py line 24 *)
  Row #"DtsCollection" [24] None None;
  (* 44  resources/collections/dts/_resolver.py line 70 *)
  Row #"HttpResolverDtsCollection" [43] None None
].

Definition the_row (c : nat) : row := nth c table (Row [] [] None None).
Definition bases (c : nat) : list nat := r_bases (the_row c).
Definition table_exports (c : nat) : option (list str) := r_exports (the_row c).
(** An implementation is known by the class whose body holds it. *)
Definition table_export (c : nat) : option nat :=
  match r_handles (the_row c) with Some _ => Some c | None => None end.
Definition handles (impl : nat) : list str :=
  match r_handles (the_row impl) with Some l => l | None => [] end.

(** ** C3 linearisation (the builtin type.mro) *)
Definition in_tails (c : nat) (ls : list (list nat)) : bool :=
  existsb (fun l => existsb (Nat.eqb c) (tl l)) ls.
Definition candidate (ls : list (list nat)) : option nat :=
  match find (fun l => match l with c :: _ => negb (in_tails c ls) | [] => false end) ls with
  | Some (c :: _) => Some c
  | _ => None
  end.
Definition drop_head (c : nat) (l : list nat) : list nat :=
  match l with x :: l' => if Nat.eqb x c then l' else l | [] => [] end.
Fixpoint merge (fuel : nat) (ls : list (list nat)) : option (list nat) :=
  match fuel with
  | 0 => None
  | S fuel' =>
      if forallb (fun l => match l with [] => true | _ => false end) ls then Some []
      else match candidate ls with
           | Some c => match merge fuel' (map (drop_head c) ls) with
                       | Some l => Some (c :: l)
                       | None => None
                       end
           | None => None
           end
  end.
Fixpoint linearise (fuel : nat) (c : nat) : option (list nat) :=
  match fuel with
  | 0 => None
  | S fuel' =>
      match fold_right (fun b acc => match linearise fuel' b, acc with
                                     | Some l, Some ls => Some (l :: ls)
                                     | _, _ => None end) (Some []) (bases c) with
      | Some ls => match merge 50 (ls ++ [bases c]) with Some l => Some (c :: l) | None => None end
      | None => None
      end
  end.
Definition table_mro (c : nat) : list nat :=
  match linearise 12 c with Some l => l | None => [] end.
