(** The TEI form of a citation.

    Models the TEI branch of [Citation.__export__] and [Citation.export],
    /repo/MyCapytain/common/reference/_capitains_cts.py lines 902-921.  A citation is
    given by its name and its pattern; the levels below it are not written. *)

From Coq Require Import List NArith Arith Bool.
From Verif Require Import PyStr UtilModel CiteModel InvModel.
Import ListNotations.

(** "\.".join(["(\w+)"] * refsDecl.count("$")). *)
Definition match_pattern (rd : str) : str := join #"\." (repeat #"(\w+)" (count 36%N rd)).

Definition tei_export (c : level) : str :=
  match snd c with
  | None | Some [] => []
  | Some rd =>
      let label := match fst c with Some n => n | None => [] end in
      #"<tei:cRefPattern n=" ++ dq ++ label ++ dq ++ #" matchPattern=" ++ dq ++ match_pattern rd ++ dq ++
      #" replacementPattern=" ++ dq ++ #"#xpath(" ++ rd ++ #")" ++ dq ++ #">" ++
      #"<tei:p>This pointer pattern extracts " ++ label ++ #"</tei:p></tei:cRefPattern>"
  end.
