(** The files of the texts, and the citation schemes they declare. *)

From Coq Require Import List NArith ZArith Arith Bool.
From Verif Require Import PyStr RefModel XmlModel TemplateSpec InvSpec LocalSpec LoadSpec PassageSpec ServeModel.
Import ListNotations.

Definition in_tei (name : str) (e : XmlModel.node) : Prop := n_tag e = #"{http://www.tei-c.org/ns/1.0}" ++ name.
Definition in_teib (name : str) (e : XmlModel.node) : bool := str_eqb (n_tag e) (#"{http://www.tei-c.org/ns/1.0}" ++ name).
Definition attr (name : str) (e : XmlModel.node) : option str := get_attr name (n_attrs e).

(** The declaration that counts: the first refsDecl of the document called CTS. *)
Definition for_cts (e : XmlModel.node) : Prop := in_tei #"refsDecl" e /\ attr #"n" e = Some #"CTS".
Definition declaration (x d : XmlModel.node) : Prop :=
  exists before after, document_order x = before ++ d :: after /\ for_cts d /\ Forall (fun e => ~ for_cts e) before.

(** Its cRefPattern elements are the levels, the innermost first: name and pattern. *)
Definition declares (x : XmlModel.node) (scheme : list (option str * str)) : Prop :=
  exists d, declaration x d /\
    Forall2 (fun c np => attr #"n" c = fst np /\ attr #"replacementPattern" c = Some (#"#xpath(" ++ snd np ++ #")"))
      (filter (in_teib #"cRefPattern") (tl (document_order d))) (rev scheme).

(** The document [x] is a text cited according to [levels]. *)
Definition cited_by (levels : list TemplateSpec.level) (x : XmlModel.node) : Prop :=
  exists scheme, declares x scheme /\ map snd scheme = write_scheme levels /\ levels <> [].

(** A resolver that has the text [u], and the path where its file is expected. *)
Definition expects (texts : LoadModel.disk) (s : InvModel.store) (root : nat) (u path : str) : Prop :=
  exists L x dir, resolver_shows texts s root L /\ held L u x /\ src_folder x = Some dir /\ expected_at dir (src_element x) path.

(** A reference, as an object or as a string. *)
Definition gives (g : given) (r : ref) : Prop := g = GivenRef r \/ g = GivenStr (r_str r).

(** The resolver has the text [u], and its file is [doc], cited according to [levels]. *)
Definition serves (docs : documents) (s : InvModel.store) (root : nat) (u : str) (levels : list TemplateSpec.level) (doc : XmlModel.node) : Prop :=
  exists texts path, expects texts s root u path /\ docs path = Some (Ok doc) /\ cited_by levels doc.

(** A listing of the level [k], among the references that begin with [parts], or the error. *)
Definition answers_level (levels : list TemplateSpec.level) (x : XmlModel.node) (parts : list str) (k : nat) (r : result (list (option ref))) : Prop :=
  match r with
  | Ok l => k <= length levels /\ l <> [] /\ lists_level levels x parts k l
  | Err CitationDepthError => length levels < k
  | Err KeyError => k <= length levels /\ forall comps p, length comps = k -> begins parts comps -> ~ cites levels x comps p
  | Err _ => False
  end.
