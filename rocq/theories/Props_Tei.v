(** Property C50 and the nested-dictionary export of C42: the readable text of
    local texts.  [readable], [names] and [table_of] are in TeiSpec.v, [squeezed]
    in UtilSpec.v. *)

From Coq Require Import List NArith ZArith Arith Bool Lia Sorted.
From Verif Require Import PyStr PyStrFacts RefModel UrnModel UrnSpec XmlModel XmlSpec XPathModel CiteSpec TemplateSpec.
From Verif Require Import PassageModel PassageSpec PassageProofs PassageApi PassageCheck UtilModel UtilSpec TeiModel TeiSpec TeiProofs.
Import ListNotations.

(** ** C50 *)

(** The pieces of text that are in no excluded element, in reading order, with
    the separator between them and runs of spaces reduced. *)
Theorem C50_plain : forall sep root exclude tags, Forall2 names exclude tags ->
  exists l out, export_plain sep root (Some exclude) = Ok out /\ readable tags root [] l /\ squeezed (join sep l) out.
Proof. exact export_plain_spec. Qed.
Print Assumptions C50_plain.

(** Nothing is excluded by default. *)
Theorem C50_default : forall sep root, exists l out,
  export_plain sep root None = Ok out /\ readable [] root [] l /\ squeezed (join sep l) out.
Proof. intros sep root. exact (export_plain_spec sep root [] [] (Forall2_nil _)). Qed.
Print Assumptions C50_default.

(** With an empty separator, all of the text and nothing else. *)
Theorem C50_whole : forall root, exists out, export_plain #"" root None = Ok out /\ squeezed (text_of root) out.
Proof.
  intros root. destruct (export_plain_spec #"" root [] [] (Forall2_nil _)) as (l & out & H1 & H2 & H3).
  exists out. split; [exact H1|]. rewrite <- (readable_all root [] root l (at_here root) H2).
  replace (concat l) with (join #"" l); [exact H3|]. clear. induction l as [|a [|b l] IH]; [reflexivity|cbn; rewrite app_nil_r; reflexivity|].
  rewrite join_cons by discriminate. rewrite IH. reflexivity.
Qed.
Print Assumptions C50_whole.

(** A prefix that the library does not declare. *)
Theorem C50_unknown_prefix : forall sep root exclude,
  Forall (fun e => (exists t, names e t) \/ unknown_prefix e) exclude -> Exists unknown_prefix exclude ->
  export_plain sep root (Some exclude) = Err XPathEvalError.
Proof. exact export_plain_unknown. Qed.
Print Assumptions C50_unknown_prefix.

(** <l>Ibis <note>hello<a>b</a></note> ab <hi>sago</hi>.</l>, in the namespace of
    TEI. *)
Definition verse : node :=
  Elem (clark #"tei:l") [] #"Ibis " #"" [
    Elem (clark #"tei:note") [] #"hello" #" ab " [Elem (clark #"tei:a") [] #"b" #"" []];
    Elem (clark #"tei:hi") [] #"sago" #"." []].
Example C50_sample :
  names #"tei:note" (clark #"tei:note") /\ unknown_prefix #"dc:note" /\
  export_plain #" " verse None = Ok #"Ibis hello b ab sago ." /\
  export_plain #" " verse (Some [#"tei:note"; #"tei:hi"]) = Ok #"Ibis ab ." /\
  export_plain #" " verse (Some [#"note"]) = Ok #"Ibis hello b ab sago .".
Proof.
  assert (L : forall s, s <> [] -> forallb is_alpha s = true -> local_name s).
  { intros s Hs Ha. split; [exact Hs|]. intros c Hc. left. rewrite forallb_forall in Ha. auto. }
  split; [|split; [|repeat split; vm_compute; reflexivity]].
  - apply (nm_prefix #"tei" #"http://www.tei-c.org/ns/1.0" #"note"); [left; reflexivity|apply L; [discriminate|reflexivity]].
  - exists #"dc", #"note". split; [reflexivity|]. split; [apply L; [discriminate|reflexivity]|]. split; [apply L; [discriminate|reflexivity]|].
    vm_compute. intros H. repeat (destruct H as [H|H]; [discriminate|]). destruct H.
Qed.

(** The default separator breaks a word that is partly marked up. *)
Theorem C50_word_refuted : exists root out,
  export_plain PLAINTEXT_STRING_JOIN root None = Ok out /\ ~ In c_space (text_of root) /\ In c_space out.
Proof.
  exists (Elem #"l" [] #"" #"" [Elem #"hi" [] #"A" #"rma" []]). eexists. split; [vm_compute; reflexivity|]. vm_compute.
  split; [intros H; repeat (destruct H as [H|H]; [discriminate|]); destruct H|tauto].
Qed.
Print Assumptions C50_word_refuted.

(** ** C42: the nested dictionary of a text *)

(** Of a whole text: the deepest references. *)
Theorem C42_export_text : forall levels x same u exclude tags,
  clear_text levels x (length levels) -> 0 < length levels -> good_urn u -> Forall2 names exclude tags ->
  match export_nested (write_scheme levels) same (OText x u) (Some exclude) with
  | Ok d => table_of levels x tags [] (length levels) d
  | Err KeyError => forall c p, length c = length levels -> ~ cites levels x c p
  | Err _ => False
  end.
Proof. exact nested_text. Qed.
Print Assumptions C42_export_text.

(** Of a passage: the references below it of level [k]. *)
Theorem C42_export_passage : forall levels x same ut R u parts k exclude tags,
  clear_text levels x (length levels) ->
  parts <> [] -> Forall plain parts -> length parts <= length levels -> good_urn u -> Forall2 names exclude tags ->
  k = Nat.max (length levels - length parts + 1) (length parts + 1) ->
  match export_nested (write_scheme levels) same (OPass (reference_to parts) R (OText x ut) u) (Some exclude) with
  | Ok d => k <= length levels /\ table_of levels x tags parts k d
  | Err KeyError => k <= length levels /\ forall c p, length c = k -> begins parts c -> ~ cites levels x c p
  | Err CitationDepthError => length levels < k
  | Err _ => False
  end.
Proof. exact nested_passage. Qed.
Print Assumptions C42_export_passage.

(** A passage of the deepest level has no such export. *)
Theorem C42_export_leaf : forall levels x same ut R u parts exclude,
  clear_text levels x (length levels) -> parts <> [] -> Forall plain parts -> length parts = length levels ->
  export_nested (write_scheme levels) same (OPass (reference_to parts) R (OText x ut) u) exclude = Err CitationDepthError.
Proof. exact nested_leaf. Qed.
Print Assumptions C42_export_leaf.

Example C42_export_sample : clear_text poem_scheme poems 2 /\
  (exists d, export_nested (write_scheme poem_scheme) identity_only (OText poems None) (Some []) = Ok d /\
    leaves d = [([#"1"; #"1"], #"a"); ([#"1"; #"2"], #"b"); ([#"1"; #"3"], #"c"); ([#"2"; #"1"], #"d"); ([#"2"; #"2a"], #"e")]) /\
  (exists d, export_nested (write_scheme poem_scheme) identity_only
      (OPass (reference_to [#"2"]) poems (OText poems None) None) (Some [#"tei:lg"]) = Ok d /\
    leaves d = [([#"2"; #"1"], #"d"); ([#"2"; #"2a"], #"")]).
Proof. split; [apply poems_clear; lia|]. split; eexists; vm_compute; split; reflexivity. Qed.

(** In a scheme of four levels, the export of a passage of the second stops at the
    third: the level asked for is the number of levels left, counted from the top. *)
Definition deep_scheme : list level :=
  [MkLevel [MkT false #"tei:TEI" []] (MkT false #"tei:book" [[TSlot #"n"]]); MkLevel [] (MkT false #"tei:div" [[TSlot #"n"]]);
   MkLevel [] (MkT false #"tei:p" [[TSlot #"n"]]); MkLevel [] (MkT false #"tei:s" [[TSlot #"n"]])].
Definition deep_text : node :=
  Elem (clark #"tei:TEI") [] #"" #"" [tei #"tei:book" #"1" #"" [tei #"tei:div" #"2" #"" [tei #"tei:p" #"3" #"" [tei #"tei:s" #"4" #"x" []]]]].
Theorem C42_export_level_refuted : exists levels x same r R u d,
  get_node (write_scheme levels) same (OText x None) r = Ok (OPass r R (OText x None) u) /\
  export_nested (write_scheme levels) same (OPass r R (OText x None) u) None = Ok d /\
  map fst (leaves d) = [[#"1"; #"2"; #"3"]] /\ xpath_abs x (mean levels (map Some [#"1"; #"2"; #"3"; #"4"])) <> [].
Proof.
  exists deep_scheme, deep_text, identity_only, (reference_to [#"1"; #"2"]). do 3 eexists.
  split; [vm_compute; reflexivity|]. split; [vm_compute; reflexivity|]. split; [vm_compute; reflexivity|vm_compute; discriminate].
Qed.
Print Assumptions C42_export_level_refuted.
