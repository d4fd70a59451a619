(** What the replies of a DTS endpoint say of collections, independently of how
    they are read. *)

From Coq Require Import List NArith ZArith Arith Bool.
From Verif Require Import PyStr Json TreeModel HttpModel HttpSpec DtsModel MetaModel DtsMetaModel.
Import ListNotations.

(** ** Values *)

(** The literal for a JSON value and the language given with it. *)
Inductive written : json -> option json -> term -> Prop :=
| written_text : forall s, written (JStr s) None (Literal s None None)
| written_null : forall s, written (JStr s) (Some JNull) (Literal s None None)
| written_blank : forall s, written (JStr s) (Some (JStr [])) (Literal s None None)
| written_in : forall s l, l <> [] -> written (JStr s) (Some (JStr l)) (Literal s (Some l) None)
| written_number : forall z s l, numeral z s ->
    s = match z with Z0 => #"0" | Zpos p => str_of_N (Npos p) | Zneg p => c_dash :: str_of_N (Npos p) end ->
    written (JInt z) l (Literal s None (Some #"http://www.w3.org/2001/XMLSchema#integer"))
| written_true : forall l, written (JBool true) l (Literal #"true" None (Some #"http://www.w3.org/2001/XMLSchema#boolean"))
| written_false : forall l, written (JBool false) l (Literal #"false" None (Some #"http://www.w3.org/2001/XMLSchema#boolean")).

(** ** What a dictionary of the reply says of the collection it is about *)

Definition has_value (fs : list (str * json)) (k : str) (v : json) : Prop :=
  exists js x, field k fs = Some (JList js) /\ In (JObj x) js /\ field #"@value" x = Some v.

Inductive mentions (fs : list (str * json)) : term -> term -> Prop :=
| mentions_label : forall v o, has_value fs #"https://www.w3.org/ns/hydra/core#title" v -> written v None o ->
    mentions fs (URI #"http://www.w3.org/2000/01/rdf-schema#label") o
| mentions_skos : forall v o, has_value fs #"https://www.w3.org/ns/hydra/core#title" v -> written v None o ->
    mentions fs (URI #"http://www.w3.org/2004/02/skos/core#prefLabel") o
| mentions_total : forall v o, has_value fs #"https://www.w3.org/ns/hydra/core#totalItems" v -> written v None o ->
    mentions fs (URI #"https://www.w3.org/ns/hydra/core#totalItems") o
| mentions_description : forall v o, has_value fs #"https://www.w3.org/ns/hydra/core#description" v -> written v None o ->
    mentions fs (URI #"https://www.w3.org/ns/hydra/core#description") o
| mentions_other : forall group groups rest key js x v o,
    group = #"https://w3id.org/dts/api#dublincore" \/ group = #"https://w3id.org/dts/api#extensions" ->
    field group fs = Some (JList (JObj groups :: rest)) -> In (key, JList js) groups -> In (JObj x) js ->
    field #"@value" x = Some v -> written v (field #"@language" x) o ->
    mentions fs (URI key) o.

(** The types it gives, in order. *)
Definition typed (fs : list (str * json)) (ts : list str) : Prop :=
  field #"@type" fs = Some (JList (map JStr ts)).

(** ** Predicates, and what a node has *)

Definition rdf_type : term := URI #"http://www.w3.org/1999/02/22-rdf-syntax-ns#type".
Definition the_model : term := URI #"https://w3id.org/dts/api#model".
Definition has (w : world) (i : str) (p o : term) : Prop := In (URI i, p, o) (w_graph w).

(** Every triple is about some identifier. *)
Definition same_graph (w w' : world) : Prop := forall t, In t (w_graph w) <-> In t (w_graph w').

(** ** Deeds *)

Inductive deed :=
| Get (id : option str) | Page (h : nat) (dir : direction) (page : Z) | Retrieve (h : nat).

Definition void {A} (x : world * result A) : world * result unit :=
  let '(w, r) := x in (w, match r with Ok _ => Ok tt | Err e => Err e end).

Section Deeds.
Variable server : list request -> request -> reply.
Variable collections : route.

Definition perform (d : deed) (w : world) : world * result unit :=
  match d with
  | Get id => void (get_metadata server collections id w)
  | Page h dir p => void (read_page server collections h dir p w)
  | Retrieve h => void (retrieve server collections h w)
  end.
Definition after (w : world) (ds : list deed) : world := fold_left (fun w d => fst (perform d w)) ds w.

(** All of them succeed. *)
Fixpoint succeed (w : world) (ds : list deed) : Prop :=
  match ds with
  | [] => True
  | d :: ds' => snd (perform d w) = Ok tt /\ succeed (fst (perform d w)) ds'
  end.

(** In the reply [data] to the deed, the dictionary [fs] is about [i]. *)
Definition listed_in (data : json) (i : str) (fs : list (str * json)) : Prop :=
  exists top ms, data = JObj top /\ field #"https://www.w3.org/ns/hydra/core#member" top = Some (JList ms) /\
    In (JObj fs) ms /\ field #"@id" fs = Some (JStr i).
Inductive speaks (w : world) (data : json) (i : str) (fs : list (str * json)) : deed -> Prop :=
| speaks_top : forall id, data = JObj fs -> field #"@id" fs = Some (JStr i) -> speaks w data i fs (Get id)
| speaks_get : forall id, listed_in data i fs -> speaks w data i fs (Get id)
| speaks_page : forall h dir p, listed_in data i fs -> speaks w data i fs (Page h dir p)
| speaks_self : forall h, data = JObj fs -> i = d_id (obj w h) -> speaks w data i fs (Retrieve h).

(** In [w], the deed makes a request, and in the reply [fs] is about [i]. *)
Definition learns (w : world) (d : deed) (i : str) (fs : list (str * json)) : Prop :=
  exists q empty data rest,
    w_sent (fst (perform d w)) = w_sent w ++ [q] /\
    p_body (server (w_sent w) q) = Some (empty, data :: rest) /\
    speaks w data i fs d.

(** Some deed of the history learns it. *)
Definition learnt (w : world) (ds : list deed) (i : str) (fs : list (str * json)) : Prop :=
  exists ds1 d ds2, ds = ds1 ++ d :: ds2 /\ learns (after w ds1) d i fs.
End Deeds.

(** ** Citations *)

(** The citation and the depth after a dictionary was read, those before being
    [old] and [depth]. *)
Definition absent (fs : list (str * json)) (k : str) : Prop :=
  field k fs = None \/ field k fs = Some (JList []).
Definition cites (fs : list (str * json)) (old new : citation_set) (depth depth' : option json) : Prop :=
  let structure := #"https://w3id.org/dts/api#citeStructure" in
  let levels := #"https://w3id.org/dts/api#citeDepth" in
  (absent fs structure -> new = old /\ (absent fs levels -> depth' = depth)) /\
  (forall x l, field structure fs = Some (JList (x :: l)) ->
     set_ingest 0 (JList (x :: l)) = Ok new /\ (absent fs levels -> depth' = None)) /\
  forall x l v, field levels fs = Some (JList (JObj x :: l)) -> field #"@value" x = Some v -> depth' = Some v.
