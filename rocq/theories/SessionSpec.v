(** What programs that work with several graphs may expect. *)

From Coq Require Import List NArith ZArith Arith Bool.
From Verif Require Import PyStr MetaModel MetaSpec CollModel FieldModel FieldSpec SessionModel.
Import ListNotations.

(** ** What a program can do *)
Inductive deed : Type :=
| BindGraph                                   (* bind_graph() *)
| SetGraph (i : nat)
| NewMeta (n : option term)                   (* Metadata(node) *)
| GetOr (s p : term) (n : option term)
| NewColl (id : str)
| NewText (id : str) (given : option nat)     (* with the metadata of that object *)
| AddValue (h : nat) (key : term) (v : pvalue) (lang : option str)
| SetValue (h : nat) (key : term) (v : pvalue) (lang : option str)
| Remove (h : nat) (p o : option term)
| Unlink (h : nat) (s p : option term)
| SetType (h : nat) (v : pvalue)
| SetModel (h : nat) (v : pvalue)
| SetVersion (h : nat) (v : pvalue)
| Label (h : nat) (v : pvalue) (lang : option str)
| SetParent (h p : nat)
| SetField (h : nat) (f : field) (v : pvalue) (lang : option str).

Section Order.
Variable order : list term -> list term.

Definition perform (d : deed) (w : world) : world * result unit :=
  match d with
  | BindGraph => (bind_graph w, Ok tt)
  | SetGraph i => set_graph w i
  | NewMeta n => (new_metadata w n, Ok tt)
  | GetOr s p n => get_or order w s p n
  | NewColl id => (new_collection w id, Ok tt)
  | NewText id given => new_text w id given
  | AddValue h key v lang => add_value w h key v lang
  | SetValue h key v lang => set_value w h key v lang
  | Remove h p o => remove w h p o
  | Unlink h s p => unlink w h s p
  | SetType h v => set_type w h v
  | SetModel h v => set_model w h v
  | SetVersion h v => set_version w h v
  | Label h v lang => label w h v lang
  | SetParent h p => set_parent w h p
  | SetField h f v lang => set_field w h f v lang
  end.
(** What fails does not end the program. *)
Definition after (w : world) (ds : list deed) : world := fold_left (fun w d => fst (perform d w)) ds w.

(** ** Objects and where they are described *)

Definition thing_at (w : world) (h : nat) (t : thing) : Prop := nth_error (w_things w) h = Some t.

(** The graph and the node of the metadata of an object. *)
Inductive lives (w : world) (h : nat) : nat * term -> Prop :=
| lives_meta : forall g n, thing_at w h (Meta g n) -> lives w h (g, n)
| lives_coll : forall g id p kids, thing_at w h (Coll g id p kids) -> lives w h (g, URI id)
| lives_text : forall g id n mg mn, thing_at w h (Text g id n mg mn) -> lives w h (mg, mn).
Definition a_collection (w : world) (h : nat) : Prop := exists g id p kids, thing_at w h (Coll g id p kids).
Definition a_text (w : world) (h : nat) : Prop := exists g id n mg mn, thing_at w h (Text g id n mg mn).

(** The node an object is referred to by. *)
Inductive named (w : world) (h : nat) : term -> Prop :=
| named_meta : forall g n, thing_at w h (Meta g n) -> named w h n
| named_coll : forall g id p kids, thing_at w h (Coll g id p kids) -> named w h (URI id)
| named_text : forall g id n mg mn, thing_at w h (Text g id n mg mn) -> named w h n.

(** The same object, perhaps in another place of the tree of collections. *)
Definition alike (t t' : thing) : Prop :=
  match t, t' with
  | Meta g n, Meta g' n' => g = g' /\ n = n'
  | Coll g id _ _, Coll g' id' _ _ => g = g' /\ id = id'
  | Text g id n mg mn, Text g' id' n' mg' mn' => g = g' /\ id = id' /\ n = n' /\ mg = mg' /\ mn = mn'
  | _, _ => False
  end.
(** The graph an object was made with. *)
Definition made_in (t : thing) : nat := match t with Meta g _ => g | Coll g _ _ _ => g | Text g _ _ _ _ => g end.

(** The graph that was set last. *)
Definition set_last (w : world) (ds : list deed) : nat :=
  fold_left (fun now d => match d with SetGraph i => i | _ => now end) ds (w_now w).
(** Graphs are only set when there are that many. *)
Fixpoint settable (n : nat) (ds : list deed) : Prop :=
  match ds with
  | [] => True
  | BindGraph :: ds' => settable (S n) ds'
  | SetGraph i :: ds' => i < n /\ settable n ds'
  | _ :: ds' => settable n ds'
  end.

(** Every graph that is referred to is there. *)
Definition housed (w : world) : Prop :=
  w_now w < length (w_graphs w) /\
  forall h t, thing_at w h t ->
    match t with
    | Meta g _ => g < length (w_graphs w)
    | Coll g _ _ _ => g < length (w_graphs w)
    | Text g _ _ mg _ => g < length (w_graphs w) /\ mg < length (w_graphs w)
    end.

(** ** What is said *)

Definition dublin (f : field) : term :=
  match f with
  | Creator => URI #"http://purl.org/dc/elements/1.1/creator"
  | Title => URI #"http://purl.org/dc/elements/1.1/title"
  | Description => URI #"http://purl.org/dc/elements/1.1/description"
  | Subject => URI #"http://purl.org/dc/elements/1.1/subject"
  end.
Definition a_implements : term := URI #"https://w3id.org/dts/api#implements".

Inductive says (w : world) : deed -> nat * term -> term -> term -> Prop :=
| says_new_type : forall id, says w (NewColl id) (w_now w, URI id) a_type (in_dts #"collection")
| says_new_model : forall id, says w (NewColl id) (w_now w, URI id) (in_dts #"model") (in_dts #"collection")
| says_implements : forall id given, (forall h, given = Some h -> exists t, thing_at w h t) ->
    says w (NewText id given) (w_now w, BNode (w_blanks w)) a_implements (URI id)
| says_add : forall h key v lang at_, lives w h at_ -> says w (AddValue h key v lang) at_ key (stored_value v lang)
| says_set : forall h key v lang at_, lives w h at_ -> says w (SetValue h key v lang) at_ key (stored_value v lang)
| says_type : forall h v u at_, a_collection w h -> lives w h at_ -> uri_of v u -> says w (SetType h v) at_ a_type u
| says_model : forall h v u at_, a_collection w h -> lives w h at_ -> uri_of v u -> says w (SetModel h v) at_ (in_dts #"model") u
| says_version : forall h v at_, a_collection w h -> lives w h at_ -> says w (SetVersion h v) at_ (in_dts #"version") (literal_of v None)
| says_label : forall h v lang at_ p, a_collection w h -> lives w h at_ -> p = a_label \/ p = a_skos_label ->
    says w (Label h v lang) at_ p (literal_of v lang)
| says_parent : forall h p at_ n, a_collection w h -> lives w h at_ -> named w p n -> says w (SetParent h p) at_ a_parent n
| says_field : forall h f v lang at_, a_text w h -> lives w h at_ -> says w (SetField h f v lang) at_ (dublin f) (stored_value v lang).

Inductive unsays (w : world) : deed -> nat * term -> term -> term -> Prop :=
| unsays_new : forall id p o, p = a_type \/ p = in_dts #"model" -> unsays w (NewColl id) (w_now w, URI id) p o
| unsays_set : forall h key v lang at_ o, lives w h at_ -> unsays w (SetValue h key v lang) at_ key o
| unsays_type : forall h v u at_ o, a_collection w h -> lives w h at_ -> uri_of v u -> unsays w (SetType h v) at_ a_type o
| unsays_model : forall h v u at_ o, a_collection w h -> lives w h at_ -> uri_of v u -> unsays w (SetModel h v) at_ (in_dts #"model") o
| unsays_version : forall h v at_ o, a_collection w h -> lives w h at_ -> unsays w (SetVersion h v) at_ (in_dts #"version") o
| unsays_remove : forall h pp oo at_ p o, lives w h at_ -> covers pp p -> covers oo o -> unsays w (Remove h pp oo) at_ p o
| unsays_unlink : forall h ss pp g n s p, lives w h (g, n) -> covers ss s -> covers pp p -> unsays w (Unlink h ss pp) (g, s) p n.

(** What holds after a history. *)
Inductive stands (w : world) : list deed -> nat * term -> term -> term -> Prop :=
| stands_start : forall g n p o, In (n, p, o) (nth g (w_graphs w) []) -> stands w [] (g, n) p o
| stands_said : forall ds d at_ p o, says (after w ds) d at_ p o -> stands w (ds ++ [d]) at_ p o
| stands_kept : forall ds d at_ p o, stands w ds at_ p o -> ~ unsays (after w ds) d at_ p o -> stands w (ds ++ [d]) at_ p o.

(** The deed is done to an object described in graph [g], or makes an object while
    [g] is the graph that is set. *)
Definition done_to (d : deed) (h : nat) : Prop :=
  match d with
  | AddValue x _ _ _ | SetValue x _ _ _ | Remove x _ _ | Unlink x _ _ | SetType x _ | SetModel x _ | SetVersion x _
  | Label x _ _ | SetParent x _ | SetField x _ _ _ => x = h
  | _ => False
  end.
Definition makes (d : deed) : Prop :=
  match d with NewColl _ | NewText _ _ => True | _ => False end.
Definition concerns (w : world) (d : deed) (g : nat) : Prop :=
  (exists h n, done_to d h /\ lives w h (g, n)) \/ (makes d /\ w_now w = g).
Fixpoint apart (w : world) (g : nat) (ds : list deed) : Prop :=
  match ds with
  | [] => True
  | d :: ds' => ~ concerns w d g /\ apart (fst (perform d w)) g ds'
  end.

(** ** Blank nodes *)

(** A program only has the blank nodes that were made. *)
Definition known (w : world) (t : term) : Prop := match t with BNode k => (k < w_blanks w)%N | _ => True end.
Definition known_opt (w : world) (t : option term) : Prop := match t with Some t => known w t | None => True end.
Definition known_value (w : world) (v : pvalue) : Prop := match v with PTerm t => known w t | _ => True end.
Definition known_deed (w : world) (d : deed) : Prop :=
  match d with
  | NewMeta n => known_opt w n
  | GetOr s p n => known_opt w n
  | AddValue _ k v _ | SetValue _ k v _ => known w k /\ known_value w v
  | SetField _ _ v _ => known_value w v
  | _ => True
  end.
Fixpoint known_deeds (w : world) (ds : list deed) : Prop :=
  match ds with
  | [] => True
  | d :: ds' => known_deed w d /\ known_deeds (fst (perform d w)) ds'
  end.
(** No graph mentions the node. *)
Definition unheard (w : world) (n : term) : Prop :=
  forall g s p o, In (s, p, o) (nth g (w_graphs w) []) -> s <> n /\ p <> n /\ o <> n.

(** The deed does not name dts:implements, nor take back without naming a predicate. *)
Definition gentle (d : deed) : Prop :=
  match d with
  | AddValue _ k _ _ | SetValue _ k _ _ => k <> a_implements
  | Remove _ p _ | Unlink _ _ p => exists q, p = Some q /\ q <> a_implements
  | _ => True
  end.
End Order.
