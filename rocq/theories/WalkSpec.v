(** What a user is told who walks through a local text.

    The only things of the model that occur here are the names of the questions and
    the shapes of the answers. *)

From Coq Require Import List NArith ZArith Arith Bool Sorted.
From Verif Require Import PyStr RefModel XmlModel XmlSpec XPathModel TemplateSpec PassageModel PassageSpec WalkModel.
Import ListNotations.

(** Where an object stands: the whole text, a passage (rebuilt or simple) with some
    identifiers, the passage [c] got by next or prev from the rebuilt passage [d], what
    parent gives: a passage without a reference that holds the whole text, or what the
    rebuilt passage holds that was asked, or anything got from a passage that was got by
    next or prev. *)
Inductive place := Whole | Rebuilt (c : list str) | Light (c : list str) | Beside (d c : list str) | Above (c : option (list str)) | Lost.

(** Identifiers that can be read back from the reference made of them. *)
Definition named (c : list str) : Prop := c <> [] /\ Forall plain c.

(** One reference stands before another in the document. *)
Definition before (levels : list level) (x : node) (a b : option ref) : Prop :=
  exists c d p q, named c /\ named d /\ a = Some (reference_to c) /\ b = Some (reference_to d) /\
    cites levels x c p /\ cites levels x d q /\ precedes p q = true.

(** The references of the identifiers of length [k] that begin with [parts], each
    once and in the order of the document. *)
Definition listing (levels : list level) (x : node) (parts : list str) (k : nat) (l : list (option ref)) : Prop :=
  lists_level levels x parts k l /\ NoDup l /\ StronglySorted (before levels x) l.

(** What is answered when the references of level [k] below [parts] are asked. *)
Definition told_level (levels : list level) (x : node) (parts : list str) (k : nat) (r : result (list (option ref))) : Prop :=
  match r with
  | Ok l => k <= length levels /\ l <> [] /\ listing levels x parts k l
  | Err CitationDepthError => length levels < k
  | Err KeyError => k <= length levels /\ forall c p, length c = k -> begins parts c -> ~ cites levels x c p
  | Err _ => False
  end.

Definition identifiers (pl : place) : list str :=
  match pl with Rebuilt c | Light c | Beside _ c => c | Whole | Above _ | Lost => [] end.

(** One passage contains the other. *)
Definition overlap (d e : list str) : Prop := begins e d \/ begins d e.

(** The same when only what overlaps with [d] is known. *)
Definition told_near (levels : list level) (x : node) (d parts : list str) (k : nat) (r : result (list (option ref))) : Prop :=
  match r with
  | Ok l => k <= length levels /\ l <> [] /\ NoDup l /\ StronglySorted (before levels x) l /\
      forall o, In o l <-> exists e p, o = Some (reference_to e) /\ length e = k /\ begins parts e /\ cites levels x e p /\ overlap d e
  | Err CitationDepthError => length levels < k
  | Err KeyError => k <= length levels /\ forall e p, length e = k -> begins parts e -> overlap d e -> ~ cites levels x e p
  | Err _ => False
  end.

(** Children: the references one level below; none below the last level. *)
Definition told_children (levels : list level) (x : node) (pl : place) (r : result (list (option ref))) : Prop :=
  let c := identifiers pl in
  match pl with
  | Whole | Above _ => told_level levels x [] 1 r
  | _ => if length levels <=? length c then r = Ok [] else told_level levels x c (S (length c)) r
  end.

(** Siblings: the neighbours in the list of the level.  They cannot be asked of what
    parent gives. *)
Definition at_index (l : list (option ref)) (i : nat) : option ref := match nth_error l i with Some o => o | None => None end.
Definition told_siblings (levels : list level) (x : node) (pl : place) (r : result (option ref * option ref)) : Prop :=
  match pl with
  | Rebuilt c | Light c => exists l i, listing levels x [] (length c) l /\ nth_error l i = Some (Some (reference_to c)) /\
      r = Ok (match i with 0 => None | S j => at_index l j end, at_index l (S i))
  | Above _ => r = Err AttributeError
  | _ => r = Ok (None, None)
  end.

(** All references: those of the first level, then those of the second, and so on;
    refused when a level has none. *)
Definition told_all (levels : list level) (x : node) (r : result (list (option ref))) : Prop :=
  match r with
  | Ok l => exists ls, l = concat ls /\ length ls = length levels /\
      forall k lk, nth_error ls k = Some lk -> lk <> [] /\ listing levels x [] (S k) lk
  | Err KeyError => exists k, k < length levels /\ forall c p, length c = S k -> ~ cites levels x c p
  | Err _ => False
  end.

(** The result of a question with its value in another shape. *)
Definition shaped {A B} (f : A -> B) (r : result A) : result B := match r with Ok a => Ok (f a) | Err e => Err e end.

(** An object asked for by its reference, or None; the next free name is [n].  [kind]
    says what it is when there is one. *)
Definition object_of (n : nat) (kind : list str -> place) (o : option ref) (a : result answer) (new : list place) : Prop :=
  match o with
  | None => a = Ok (AObject None) /\ new = []
  | Some r => exists c, named c /\ r = reference_to c /\ a = Ok (AObject (Some n)) /\ new = [kind c]
  end.

(** What is answered to a question about an object at [pl], and where the new
    objects stand; the next free name is [n]. *)
Definition reply (levels : list level) (x : node) (pl : place) (n : nat) (q : question) (a : result answer) (new : list place) : Prop :=
  match pl with
  | Lost => Forall (fun p => p = Lost) new
  | Beside d c => Forall (fun p => p = Lost) new /\
      let childless := length levels <=? length c in
      match q with
      | QSiblingsId | QNextId | QPrevId | QNext | QPrev => new = [] /\
          if childless then a = Err CitationDepthError else
          (exists e p, length e = S (length d) /\ begins d e /\ cites levels x e p) /\ a = Err ValueError \/
          (forall e p, length e = S (length d) -> begins d e -> ~ cites levels x e p) /\ a = Err KeyError
      | QChildIds => new = [] /\ a = if childless then Ok (ARefs []) else Err KeyError
      | QFirstId | QLastId => new = [] /\ a = if childless then Ok (ARef None) else Err KeyError
      | QFirst | QLast => new = [] /\ a = if childless then Ok (AObject None) else Err KeyError
      | QChildren => new = [] /\ a = if childless then Ok (AObjects []) else Err KeyError
      | QReffs level None => new = [] /\
          a = Err (if (Z.of_nat (length levels) <? Z.max level (Z.of_nat (length c) + 1))%Z then CitationDepthError else KeyError)
      | QReffs level (Some s) => new = [] /\ exists r, a = shaped ARefs r /\ exists k,
          forall parts, named parts -> s = reference_to parts ->
            Z.of_nat k = Z.max level (Z.of_nat (length parts) + 1) /\ told_near levels x d parts k r
      | QNode r _ => exists e, named e /\ r = reference_to e /\
          if length levels <? length e then a = Err CitationDepthError /\ new = [] else
          ((exists p, cites levels x e p) /\ overlap d e) /\ a = Ok (AObject (Some n)) /\ new = [Lost] \/
          ~ ((exists p, cites levels x e p) /\ overlap d e) /\ a = Err IndexError /\ new = []
      | QAll => a = Err AttributeError /\ new = []
      | QParent => a = Ok (AObject (Some n)) /\ new = [Lost]
      end
  | _ =>
  match q with
  | QReffs level sub => new = [] /\ exists r, a = shaped ARefs r /\ exists k,
      match sub, pl with
      | None, Light c => Z.of_nat k = (level + Z.of_nat (length c))%Z /\ told_level levels x c k r
      | None, _ => Z.of_nat k = Z.max level (Z.of_nat (length (identifiers pl)) + 1) /\ told_level levels x (identifiers pl) k r
      | Some s, Light c => forall parts, named parts -> s = reference_to parts ->
          Z.of_nat k = Z.max (level + Z.of_nat (length c)) (Z.of_nat (length parts) + 1) /\ told_level levels x parts k r
      | Some s, _ => forall parts, named parts -> s = reference_to parts ->
          Z.of_nat k = Z.max level (Z.of_nat (length parts) + 1) /\ told_level levels x parts k r
      end
  | QChildIds => new = [] /\ exists r, told_children levels x pl r /\ a = shaped ARefs r
  | QFirstId => new = [] /\ exists r, told_children levels x pl r /\ a = shaped (fun l => ARef (at_index l 0)) r
  | QLastId => new = [] /\ exists r, told_children levels x pl r /\ a = shaped (fun l => ARef (at_index l (length l - 1))) r
  | QSiblingsId => new = [] /\ exists r, told_siblings levels x pl r /\ a = shaped APair r
  | QNextId => new = [] /\ exists r, told_siblings levels x pl r /\ a = shaped (fun p => ARef (snd p)) r
  | QPrevId => new = [] /\ exists r, told_siblings levels x pl r /\ a = shaped (fun p => ARef (fst p)) r
  | QAll => new = [] /\ match pl with Whole => exists r, told_all levels x r /\ a = shaped ARefs r | _ => a = Err AttributeError end
  | QNode r light => exists c, named c /\ r = reference_to c /\
      match pl, light with
      | Light _, true | Above _, true => a = Err TypeError /\ new = []
      | Whole, true =>
          if length levels <? length c then a = Err CitationDepthError /\ new = [] else
          (exists p, cites levels x c p) /\ a = Ok (AObject (Some n)) /\ new = [Light c] \/
          (forall p, ~ cites levels x c p) /\ a = Err InvalidURN /\ new = []
      | _, _ =>
          if length levels <? length c then a = Err CitationDepthError /\ new = [] else
          (exists p, cites levels x c p) /\ a = Ok (AObject (Some n)) /\ new = [Rebuilt c] \/
          (forall p, ~ cites levels x c p) /\ a = Err IndexError /\ new = []
      end
  | QFirst => exists r, told_children levels x pl r /\
      match r with Ok l => object_of n Rebuilt (at_index l 0) a new | Err e => a = Err e /\ new = [] end
  | QLast => exists r, told_children levels x pl r /\
      match r with Ok l => object_of n Rebuilt (at_index l (length l - 1)) a new | Err e => a = Err e /\ new = [] end
  | QChildren => exists r, told_children levels x pl r /\
      match r with
      | Ok l => exists cs, Forall named cs /\ l = map (fun c => Some (reference_to c)) cs /\ a = Ok (AObjects (seq n (length cs))) /\ new = map Rebuilt cs
      | Err e => a = Err e /\ new = []
      end
  | QNext => exists r, told_siblings levels x pl r /\
      match r with
      | Ok p => object_of n (match pl with Light _ => Rebuilt | _ => Beside (identifiers pl) end) (snd p) a new
      | Err e => a = Err e /\ new = []
      end
  | QPrev => exists r, told_siblings levels x pl r /\
      match r with
      | Ok p => object_of n (match pl with Light _ => Rebuilt | _ => Beside (identifiers pl) end) (fst p) a new
      | Err e => a = Err e /\ new = []
      end
  | QParent => a = Ok (AObject (Some n)) /\ new = [Above (match pl with Rebuilt c => Some c | _ => None end)]
  end
  end.

(** The answers of a session, and where the objects stand at its end. *)
Inductive replies (levels : list level) (x : node) : list place -> list (nat * question) -> list (result answer) -> list place -> Prop :=
| replies_end pls : replies levels x pls [] [] pls
| replies_ask pls i pl q h a new l pls' : nth_error pls i = Some pl -> reply levels x pl (length pls) q a new ->
    replies levels x (pls ++ new) h l pls' -> replies levels x pls ((i, q) :: h) (a :: l) pls'
| replies_nothing pls i q h a l pls' : nth_error pls i = None -> (exists e, a = Err e) ->
    replies levels x pls h l pls' -> replies levels x pls ((i, q) :: h) (a :: l) pls'.

(** The questions that the claim is about: levels are counted from one, and
    references are single and made of identifiers that can be written. *)
Definition askable (q : question) : Prop :=
  match q with
  | QReffs level sub => (1 <= level)%Z /\
      match sub with None => True | Some s => exists parts, named parts /\ s = reference_to parts end
  | QNode r _ => exists c, r = reference_to c /\ Forall good_id c /\ c <> []
  | _ => True
  end.

(** The content of a passage with the identifiers [c]: the text of its element, with
    the elements around it when it is rebuilt. *)
Definition rebuilt_content (levels : list level) (x : node) (c : list str) (R : node) : Prop :=
  exists P e, cites_only levels x c P /\ at_position (document x) P e /\
    text_of R = text_of e /\ lines 0 R = passage_lines (part_of (tl P) (tl P)) x.
Definition light_content (levels : list level) (x : node) (c : list str) (doc : node) (P : path) : Prop :=
  doc = x /\ cites_only levels x c P.

(** What an object that stands at [pl] holds. *)
Definition holds (levels : list level) (x : node) (pl : place) (t : thing) : Prop :=
  match pl, t with
  | Whole, TFull (OText y _) => y = x
  | Rebuilt c, TFull (OPass r R _ _) | Beside _ c, TFull (OPass r R _ _) => r = reference_to c /\ rebuilt_content levels x c R
  | Light c, TSimple s => sp_ref s = Some (reference_to c) /\ light_content levels x c (sp_doc s) (sp_path s)
  | Above o, TSimple s => sp_ref s = None /\ sp_path s = [0] /\
      match o with None => sp_doc s = x | Some c => rebuilt_content levels x c (sp_doc s) end
  | Lost, _ => True
  | _, _ => False
  end.

(** The same session with objects that remember nothing: before every question, they
    all are as if nothing had been asked of them. *)
Definition forgotten (m : memory) : memory := map (fun v => MkVisited (v_thing v) None None None) m.
Fixpoint forgetting_session (scheme : list str) (same : node -> node -> bool) (m : memory) (h : list (nat * question)) : memory * list (result answer) :=
  match h with
  | [] => (m, [])
  | (i, q) :: h' =>
      let '(m1, a) := w_ask scheme same i q (forgotten m) in
      let '(m2, l) := forgetting_session scheme same m1 h' in (m2, a :: l)
  end.
