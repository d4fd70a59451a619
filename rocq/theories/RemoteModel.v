(** Texts and passages read from a CTS endpoint.

    Models /repo/MyCapytain/resources/texts/remote/cts.py, lines 37-45, 63-153,
    204-248, 273-314 and 406-462, and /repo/MyCapytain/resolvers/cts/api.py, lines
    44-99.  Metadata and citations that are read from the replies
    (lines 155-202) are in TextMetaModel.v.  A reply is a parsed document ([xmlparser] is lxml). *)

From Coq Require Import List NArith ZArith Arith Bool.
From Verif Require Import PyStr RefModel UrnModel XmlModel PassageModel TeiModel HttpModel.
Import ListNotations.

(** ** What is asked *)

(** str.format of a URN and a text, separated by a colon. *)
Definition urn_colon (u : urn) (s : str) : result str := t <- to_str u ;; Ok (colon t s).

(** [getValidReff] and [getPassagePlus] (lines 73-76 and 143-146). *)
Definition asked_below (u : urn) (r : option subref) : result str :=
  match r with
  | Some s => if sub_truthy r then urn_colon u (sub_str s) else to_str u
  | None => to_str u
  end.

(** What [getTextualNode] accepts. *)
Inductive node_arg := ByUrn (u : urn) | ByRef (r : ref) | ByText (s : str) | ByList (l : list str) | ByNothing.

(** [getTextualNode] (lines 100-112). *)
Definition asked_node (u : urn) (a : node_arg) : result str :=
  match a with
  | ByUrn v => to_str v
  | ByRef r => urn_colon u (r_str r)
  | ByText s => if mem c_colon s then Ok s else t <- urn_upto NO_PASSAGE u ;; Ok (colon t s)
  | ByList l => urn_colon u (join [c_dot] l)
  | ByNothing => to_str u
  end.

(** [URN(str(self.urn)).upTo(URN.NO_PASSAGE)] and a reference (lines 211-221). *)
Definition asked_sibling (u : urn) (r : str) : result str :=
  s <- to_str u ;; v <- urn_parse s ;; t <- urn_upto NO_PASSAGE v ;; Ok (colon t r).

(** [getFirstUrn] (lines 232-241).  A colon is looked for in the text, or among the
    two parts of a reference. *)
Definition asked_first (u : urn) (r : option subref) : result str :=
  match r with
  | None => to_str u
  | Some (SubText s) => if mem c_colon s then Ok s else asked_sibling u s
  | Some (SubRef r) =>
      if str_eqb (r_start r) [c_colon] || opt_eqb str_eqb (r_end r) (Some [c_colon]) then Ok (r_str r)
      else asked_sibling u (r_str r)
  end.

(** The level that is asked: [depth] (lines 37-45), [getReffs] (lines 129-132) and
    the level -1 of [getValidReff] (lines 78-79); [cites] is len(self.citation). *)
Definition reffs_level (u : urn) (level : Z) : Z :=
  match u_ref u with Some r => (level + Z.of_nat (ref_depth r))%Z | None => level end.
Definition valid_level (cites : nat) (level : Z) : Z :=
  if (level =? -1)%Z then Z.of_nat cites else level.
Definition asked_reffs (u : urn) (cites : nat) (level : Z) (r : option subref) : result (str * Z) :=
  s <- asked_below u r ;; Ok (s, valid_level cites (reffs_level u level)).

(** The resolver: [getTextualNode], [getSiblings] and [getReffs] of api.py, with the
    name of the request.  The citation of a new text is empty, and counts as one level
    (_base.py lines 259-274). *)
Definition resolver_node (text : str) (r : option subref) (prevnext metadata : bool) : result (str * str) :=
  u <- urn_parse text ;;
  if metadata || prevnext then s <- asked_below u r ;; Ok (#"GetPassagePlus", s)
  else s <- asked_node u (match r with None => ByNothing | Some (SubText s) => ByText s | Some (SubRef r) => ByRef r end) ;;
       Ok (#"GetPassage", s).
Definition resolver_siblings (text : str) (r : subref) : result (str * str) :=
  u <- urn_parse text ;; s <- asked_sibling u (sub_str r) ;; Ok (#"GetPrevNextUrn", s).
Definition resolver_reffs (text : str) (level : Z) (r : option subref) : result (str * Z) :=
  u <- urn_parse text ;; asked_reffs u 1 level r.

(** ** What is read *)

Definition ti (name : str) : str := #"{http://chs.harvard.edu/xmlns/cts}" ++ name.

(** The elements of a document in document order, with the tags from each up to the
    root; the XPaths of the code look at the first ones of those tags. *)
Fixpoint elements (above : list str) (n : node) : list (list str * node) :=
  match n with
  | Elem t a x y kids => (t :: above, Elem t a x y kids) :: flat_map (elements (t :: above)) kids
  end.

Definition tag_is (t : str) (tags : list str) : bool :=
  match tags with a :: _ => str_eqb a t | _ => false end.
Definition tag_in (t u : str) (tags : list str) : bool :=
  match tags with a :: b :: _ => str_eqb a t && str_eqb b u | _ => false end.
Definition tag_under (t u : str) (tags : list str) : bool :=
  match tags with a :: l => str_eqb a t && existsb (str_eqb u) l | _ => false end.

(** [s.split(":")[-1]]. *)
Definition last_part (s : str) : str := last (split c_colon s) [].

(** [xpath("//ti:reply//ti:urn/text()")] after [xpath("//ti:request")[0]] (lines
    85-88). *)
Definition read_reffs (x : node) : result (list str) :=
  if existsb (fun e => tag_is (ti #"request") (fst e)) (elements [] x) then
    Ok (map (fun t => last_part (snd t)) (filter (fun t => tag_under (ti #"urn") (ti #"reply") (fst t)) (text_nodes [] x)))
  else Err IndexError.

(** [firstUrn] (lines 273-287). *)
Definition read_first (x : node) : option str :=
  match filter (fun t => tag_in (ti #"urn") (ti #"reply") (fst t)) (text_nodes [] x) with
  | t :: _ => Some (last_part (snd t))
  | [] => None
  end.

(** The first text of [xpath("ti:next/ti:urn/text()")] from an element: its own tag
    is the last one of the three. *)
Definition sibling_text (name : str) (e : node) : option str :=
  match filter (fun t => match fst t with [a; b; _] => str_eqb a (ti #"urn") && str_eqb b (ti name) | _ => false end)
          (text_nodes [] e) with
  | t :: _ => Some (last_part (snd t))
  | [] => None
  end.

(** [prevnext] (lines 289-314): False is [Unknown]. *)
Inductive sibling := Unknown | Known (s : option str).
Definition read_prevnext (x : node) : sibling * sibling :=
  match filter (fun e => tag_is (ti #"prevnext") (fst e)) (elements [] x) with
  | [] => (Unknown, Unknown)
  | e :: _ => (Known (sibling_text #"prev" (snd e)), Known (sibling_text #"next" (snd e)))
  end.

(** ** A passage and its siblings (lines 406-462)

    The state is what the passage knows and how many requests it has made; [reply]
    is the endpoint: its answer to each of them. *)
Record passage := MkPassage { p_prev : sibling; p_next : sibling; p_asked : nat }.
Definition new_passage (x : node) : passage := let '(p, n) := read_prevnext x in MkPassage p n 0.

Definition ask (reply : nat -> node) (s : passage) : passage :=
  let '(p, n) := read_prevnext (reply (p_asked s)) in MkPassage p n (S (p_asked s)).
Definition unknown (s : sibling) : bool := match s with Unknown => true | Known _ => false end.

Inductive access := GetPrev | GetNext | GetSiblings.
(** What an access returns: one identifier or two. *)
Definition step_access (reply : nat -> node) (s : passage) (a : access) : passage * list sibling :=
  match a with
  | GetPrev => let s' := if unknown (p_prev s) then ask reply s else s in (s', [p_prev s'])
  | GetNext => let s' := if unknown (p_next s) then ask reply s else s in (s', [p_next s'])
  | GetSiblings =>
      let s' := if unknown (p_next s) || unknown (p_prev s) then ask reply s else s in (s', [p_prev s'; p_next s'])
  end.
Fixpoint accesses (reply : nat -> node) (s : passage) (h : list access) : passage * list (list sibling) :=
  match h with
  | [] => (s, [])
  | a :: h' => let '(s', r) := step_access reply s a in
               let '(s'', rs) := accesses reply s' h' in (s'', r :: rs)
  end.

(** The request of a passage for its siblings (lines 418, 438 and 450): the text of a
    missing reference is the word None. *)
Definition passage_request (u : urn) : result str := asked_sibling u (item_str (u_ref u)).
