(** What a DTS endpoint says, independently of how the resolver reads it. *)

From Coq Require Import List NArith ZArith Arith Bool.
From Verif Require Import PyStr Json TreeModel HttpModel HttpSpec DtsModel.
Import ListNotations.

(** ** Expanded JSON-LD *)

(** The dictionary has the value [v] under the key [k] (the first one counts). *)
Definition gives (fs : list (str * json)) (k : str) (v : json) : Prop :=
  exists o rest, field k fs = Some (JList (JObj o :: rest)) /\ field #"@value" o = Some v.
Definition lacks (fs : list (str * json)) (k : str) : Prop := field k fs = None.
Definition gives_opt (fs : list (str * json)) (k : str) (v : option json) : Prop :=
  match v with Some v => gives fs k v | None => lacks fs k end.

(** All values under a key. *)
Definition listed (fs : list (str * json)) (k : str) (vs : list json) : Prop :=
  exists js, field k fs = Some (JList js) /\
    Forall2 (fun j v => exists o, j = JObj o /\ field #"@value" o = Some v) js vs.

(** One statement: a text, with its language if it has one, or a number. *)
Inductive tells (key : str) : json -> statement -> Prop :=
| tells_plain : forall o s, field #"@value" o = Some (JStr s) -> field #"@language" o = None ->
    tells key (JObj o) (key, JStr s, JNull)
| tells_text : forall o s l, field #"@value" o = Some (JStr s) -> field #"@language" o = Some l ->
    tells key (JObj o) (key, JStr s, l)
| tells_number : forall o z, field #"@value" o = Some (JInt z) -> tells key (JObj o) (key, JInt z, JNull).

(** The statements found under [k]: a dictionary of lists. *)
Definition told (fs : list (str * json)) (k : str) (sts : list statement) : Prop :=
  (lacks fs k /\ sts = []) \/
  exists groups rest parts, field k fs = Some (JList (JObj groups :: rest)) /\
    Forall2 (fun kv part => exists js, snd kv = JList js /\ Forall2 (tells (fst kv)) js part) groups parts /\
    sts = concat parts.

Definition about (fs : list (str * json)) (sts : list statement) : Prop :=
  exists a b, told fs #"https://w3id.org/dts/api#dublincore" a /\
    told fs #"https://w3id.org/dts/api#extensions" b /\ sts = a ++ b.

(** ** Addresses of pages *)

Definition digits (s : str) : Prop := Forall (fun c => (48 <= c <= 57)%N) s.

(** [n] is the number after the first "page=" that a number follows. *)
Definition page_number (u n : str) : Prop :=
  exists a b, u = a ++ #"page=" ++ n ++ b /\ digits n /\ n <> [] /\
    (forall c b', b = c :: b' -> ~ (48 <= c <= 57)%N) /\
    forall a' d b', u = a' ++ #"page=" ++ d :: b' -> (48 <= d <= 57)%N -> length a <= length a'.

(** The value of a text of digits. *)
Inductive decimal : str -> Z -> Prop :=
| decimal_nil : decimal [] 0
| decimal_snoc : forall s z c, decimal s z -> decimal (s ++ [c]) (10 * z + (Z.of_N c - 48)).

(** The address of the next page, if there is a view with one. *)
Definition next_address (fs : list (str * json)) (u : option str) : Prop :=
  match u with
  | None => lacks fs #"https://www.w3.org/ns/hydra/core#view" \/
      exists v rest, field #"https://www.w3.org/ns/hydra/core#view" fs = Some (JList (JObj v :: rest)) /\
        lacks v #"https://www.w3.org/ns/hydra/core#next"
  | Some u =>
      exists v rest, field #"https://www.w3.org/ns/hydra/core#view" fs = Some (JList (JObj v :: rest)) /\
        gives v #"https://www.w3.org/ns/hydra/core#next" (JStr u)
  end.

(** The members of a reply, by their JSON. *)
Definition members (fs : list (str * json)) (ms : list json) : Prop :=
  (lacks fs #"https://www.w3.org/ns/hydra/core#member" /\ ms = []) \/
  field #"https://www.w3.org/ns/hydra/core#member" fs = Some (JList ms).

(** ** Navigation: references *)

Record nav_ref := MkNavRef { nv_start : str; nv_end : option str; nv_type : option str; nv_about : list statement }.

Definition says_ref (fs : list (str * json)) (r : nav_ref) : Prop :=
  match nv_end r with
  | None => gives fs #"https://w3id.org/dts/api#ref" (JStr (nv_start r))
  | Some e => lacks fs #"https://w3id.org/dts/api#ref" /\
      gives fs #"https://w3id.org/dts/api#start" (JStr (nv_start r)) /\
      gives fs #"https://w3id.org/dts/api#end" (JStr e)
  end /\
  gives_opt fs #"https://w3id.org/dts/api#citeType" (option_map JStr (nv_type r)) /\
  about fs (nv_about r).

(** Neither a reference nor both ends of a range. *)
Definition says_no_ref (fs : list (str * json)) : Prop :=
  lacks fs #"https://w3id.org/dts/api#ref" /\
  (lacks fs #"https://w3id.org/dts/api#start" \/ lacks fs #"https://w3id.org/dts/api#end").

Record nav_page := MkNavPage {
  np_level : option Z; np_type : option str; np_refs : list nav_ref; np_next : option str }.

Definition says_page (fs : list (str * json)) (p : nav_page) : Prop :=
  gives_opt fs #"https://w3id.org/dts/api#level" (option_map JInt (np_level p)) /\
  gives_opt fs #"https://w3id.org/dts/api#citeType" (option_map JStr (np_type p)) /\
  (exists ms, members fs ms /\ Forall2 (fun j r => exists o, j = JObj o /\ says_ref o r) ms (np_refs p)) /\
  next_address fs (np_next p).

(** The pages from [p] on: each gives the address of the next, the last none. *)
Inductive pages (ans : option str -> result (list json)) : option str -> list nav_page -> Prop :=
| pages_last : forall p fs rest pg, ans p = Ok (JObj fs :: rest) -> says_page fs pg -> np_next pg = None ->
    pages ans p [pg]
| pages_more : forall p fs rest pg u n l, ans p = Ok (JObj fs :: rest) -> says_page fs pg -> np_next pg = Some u ->
    page_number u n -> pages ans (Some n) l -> pages ans p (pg :: l).

(** The page [p] is good and its successor is [n]. *)
Definition leads (ans : option str -> result (list json)) (p : option str) (n : str) : Prop :=
  exists fs rest pg u, ans p = Ok (JObj fs :: rest) /\ says_page fs pg /\ np_next pg = Some u /\ page_number u n.

(** After good pages comes one that is not: the server reports an error, or
    replies with nothing, or with a member that is no reference, or with a next
    address without a number. *)
Inductive breaks (ans : option str -> result (list json)) : option str -> exn -> Prop :=
| breaks_http : forall p e, ans p = Err e -> breaks ans p e
| breaks_empty : forall p, ans p = Ok [] -> breaks ans p AttributeError
| breaks_member : forall p fs rest lv ty good bad more refs, ans p = Ok (JObj fs :: rest) ->
    gives_opt fs #"https://w3id.org/dts/api#level" lv -> gives_opt fs #"https://w3id.org/dts/api#citeType" ty ->
    field #"https://www.w3.org/ns/hydra/core#member" fs = Some (JList (good ++ JObj bad :: more)) ->
    Forall2 (fun j r => exists o, j = JObj o /\ says_ref o r) good refs -> says_no_ref bad ->
    breaks ans p EmptyReference
| breaks_number : forall p fs rest pg u, ans p = Ok (JObj fs :: rest) -> says_page fs pg -> np_next pg = Some u ->
    (forall n, ~ page_number u n) -> breaks ans p IndexError
| breaks_later : forall p n e, leads ans p n -> breaks ans (Some n) e -> breaks ans p e.

(** The server answers a listing by its page alone: every request for this text,
    level, group size, excluded metadata and reference gets [ans]. *)
Definition answers (server : request -> result (list json)) (r : route) (text level group exclude : param)
  (ref : option dts_ref) (ans : option str -> result (list json)) : Prop :=
  forall q p fs, ref_fields ref fs ->
    asks q r ([(#"id", text); (#"level", level); (#"groupBy", group); (#"max", NoParam); (#"exclude", exclude);
               (#"page", match p with None => NoParam | Some n => StrParam n end)] ++ fs) [] ->
    server q = ans p.

(** The references listed: each with its own type, or else that of its page. *)
Definition type_given (o : option str) : option json :=
  match o with Some (c :: t) => Some (JStr (c :: t)) | _ => None end.
Definition reference_of (page_type : option str) (r : nav_ref) : dreference :=
  MkDR (JStr (nv_start r)) (match nv_end r with Some e => JStr e | None => JNull end)
    (type_given (match nv_type r with Some t => Some t | None => page_type end)) (nv_about r).
Definition all_references (l : list nav_page) : list dreference :=
  flat_map (fun p => map (reference_of (np_type p)) (np_refs p)) l.

(** ** Collections *)

Definition says_meta (fs : list (str * json)) (m : cmeta) : Prop :=
  listed fs #"https://www.w3.org/ns/hydra/core#title" (cm_labels m) /\
  field #"@type" fs = Some (JList (cm_types m)) /\
  ((lacks fs #"https://w3id.org/dts/api#citeStructure" /\ cm_citation m = None) \/
   exists x l c, field #"https://w3id.org/dts/api#citeStructure" fs = Some (JList (x :: l)) /\
     set_ingest 0 (JList (x :: l)) = Ok c /\ cm_citation m = Some c) /\
  gives_opt fs #"https://w3id.org/dts/api#citeDepth" (cm_depth m) /\
  listed fs #"https://www.w3.org/ns/hydra/core#totalItems" (cm_totals m) /\
  ((lacks fs #"https://www.w3.org/ns/hydra/core#description" /\ cm_descriptions m = []) \/
   listed fs #"https://www.w3.org/ns/hydra/core#description" (cm_descriptions m)) /\
  about fs (cm_about m).

Definition has_view (fs : list (str * json)) (b : bool) : Prop :=
  match b with
  | true => exists v, field #"https://www.w3.org/ns/hydra/core#view" fs = Some v
  | false => lacks fs #"https://www.w3.org/ns/hydra/core#view"
  end.

Inductive says_coll : json -> coll -> Prop :=
| says_coll_intro : forall fs id meta ms cs view,
    field #"@id" fs = Some (JStr id) -> says_meta fs meta ->
    members fs ms -> Forall2 says_coll ms cs -> has_view fs view ->
    says_coll (JObj fs) (Coll id meta cs view).

(** A collection that lists no members. *)
Definition lists_none (c : coll) : Prop := co_members c = [].

(** The pages of the members of a collection.  The members are listed without
    members of their own. *)
Definition says_members (fs : list (str * json)) (cs : list coll) : Prop :=
  exists ms, members fs ms /\ Forall2 says_coll ms cs /\ Forall lists_none cs.

Inductive cpages (ans : Z -> result (list json)) : Z -> list (list coll) -> Prop :=
| cpages_last : forall p fs rest cs, (0 < p)%Z -> ans p = Ok (JObj fs :: rest) -> says_members fs cs -> next_address fs None ->
    cpages ans p [cs]
| cpages_more : forall p fs rest cs u n m l, (0 < p)%Z -> ans p = Ok (JObj fs :: rest) -> says_members fs cs ->
    next_address fs (Some u) -> page_number u n -> decimal n m -> cpages ans m l -> cpages ans p (cs :: l).

(** The server answers each page of a collection in one way, or fails. *)
Definition steady (server : list request -> request -> result (list json)) (r : route) (id : str)
  (d : direction) (ans : Z -> result (list json)) : Prop :=
  forall sent q p, (0 < p)%Z ->
    asks q r [(#"id", StrParam id); (#"nav", StrParam (match d with Children => #"children" | Parents => #"parents" end));
              (#"page", IntParam p)] [(#"nav", StrParam #"children"); (#"page", IntParam 1)] ->
    server sent q = ans p \/ server sent q = Err HTTPError.

(** The members over all pages; the same identifier always means the same. *)
Definition is_member (l : list (list coll)) (k : str) (c : coll) : Prop :=
  co_id c = k /\ exists cs, In cs l /\ In c cs.
Definition consistent (l : list (list coll)) : Prop :=
  forall k c c', is_member l k c -> is_member l k c' -> c = c'.

(** A dictionary with exactly the members. *)
Definition is_dictionary_of (d : list (str * coll)) (l : list (list coll)) : Prop :=
  NoDup (map fst d) /\ forall k c, In (k, c) d <-> is_member l k c.

(** The collection as it was first received: its members are those of the first
    page; it has pages only if it says so; its size is not 0 unless that is all. *)
Definition first_reply (c : coll) (l : list (list coll)) : Prop :=
  exists more z, l = co_members c :: more /\ cm_totals (co_meta c) = [JInt z] /\
    (co_view c = false \/ z = 0%Z -> more = []).

Definition reads_parents (a : access) : Prop :=
  match a with ReadUps | HeldUps => True | _ => False end.

(** What an access to the children may give: the truth, or the failure of a
    request. *)
Definition right_answer (l : list (list coll)) (a : access) (r : result got) : Prop :=
  r = Err HTTPError \/
  match a with
  | ReadKids | HeldKids => exists d, r = Ok (Kids d) /\ is_dictionary_of d l
  | GetKid k | HeldKid k =>
      (exists c, r = Ok (Kid c) /\ is_member l k c) \/ (r = Err KeyError /\ forall c, ~ is_member l k c)
  | ReadUps | HeldUps => True
  end.

(** What an access to the parents may give: those known before and those of every
    page, or the failure of a request. *)
Definition right_parents (known : list coll) (l : list (list coll)) (a : access) (r : result got) : Prop :=
  reads_parents a ->
  r = Err HTTPError \/
  exists out, r = Ok (Ups out) /\ forall c, In c out <-> In c known \/ exists cs, In cs l /\ In c cs.
