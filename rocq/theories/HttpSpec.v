(** Independent vocabulary for requests and links. *)

From Coq Require Import List NArith ZArith Bool.
From Verif Require Import PyStr RefModel RefSpec HttpModel.
Import ListNotations.

(** ** Links *)

(** Text that needs no escape in a query. *)
Definition plain_text (s : str) : Prop :=
  forall c, In c s -> c <> c_amp /\ c <> c_equal /\ c <> c_hash /\ c <> c_qmark /\ c <> 37%N /\ c <> 43%N.
Definition plain_fields (ps : list (str * str)) : Prop :=
  Forall (fun kv => plain_text (fst kv) /\ plain_text (snd kv)) ps.
(** Percent decoding leaves text without % and + alone. *)
Definition decodes (dec : str -> str) : Prop :=
  forall s, ~ In 37%N s -> ~ In 43%N s -> dec s = s.

Definition write_field (kv : str * str) : str := fst kv ++ #"=" ++ snd kv.
Definition write_url (base : str) (ps : list (str * str)) : str :=
  match ps with [] => base | _ => base ++ #"?" ++ join #"&" (map write_field ps) end.

(** The values given to a field, empty ones left out, in their order. *)
Fixpoint values (k : str) (ps : list (str * str)) : list str :=
  match ps with
  | [] => []
  | (k', v) :: ps' => if str_eqb k k' && negb (str_eqb v []) then v :: values k ps' else values k ps'
  end.

(** The last link of a relation in a header. *)
Definition announces {A} (links : list (str * A)) (rel : str) (x : A) : Prop :=
  exists before after, links = before ++ (rel, x) :: after /\ ~ In rel (map fst after).

(** What a query names: a reference, or a range. *)
Inductive points_to (ps : list (str * str)) : option dref -> Prop :=
| pt_ref : forall v vs, values #"ref" ps = v :: vs -> points_to ps (Some (MkDref v None))
| pt_range : forall s ss e es, values #"ref" ps = [] -> values #"start" ps = s :: ss -> values #"end" ps = e :: es ->
    points_to ps (Some (MkDref s (Some e)))
| pt_nothing : values #"ref" ps = [] -> values #"start" ps = [] \/ values #"end" ps = [] -> points_to ps None.

(** The links of a paginated reply: for each its relation, address and fields.
    [reads]: the page that is read for a relation; the first field is missed.
    [pageless]: the relation has a link, without a page. *)
Definition page_link := (str * (str * list (str * str)))%type.
Definition written_link (l : page_link) : link := (fst l, write_url (fst (snd l)) (snd (snd l))).

Definition reads (links : list page_link) (rel : str) (field : option str) : Prop :=
  match field with
  | Some v => exists base ps vs, announces links rel (base, ps) /\ values #"page" (tl ps) = v :: vs
  | None => forall x, ~ announces links rel x
  end.
Definition pageless (links : list page_link) (rel : str) : Prop :=
  exists base ps, announces links rel (base, ps) /\ values #"page" (tl ps) = [].

Definition five : list str := [#"previous"; #"next"; #"last"; #"current"; #"first"].

(** The links of a document, with a fragment.  [leads]: what the last link of the
    relation names, if there is one. *)
Definition doc_link := (str * (str * list (str * str) * str))%type.
Definition write_doc_link (x : str * list (str * str) * str) : str := write_url (fst (fst x)) (snd (fst x)) ++ snd x.
Definition plain_link (x : str * list (str * str) * str) : Prop :=
  plain_text (fst (fst x)) /\ plain_fields (snd (fst x)) /\ (snd x = [] \/ exists f, snd x = c_hash :: f).
Definition gives (links : list doc_link) (rel : str) (ps : list (str * str)) : Prop :=
  exists base frag, announces links rel (base, ps, frag).
(** A link that names something. *)
Definition filled (ps : list (str * str)) : Prop := exists k v, In (k, v) ps /\ v <> [].

Definition leads (links : list doc_link) (rel : str) (field : option dref) : Prop :=
  (exists ps, gives links rel ps /\ points_to ps field) \/ ((forall ps, ~ gives links rel ps) /\ field = None).

(** ** Requests *)

(** Numbers in base ten, and the text of a parameter. *)
Definition numeral (z : Z) (s : str) : Prop :=
  exists d, d <> [] /\ forallb is_digit d = true /\ N_of_digits d = Z.abs_N z /\
    s = (if (z <? 0)%Z then [c_dash] else []) ++ d.
Definition says (p : param) (s : str) : Prop :=
  match p with NoParam => False | StrParam t => s = t | IntParam z => numeral z s end.

(** A CTS request: its name, the given parameters, and the inventory of the
    endpoint when none is given; each once and nothing else. *)
Definition requests (sent : list (str * str)) (inventory : option str) (name : str) (ps : list (str * param)) : Prop :=
  NoDup (map fst sent) /\
  In (#"request", name) sent /\
  (forall k p, In (k, p) ps -> p <> NoParam -> exists v, says p v /\ In (k, v) sent) /\
  (forall i, inventory = Some i -> In (#"inv", NoParam) ps -> In (#"inv", i) sent) /\
  forall k v, In (k, v) sent ->
    (k = #"request" /\ v = name) \/ (exists p, In (k, p) ps /\ says p v) \/
    (k = #"inv" /\ inventory = Some v /\ In (#"inv", NoParam) ps).

Definition requests_ok (sent : result (list (str * str))) (inventory : option str) (name : str) (ps : list (str * param)) : Prop :=
  exists l, sent = Ok l /\ requests l inventory name ps.

(** The address asked for a passage. *)
Inductive address (text : str) : option subref -> str -> Prop :=
| ad_none : address text None text
| ad_empty : address text (Some (SubText [])) text
| ad_text : forall s, s <> [] -> address text (Some (SubText s)) (text ++ #":" ++ s)
| ad_ref : forall r, address text (Some (SubRef r)) (text ++ #":" ++ r_str r).

(** How deep a subreference is: its number of levels; for a range, that of the
    shallower end. *)
Inductive deep : subref -> nat -> Prop :=
| dp_text : forall l w, plain_levels l -> plain_word w -> deep (SubText (write_passage l w)) (length l)
| dp_range : forall l w l' w', plain_levels l -> plain_word w -> plain_levels l' -> plain_word w' ->
    deep (SubText (write_passage l w ++ #"-" ++ write_passage l' w')) (Nat.min (length l) (length l'))
| dp_ref : forall l w s, plain_levels l -> plain_word w -> deep (SubRef (MkRef (write_passage l w) None s)) (length l)
| dp_ref_range : forall l w l' w' s, plain_levels l -> plain_word w -> plain_levels l' -> plain_word w' ->
    deep (SubRef (MkRef (write_passage l w) (Some (write_passage l' w')) s)) (Nat.min (length l) (length l')).

(** A DTS request to a route: the parameters of the route's own address, and the
    given ones that are not [omitted]. *)
Definition asks (out : str * list (str * list str)) (r : route) (ps omitted : list (str * param)) : Prop :=
  fst out = rt_path r /\ NoDup (map fst (snd out)) /\
  (forall k p, In (k, p) ps -> p <> NoParam -> ~ In (k, p) omitted -> In k (map fst (snd out))) /\
  (forall k vs, In (k, vs) (rt_query r) -> In (k, vs) (snd out)) /\
  forall k vs, In (k, vs) (snd out) ->
    In (k, vs) (rt_query r) \/
    (~ In k (map fst (rt_query r)) /\ exists p v, In (k, p) ps /\ ~ In (k, p) omitted /\ says p v /\ vs = [v]).

(** The fields of a reference in a DTS request. *)
Inductive ref_fields : option dts_ref -> list (str * param) -> Prop :=
| rf_none : ref_fields None []
| rf_empty : ref_fields (Some (DText [])) []
| rf_text : forall s, s <> [] -> ref_fields (Some (DText s)) [(#"ref", StrParam s)]
| rf_single : forall s, ref_fields (Some (DRef (MkDref s None))) [(#"ref", StrParam s)]
| rf_half : forall s, ref_fields (Some (DRef (MkDref s (Some [])))) [(#"ref", StrParam s)]
| rf_range : forall s e, e <> [] -> ref_fields (Some (DRef (MkDref s (Some e)))) [(#"start", StrParam s); (#"end", StrParam e)].

(** Addresses of routes: a path, alone or on a host.  The path has no parameters; an
    address without host begins with one slash, or has no colon. *)
Definition write_address (host : option (str * str)) (path : str) : str :=
  match host with Some (scheme, h) => scheme ++ #"://" ++ h ++ path | None => path end.
Definition letter (c : char) : Prop := (65 <= c <= 90 \/ 97 <= c <= 122)%N.
Definition plain_address (host : option (str * str)) (path : str) : Prop :=
  ~ In 59%N path /\
  match host with
  | Some (scheme, h) => scheme <> [] /\ Forall letter scheme /\ ~ In c_slash h /\ (path = [] \/ exists p, path = c_slash :: p)
  | None => (exists c p, path = c_slash :: c :: p /\ c <> c_slash) \/ path = [c_slash] \/ (~ In c_colon path /\ hd 0%N path <> c_slash)
  end.

(** The request that a question makes to the routes of its kind. *)
Definition request_to (collections documents navigation : route) (q : question) : str * list (str * list str) :=
  match q with
  | AskCollection id nav page => get_collection collections id nav page
  | AskNavigation id level group max exclude page ref => get_navigation navigation id level group max exclude page ref
  | AskDocument id ref => get_document documents id ref
  end.
