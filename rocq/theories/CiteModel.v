(** Citation patterns: filling a refsDecl, and its scope/xpath view.
    Models /repo/MyCapytain/common/reference/_capitains_cts.py lines 10-13,
    16-26 and class Citation, lines 660-975. *)

From Coq Require Import List NArith Arith Bool.
From Verif Require Import PyStr PyRe RefModel.
Import ListNotations.

(** REFERENCE_REPLACER (line 13): group 1 is '@' and one or more letters, digits
    or ':'; group 2 is '='; group 3 is three to six of backslash, '$', single or
    double quote, '?', digits. *)
Definition attr_char (c : N) : bool := is_alpha c || is_digit c || N.eqb c c_colon.
Definition slot_char (c : N) : bool :=
  N.eqb c c_backslash || N.eqb c c_dollar || N.eqb c c_quote || N.eqb c c_dquote ||
  N.eqb c c_qmark || is_digit c.
Definition reference_replacer : list item :=
  [one (is_char c_at); plus attr_char; one (is_char c_equal); It slot_char 3 (Some 6)].
(** Its first group is the '@' and the attribute name. *)
Definition rr_group1 (ws : list str) : str := nth 0 ws [] ++ nth 1 ws [].

(** REFSDECL_SPLITTER (line 10): one or more slashes, then one or more of star,
    parentheses, bar, white space, letters, digits, colon, brackets, '@', '=',
    backslash, left brace, '$', quotes, dot. *)
Definition step_char (c : N) : bool :=
  existsb (N.eqb c) #"*()|:[]@=\{$'." || N.eqb c c_dquote || is_space c || is_alpha c || is_digit c.
Definition refsdecl_splitter : list item := [plus (is_char c_slash); plus step_char].

(** REFSDECL_REPLACER (line 11): \$[0-9]+ . *)
Definition refsdecl_replacer : list item := [one (is_char c_dollar); plus is_digit].

(** _ref_replacer (lines 959-975) driven by re.sub with an iterator over the
    reference components. *)
Fixpoint fill_scan (segs : list (N + list str)) (it : list (option str)) : result str :=
  match segs with
  | [] => Ok []
  | inl c :: r => t <- fill_scan r it ;; Ok (c :: t)
  | inr ws :: r =>
      match it with
      | [] => Err StopIteration                       (* next(passage) *)
      | None :: it' => t <- fill_scan r it' ;; Ok (rr_group1 ws ++ t)
      | Some v :: it' =>
          t <- fill_scan r it' ;; Ok (rr_group1 ws ++ #"='" ++ v ++ #"'" ++ t)
      end
  end.

(** Argument of fill without xpath=True: None, a reference, a list of components
    (None allowed), or any plain string, which is iterated character by
    character. *)
Inductive fill_arg :=
| FNone
| FRef (r : ref)
| FList (l : list (option str))
| FStr (s : str).

(** Citation.fill (lines 828-872), xpath not True.  [rd] is self.refsDecl; with
    no refsDecl re.sub raises TypeError. *)
Definition fill (rd : option str) (a : fill_arg) : result str :=
  match rd with
  | None => Err TypeError
  | Some rd =>
      match a with
      | FNone => Ok (re_sub reference_replacer rr_group1 rd)
      | FRef r => fill_scan (re_scan reference_replacer rd) (map Some (id_list (r_start r)))
      | FList l => fill_scan (re_scan reference_replacer rd) l
      | FStr s => fill_scan (re_scan reference_replacer rd) (map (fun c => Some [c]) s)
      end
  end.

(** _parseXpathScope (lines 779-786): (scope, xpath). *)
Definition unnumber (s : str) : str := re_sub refsdecl_replacer (fun _ => [c_qmark]) s.

Definition parse_xpath_scope (rd : option str) : result (str * str) :=
  match rd with
  | None => Err TypeError                             (* findall(None) *)
  | Some rd =>
      match rev (map (@concat N) (re_findall refsdecl_splitter rd)) with
      | [] => Err IndexError                          (* matches[-1] *)
      | last :: before => Ok (unnumber (concat (rev before)), unnumber last)
      end
  end.

(** str.find for one character. *)
Fixpoint find_char (c : N) (s : str) : option nat :=
  match s with
  | [] => None
  | x :: s' => if N.eqb x c then Some 0 else option_map S (find_char c s')
  end.

(** The while loop of _fromScopeXpathToRefsDecl (lines 788-800).  The fuel is
    the number of '?' of the initial string: an iteration removes one and adds
    none, so the loop ends within it. *)
Fixpoint number_loop (fuel ii : nat) (s : str) : str :=
  match find_char c_qmark s with
  | None => s
  | Some i =>
      match fuel with
      | 0 => s
      | S fuel' =>
          number_loop fuel' (S ii) (firstn i s ++ [c_dollar] ++ str_of_nat ii ++ skipn (S i) s)
      end
  end.
Definition number_slots (s : str) : str := number_loop (count c_qmark s) 1 s.

(** Citation.__init__ (lines 691-702): the refsDecl of a new citation. *)
Definition init_refsdecl (scope xpath refsdecl : option str) : option str :=
  match scope, xpath with
  | Some s, Some x => if truthy s && truthy x then Some (number_slots (s ++ x)) else refsdecl
  | _, _ => refsdecl
  end.

(** The xpath and scope setters (lines 713-717, 728-732): a missing value or an
    unset or empty refsDecl leaves everything as it is. *)
Definition set_xpath (v rd : option str) : result (option str) :=
  match v with
  | Some x => if truthy_opt rd
              then '(scope, _) <- parse_xpath_scope rd ;; Ok (Some (number_slots (scope ++ x)))
              else Ok rd
  | None => Ok rd
  end.
Definition set_scope (v rd : option str) : result (option str) :=
  match v with
  | Some s => if truthy_opt rd
              then '(_, xpath) <- parse_xpath_scope rd ;; Ok (Some (number_slots (s ++ xpath)))
              else Ok rd
  | None => Ok rd
  end.

(** The attribute property (lines 769-777):
    '@', letters or ':' (the group), '=', optional backslash, a quote, '$', the
    decimal number of '$' in the refsDecl, optional backslash, a quote. *)
Definition name_char (c : N) : bool := is_alpha c || N.eqb c c_colon.
Definition is_quote (c : N) : bool := N.eqb c c_quote || N.eqb c c_dquote.
Definition attribute_re (n : nat) : list item :=
  [one (is_char c_at); plus name_char; one (is_char c_equal); opt (is_char c_backslash);
   one is_quote; one (is_char c_dollar)] ++
  map (fun d => one (is_char d)) (str_of_nat n) ++
  [opt (is_char c_backslash); one is_quote].

Definition attribute (rd : option str) : result str :=
  match rd with
  | None => Err AttributeError                        (* None.count *)
  | Some rd =>
      match rev (re_findall (attribute_re (count c_dollar rd)) rd) with
      | [] => Err IndexError                          (* refs[-1] *)
      | ws :: _ => Ok (nth 1 ws [])
      end
  end.
