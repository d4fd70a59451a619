(** The XPath text that lxml receives.

    This file models a library, lxml's XPath 1.0 reader, on the fragment citation
    patterns are written in:

      path   ::= step+            step  ::= ("/" | "//") name group*
      name   ::= "*" | qname      group ::= "[" test (" and " test)* "]"
      test   ::= "@" qname | "@" qname "='" value "'"

    Any other text is reported as XPathEvalError, whatever lxml makes of it.
    Prefixes are those of XPATH_NAMESPACES
    (/repo/MyCapytain/common/constants.py lines 17-24), which is what every call
    passes. *)

From Coq Require Import List NArith Arith Bool.
From Verif Require Import PyStr RefModel XmlModel.
Import ListNotations.

Definition xpath_namespaces : list (str * str) :=
  [(#"tei", #"http://www.tei-c.org/ns/1.0");
   (#"ti", #"http://chs.harvard.edu/xmlns/cts");
   (#"cpt", #"http://purl.org/capitains/ns/1.0#");
   (#"xsd", #"http://www.w3.org/2001/XMLSchema#");
   (#"xml", #"http://www.w3.org/XML/1998/namespace");
   (#"rdf", #"http://www.w3.org/1999/02/22-rdf-syntax-ns#")].

Definition c_lbrace : char := 123%N.
Definition c_rbrace : char := 125%N.
Definition c_star : char := 42%N.

(** Clark name of a qualified name. *)
Definition resolve (q : str) : option str :=
  match split c_colon q with
  | [l] => if truthy l then Some l else None
  | [p; l] => if truthy l
              then match dget p xpath_namespaces with
                   | Some ns => Some ([c_lbrace] ++ ns ++ [c_rbrace] ++ l)
                   | None => None
                   end
              else None
  | _ => None
  end.

Definition qname_char (c : char) : bool :=
  is_alpha c || is_digit c || N.eqb c c_colon || N.eqb c c_dash || N.eqb c c_dot || N.eqb c 95%N.

Definition starts_with (p s : str) : option str :=
  if startswith s p then Some (skipn (length p) s) else None.

Definition read_test (s : str) : option (pred * str) :=
  match starts_with #"@" s with
  | None => None
  | Some r =>
      match resolve (take_while qname_char r) with
      | None => None
      | Some a =>
          let r1 := drop_while qname_char r in
          match starts_with #"='" r1 with
          | None => Some (PHas a, r1)
          | Some r2 =>
              match drop_while (fun c => negb (N.eqb c c_quote)) r2 with
              | _ :: r3 => Some (PEq a (take_while (fun c => negb (N.eqb c c_quote)) r2), r3)
              | [] => None
              end
          end
      end
  end.

(** test (" and " test)* "]" *)
Fixpoint read_tests (fuel : nat) (s : str) : option (list pred * str) :=
  match fuel with
  | 0 => None
  | S fuel' =>
      match read_test s with
      | None => None
      | Some (t, r) =>
          match starts_with #"]" r with
          | Some r' => Some ([t], r')
          | None =>
              match starts_with #" and " r with
              | None => None
              | Some r' => match read_tests fuel' r' with
                           | Some (ts, r'') => Some (t :: ts, r'')
                           | None => None
                           end
              end
          end
      end
  end.

Fixpoint read_groups (fuel : nat) (s : str) : option (list (list pred) * str) :=
  match fuel with
  | 0 => None
  | S fuel' =>
      match starts_with #"[" s with
      | None => Some ([], s)
      | Some r =>
          match read_tests (length s) r with
          | None => None
          | Some (g, r') => match read_groups fuel' r' with
                            | Some (gs, r'') => Some (g :: gs, r'')
                            | None => None
                            end
          end
      end
  end.

(** name group* *)
Definition read_step (desc : bool) (s : str) : option (step * str) :=
  match (match starts_with #"*" s with
         | Some r => Some (None, r)
         | None => match resolve (take_while qname_char s) with
                   | Some t => Some (Some t, drop_while qname_char s)
                   | None => None
                   end
         end) with
  | None => None
  | Some (name, r) =>
      match read_groups (S (length r)) r with
      | Some (gs, r') => Some (MkStep desc name gs, r')
      | None => None
      end
  end.

Fixpoint read_path (fuel : nat) (s : str) : option (list step) :=
  match fuel with
  | 0 => None
  | S fuel' =>
      match s with
      | [] => Some []
      | _ =>
          let next desc r :=
            match read_step desc r with
            | Some (st, r') => match read_path fuel' r' with Some l => Some (st :: l) | None => None end
            | None => None
            end in
          match starts_with #"//" s with
          | Some r => next true r
          | None => match starts_with #"/" s with Some r => next false r | None => None end
          end
      end
  end.

(** element.xpath(text) for an absolute expression, the element being part of the
    document whose root is [root]; the empty expression is an error. *)
Definition eval_abs (root : node) (s : str) : result (list path) :=
  match s with
  | [] => Err XPathEvalError
  | _ => match read_path (S (length s)) s with
         | Some xs => Ok (xpath_abs root xs)
         | None => Err XPathEvalError
         end
  end.

(** One element of the lists handed to passageLoop: a step, with a leading slash
    if it stands for a descendant. *)
Definition step_of_text (s : str) : result step :=
  match (match starts_with #"/" s with Some r => read_step true r | None => read_step false s end) with
  | Some (st, []) => Ok st
  | _ => Err XPathEvalError
  end.

(** normalizeXpath (/repo/MyCapytain/common/utils/xml.py lines 185-199); [prev]
    tells whether the preceding element is empty. *)
Fixpoint normalize_from (prev : bool) (l : list str) : list str :=
  match l with
  | [] => []
  | x :: l' =>
      let e := match x with [] => true | _ => false end in
      if prev then (c_slash :: x) :: normalize_from e l'
      else if e then normalize_from e l'
      else x :: normalize_from e l'
  end.
Definition normalize_xpath (l : list str) : list str := normalize_from false l.
