(** Filling the xpath of a citation with a passage given as a string.

    Models /repo/MyCapytain/common/reference/_capitains_cts.py lines 852-859, where
    the passage becomes part of a replacement template, and how the module [re] of
    Python 3.11 reads such a template (sre_parse.parse_template), which is library
    code. *)

From Coq Require Import List NArith Arith Bool.
From Verif Require Import PyStr PyRe RefModel CiteModel.
Import ListNotations.

(** A part of a template: text, or a group of the pattern. *)
Inductive part := Text (s : str) | Group (n : nat).

Definition is_octal (c : N) : bool := (48 <=? c)%N && (c <=? 55)%N.
Definition digit_value (c : N) : nat := N.to_nat c - 48.

(** The characters up to the next [stop], and what follows it. *)
Fixpoint until (stop : N) (s : str) : option (str * str) :=
  match s with
  | [] => None
  | c :: s' => if N.eqb c stop then Some ([], s') else
      match until stop s' with Some (a, b) => Some (c :: a, b) | None => None end
  end.

(** The pattern has three groups. *)
Definition group (n : nat) : option part := if n <=? 3 then Some (Group n) else None.

(** The single-letter escapes. *)
Definition escaped (c : N) : option N :=
  if N.eqb c 97 then Some 7%N else if N.eqb c 98 then Some 8%N else if N.eqb c 102 then Some 12%N
  else if N.eqb c 110 then Some 10%N else if N.eqb c 114 then Some 13%N else if N.eqb c 116 then Some 9%N
  else if N.eqb c 118 then Some 11%N else if N.eqb c c_backslash then Some c_backslash else None.

(** What follows a backslash: a part and the rest, or None where re raises re.error
    or IndexError.  Simplification: in [\g<...>] a number is written in ASCII digits;
    a sign, blanks, underscores and other digits, which int() reads too, are refused
    here. *)
Definition after_backslash (s : str) : option (part * str) :=
  let give p rest := match p with Some p => Some (p, rest) | None => None end in
  match s with
  | [] => None
  | c :: s1 =>
      if N.eqb c 103 then                                    (* \g *)
        match s1 with
        | 60%N :: s2 =>
            match until 62 s2 with
            | Some (name, rest) =>
                if truthy name && forallb is_digit name
                then give (group (fold_left (fun n d => 10 * n + digit_value d) name 0)) rest else None
            | None => None
            end
        | _ => None
        end
      else if N.eqb c 48 then                                (* \0 and up to two octal digits *)
        match s1 with
        | d :: s2 =>
            if is_octal d then
              match s2 with
              | e :: s3 => if is_octal e then Some (Text [N.of_nat (8 * digit_value d + digit_value e)], s3)
                           else Some (Text [N.of_nat (digit_value d)], s2)
              | [] => Some (Text [N.of_nat (digit_value d)], s2)
              end
            else Some (Text [0%N], s1)
        | [] => Some (Text [0%N], s1)
        end
      else if is_digit c then                                (* a group, or three octal digits *)
        match s1 with
        | d :: s2 =>
            if is_digit d then
              match s2 with
              | e :: s3 =>
                  if is_octal c && is_octal d && is_octal e then
                    let v := 64 * digit_value c + 8 * digit_value d + digit_value e in
                    if v <=? 255 then Some (Text [N.of_nat v], s3) else None
                  else give (group (10 * digit_value c + digit_value d)) s2
              | [] => give (group (10 * digit_value c + digit_value d)) s2
              end
            else give (group (digit_value c)) s1
        | [] => give (group (digit_value c)) s1
        end
      else
        match escaped c with
        | Some e => Some (Text [e], s1)
        | None => if is_alpha c then None else Some (Text [c_backslash; c], s1)
        end
  end.

(** The template as parts.  The fuel is the length of the template. *)
Fixpoint parts_of (fuel : nat) (s : str) : option (list part) :=
  match s with
  | [] => Some []
  | c :: s' =>
      match fuel with
      | 0 => None
      | S fuel' =>
          if N.eqb c c_backslash then
            match after_backslash s' with
            | Some (p, rest) => match parts_of fuel' rest with Some ps => Some (p :: ps) | None => None end
            | None => None
            end
          else match parts_of fuel' s' with Some ps => Some (Text [c] :: ps) | None => None end
      end
  end.
Definition template (s : str) : option (list part) := parts_of (length s) s.

(** The groups of a match of REFERENCE_REPLACER. *)
Definition group_of (ws : list str) (n : nat) : str :=
  match n with
  | 0 => concat ws
  | 1 => rr_group1 ws
  | 2 => nth 2 ws []
  | _ => nth 3 ws []
  end.
Definition expand (ps : list part) (ws : list str) : str :=
  flat_map (fun p => match p with Text s => s | Group n => group_of ws n end) ps.

(** [fill(passage, xpath=True)] (lines 852-859).  [Ok None]: re refuses the template,
    with re.error or IndexError, whether or not the pattern occurs in the xpath. *)
Definition fill_xpath (rd : option str) (passage : option str) : result (option str) :=
  '(_, xpath) <- parse_xpath_scope rd ;;
  let replacement := match passage with
    | Some p => #"\1\2'" ++ p ++ #"'"
    | None => #"\1"
    end in
  match template replacement with
  | Some ps => Ok (Some (re_sub reference_replacer (expand ps) xpath))
  | None => Ok None
  end.
