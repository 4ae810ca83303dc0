(** Model of the conversion of brace-delimited configurations
    (ciscoconfparse.py:287-414 parse_line_braces, 554-598 convert_junos_to_ios,
    794-821 handle_ccp_brace_syntax). *)
From Coq Require Import Ascii String Arith NArith ZArith Bool List.
From Verif Require Import PyStr PyBase CfgModel.
Import ListNotations.
Local Open Scope char_scope.
Local Open Scope Z_scope.

Definition newline : ascii := "010".
Definition is_brace (c : ascii) : bool := Ascii.eqb c "{" || Ascii.eqb c "}".
Definition trim_end (f : ascii -> bool) (s : str) : str := rev (drop_while f (rev s)).

(** 316-320 on stripped text: one or more delimiters, then no more of them up to the
    end.  The delimiter is one character; stripped text has no leading white space. *)
Definition comment_match (d : ascii) (s : str) : bool :=
  starts_with [d] s && negb (has_char d (drop_while (Ascii.eqb d) s)).

(** [re.sub(r"\s*\{\s*\}\s*", "", s)] (363): the length of a match at the start of [s].
    The classes are disjoint, so the greedy match does not backtrack. *)
Definition empty_braces (s : str) : option nat :=
  match lstrip s with
  | c :: r =>
      if Ascii.eqb c "{" then
        match lstrip r with
        | c' :: r' => if Ascii.eqb c' "}" then Some (length s - length (lstrip r'))%nat else None
        | [] => None
        end
      else None
  | [] => None
  end.
(** [skip] characters belong to the current match. *)
Fixpoint drop_empty_braces (skip : nat) (s : str) : str :=
  match s with
  | [] => []
  | c :: r =>
      match skip with
      | S k => drop_empty_braces k r
      | O => match empty_braces s with
             | Some n => drop_empty_braces (n - 1) r
             | None => c :: drop_empty_braces 0 r
             end
      end
  end.

(** 306-313, 332-406: the pattern on stripped text [s].  The first alternative matches
    exactly the text without newlines: all leading closing braces, then the shortest
    text that is followed by opening braces and semicolons only.  With a newline, the
    second one needs text without braces, then a brace block up to the end on one
    line; and when only the third one matches an error is raised (400-402). *)
Definition brace_match (s : str) : result (Z * Z * str) :=
  if has_char newline s then
    let x := take_while (fun c => negb (is_brace c)) s in
    match drop_while (fun c => negb (is_brace c)) s with
    | o :: y =>
        match rev (trim_end (Ascii.eqb ";") y) with
        | e :: c =>
            if Ascii.eqb o "{" && Ascii.eqb e "}" && negb (has_char newline c) then
              let cond := rev c in
              Ok (0, 0, match strip cond with [] => x | _ => x ++ lit " {" ++ cond ++ lit " }" end)
            else Err ValueError
        | [] => Err ValueError
        end
    | [] => Err ValueError
    end
  else
    let rest := drop_while (Ascii.eqb "}") s in
    let u := trim_end (Ascii.eqb ";") rest in
    let line1 := trim_end (Ascii.eqb "{") u in
    let closed := negb (length rest =? length s)%nat in
    let opened := negb (length line1 =? length u)%nat in
    match closed, opened with
    | true, true => Ok (-1, 0, line1)
    | false, false => Ok (0, 0, match line1 with [] => [] | _ => drop_empty_braces 0 (strip line1) end)
    | true, false => Ok (-1, -1, [])
    | false, true => Ok (0, 1, line1)
    end.

(** 287-414 *)
Definition parse_line_braces (delim line : str) : result (Z * Z * str) :=
  match delim with
  | [] => Err ReErr
  | [d] => if comment_match d (strip line) then Ok (0, 0, strip line) else brace_match (strip line)
  | _ => Err ValueError
  end.

(** [" " * width * n]: no space when one of them is negative *)
Definition pad (width n : Z) : str := spaces (Z.to_nat width * Z.to_nat n).

(** 585-596 *)
Fixpoint convert_loop (width : Z) (delim : str) (offset : Z) (lines : list str) : result (list str) :=
  match lines with
  | [] => Ok []
  | l :: ls =>
      do r <- parse_line_braces delim l;
      let '(this, child, text) := r in
      do rest <- convert_loop width delim (offset + child) ls;
      Ok ((pad width (offset + this) ++ strip text) :: rest)
  end.

(** 554-598 *)
Definition convert_junos_to_ios (width : Z) (delim : str) (lines : list str) : result (list str) :=
  match lines with
  | [] => Err ValueError
  | _ => if has_char "{" delim || has_char "}" delim then Err ValueError
         else convert_loop width delim 0 lines
  end.

(** 728-790 with [syntax="junos"] and the configuration given as a list: 811 *)
Definition parse_junos (o : opts) (lines : list str) : result world :=
  do ls <- convert_junos_to_ios 4 (lit "#") (input_lines o lines);
  reboot (mkW o [] []) ls.
