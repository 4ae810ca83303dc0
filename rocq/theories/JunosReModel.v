(** parse_line_braces with its regular expressions as they are written in
    ciscoconfparse.py. *)
From Coq Require Import Ascii String Arith NArith ZArith Bool List.
From Verif Require Import PyStr PyBase CfgModel SearchModel PyRe.
Import ListNotations.
Local Open Scope char_scope.
Local Open Scope Z_scope.

(** [re.escape] of one character (CPython's library) *)
Definition re_escape (c : ascii) : str :=
  if has_char c (lit "()[]{}?*+-|^$\.&~# " ++ ["009"; "010"; "011"; "012"; "013"]) then ["\"; c] else [c].
(** [re.sub(r, "", s)] for an expression that does not match the empty text: [skip]
    characters belong to the current match *)
Fixpoint erase (r : re) (skip i : nat) (s : str) : str :=
  match s with
  | [] => []
  | c :: s' =>
      match skip with
      | S k => erase r k (S i) s'
      | O => match match_at r i s with
             | Some (_ :: m, _) => erase r (length m) (S i) s'
             | _ => c :: erase r 0 (S i) s'
             end
      end
  end.
Definition re_erase (p : string) (s : str) : str :=
  match compile false (lit p) with Some (r, _) => erase r 0 0 s | None => s end.

(** ciscoconfparse.py:304-311 *)
Definition brace_text : string := "^
    (?:\s*
        (?P<braces_close_left>\})*(?P<line1>.*?)(?P<braces_open_right>\{)*;*
        |(?P<line2>[^\{\}]*?)(?P<braces_open_left>\{)(?P<condition2>.*?)(?P<braces_close_right>\});*\s*
        |(?P<line3>[^\{\}]*?);*\s*
    )\s*$
    ".
(** 312, [re.VERBOSE] *)
Definition brace_pattern : str := unverbose false false (lit brace_text).
(** 313-317 *)
Definition comment_pattern (d : ascii) : str :=
  lit "^\s*(?P<delimiter>[" ++ re_escape d ++ lit "]+)(?P<comment>[^" ++ re_escape d ++ lit "]*)$".

(** [bool(results.get(name, ""))] *)
Definition truthy (x : option str) : bool := match x with Some (_ :: _) => true | _ => false end.
(** [results.get(name, None) or ""] *)
Definition or_empty (x : option str) : str := match x with Some s => s | None => [] end.

(** 332-406; [get] is [results.get]: the name of every group is a key *)
Definition brace_branches (get : string -> option str) : result (Z * Z * option str) :=
  let close_left := truthy (get "braces_close_left"%string) in
  let open_right := truthy (get "braces_open_right"%string) in
  let open_left := truthy (get "braces_open_left"%string) in
  let close_right := truthy (get "braces_close_right"%string) in
  let line1 := get "line1"%string in
  let line2 := get "line2"%string in
  if close_left && open_right then Ok (-1, 0, line1)
  else if truthy line1 && negb close_left && negb open_right then
    Ok (0, 0, Some (re_erase "\s*\{\s*\}\s*" (strip (or_empty line1))))
  else if match line1 with Some [] => true | _ => false end && negb close_left && negb open_right then Ok (0, 0, Some [])
  else if open_left && close_right then
    let cond := or_empty (get "condition2"%string) in
    Ok (0, 0, Some (match strip cond with [] => or_empty line2 | _ => or_empty line2 ++ lit " {" ++ cond ++ lit " }" end))
  else if close_left then Ok (-1, -1, Some [])
  else if open_right then Ok (0, 1, Some (or_empty line1))
  else if truthy line2 then Ok (0, 0, Some [])
  else Err ValueError.

(** 287-414.  The class "[]+" of an empty delimiter does not compile. *)
Definition parse_line_re (delim line : str) : result (Z * Z * option str) :=
  match delim with
  | [] => Err ReErr
  | [d] =>
      let s := strip line in
      match rx_find (pattern false (comment_pattern d)) s with
      | Some m =>
          let get nm := or_empty (named (comment_pattern d) (lit nm) m) in
          Ok (0, 0, Some (get "delimiter"%string ++ get "comment"%string))
      | None =>
          match rx_find (pattern false brace_pattern) s with
          | Some m => brace_branches (fun nm => named brace_pattern (lit nm) m)
          | None => Err ValueError
          end
      end
  | _ => Err ValueError
  end.
