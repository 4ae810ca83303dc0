(** The patterns that find banners, as they are written in ciscoconfparse.py. *)
From Coq Require Import Ascii String Arith NArith ZArith Bool List.
From Verif Require Import PyStr PyBase SearchModel PyRe.
Import ListNotations.
Local Open Scope char_scope.

(** ciscoconfparse.py:5837-5844: a set, so the order is any *)
Definition banner_words : list string := ["login"; "motd"; "incoming"; "exec"; "telnet"; "lcd"]%string.
(** 5845-5849, the words in the order [l] *)
Definition banner_pattern (l : list string) : str :=
  join (lit "|") (map (fun w => lit "^(set\s+)*banner\s+" ++ lit w) l ++ [lit "aaa authentication fail-message"]).
Definition banner_found (l : list string) (t : str) : bool :=
  match rx_find (pattern false (banner_pattern l)) t with Some _ => true | None => false end.
(** 5561, 5567-5575: the delimiter *)
Definition delim_pattern : string := "^(?:(?P<btype>(?:set\s+)*banner\s\w+\s+)(?P<bchar>\S))".
Definition delim_found (t : str) : option str :=
  match rx_find (pattern false (lit delim_pattern)) t with
  | Some m => named (lit delim_pattern) (lit "bchar") m
  | None => None
  end.
