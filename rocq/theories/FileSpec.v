(** The lines of a text file. *)
From Coq Require Import Ascii String List.
From Verif Require Import PyStr.
Import ListNotations.
Local Open Scope char_scope.

(** No line feed (010) and no carriage return (013). *)
Definition one_line (l : str) : Prop := ~ In "010" l /\ ~ In "013" l.

(** The end of a line in Unix, Windows and old Macintosh files. *)
Definition line_end (t : str) : Prop := t = ["010"] \/ t = ["013"; "010"] \/ t = ["013"].

(** [lines_of text ls]: the text consists of the lines [ls], each but the last
    followed by a line end. *)
Inductive lines_of : str -> list str -> Prop :=
| lo_last l : one_line l -> lines_of l [l]
| lo_line l t s ls : one_line l -> line_end t -> (t = ["013"] -> hd_error s <> Some "010") ->
    lines_of s ls -> lines_of (l ++ t ++ s) (l :: ls).
