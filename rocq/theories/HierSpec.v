(** Specification side of the two lists of lines at the left margin. *)
From Coq Require Import Ascii String Arith NArith ZArith Bool List.
From Verif Require Import PyStr PyBase CfgModel TreeSpec BraceSpec.
Import ListNotations.

(** Line i begins with a character that is neither white nor a comment delimiter. *)
Definition at_margin (delims : str) (lines : list str) (i : nat) : Prop :=
  exists c r, nth_error lines i = Some (c :: r) /\ is_space c = false /\ has_char c delims = false.
(** Line i has a child: a line below it in the tree of indents, in the banner it opens, or in the
    macro it opens. *)
Definition has_child_line (o : opts) (lines : list str) (i : nat) : Prop :=
  exists j, j < length lines /\
    ((tree_parent (o_comment o) lines j i /\ j <> i) \/
     (o_syntax o <> Junos /\ in_banner lines i j) \/
     (o_syntax o = Ios /\ in_macro lines i j)).
