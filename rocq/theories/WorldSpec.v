(** Small specification vocabulary on configurations held in memory. *)
From Coq Require Import Ascii String Arith NArith ZArith Bool List.
From Verif Require Import PyStr PyBase CfgModel TreeSpec BraceSpec.
Import ListNotations.

(** The two configurations have the same lines in the same order, and the line
    objects have the same text, indent, comment flag, parent and set of
    children; [f] takes an object of the first to its counterpart. *)
Definition same_tree (w w' : world) : Prop :=
  exists f : nat -> nat,
    w_conf w' = map f (w_conf w) /\ NoDup (w_conf w') /\
    forall x, In x (w_conf w) -> exists l l',
      obj w x = Some l /\ obj w' (f x) = Some l' /\
      cl_text l' = cl_text l /\ cl_indent l' = cl_indent l /\ cl_comment l' = cl_comment l /\
      cl_parent l' = f (cl_parent l) /\ In (cl_parent l) (w_conf w) /\
      (forall c, In c (cl_children l) -> In c (w_conf w)) /\
      (forall c, In c (cl_children l') <-> exists c0, In c0 (cl_children l) /\ c = f c0).

(** Stronger: also the same line numbers and the same order of children. *)
Definition same_objects (w w' : world) : Prop :=
  exists f : nat -> nat,
    w_conf w' = map f (w_conf w) /\ NoDup (w_conf w') /\
    forall x, In x (w_conf w) -> exists l l',
      obj w x = Some l /\ obj w' (f x) = Some l' /\
      cl_text l' = cl_text l /\ cl_indent l' = cl_indent l /\ cl_comment l' = cl_comment l /\
      cl_linenum l' = cl_linenum l /\
      cl_parent l' = f (cl_parent l) /\ cl_children l' = map f (cl_children l).

(** The line is left out of the configuration when [lines] are parsed. *)
Definition line_dropped (o : opts) (lines : list str) (j : nat) : Prop :=
  j < length lines /\ ~ line_kept o lines j.

(** No comment directly follows a line that is left out. *)
Definition no_comment_after_dropped (o : opts) (lines : list str) : Prop :=
  forall i l, nth_error lines (S i) = Some l -> comment_line (o_comment o) l = true ->
    line_kept o lines i.

(** No line consists of just the words "macro name". *)
Definition no_bare_macro (o : opts) (lines : list str) : Prop :=
  o_syntax o = Ios -> forall l, In l lines -> rstrip l <> lit "macro name".

(** [w] holds the result of parsing [lines]: line [i] is object [b + i].  This is
    the state after CiscoConfParse(lines) and after every commit(). *)
Definition loaded (w : world) (b : nat) (lines : list str) : Prop :=
  exists w0, length (w_heap w0) = b /\ w_opts w0 = w_opts w /\ reboot w0 lines = Ok w.

(** [l] is the chain of lines from a root down to [x], each the parent of the
    next. *)
Inductive root_path (w : world) : list nat -> nat -> Prop :=
| rp_root x : parent_of w x = x -> root_path w [x] x
| rp_step l x : parent_of w x <> x -> root_path w l (parent_of w x) -> root_path w (l ++ [x]) x.
