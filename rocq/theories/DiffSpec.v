(** What a difference of two configurations should say, on the configuration tree. *)
From Coq Require Import Ascii String Arith ZArith Bool List.
From Verif Require Import PyStr CfgModel TreeSpec.
Import ListNotations.

(** The line with its indent as spaces and one space between words. *)
Definition squeezed (t : str) : str := spaces (line_indent t) ++ join [" "%char] (words t).

(** [ancestry w x p]: [p] are the texts of the lines from the root down to [x], up to
    white space.  A comment belongs to no other line. *)
Inductive ancestry (w : world) : nat -> list str -> Prop :=
| an_root x : parent_of w x = x \/ comment_line (o_comment (w_opts w)) (text_of w x) = true ->
    ancestry w x [squeezed (text_of w x)]
| an_child x p : parent_of w x <> x -> comment_line (o_comment (w_opts w)) (text_of w x) = false ->
    ancestry w (parent_of w x) p -> ancestry w x (p ++ [squeezed (text_of w x)]).

(** The configuration has a line with this ancestry. *)
Definition has_line (w : world) (p : list str) : Prop := exists x, In x (w_conf w) /\ ancestry w x p.

Inductive sign := Plus | Minus | Same.
Definition reported (wb wa : world) (s : sign) (p : list str) : Prop :=
  match s with
  | Plus => has_line wa p /\ ~ has_line wb p
  | Minus => has_line wb p /\ ~ has_line wa p
  | Same => has_line wb p /\ has_line wa p
  end.

Definition sign_char (s : sign) : ascii := match s with Plus => "+" | Minus => "-" | Same => " " end.
Definition shown (e : sign * list str) : str := sign_char (fst e) :: last (snd e) [].

(** The first of every group of equal elements. *)
Definition path_eq_dec (p q : list str) : {p = q} + {p <> q} := list_eq_dec (list_eq_dec ascii_dec) p q.
Fixpoint firsts (done ps : list (list str)) : list (list str) :=
  match ps with
  | [] => []
  | p :: ps' => if in_dec path_eq_dec p done then firsts done ps' else p :: firsts (p :: done) ps'
  end.

(** Distinct texts have distinct hash values. *)
Definition no_collision (hash : str -> Z) (ts : list str) : Prop :=
  forall s t, In s ts -> In t ts -> hash s = hash t -> s = t.

(** No hash value, written in decimal, contains that of another text; values of one
    width that do not collide are such. *)
Definition no_overlap (hash : str -> Z) (ts : list str) : Prop :=
  forall s t, In s ts -> In t ts -> contains (show_Z (hash s)) (show_Z (hash t)) = true -> s = t.
