(** Specification of the configuration tree, stated on the raw input lines.
    Nothing here refers to the parser model. *)
From Coq Require Import Ascii String Arith NArith ZArith Bool List.
From Verif Require Import PyStr.
Import ListNotations.

(** A line with nothing but whitespace. *)
Definition blank (l : str) : bool := forallb is_space l.

(** Number of leading whitespace characters. *)
Fixpoint leading (l : str) : nat :=
  match l with
  | c :: l' => if is_space c then S (leading l') else 0
  | [] => 0
  end.

(** The indent of a line; blank lines count as not indented. *)
Definition line_indent (l : str) : nat := if blank l then 0 else leading l.

(** The first non-whitespace character is a comment delimiter. *)
Definition comment_line (delims l : str) : bool :=
  match find (fun c => negb (is_space c)) l with
  | Some c => has_char c delims
  | None => false
  end.

(** Neither blank nor a comment. *)
Definition config_line (delims l : str) : bool :=
  negb (blank l) && negb (comment_line delims l).

(** Line [j] is the nearest line before [i] which is a configuration line and
    is indented less than line [i]. *)
Definition nearest_shallower (delims : str) (lines : list str) (i j : nat) : Prop :=
  exists li lj,
    nth_error lines i = Some li /\ nth_error lines j = Some lj /\
    j < i /\ config_line delims lj = true /\ line_indent lj < line_indent li /\
    forall k lk, j < k < i -> nth_error lines k = Some lk ->
      config_line delims lk = true -> line_indent li <= line_indent lk.

(** The documented exception: a comment directly below a deeper line. *)
Definition comment_below_deeper (delims : str) (lines : list str) (i : nat) : Prop :=
  exists li lp, nth_error lines i = Some li /\ nth_error lines (i - 1) = Some lp /\ 0 < i /\
    comment_line delims li = true /\ line_indent li < line_indent lp.

(** [p] is the parent of line [i]; a root is its own parent. *)
Definition tree_parent (delims : str) (lines : list str) (i p : nat) : Prop :=
  (nearest_shallower delims lines i p /\ ~ comment_below_deeper delims lines i) \/
  (p = i /\ i < length lines /\
   ((forall j, ~ nearest_shallower delims lines i j) \/ comment_below_deeper delims lines i)).

(** The last non-whitespace character is an opening brace; the first one is a
    closing brace. *)
Definition opening_line (l : str) : bool :=
  match find (fun c => negb (is_space c)) (rev l) with
  | Some c => Ascii.eqb c "{" | None => false end.
Definition closing_line (l : str) : bool :=
  match find (fun c => negb (is_space c)) l with
  | Some c => Ascii.eqb c "}" | None => false end.

(** Lines without braces at their edges, banners and macros. *)
Definition plain_line (l : str) : bool :=
  negb (opening_line l) && negb (closing_line l)
  && negb (contains (lit "banner") l)
  && negb (contains (lit "aaa authentication fail-message") l)
  && negb (starts_with (lit "macro name ") l).

(** Transitive closure of a parent relation: [x] is a proper ancestor of [y]. *)
Inductive ancestor (par : nat -> nat -> Prop) : nat -> nat -> Prop :=
| anc_parent x y : par y x -> x <> y -> ancestor par x y
| anc_step x y z : par z y -> y <> z -> ancestor par x y -> ancestor par x z.

(** [y] is reached from [x] by one or more steps through [kids]. *)
Inductive descendant (kids : nat -> list nat) : nat -> nat -> Prop :=
| desc_child x y : In y (kids x) -> descendant kids x y
| desc_step x y z : In y (kids x) -> descendant kids y z -> descendant kids x z.

(** The text does not start with a decimal digit (no key collisions). *)
Definition no_digit_start (t : str) : bool :=
  match t with c :: _ => negb (is_digit c) | [] => true end.
