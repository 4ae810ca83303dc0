(** Specification of brace matching, banners and macros on raw lines.  The two
    fixed banner patterns are the ones of the source, as matchers on text. *)
From Coq Require Import Ascii String Arith NArith ZArith Bool List.
From Verif Require Import PyStr PyBase CfgModel TreeSpec.
Import ListNotations.

Definition brace_step (l : str) : Z :=
  (if opening_line l then 1 else if closing_line l then -1 else 0)%Z.

(** Number of blocks open after the first [k] lines. *)
Fixpoint depth (lines : list str) (k : nat) : Z :=
  match k, lines with
  | S k', l :: ls => (brace_step l + depth ls k')%Z
  | _, _ => 0%Z
  end.

Definition braces_ok (lines : list str) : Prop := forall k, (0 <= depth lines k)%Z.

Definition closer (lines : list str) (i : nat) : Prop :=
  exists l, nth_error lines i = Some l /\ opening_line l = false /\ closing_line l = true.

(** The block opened at [p] is closed at [i]: the depth before [i] is the depth
    after [p] and never falls below it in between. *)
Definition closes_block (lines : list str) (p i : nat) : Prop :=
  p < i /\ (exists l, nth_error lines p = Some l /\ opening_line l = true) /\ closer lines i /\
  depth lines (S p) = depth lines i /\
  forall k, p < k <= i -> (depth lines (S p) <= depth lines k)%Z.

(** Line [p] starts a banner with delimiter [d] which is still open at line [j]. *)
Definition banner_open (lines : list str) (p j : nat) (d : ascii) : Prop :=
  p < j /\
  (exists l, nth_error lines p = Some l /\ is_banner_line (rstrip l) = true /\
     banner_delim (rstrip l) = Some d /\ count_occ ascii_dec (rstrip l) d <= 1) /\
  forall k lk, p < k < j -> nth_error lines k = Some lk -> has_char d lk = false.

Definition in_banner (lines : list str) (p j : nat) : Prop := exists d, banner_open lines p j d.

(** Line [p] starts a macro which is still open at line [j]. *)
Definition in_macro (lines : list str) (p j : nat) : Prop :=
  p < j /\
  (exists l, nth_error lines p = Some l /\ starts_with (lit "macro name ") l = true) /\
  forall k lk, p < k < j -> nth_error lines k = Some lk -> rstrip lk <> lit "@".

Definition macros_ok (lines : list str) : Prop :=
  forall p l, nth_error lines p = Some l -> starts_with (lit "macro name ") l = true ->
    exists j lj, p < j /\ nth_error lines j = Some lj /\ rstrip lj = lit "@".

(** The last [p] with [R p j]. *)
Definition last_cover (R : nat -> nat -> Prop) (j p : nat) : Prop :=
  R p j /\ forall q, p < q -> ~ R q j.
Definition no_cover (R : nat -> nat -> Prop) (j : nat) : Prop := forall q, ~ R q j.

(** Parent of line [j] in any configuration: the innermost open macro (IOS
    only), otherwise the latest open banner (not for brace syntax), otherwise
    the matching opening line of a closing brace, otherwise indentation. *)
Definition full_parent (o : opts) (lines : list str) (j p : nat) : Prop :=
  let M := fun q j => o_syntax o = Ios /\ in_macro lines q j in
  let B := fun q j => o_syntax o <> Junos /\ in_banner lines q j in
  last_cover M j p \/
  no_cover M j /\
  (last_cover B j p \/
   no_cover B j /\
   (closes_block lines p j \/ ~ closer lines j /\ tree_parent (o_comment o) lines j p)).

(** Line [j] is in the configuration after parsing. *)
Definition line_kept (o : opts) (lines : list str) (j : nat) : Prop :=
  exists l, nth_error lines j = Some l /\
    (o_ignore_blank o = false \/ blank l = false \/
     (o_syntax o <> Junos /\ exists p, in_banner lines p j) \/
     (o_syntax o = Ios /\ exists p, in_macro lines p j)).
