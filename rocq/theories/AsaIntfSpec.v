(** Specification side of the ASA interface properties. *)
From Coq Require Import Ascii String ZArith Bool List.
From Verif Require Import PyStr PyBase IntfSpec IosSpec.
Import ListNotations.
Local Open Scope char_scope.

(** "ip address A ...", indented; [A] is a dotted quad that ends before the next character. *)
Definition has_addr (t a : str) : Prop := quad a /\ line_of gap (no_more is_digit) [lit "ip"; lit "address"; a] t.
(** "ip address A M ..." *)
Definition has_mask (t m : str) : Prop := quad m /\ exists a, quad a /\ line_of gap (no_more is_digit) [lit "ip"; lit "address"; a; m] t.
(** "ip address A M standby S" and no more; one white character before "standby". *)
Definition has_standby (t s : str) : Prop :=
  word s /\ exists a m b, quad a /\ quad m /\ joined m (lit "standby") b /\ says_below [lit "ip"; lit "address"; a; b; s] t.
(** "name A N ...", not indented; one white character before the name. *)
Definition names (t a n : str) : Prop :=
  quad a /\ word n /\ exists g c e, t = lit "name" ++ g ++ a ++ c :: n ++ e /\ gap g /\ is_space c = true /\ word_ends e.
(** The numbers with slashes between them. *)
Inductive slashed : str -> list Z -> Prop :=
| sl_one d n : numeral d n -> slashed d [n]
| sl_more d n s l : numeral d n -> slashed s l -> slashed (d ++ "/" :: s) (n :: l).
