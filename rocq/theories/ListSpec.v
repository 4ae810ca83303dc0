(** Specification side of the list operations of a configuration. *)
From Coq Require Import Ascii String ZArith Bool List.
From Verif Require Import PyStr PyBase CfgModel.
Import ListNotations.

(** [b] begins with [a]. *)
Definition starts_with {T} (a b : list T) : Prop := exists r, b = a ++ r.
(** [b] begins with [a] and goes on. *)
Definition goes_on {T} (a b : list T) : Prop := exists x r, b = a ++ x :: r.
(** [l] with its first element of that kind taken out. *)
Definition without_first {T} (P : T -> Prop) (l l' : list T) : Prop :=
  exists pre x post, l = pre ++ x :: post /\ (forall y, In y pre -> ~ P y) /\ P x /\ l' = pre ++ post.
(** Two lines are equal objects: number and text written one after the other are the same. *)
Definition equal_objects (w : world) (x y : nat) : Prop :=
  show_Z (linenum_of w x) ++ text_of w x = show_Z (linenum_of w y) ++ text_of w y.
