(** Specification vocabulary for modifications. *)
From Coq Require Import Ascii String Arith NArith ZArith Bool List.
From Verif Require Import PyStr PyBase CfgModel TreeSpec.
Import ListNotations.

(** The line at position [i] has line number [i]. *)
Definition numbered (w : world) : Prop :=
  forall i x, nth_error (w_conf w) i = Some x -> exists l, obj w x = Some l /\ cl_linenum l = Z.of_nat i.

(** No line of the configuration starts with a digit. *)
Definition no_digit_lines (w : world) : Prop :=
  forall x, In x (w_conf w) -> no_digit_start (text_of w x) = true.

(** Children were created after their parent. *)
Definition children_later (w : world) : Prop :=
  forall x c, In x (w_conf w) -> In c (children_of w x) -> x < c < length (w_heap w).

(** A state in which a line may be deleted. *)
Definition editable (w : world) : Prop := numbered w /\ no_digit_lines w /\ children_later w.

(** [y] is [x] or a descendant of [x]. *)
Definition in_family (w : world) (x y : nat) : Prop := y = x \/ descendant (children_of w) x y.

(** The objects agree in everything but the line number. *)
Definition same_line (l l' : cfgline) : Prop :=
  cl_text l' = cl_text l /\ cl_indent l' = cl_indent l /\ cl_comment l' = cl_comment l /\
  cl_parent l' = cl_parent l /\ cl_children l' = cl_children l /\ cl_child_indent l' = cl_child_indent l /\
  cl_keep l' = cl_keep l /\ cl_owned l' = cl_owned l.

(** Every object of [w] still exists in [w'], with at most another line number. *)
Definition objects_kept (w w' : world) : Prop :=
  w_opts w' = w_opts w /\
  forall x l, obj w x = Some l -> exists l', obj w' x = Some l' /\ same_line l l'.

(** The list without the elements satisfying [P], in the same order. *)
Inductive without {A} (P : A -> Prop) : list A -> list A -> Prop :=
| wo_nil : without P [] []
| wo_drop x l l' : P x -> without P l l' -> without P (x :: l) l'
| wo_keep x l l' : ~ P x -> without P l l' -> without P (x :: l) (x :: l').

(** Every element satisfying [P] gets [v] inserted before (after) it. *)
Inductive inserted_before {A} (P : A -> Prop) (v : list A) : list A -> list A -> Prop :=
| ib_nil : inserted_before P v [] []
| ib_hit x l l' : P x -> inserted_before P v l l' -> inserted_before P v (x :: l) (v ++ x :: l')
| ib_miss x l l' : ~ P x -> inserted_before P v l l' -> inserted_before P v (x :: l) (x :: l').
Inductive inserted_after {A} (P : A -> Prop) (v : list A) : list A -> list A -> Prop :=
| ia_nil : inserted_after P v [] []
| ia_hit x l l' : P x -> inserted_after P v l l' -> inserted_after P v (x :: l) (x :: v ++ l')
| ia_miss x l l' : ~ P x -> inserted_after P v l l' -> inserted_after P v (x :: l) (x :: l').

(** [n] steps of [R] lead from [a] to [b]. *)
Inductive steps {A} (R : A -> A -> Prop) : nat -> A -> A -> Prop :=
| st_0 a : steps R 0 a a
| st_S n a b c : R a b -> steps R n b c -> steps R (S n) a c.
