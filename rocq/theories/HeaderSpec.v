(** What the header of a difference should count. *)
From Coq Require Import Ascii String Arith ZArith Bool List.
From Verif Require Import PyStr CfgModel DiffSpec.
Import ListNotations.

(** The line is of [w], and [w'] has no line with its ancestry. *)
Definition only_in (w w' : world) (x : nat) : Prop := exists p, ancestry w x p /\ ~ has_line w' p.

(** No two lines have the same ancestry. *)
Definition all_different (w : world) : Prop :=
  forall x y p, In x (w_conf w) -> In y (w_conf w) -> ancestry w x p -> ancestry w y p -> x = y.

(** [n] of the elements have the property. *)
Inductive count_of {A} (P : A -> Prop) : list A -> nat -> Prop :=
| co_nil : count_of P [] 0
| co_yes x xs n : P x -> count_of P xs n -> count_of P (x :: xs) (S n)
| co_no x xs n : ~ P x -> count_of P xs n -> count_of P (x :: xs) n.

(** The first element with the property is number [s], counted from 1; [s] is 0 if there is none. *)
Definition first_at {A} (P : A -> Prop) (xs : list A) (s : nat) : Prop :=
  (s = 0 /\ forall x, In x xs -> ~ P x) \/
  (exists pre x post, xs = pre ++ x :: post /\ P x /\ (forall y, In y pre -> ~ P y) /\ s = S (length pre)).

(** The three lines of the header: the numbers of lines and of the first line of either side. *)
Definition hunk (n s n' s' : nat) : str :=
  lit "@@ -" ++ show_Z (Z.of_nat n) ++ lit "," ++ show_Z (Z.of_nat s) ++ lit " +" ++
  show_Z (Z.of_nat n') ++ lit "," ++ show_Z (Z.of_nat s') ++ lit " @@".
Definition three (now : str) (n s n' s' : nat) : list str :=
  [lit "--- /tmp/before " ++ now; lit "+++ /tmp/after  " ++ now; hunk n s n' s'].
