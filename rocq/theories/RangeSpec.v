(** Vocabulary of the range properties. *)
From Coq Require Import Ascii String ZArith List Sorted.
From Verif Require Import PyStr.
Import ListNotations.
Local Open Scope Z_scope.

(** An entry of a range text: a number or an interval. *)
Inductive entry := One (a : Z) | Run (a b : Z).
Definition entry_text (e : entry) : str :=
  match e with One a => show_Z a | Run a b => show_Z a ++ lit "-" ++ show_Z b end.
Definition covers (e : entry) (x : Z) : Prop :=
  match e with One a => x = a | Run a b => a <= x <= b end.
Definition nonneg (e : entry) : Prop :=
  match e with One a => 0 <= a | Run a b => 0 <= a /\ 0 <= b end.
(** The text "e1,e2,..." *)
Definition range_text (es : list entry) : str := join (lit ",") (map entry_text es).

(** [list(set(l))], whatever the order. *)
Definition set_order (f : list Z -> list Z) : Prop :=
  forall l, NoDup (f l) /\ forall x, In x (f l) <-> In x l.

Definition ascending (l : list Z) : Prop := StronglySorted Z.lt l.

(** An entry with spaces around its numbers. *)
Inductive denotes : str -> entry -> Prop :=
| d_one i j a : 0 <= a -> denotes (spaces i ++ show_Z a ++ spaces j) (One a)
| d_run i j k m a b : 0 <= a -> 0 <= b ->
    denotes ((spaces i ++ show_Z a ++ spaces j) ++ lit "-" ++ (spaces k ++ show_Z b ++ spaces m)) (Run a b).

(** a, a+1, ..., b: at least three members in a row that cannot be extended. *)
Definition maximal_run (l : list Z) (a b : Z) : Prop :=
  a + 2 <= b /\ (forall x, a <= x <= b -> In x l) /\ ~ In (a - 1) l /\ ~ In (b + 1) l.

(** Every entry lies entirely before the ones after it. *)
Definition in_order (es : list entry) : Prop :=
  StronglySorted (fun e e' => forall x y, covers e x -> covers e' y -> x < y) es.

(** The members at positions 1, 3, 5, ... *)
Fixpoint every_second (l : list Z) : list Z :=
  match l with
  | _ :: y :: r => y :: every_second r
  | _ => []
  end.
