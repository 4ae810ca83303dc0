(** Python runtime notions shared by the models: exceptions as values, list
    update, element deletion by index, stable sorting. *)
From Coq Require Import Arith ZArith Bool List.
Import ListNotations.

(** Exceptions that the modelled code can raise. *)
Inductive pyerr :=
| ValueError | IndexError | AttributeErr | AssertionErr | TypeErr | KeyErr
| UnboundLocal | InvalidParameters | RequirementFailure | ReErr
| InvalidMember | InvalidCiscoRange | DuplicateMember | MismatchedType
| AddressErr | OutOfFuel | NotImplementedErr | OverflowErr
| InvalidInterface | NoRegexMatch | UnexpectedType.

Inductive result (A : Type) :=
| Ok (a : A)
| Err (e : pyerr).
Arguments Ok {A} a.
Arguments Err {A} e.

Definition bind {A B} (r : result A) (f : A -> result B) : result B :=
  match r with Ok a => f a | Err e => Err e end.
Notation "'do' x <- r ; b" := (bind r (fun x => b))
  (at level 200, x name, r at level 100, b at level 200).

Definition rmap {A B} (f : A -> B) (r : result A) : result B :=
  match r with Ok a => Ok (f a) | Err e => Err e end.

(** In-place modification of the element at index [i]. *)
Fixpoint upd {A} (l : list A) (i : nat) (f : A -> A) : list A :=
  match l, i with
  | [], _ => []
  | x :: l', 0 => f x :: l'
  | x :: l', S i' => x :: upd l' i' f
  end.

(** [del l[i]] for a non-negative index inside the list. *)
Fixpoint del_nth {A} (i : nat) (l : list A) : list A :=
  match l, i with
  | [], _ => []
  | _ :: l', 0 => l'
  | x :: l', S i' => x :: del_nth i' l'
  end.

(** [l.insert(i, x)] for [0 <= i]: past-the-end indices append. *)
Fixpoint insert_at {A} (i : nat) (x : A) (l : list A) : list A :=
  match i, l with
  | 0, _ => x :: l
  | S i', [] => [x]
  | S i', y :: l' => y :: insert_at i' x l'
  end.

(** Resolution of a Python index (negative counts from the end);
    [None] is IndexError. *)
Definition py_index (n : nat) (z : Z) : option nat :=
  (if (0 <=? z) && (z <? Z.of_nat n) then Some (Z.to_nat z)
   else if (z <? 0) && (- Z.of_nat n <=? z) then Some (Z.to_nat (Z.of_nat n + z))
   else None)%Z.

(** [del l[z]] *)
Definition py_del {A} (z : Z) (l : list A) : result (list A) :=
  match py_index (length l) z with
  | Some i => Ok (del_nth i l)
  | None => Err IndexError
  end.

(** [sorted(l, key)] with an integer key: stable insertion sort. *)
Section Sort.
  Context {A : Type} (key : A -> Z).
  Fixpoint insert_sorted (x : A) (l : list A) : list A :=
    match l with
    | [] => [x]
    | y :: l' => if (key x <=? key y)%Z then x :: l else y :: insert_sorted x l'
    end.
  Fixpoint sort_by (l : list A) : list A :=
    match l with
    | [] => []
    | x :: l' => insert_sorted x (sort_by l')
    end.
End Sort.
