(** Model of a program that works on several CiscoRange objects with integer members
    (ccp_util.py:5131-5460).

    The state gives each object its [_list]; objects are numbered.  [a + b] and [a - b] change and
    return [a].  A step gives the new state and what the caller sees. *)
From Coq Require Import Ascii String Arith NArith ZArith Bool List.
From Verif Require Import PyStr PyBase RangeModel.
Import ListNotations.
Local Open Scope Z_scope.

Definition ranges := nat -> list Z.
Definition put (st : ranges) (r : nat) (l : list Z) : ranges := fun q => if Nat.eqb q r then l else st q.

(** What the program can do; [Insert], [AsSet] and [Hash] are [insert], [as_set()] and [hash()]. *)
Inductive op :=
| Append (r : nat) (v : Z) | Remove (r : nat) (v : Z) (ignore_errors : bool)
| AddTo (r s : nat) | SubFrom (r s : nat)
| Get (r : nat) (i : Z) | Del (r : nat) (i : Z) | SetItem (r : nat) (i v : Z)
| Len (r : nat) | Eq (r s : nat) | Has (r : nat) (v : Z) | Iter (r : nat)
| Insert (r : nat) (i v : Z) | AsSet (r : nat) | Hash (r : nat).
Inductive value := VRange (r : nat) | VInt (z : Z) | VBool (b : bool) | VList (l : list Z) | VNone.

(** A new list or an exception that leaves the list *)
Definition change (st : ranges) (r : nat) (x : result (list Z)) (v : value) : ranges * result value :=
  match x with Ok l => (put st r l, Ok v) | Err e => (st, Err e) end.
(** [self._list[ii]] after the test of 5183-5187 *)
Definition item (l : list Z) (i : Z) : result Z :=
  if i >? Z.of_nat (length l) - 1 then Err IndexError
  else match py_index (length l) i with Some k => Ok (nth k l 0) | None => Err IndexError end.

Section Hashing.
(** 5131-5136: [hash(str(l)) * hash(int)]; Python randomises the first in each process *)
Variable hash_of : list Z -> Z.

Definition step (st : ranges) (o : op) : ranges * result value :=
  match o with
  | Append r v => change st r (range_append (st r) v) (VRange r)                  (* 5278-5315 *)
  | Remove r v ign => change st r (range_remove (st r) v ign) (VRange r)          (* 5325-5388 *)
  | AddTo r s => (put st r (range_add (st r) (st s)), Ok (VRange r))              (* 5206-5214 *)
  | SubFrom r s =>                                                                (* 5216-5228 *)
      (put st r (if Nat.eqb r s then range_sub_self (st r) else range_sub (st r) (st s)), Ok (VRange r))
  | Get r i => (st, do v <- item (st r) i; Ok (VInt v))                           (* 5179-5187 *)
  | Del r i =>                                                                    (* 5189-5196 *)
      if i >? Z.of_nat (length (st r)) - 1 then (st, Err IndexError) else change st r (py_del i (st r)) VNone
  | SetItem r i v => (st, do _ <- item (st r) i; Ok VNone)                        (* 5198-5204 *)
  | Len r => (st, Ok (VInt (Z.of_nat (length (st r)))))                           (* 5167-5170 *)
  | Eq r s => (st, Ok (VBool (if list_eq_dec Z.eq_dec (st r) (st s) then true else false)))  (* 5138-5144 *)
  | Has r v => (st, Ok (VBool (zmem v (st r))))                                   (* [in], by 5172-5176 *)
  | Iter r => (st, Ok (VList (st r)))                                             (* 5172-5176 *)
  | Insert r i v => (st, Err NotImplementedErr)                                   (* 5317-5321 *)
  | AsSet r =>                                                                    (* 5431-5441: [self.as_list[0]] *)
      (st, match st r with [] => Ok (VList []) | _ => Err TypeErr end)
  | Hash r => (st, match st r with [] => Err TypeErr | l => Ok (VInt (hash_of l)) end)       (* 5131-5136 *)
  end.
Fixpoint run (st : ranges) (os : list op) : ranges * list (result value) :=
  match os with
  | [] => (st, [])
  | o :: r => let (st1, x) := step st o in let (st2, xs) := run st1 r in (st2, x :: xs)
  end.
End Hashing.
