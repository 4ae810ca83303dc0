(** What a range of distinct integers should do, step by step. *)
From Coq Require Import Ascii String ZArith Bool List Sorted.
From Verif Require Import PyStr PyBase RangeModel RangeSpec RangeHistModel.
Import ListNotations.
Local Open Scope Z_scope.

(** [index l i a v b]: the member that index [i] means is [v], [a] are the members before it and
    [b] those after it.  A negative index counts from the end. *)
Definition index (l : list Z) (i : Z) (a : list Z) (v : Z) (b : list Z) : Prop :=
  l = a ++ v :: b /\ (i = Z.of_nat (length a) \/ i = - Z.of_nat (S (length b))).

(** Only object [r] may have changed. *)
Definition others (st st' : ranges) (r : nat) : Prop := forall q, q <> r -> st' q = st q.
Definition unchanged (st st' : ranges) : Prop := forall q, st' q = st q.

(** [does st o x st']: the operation [o] may show [x] and lead from [st] to [st']. *)
Definition does (st : ranges) (o : op) (x : result value) (st' : ranges) : Prop :=
  match o with
  | Append r v =>
      if in_dec Z.eq_dec v (st r) then x = Err DuplicateMember /\ unchanged st st'
      else x = Ok (VRange r) /\ others st st' r /\ ascending (st' r) /\ forall y, In y (st' r) <-> In y (st r) \/ y = v
  | Remove r v ign =>
      if in_dec Z.eq_dec v (st r) then x = Ok (VRange r) /\ others st st' r /\ exists a b, st r = a ++ v :: b /\ st' r = a ++ b
      else (if ign then x = Ok (VRange r) else exists e, x = Err e) /\ unchanged st st'
  | AddTo r s => x = Ok (VRange r) /\ others st st' r /\ ascending (st' r) /\ forall y, In y (st' r) <-> In y (st r) \/ In y (st s)
  | SubFrom r s => x = Ok (VRange r) /\ others st st' r /\ st' r = filter (fun y => if in_dec Z.eq_dec y (st s) then false else true) (st r)
  | Get r i =>
      unchanged st st' /\ ((exists a v b, index (st r) i a v b /\ x = Ok (VInt v)) \/ ((forall a v b, ~ index (st r) i a v b) /\ x = Err IndexError))
  | Del r i =>
      (exists a v b, index (st r) i a v b /\ x = Ok VNone /\ others st st' r /\ st' r = a ++ b) \/
      ((forall a v b, ~ index (st r) i a v b) /\ x = Err IndexError /\ unchanged st st')
  | SetItem r i v =>
      (exists a w b, index (st r) i a w b /\ x = Ok VNone /\ others st st' r /\ st' r = a ++ v :: b) \/
      ((forall a w b, ~ index (st r) i a w b) /\ x = Err IndexError /\ unchanged st st')
  | Len r => unchanged st st' /\ x = Ok (VInt (Z.of_nat (length (st r))))
  | Eq r s => unchanged st st' /\ exists b, x = Ok (VBool b) /\ (b = true <-> st r = st s)
  | Has r v => unchanged st st' /\ exists b, x = Ok (VBool b) /\ (b = true <-> In v (st r))
  | Iter r => unchanged st st' /\ x = Ok (VList (st r))
  | Insert r i v => exists a w b, index (st r) i a w b /\ x = Ok VNone /\ others st st' r /\ st' r = a ++ v :: w :: b
  | AsSet r => unchanged st st' /\ exists l, x = Ok (VList l) /\ forall y, In y l <-> In y (st r)
  | Hash r => unchanged st st' /\ exists z, x = Ok (VInt z)
  end.
(** A history of operations, each with what it showed. *)
Inductive history : ranges -> list op -> list (result value) -> ranges -> Prop :=
| h_nil st st' : unchanged st st' -> history st [] [] st'
| h_cons st o os x xs st1 st2 : does st o x st1 -> history st1 os xs st2 -> history st (o :: os) (x :: xs) st2.

(** The operations that behave so, each on any state. *)
Definition sound (o : op) : Prop :=
  match o with
  | SubFrom r s => r <> s
  | SetItem _ _ _ | Insert _ _ _ | AsSet _ | Hash _ => False
  | _ => True
  end.
