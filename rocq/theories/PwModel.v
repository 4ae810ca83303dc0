(** Model of CiscoPassword.decrypt (ciscoconfparse.py:5998-6086). *)
From Coq Require Import Ascii String Arith NArith ZArith Bool List.
From Verif Require Import PyStr PyBase.
Import ListNotations.
Local Open Scope char_scope.

(** ciscoconfparse.py:6009-6063 *)
Definition xlat : list Z :=
  [0x64; 0x73; 0x66; 0x64; 0x3B; 0x6B; 0x66; 0x6F; 0x41; 0x2C; 0x2E; 0x69; 0x79; 0x65; 0x77; 0x72;
   0x6B; 0x6C; 0x64; 0x4A; 0x4B; 0x44; 0x48; 0x53; 0x55; 0x42; 0x73; 0x67; 0x76; 0x63; 0x61; 0x36;
   0x39; 0x38; 0x33; 0x34; 0x6E; 0x63; 0x78; 0x76; 0x39; 0x38; 0x37; 0x33; 0x32; 0x35; 0x34; 0x6B;
   0x3B; 0x66; 0x67; 0x38; 0x37]%Z.

(** A hexadecimal digit of [int(_, 16)]. *)
Definition hex_val (c : ascii) : option Z :=
  let n := code c in
  if ((48 <=? n) && (n <=? 57))%N then Some (Z.of_N (n - 48))
  else if ((97 <=? n) && (n <=? 102))%N then Some (Z.of_N (n - 87))
  else if ((65 <=? n) && (n <=? 70))%N then Some (Z.of_N (n - 55))
  else None.

(** [int(a + b, 16)] for two characters (checked against CPython for all pairs
    of Latin-1 characters). *)
Definition int16 (a b : ascii) : option Z :=
  match hex_val a, hex_val b with
  | Some x, Some y => Some (16 * x + y)%Z
  | None, Some y =>
      if Ascii.eqb a "+" || int_space a then Some y
      else if Ascii.eqb a "-" then Some (- y)%Z else None
  | Some x, None => if int_space b then Some x else None
  | None, None => None
  end.

(** The longest prefix without newline: what [.+] matches. *)
Fixpoint to_newline (s : str) : str :=
  match s with
  | c :: s' => if Ascii.eqb c "010" then [] else c :: to_newline s'
  | [] => []
  end.

(** 6077-6083 the loop, [s] is the running index into the key.  An odd rest only
    occurs when a newline cuts the text: the search returns None. *)
Fixpoint decrypt_loop (s : Z) (e : str) : result str :=
  match e with
  | [] => Ok []
  | [_] => Err AttributeErr
  | a :: b :: e' =>
      match int16 a b with
      | None => Err ValueError
      | Some magic =>
          let v := Z.lxor magic (nth (Z.to_nat (s mod 53)) xlat 0)%Z in
          if (v <? 0)%Z then Err OverflowErr
          else do dp <- decrypt_loop (s + 1) e'; Ok (ascii_of_N (Z.to_N v) :: dp)
      end
  end.

(** 6004-6086; [ep] is the argument or, when that is empty, the one given to the
    constructor. *)
Definition decrypt (ep : str) : result str :=
  if Nat.even (length ep) then
    match ep with
    | a :: b :: rest =>
        if Ascii.eqb a "010" || Ascii.eqb b "010" then Err AttributeErr
        else
          match to_newline rest with
          | [] => Err AttributeErr
          | e => match py_int [a; b] with
                 | Some s => decrypt_loop s e
                 | None => Ok []
                 end
          end
    | _ => Err AttributeErr
    end
  else Ok [].
