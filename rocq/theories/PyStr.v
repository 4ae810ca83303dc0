(** Python strings restricted to Latin-1, as lists of characters.

    These definitions model the CPython [str] methods that ciscoconfparse
    calls; they are not functions of the repository itself.  Code points above
    255 are not represented. *)
From Coq Require Import Decimal DecimalN.
From Coq Require Import Ascii String Arith NArith ZArith Bool List.
Import ListNotations.
Local Open Scope char_scope.

Definition str := list ascii.

(** String literals. *)
Definition lit (s : string) : str := list_ascii_of_string s.
Arguments lit s%string.

Definition code (c : ascii) : N := N_of_ascii c.

(** [str.isspace] / the regex class [\s] on code points 0..255:
    9-13, 28-31, 32, 133, 160. *)
Definition is_space (c : ascii) : bool :=
  let n := code c in
  ((9 <=? n) && (n <=? 13) || (28 <=? n) && (n <=? 32) || (n =? 133) || (n =? 160))%N.

(** The regex class [\d] on code points 0..255: '0'..'9'. *)
Definition is_digit (c : ascii) : bool :=
  let n := code c in ((48 <=? n) && (n <=? 57))%N.

(** ASCII letters, the regex class [a-zA-Z]. *)
Definition is_alpha (c : ascii) : bool :=
  let n := code c in ((65 <=? n) && (n <=? 90) || (97 <=? n) && (n <=? 122))%N.

(** The regex class [\w] on code points 0..255: [str.isalnum] or '_'. *)
Definition is_word (c : ascii) : bool :=
  let n := code c in
  (is_digit c || is_alpha c || (n =? 95) || (n =? 170) || (n =? 178) || (n =? 179)
   || (n =? 181) || (n =? 185) || (n =? 186) || ((188 <=? n) && (n <=? 190))
   || ((192 <=? n) && (n <=? 214)) || ((216 <=? n) && (n <=? 246)) || (248 <=? n))%N.

(** [==] on strings. *)
Fixpoint str_eqb (a b : str) : bool :=
  match a, b with
  | [], [] => true
  | x :: a', y :: b' => Ascii.eqb x y && str_eqb a' b'
  | _, _ => false
  end.

(** [str.lstrip()], [str.rstrip()], [str.strip()] without argument. *)
Fixpoint lstrip (s : str) : str :=
  match s with
  | c :: s' => if is_space c then lstrip s' else s
  | [] => []
  end.
Definition rstrip (s : str) : str := rev (lstrip (rev s)).
Definition strip (s : str) : str := lstrip (rstrip s).

(** [s.startswith(p)] *)
Fixpoint starts_with (p s : str) : bool :=
  match p, s with
  | [], _ => true
  | x :: p', y :: s' => Ascii.eqb x y && starts_with p' s'
  | _ :: _, [] => false
  end.

(** [p in s] *)
Fixpoint contains (p s : str) : bool :=
  starts_with p s || match s with [] => false | _ :: s' => contains p s' end.

(** [c in s] for a one character string. *)
Definition has_char (c : ascii) (s : str) : bool := existsb (Ascii.eqb c) s.

(** [s.split(c)] for a one character separator. *)
Fixpoint split_on (c : ascii) (s : str) : list str :=
  match s with
  | [] => [[]]
  | x :: s' =>
      if Ascii.eqb x c then [] :: split_on c s'
      else match split_on c s' with
           | [] => [[x]]
           | w :: ws => (x :: w) :: ws
           end
  end.

(** [sep.join(l)] *)
Fixpoint join (sep : str) (l : list str) : str :=
  match l with
  | [] => []
  | [w] => w
  | w :: ws => w ++ sep ++ join sep ws
  end.

(** [s.split()] : maximal runs of non-whitespace. [acc] is the current word,
    reversed. *)
Fixpoint words_aux (acc : str) (s : str) : list str :=
  match s with
  | [] => match acc with [] => [] | _ => [rev acc] end
  | c :: s' =>
      if is_space c then
        match acc with [] => words_aux [] s' | _ => rev acc :: words_aux [] s' end
      else words_aux (c :: acc) s'
  end.
Definition words (s : str) : list str := words_aux [] s.

(** [" " * n] *)
Definition spaces (n : nat) : str := repeat " " n.

(** ASCII part of [str.lower()] plus the Latin-1 capitals 192-214, 216-222. *)
Definition lower_char (c : ascii) : ascii :=
  let n := code c in
  if ((65 <=? n) && (n <=? 90) || (192 <=? n) && (n <=? 214) || (216 <=? n) && (n <=? 222))%N
  then ascii_of_N (n + 32) else c.
Definition lower (s : str) : str := map lower_char s.

(** Decimal printing: [str(n)] for integers. *)
Fixpoint uint_str (d : Decimal.uint) : str :=
  match d with
  | Decimal.Nil => []
  | Decimal.D0 d => "0" :: uint_str d
  | Decimal.D1 d => "1" :: uint_str d
  | Decimal.D2 d => "2" :: uint_str d
  | Decimal.D3 d => "3" :: uint_str d
  | Decimal.D4 d => "4" :: uint_str d
  | Decimal.D5 d => "5" :: uint_str d
  | Decimal.D6 d => "6" :: uint_str d
  | Decimal.D7 d => "7" :: uint_str d
  | Decimal.D8 d => "8" :: uint_str d
  | Decimal.D9 d => "9" :: uint_str d
  end.
Definition show_N (n : N) : str := uint_str (N.to_uint n).
Definition show_Z (z : Z) : str :=
  match z with
  | Z0 => ["0"]
  | Zpos p => show_N (Npos p)
  | Zneg p => "-" :: show_N (Npos p)
  end.

(** Value of a string of decimal digits, most significant first. *)
Definition digit_val (c : ascii) : N := (code c - 48)%N.
Definition digits_val (s : str) : N :=
  fold_left (fun acc c => (10 * acc + digit_val c)%N) s 0%N.

(** Digits of an [int()] literal: non-empty, single underscores between
    digits.  [prev] says whether the previous character was a digit. *)
Fixpoint int_digits (prev : bool) (s : str) : option str :=
  match s with
  | [] => if prev then Some [] else None
  | c :: s' =>
      if is_digit c then option_map (cons c) (int_digits true s')
      else if (Ascii.eqb c "_" && prev)%bool then int_digits false s'
      else None
  end.

(** Whitespace accepted around an [int()] literal: as [is_space] without 28-31
    (checked against CPython; mixtures of 28-31 with characters above 127 are
    treated differently by CPython and are not modelled). *)
Definition int_space (c : ascii) : bool :=
  let n := code c in
  ((9 <=? n) && (n <=? 13) || (n =? 32) || (n =? 133) || (n =? 160))%N.
Fixpoint drop_while (f : ascii -> bool) (s : str) : str :=
  match s with
  | c :: s' => if f c then drop_while f s' else s
  | [] => []
  end.
Definition int_strip (s : str) : str :=
  drop_while int_space (rev (drop_while int_space (rev s))).

(** [int(s)] for a string: surrounding whitespace, optional sign, digits;
    [None] is ValueError. *)
Definition py_int (s : str) : option Z :=
  let t := int_strip s in
  match t with
  | c :: t' =>
      if Ascii.eqb c "-" then option_map (fun d => - Z.of_N (digits_val d))%Z (int_digits false t')
      else if Ascii.eqb c "+" then option_map (fun d => Z.of_N (digits_val d)) (int_digits false t')
      else option_map (fun d => Z.of_N (digits_val d)) (int_digits false t)
  | [] => None
  end.

(** [filter] on positions is used for [str.isdigit]-like tests. *)
Definition all_digits (s : str) : bool :=
  match s with [] => false | _ => forallb is_digit s end.
