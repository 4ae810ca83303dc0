(** Model of CiscoRange with integer members (ccp_util.py:4729-5552).

    The state is [_list].  The order in which Python lists a set is left open:
    [set_list] stands for [list(set(..))]. *)
From Coq Require Import Ascii String Arith NArith ZArith Bool List.
From Verif Require Import PyStr PyBase.
Import ListNotations.
Local Open Scope char_scope.
Local Open Scope Z_scope.

(** [range(a, b + 1)] *)
Definition interval (a b : Z) : list Z := map (fun i => a + Z.of_nat i) (seq 0 (Z.to_nat (b + 1 - a))).

Definition int_or_err (s : str) : result Z := match py_int s with Some z => Ok z | None => Err ValueError end.

(** 4820-4855 one comma-separated part *)
Definition parse_part (part : str) : result (list Z) :=
  if has_char "-" part then
    match split_on "-" part with
    | [x; y] =>
        do b <- int_or_err (strip x);
        do _ <- int_or_err (strip y);
        do e <- int_or_err (filter is_digit (strip y));
        Ok (interval b e)
    | _ => Err InvalidCiscoRange
    end
  else do b <- int_or_err part; Ok [b].

Fixpoint parse_parts (parts : list str) : result (list Z) :=
  match parts with
  | [] => Ok []
  | p :: r => do l <- parse_part p; do m <- parse_parts r; Ok (l ++ m)
  end.

(** 4814-4858 *)
Definition parse_integers (set_list : list Z -> list Z) (text : str) : result (list Z) :=
  do l <- parse_parts (split_on "," text); Ok (set_list l).

(** 4765-4810 [CiscoRange(text, result_type=int)] *)
Definition range_of_text (set_list : list Z -> list Z) (text : str) : result (list Z) :=
  match text with
  | [] => Ok []
  | _ => if contains (lit ",,") text then Err InvalidCiscoRange else parse_integers set_list text
  end.

(** [sorted(set(l))] *)
Definition sorted_set (l : list Z) : list Z := sort_by (fun z => z) (nodup Z.eq_dec l).

(** 5206-5214; [self] is changed and returned *)
Definition range_add (self other : list Z) : list Z := sorted_set (self ++ other).

(** [list.remove]: the first occurrence, if any *)
Fixpoint remove_first (x : Z) (l : list Z) : list Z :=
  match l with
  | [] => []
  | y :: r => if x =? y then r else y :: remove_first x r
  end.
(** 5216-5228 with another range *)
Definition range_sub (self other : list Z) : list Z := fold_left (fun l x => remove_first x l) other self.
(** 5216-5228 with the range itself: the list iterated is the one that shrinks.
    [fuel] bounds the number of steps; [length l] is enough. *)
Fixpoint sub_self_loop (fuel i : nat) (l : list Z) : list Z :=
  match fuel with
  | O => l
  | S k => match nth_error l i with
           | None => l
           | Some x => sub_self_loop k (S i) (remove_first x l)
           end
  end.
Definition range_sub_self (l : list Z) : list Z := sub_self_loop (length l) 0 l.

Definition zmem (x : Z) (l : list Z) : bool := existsb (Z.eqb x) l.

(** 5278-5315 with an integer, sort=True, ignore_errors=False *)
Definition range_append (l : list Z) (v : Z) : result (list Z) :=
  if zmem v l then Err DuplicateMember else Ok (sort_by (fun z => z) (l ++ [v])).

(** 5325-5388 with an integer: a missing member is reported as a type mismatch,
    because the loop over the types runs to its end; on an empty list [new_list]
    is never bound. *)
Definition range_remove (l : list Z) (v : Z) (ignore_errors : bool) : result (list Z) :=
  if negb (zmem v l) && ignore_errors then Ok l
  else match l with
       | [] => Err UnboundLocal
       | _ =>
           let new_list := filter (fun x => negb (x =? v)) l in
           if (length new_list <? length l)%nat then Ok new_list
           else Err MismatchedType
       end.

(** 5392-5427 with result_type=int *)
Definition range_as_list (l : list Z) (reverse : bool) : list Z :=
  if reverse then rev (sorted_set l) else sorted_set l.

(** 5530-5542: numbers and dashes *)
Inductive ritem := RNum (z : Z) | RDash.

(** 5532-5540; the loop index runs over the list, [prev] is the element before
    [cur]; [acc] is [range_list] reversed *)
Fixpoint comp_loop (acc : list ritem) (prev : Z) (l : list Z) : list ritem :=
  match l with
  | cur :: ((next :: _) as r) =>
      let acc' :=
        if (cur - prev =? 1) && (next - cur =? 1) then
          match acc with RDash :: _ => acc | _ => RDash :: acc end
        else RNum cur :: acc in
      comp_loop acc' cur r
  | _ => acc
  end.
Definition range_list (l : list Z) : list ritem :=
  match l with
  | [] => []
  | x :: r =>
      let acc := comp_loop [RNum x] x r in
      rev (match r with [] => acc | _ => RNum (last r 0) :: acc end)
  end.

(** 5545-5550 *)
Definition item_text (i : ritem) : str := match i with RNum z => show_Z z | RDash => ["-"] end.
Definition same_type (a b : ritem) : bool :=
  match a, b with RNum _, RNum _ | RDash, RDash => true | _, _ => false end.
Fixpoint render_items (prev : ritem) (l : list ritem) : str :=
  match l with
  | [] => []
  | i :: r => (if same_type i prev then "," :: item_text i else item_text i) ++ render_items i r
  end.
(** 5465-5552 for integers *)
Definition compressed_str (l : list Z) : str :=
  match l with
  | [] => []
  | _ => match range_list (sorted_set l) with
         | [] => []
         | i :: r => item_text i ++ render_items i r
         end
  end.
