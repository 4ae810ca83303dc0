(** Model of the unified output of HDiff, with its header.

    Sources: /repo/ciscoconfparse/ciscoconfparse.py:4262-4295 (HDiff.__init__, parse_hdiff_configs),
    4391-4465 (unified_diff_header, unified_diffs). *)
From Coq Require Import Ascii String Arith NArith ZArith Bool List.
From Verif Require Import PyStr PyBase CfgModel MutModel JunosModel DiffModel.
Import ListNotations.
Local Open Scope nat_scope.

Definition word_eqb (a b : word) : bool :=
  match a, b with
  | Keep, Keep | Remove, Remove | Unchanged, Unchanged | Add, Add | Unknown, Unknown => true
  | _, _ => false
  end.
(** 4418-4422 and 4428-4432: the loop that stops at the first object with the word; [idx] counts *)
Fixpoint start_of (f : words_of) (v : word) (idx : nat) (xs : list nat) : nat :=
  match xs with
  | [] => 0
  | x :: xs' => if word_eqb (f x) v then idx + 1 else start_of f v (S idx) xs'
  end.
(** 4423-4426 and 4433-4436 *)
Definition changed (f : words_of) (v : word) (xs : list nat) : nat :=
  fold_left (fun n x => if word_eqb (f x) v then n + 1 else n) xs 0.
Definition show_n (n : nat) : str := show_Z (Z.of_nat n).
(** 4411-4445 unified_diff_header; [now] is the text of the present time *)
Definition header (now : str) (fb fa : words_of) (bs as_ : list nat) : list str :=
  let left_hand_start := start_of fb Remove 0 bs in
  let left_hand_changed := changed fb Remove bs in
  let right_hand_start := start_of fa Add 0 as_ in
  let right_hand_changed := changed fa Add as_ in
  [lit "--- /tmp/before " ++ now;
   lit "+++ /tmp/after  " ++ now;
   lit "@@ -" ++ show_n left_hand_changed ++ lit "," ++ show_n left_hand_start ++
   lit " +" ++ show_n right_hand_changed ++ lit "," ++ show_n right_hand_start ++ lit " @@"].

(** 4448-4465 unified_diffs(header) on an HDiff of two lists of lines; only ios and nxos mark
    the lines, others leave the words that build_diff_obj_lists (4300-4325) gave. *)
Definition unified_diffs (hash : str -> Z) (now : str) (with_header : bool) (sy : syntax) (ignore_blank : bool)
    (before after : list str) : result (list str) :=
  let o := mkOpts (lit "!") ignore_blank sy in
  let load := match sy with Junos => parse_junos o | _ => parse o end in
  do wb <- load before;
  do wa <- load after;
  let vb := normal_texts wb in
  let va := normal_texts wa in
  do r <- match sy with
          | Ios | Nxos => mark_after hash vb va (w_conf va) (fun _ => Remove) (fun _ => Unknown)
          | _ => Ok (fun _ => Remove, fun _ => Unknown)
          end;
  do ds <- hdiff hash sy ignore_blank before after;
  Ok ((if with_header then header now (fst r) (snd r) (w_conf vb) (w_conf va) else []) ++ unified ds).
