(** [ConfigList.config_hierarchy] (ciscoconfparse.py:5527-5543). *)
From Coq Require Import Ascii String Arith NArith ZArith Bool List.
From Verif Require Import PyStr PyBase CfgModel SearchModel ListModel PyRe.
Import ListNotations.

(** 5536-5541, one line found: comments are passed over; [fst] holds parent_siblings and [snd]
    holds nonparent_siblings. *)
Definition hierarchy_step (w : world) (acc : list nat * list nat) (x : nat) : list nat * list nat :=
  if is_comment w x then acc
  else match children_of w x with
       | [] => (fst acc, snd acc ++ [x])
       | _ => (fst acc ++ [x], snd acc)
       end.
(** 5533-5543 *)
Definition config_hierarchy (w : world) : list nat * list nat :=
  fold_left (hierarchy_step w) (find_objects w (pattern false (lit "^\S+"))) ([], []).
