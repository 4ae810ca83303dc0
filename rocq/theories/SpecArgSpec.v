(** Specification side of searches for texts taken literally. *)
From Coq Require Import Ascii String Arith NArith ZArith Bool List.
From Verif Require Import PyStr PyBase CfgModel SearchSpec SpecArgModel.
Import ListNotations.

(** The text s is part of the text t. *)
Definition occurs (s t : str) : Prop := exists u v, t = u ++ s ++ v.
(** A line of the configuration whose text has s in it. *)
Definition has_text (w : world) (s : str) (x : nat) : Prop := In x (w_conf w) /\ occurs s (text_of w x).
(** The text of an argument that names a parent. *)
Inductive names : spec_arg -> str -> Prop :=
| names_text s : names (SText s) s
| names_line s shown : names (SLine s shown) s.
(** The text with a backslash before each character that means something in a pattern, and
    before each blank. *)
Definition marked (c : ascii) : bool := existsb (Ascii.eqb c) (lit "()[]{}?*+-|^$\.&~# " ++ map ascii_of_nat [9; 10; 11; 12; 13]).
Fixpoint backslashed (s : str) : str :=
  match s with [] => [] | c :: r => (if marked c then ["\"%char; c] else [c]) ++ backslashed r end.
(** A child line that a search for s taken literally reports. *)
Definition shows (s t : str) : Prop := t <> [] /\ (occurs s t \/ occurs (backslashed s) t).
