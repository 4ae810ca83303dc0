(** Specification side of the brace properties. *)
From Coq Require Import Ascii String ZArith Bool List.
From Verif Require Import PyStr.
Import ListNotations.
Local Open Scope char_scope.
Local Open Scope Z_scope.

(** What one line of a brace configuration says: a statement, the beginning of a
    block, its end, the end of one and the beginning of the next, or a comment. *)
Inductive jline := Stmt (t : str) | Begin (t : str) | End_ | Again (t : str) | Note (t : str).

Definition white (s : str) : Prop := forallb is_space s = true.
(** The words of a statement: no braces, no white space at either end, no semicolon
    at the end, and no comment delimiter at the start. *)
Definition statement (d : ascii) (t : str) : Prop :=
  (exists c r, t = c :: r /\ is_space c = false /\ c <> d) /\
  (exists r c, t = r ++ [c] /\ is_space c = false /\ c <> ";") /\
  ~ In "{" t /\ ~ In "}" t /\ ~ In "010" t.

(** How they are written, with any indentation. *)
Inductive writes (d : ascii) : str -> jline -> Prop :=
| w_stmt a t z : white a -> white z -> statement d t -> writes d (a ++ t ++ z) (Stmt t)
| w_semi a t g k z : white a -> white g -> ~ In "010" g -> white z -> statement d t ->
    writes d (a ++ t ++ g ++ repeat ";" (S k) ++ z) (Stmt t)
| w_begin a t g z : white a -> white g -> ~ In "010" g -> white z -> statement d t -> writes d (a ++ t ++ g ++ "{" :: z) (Begin t)
| w_again a g t g' z : white a -> white g -> ~ In "010" g -> white g' -> ~ In "010" g' -> white z -> statement d t ->
    writes d (a ++ "}" :: g ++ t ++ g' ++ "{" :: z) (Again t)
| w_end a k z : white a -> white z -> writes d (a ++ "}" :: repeat ";" k ++ z) End_
| w_note a t z : white a -> white z -> ~ In d t -> (t = [] \/ exists r c, t = r ++ [c] /\ is_space c = false) ->
    writes d (a ++ d :: t ++ z) (Note t).

(** Number of blocks open before line [i]. *)
Definition change (j : jline) : Z := match j with Begin _ => 1 | End_ => -1 | _ => 0 end.
Fixpoint sum (l : list Z) : Z := match l with [] => 0 | x :: r => x + sum r end.
Definition depth (js : list jline) (i : nat) : Z := sum (map change (firstn i js)).
(** Number of blocks around line [i]: a line that ends one block and begins the next is
    in neither of them. *)
Definition level (js : list jline) (i : nat) : Z :=
  match nth_error js i with Some (Again _) => depth js i - 1 | _ => depth js i end.
(** Every end has its beginning. *)
Definition nested (js : list jline) : Prop := forall i, 0 <= level js i.

(** The text that a line has after the conversion, and the depth at which it is shown:
    the end of a block, of which nothing remains, is shown like its beginning. *)
Definition shown_text (d : ascii) (j : jline) : str := match j with Stmt t | Begin t | Again t => t | End_ => [] | Note t => d :: t end.
Definition shown_depth (js : list jline) (i : nat) (j : jline) : Z := match j with End_ | Again _ => depth js i - 1 | _ => depth js i end.

(** Line [i] is directly inside the block that begins at line [p]. *)
Definition encloses (js : list jline) (p i : nat) : Prop :=
  (p < i < length js)%nat /\ (exists t, nth_error js p = Some (Begin t) \/ nth_error js p = Some (Again t)) /\ level js i = depth js (S p) /\
  forall k, (p < k <= i)%nat -> depth js (S p) <= level js k.
