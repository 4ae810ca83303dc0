(** What the commands that bring a configuration to a required state should be, and
    what a literal search text should find. *)
From Coq Require Import Ascii String Arith NArith ZArith Bool List.
From Verif Require Import PyStr PyBase CfgModel TreeSpec SearchModel SearchSpec DiffSpec.
Import ListNotations.
Local Open Scope char_scope.

Definition whites (s : str) : Prop := forallb is_space s = true.
Definition some_white (s : str) : Prop := whites s /\ s <> [].

(** [twice s a c]: [s] says "no" twice: after the white space [a], before the command [c],
    which has at least two characters. *)
Definition twice (s a c : str) : Prop :=
  exists g g' x r, whites a /\ some_white g /\ some_white g' /\ is_space x = false /\ r <> [] /\
    c = x :: r /\ s = a ++ lit "no" ++ g ++ lit "no" ++ g' ++ c.
(** Every such pair is taken away. *)
Inductive undoubled : str -> str -> Prop :=
| ud_pair s a c t : twice s a c -> undoubled (a ++ c) t -> undoubled s t
| ud_done s : (forall a c, ~ twice s a c) -> undoubled s s.

(** What [re.search] gives back is part of what was searched. *)
Definition within (r : regex) : Prop :=
  forall t m, rx_find r t = Some m -> exists u v, t = u ++ m_all m ++ v.

(** The commands for one line of the difference, a line being given by the texts of the
    lines from the root down to it. *)
Definition remedy (linespec uncfgspec : regex) (remove_lines : bool) (e : sign * list str) (cmds : list str) : Prop :=
  let '(s, p) := e in
  let t := last p [] in
  if negb (hits linespec t) then cmds = []
  else match s with
  | Plus => cmds = p
  | Same => cmds = []
  | Minus =>
      if remove_lines then exists m c, rx_find uncfgspec t = Some m /\
        undoubled (spaces (line_indent t) ++ lit "no " ++ strip (m_all m)) c /\ cmds = [c]
      else cmds = []
  end.

(** A removal that cannot be written: the line matches but has no text to negate. *)
Definition no_remedy (linespec uncfgspec : regex) (remove_lines : bool) (e : sign * list str) : Prop :=
  fst e = Minus /\ remove_lines = true /\ hits linespec (last (snd e) []) = true /\
  rx_find uncfgspec (last (snd e) []) = None.

(** ** Literal search texts *)

(** A character that has no meaning of its own in a regular expression. *)
Definition ordinary (c : ascii) : bool := negb (has_char c (lit ".^$*+?{}[]\|()")).
Definition literal (s : str) : Prop := forallb ordinary s = true.

(** The same text with other white space in the same places. *)
Inductive respaced : str -> str -> Prop :=
| rs_nil : respaced [] []
| rs_char c s t : is_space c = false -> respaced s t -> respaced (c :: s) (c :: t)
| rs_gap g g' s t : some_white g -> some_white g' -> (match s with c :: _ => is_space c = false | [] => True end) ->
    respaced s t -> respaced (g ++ s) (g' ++ t).

(** What a search for the literal text [s] should find. *)
Definition selects (s : str) (exactmatch ignore_ws : bool) (t : str) : Prop :=
  match exactmatch, ignore_ws with
  | false, false => exists u v, t = u ++ s ++ v
  | false, true => exists u s' v, t = u ++ s' ++ v /\ respaced s s'
  | true, false => t = s
  | true, true => respaced s t
  end.

(** ** Required lines *)
Definition letter (c : ascii) : bool :=
  ((65 <=? N_of_ascii c) && (N_of_ascii c <=? 90) || (97 <=? N_of_ascii c) && (N_of_ascii c <=? 122))%N.

(** The lines that match and are not required. *)
Definition unwanted (w : world) (linespec : regex) (cfgspec : list str) (x : nat) : Prop :=
  in_config w linespec x /\ forall r, In r cfgspec -> strip (text_of w x) <> strip r.
(** The text already begins with "no". *)
Definition negative (t : str) : Prop := exists a g r, t = a ++ lit "no" ++ g ++ r /\ whites a /\ some_white g.
(** How the line [x] is undone, given the part [m] of it that is negated. *)
Definition undone (w : world) (x : nat) (m t : str) : Prop :=
  exists l c, obj w (parent_of w x) = Some l /\ t = spaces (cl_child_indent l) ++ lit "no " ++ c /\
    (negative m /\ c = [ascii_of_nat 3] \/ ~ negative m /\ c = m).
