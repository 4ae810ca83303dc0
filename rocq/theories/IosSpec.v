(** Specification side of the interface attributes: commands as words between white space. *)
From Coq Require Import Ascii String ZArith Bool List.
From Verif Require Import PyStr PyBase IntfSpec.
Import ListNotations.
Local Open Scope char_scope.
Local Open Scope Z_scope.

(** White space that is not empty. *)
Definition gap (g : str) : Prop := white g /\ g <> [].
(** A text without white space that is not empty. *)
Definition word (w : str) : Prop := w <> [] /\ forallb (fun c => negb (is_space c)) w = true.
(** The end of a line, as "$" sees it. *)
Definition line_end (e : str) : Prop := e = [] \/ e = ["010"].

(** The words with white space between them. *)
Inductive phrase : list str -> str -> Prop :=
| ph_one w : phrase [w] w
| ph_more w g ws p : gap g -> phrase ws p -> phrase (w :: ws) (w ++ g ++ p).

(** The line: [lead], these words, then [cut]. *)
Definition line_of (lead cut : str -> Prop) (ws : list str) (t : str) : Prop :=
  exists i p e, t = i ++ p ++ e /\ lead i /\ phrase ws p /\ cut e.
(** The line consists of these words, after any indentation. *)
Definition says : list str -> str -> Prop := line_of white line_end.
(** The same, with white space allowed at the end. *)
Definition says_loosely : list str -> str -> Prop := line_of white white.
(** The same, and the line is indented. *)
Definition says_below : list str -> str -> Prop := line_of gap white.
(** Nothing, or a character outside [f]. *)
Definition no_more (f : ascii -> bool) (e : str) : Prop := match e with [] => True | c :: _ => f c = false end.

(** The command [pre] number [post], where the number is written in decimal. *)
Definition number_cmd (pre post : list string) (t : str) (n : Z) : Prop :=
  exists d, numeral d n /\ says (map lit pre ++ d :: map lit post) t.

(** A text without line feeds. *)
Definition no_newline (s : str) : Prop := forallb (fun c => negb (Ascii.eqb c "010")) s = true.
(** The word [w], white space and a text that begins with a character that is not white
    and goes to the end of the line; [some]: the text has more than one character. *)
Definition text_line (w : str) (some : bool) (t v : str) : Prop :=
  exists i g e x r, t = i ++ w ++ g ++ v ++ e /\ white i /\ gap g /\ v = x :: r /\ is_space x = false /\ no_newline r /\ (some = true -> r <> []) /\ line_end e.

(** Two words with one white character between them. *)
Definition joined (v w t : str) : Prop := exists c, is_space c = true /\ t = v ++ [c] ++ w.
Definition joined3 (u v w t : str) : Prop := exists a b, is_space a = true /\ is_space b = true /\ t = u ++ [a] ++ v ++ [b] ++ w.

(** Four groups of digits with dots between them. *)
Definition quad (t : str) : Prop :=
  exists a b c d : str, t = a ++ "." :: b ++ "." :: c ++ "." :: d /\
    Forall (fun x : str => x <> [] /\ forallb is_digit x = true) [a; b; c; d].

(** The first line that gives a value gives the answer; without one, the default. *)
Definition answers {V} (P : str -> V -> Prop) (lines : list str) (default : V) (r : result V) : Prop :=
  (exists pre t post v, lines = pre ++ t :: post /\ (forall u v', In u pre -> ~ P u v') /\ P t v /\ r = Ok v) \/
  ((forall u v', In u lines -> ~ P u v') /\ r = Ok default).
(** True exactly if some line satisfies [P]. *)
Definition answers_yes (P : str -> Prop) (lines : list str) (r : result bool) : Prop :=
  (r = Ok true /\ exists t, In t lines /\ P t) \/ (r = Ok false /\ forall t, In t lines -> ~ P t).

(** "standby", any number of group numbers, then these words. *)
Definition standby (cut : str -> Prop) (ws : list str) (t : str) : Prop :=
  exists ds : list str, Forall (fun d => d <> [] /\ forallb is_digit d = true) ds /\ line_of white cut (lit "standby" :: ds ++ ws) t.
(** The end of a word. *)
Definition word_ends : str -> Prop := no_more (fun c => negb (is_space c)).
