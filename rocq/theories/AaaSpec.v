(** Specification side of the AAA, access-line, hostname and global interface lines. *)
From Coq Require Import Ascii String ZArith Bool List.
From Verif Require Import PyStr PyBase IntfSpec IosSpec RouteSpec FactorySpec.
Import ListNotations.
Local Open Scope char_scope.

(** ** AAA commands *)

Definition one_space (g : str) : Prop := exists c, g = [c] /\ is_space c = true.
(** What is written after "group": a group [G] and the rest [m] of the line.  If nothing follows
    the last word of the line, its last character counts as the rest. *)
Inductive group_and_rest (G m : str) : Prop :=
| gr_more : word G -> (exists c r, m = c :: r /\ is_space c = true) -> no_newline m -> group_and_rest G m
| gr_last : word G -> (exists x, m = [x] /\ is_space x = false) -> group_and_rest G m.
(** The words [ws] laid out by [lay], white space as [sep] says, then a group and the rest. *)
Definition aaa_line (lay : list str -> str -> Prop) (sep : str -> Prop) (ws : list str) (G m t : str) : Prop :=
  exists p g, t = p ++ g ++ G ++ m /\ lay ws p /\ sep g /\ group_and_rest G m.
(** "aaa" u v LIST "group" G rest *)
Definition aaa_list lay sep (u v : string) (L G m t : str) : Prop :=
  word L /\ aaa_line lay sep [lit "aaa"; lit u; lit v; L; lit "group"] G m t.
(** "aaa" u v LEVEL LIST "group" G rest *)
Definition aaa_level (u v : string) (n : Z) (L G m t : str) : Prop :=
  exists d, numeral d n /\ word L /\ aaa_line phrase gap [lit "aaa"; lit u; lit v; d; L; lit "group"] G m t.
Definition record_kinds : list str := map lit ["none"; "stop-only"; "start-stop"]%string.
(** The whole line is an accounting command. *)
Definition acct_commands (d L k g t : str) : Prop :=
  digits d /\ word L /\ In k record_kinds /\ word g /\ phrase [lit "aaa"; lit "accounting"; lit "commands"; d; L; k; lit "group"; g] t.
Definition acct_exec (L k g t : str) : Prop :=
  word L /\ In k record_kinds /\ word g /\ exists a, joined (lit "group") g a /\ phrase [lit "aaa"; lit "accounting"; lit "exec"; L; k; a] t.

(** ** Lines below a group of servers *)

Definition vrf_line (t v : str) : Prop := word v /\ exists ips, Forall (eq (lit "ip")) ips /\ line_of gap word_ends (ips ++ [lit "vrf"; lit "forwarding"; v]) t.
Definition private_line (t v : str) : Prop := word v /\ exists c e, is_space c = true /\ line_of gap (eq (c :: e)) [lit "server-private"; v] t.
(** "ip tacacs source-interface" and a text of three or more characters, the first and the last
    of them not white. *)
Definition source_line (t v : str) : Prop :=
  exists i p g e x m y, t = i ++ p ++ g ++ v ++ e /\ gap i /\ phrase (map lit ["ip"; "tacacs"; "source-interface"]%string) p /\ gap g /\ white e /\
    v = x :: m ++ [y] /\ m <> [] /\ no_newline m /\ is_space x = false /\ is_space y = false.
(** The word [w], then white space and the word [v]. *)
Definition after_word (w : string) (t v : str) : Prop := word v /\ line_of (eq []) word_ends [lit w; v] t.

(** ** Access lines *)

(** The numbers at the end of the line: one or two. *)
Definition ends_digit (p : str) : Prop := exists q c, p = q ++ [c] /\ is_digit c = true.
Inductive last_numbers : str -> list Z -> Prop :=
| ln_two p a g b x y : ~ ends_digit p -> numeral a x -> gap g -> numeral b y -> last_numbers (p ++ a ++ g ++ b) [x; y]
| ln_one p b y : ~ ends_digit p -> numeral b y -> (forall q g, p = q ++ g -> gap g -> ~ ends_digit q) -> last_numbers (p ++ b) [y]
| ln_none p : ~ ends_digit p -> last_numbers p [].
(** "exec-timeout" and one or two numbers. *)
Definition timeout_line (t : str) (l : list Z) : Prop :=
  exists ds, Forall2 numeral ds l /\ (length ds = 1 \/ length ds = 2)%nat /\ says_loosely (lit "exec-timeout" :: ds) t.
