(** Specification side of the AAA lines of NX-OS. *)
From Coq Require Import Ascii String ZArith Bool List.
From Verif Require Import PyStr PyBase IntfSpec IosSpec RouteSpec FactorySpec AaaSpec.
Import ListNotations.
Local Open Scope char_scope.

(** [laid ws p]: the text p has these words, each followed by white space: by one white character
    if it is marked [true], by one or more if it is marked [false]. *)
Inductive laid : list (str * bool) -> str -> Prop :=
| laid_nil : laid [] []
| laid_cons w (one : bool) g ws p : (if one then one_space g else gap g) -> laid ws p -> laid ((w, one) :: ws) (w ++ g ++ p).
Definition ones (ws : list str) : list (str * bool) := map (fun w => (w, true)) ws.

(** These words, then a group and the rest. *)
Definition nx_line (ws : list (str * bool)) (G m t : str) : Prop := exists p, t = p ++ G ++ m /\ laid ws p /\ group_and_rest G m.
(** "aaa authentication" v LIST "group" G rest, with one white character between the words *)
Definition nx_list (v : string) (L G m t : str) : Prop :=
  word L /\ nx_line (ones [lit "aaa"; lit "authentication"; lit v; L; lit "group"]) G m t.
(** "aaa authorization commands" LEVEL LIST "group" G rest, likewise *)
Definition nx_commands (n : Z) (L G m t : str) : Prop :=
  exists d, numeral d n /\ word L /\ nx_line (ones [lit "aaa"; lit "authorization"; lit "commands"; d; L; lit "group"]) G m t.
(** "aaa authorization console" LEVEL LIST "group" G rest, with one white character after the level *)
Definition nx_console (n : Z) (L G m t : str) : Prop :=
  exists d, numeral d n /\ word L /\
    nx_line [(lit "aaa", false); (lit "authorization", false); (lit "console", false); (d, true); (L, false); (lit "group", false)] G m t.
(** The whole line is an accounting command, with one white character between the words. *)
Definition nx_acct_commands (d L k g t : str) : Prop :=
  digits d /\ word L /\ In k record_kinds /\ word g /\
  exists p, t = p ++ g /\ laid (ones [lit "aaa"; lit "accounting"; lit "commands"; d; L; k; lit "group"]) p.
Definition nx_acct_exec (L k g t : str) : Prop :=
  word L /\ In k record_kinds /\ word g /\ exists p, t = p ++ g /\ laid (ones [lit "aaa"; lit "accounting"; lit "exec"; L; k; lit "group"]) p.

(** An indented line with "use-vrf" and a name. *)
Definition use_vrf (t v : str) : Prop := word v /\ line_of gap word_ends [lit "use-vrf"; v] t.
(** An indented line with "source-interface" and a text of three or more characters, the first
    and the last of them not white. *)
Definition nx_source (t v : str) : Prop :=
  exists i g e x m y, t = i ++ lit "source-interface" ++ g ++ v ++ e /\ gap i /\ gap g /\ white e /\
    v = x :: m ++ [y] /\ m <> [] /\ no_newline m /\ is_space x = false /\ is_space y = false.
