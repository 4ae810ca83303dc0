(** Specification side of the NX-OS properties. *)
From Coq Require Import Ascii String ZArith Bool List.
From Verif Require Import PyStr PyBase IntfSpec IosSpec.
Import ListNotations.
Local Open Scope char_scope.

(** "ip address A/L", indented, with white space allowed before the slash and at the end. *)
Definition has_prefix (t a : str) (n : Z) : Prop :=
  exists i g g' z l e, t = i ++ lit "ip" ++ g ++ lit "address" ++ g' ++ a ++ z ++ "/" :: l ++ e /\
    gap i /\ gap g /\ gap g' /\ quad a /\ white z /\ numeral l n /\ white e.
(** The line begins with "switchport", after any indentation. *)
Definition begins_switchport (t : str) : Prop := exists i r, t = i ++ lit "switchport" ++ r /\ white i.
(** The line begins with these words, after some indentation. *)
Definition opens (ws : list str) (t : str) : Prop := line_of gap (fun _ => True) ws t.
(** The text contains "peer-keepalive" and, later on the same line, the option [kw] with the
    value [v]; [more]: the characters that would continue the value. *)
Definition keeps (kw : str) (more : ascii -> bool) (t v : str) : Prop :=
  exists u g x g' e, t = u ++ lit "peer-keepalive" ++ g ++ x ++ kw ++ g' ++ v ++ e /\
    gap g /\ no_newline x /\ gap g' /\ no_more more e.
(** Not white space. *)
Definition visible (c : ascii) : bool := negb (is_space c).
(** "p" occurs in the text. *)
Definition occurs (p t : str) : Prop := exists a b, t = a ++ p ++ b.
(** "ip dhcp relay address A ...", after any indentation. *)
Definition relay (t a : str) : Prop :=
  quad a /\ exists i g g' e, t = i ++ lit "ip" ++ g ++ lit "dhcp relay address" ++ g' ++ a ++ e /\ white i /\ gap g /\ gap g' /\ no_more is_digit e.
(** "vrf member V ...", after any indentation. *)
Definition member (t v : str) : Prop :=
  word v /\ exists i g e, t = i ++ lit "vrf member" ++ g ++ v ++ e /\ white i /\ gap g /\ word_ends e.
(** "...Ethernet..." on one line, or "mgmt...". *)
Definition eth_text (r : str) : Prop := (exists a c s, r = a ++ c :: lit "thernet" ++ s /\ is_space c = false /\ no_newline a) \/ exists s, r = lit "mgmt" ++ s.
