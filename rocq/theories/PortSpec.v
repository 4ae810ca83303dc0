(** Specification side of the IPv6 and switchport attributes of an interface. *)
From Coq Require Import Ascii String ZArith Bool List.
From Verif Require Import PyStr PyBase IosSpec.
Import ListNotations.
Local Open Scope char_scope.

(** Digits, at least one *)
Definition number_text (d : str) : Prop := d <> [] /\ forallb is_digit d = true.
(** The line "ipv6 address A/M ...", indented; whatever follows the digits of M is not looked at.  If
    there are several slashes followed by a digit, the first one counts. *)
Definition addr6_line (t a m : str) : Prop :=
  word a /\ number_text m /\ (forall u d v, a = u ++ "/" :: d :: v -> u <> [] -> is_digit d = false) /\
  line_of gap (no_more is_digit) [lit "ipv6"; lit "address"; a ++ "/" :: m] t.
(** The line "ipv6 address V", indented, where V is everything up to a slash.  If nothing but white
    space comes before the slash or the end, V is the last character of it. *)
Definition addr6_text (t v : str) : Prop :=
  has_char "/" v = false /\ line_of gap (fun e => e = [] \/ exists r, e = "/" :: r) [lit "ipv6"; lit "address"; v] t /\
  exists x r, v = x :: r /\ (is_space x = false \/ r = []).
(** The line "ipv6 address how", indented *)
Definition dynamic6 (how : string) (t : str) : Prop := says_below [lit "ipv6"; lit "address"; lit how] t.
(** The line "ip address A M secondary" *)
Definition secondary_line (t a m : str) : Prop :=
  word a /\ word m /\ says_loosely [lit "ip"; lit "address"; a; m; lit "secondary"] t.
(** The line begins with these words; it consists of these words. *)
Definition begins (ws : list string) (t : str) : Prop := exists rest, words t = map lit ws ++ rest.
Definition reads_as (ws : list string) (t : str) : Prop := words t = map lit ws.
(** A child of the interface begins with the word switchport. *)
Definition is_switch (kids : list str) : Prop := exists t, In t kids /\ begins ["switchport"%string] t.
