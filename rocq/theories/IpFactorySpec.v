(** Specification side of the texts ip_factory takes. *)
From Coq Require Import Ascii String NArith ZArith Bool List.
From Verif Require Import PyStr Ip6TextSpec.
Import ListNotations.
Local Open Scope char_scope.
Local Open Scope Z_scope.

(** Decimal digits, and the number they are *)
Definition digits (d : str) (p : Z) : Prop := d <> [] /\ forallb is_digit d = true /\ Z.of_N (digits_val d) = p.
(** A length, a netmask, or a wildcard mask (other than 0.0.0.0 and 255.255.255.255, which are
    netmasks) *)
Definition mask_text (m : str) (p : Z) : Prop :=
  0 <= p <= 32 /\ (digits m p \/ dotted_quad m (2 ^ 32 - 2 ^ (32 - p)) \/ 1 <= p <= 31 /\ dotted_quad m (2 ^ (32 - p) - 1)).
(** The text [s] of the IPv4 address [ip] with prefix length [p] *)
Definition text_v4 (s : str) (ip p : Z) : Prop :=
  exists a, dotted_quad a ip /\ (s = a /\ p = 32 \/ exists m, s = a ++ "/" :: m /\ mask_text m p).
(** The same with white space before a mask, too *)
Definition text_v4_gap (s : str) (ip p : Z) : Prop :=
  text_v4 s ip p \/
  exists a g m, dotted_quad a ip /\ g <> [] /\ forallb is_space g = true /\ s = a ++ g ++ m /\ mask_text m p /\ In "." m.
(** The text [s] of the IPv6 address [n] with prefix length [p] *)
Definition text_v6 (s : str) (n p : Z) : Prop :=
  exists a, v6_text a n /\ (s = a /\ p = 128 \/ exists m, s = a ++ "/" :: m /\ digits m p /\ p <= 128).
