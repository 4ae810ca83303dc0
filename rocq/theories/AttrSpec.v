(** Specification side of the attributes of addresses. *)
From Coq Require Import Ascii String ZArith Bool List.
From Verif Require Import PyStr IpModel IpSpec.
Import ListNotations.
Local Open Scope char_scope.
Local Open Scope Z_scope.

(** The text [s] spells the number [v] in base [b] with digits 0-9 and a-f. *)
Inductive spells (b : Z) : str -> Z -> Prop :=
| sp_one c d : 0 <= d < b -> nth_error (lit "0123456789abcdef") (Z.to_nat d) = Some c -> spells b [c] d
| sp_more s v c d : spells b s v -> 0 <= d < b -> nth_error (lit "0123456789abcdef") (Z.to_nat d) = Some c -> spells b (s ++ [c]) (b * v + d).
(** Numbers put side by side, each one below [m] *)
Definition combine (m : Z) (l : list Z) : Z := fold_left (fun a v => a * m + v) l 0.
(** Texts of length [w] in base [b] that spell the parts of [n], each below [m] *)
Definition parts_of (b m : Z) (w : nat) (l : list str) (n : Z) : Prop :=
  exists vs, Forall2 (fun s v => spells b s v /\ length s = w) l vs /\ Forall (fun v => 0 <= v < m) vs /\ combine m vs = n.
(** The address a.b.c.d *)
Definition v4 (a b c d : Z) : Z := ((a * 256 + b) * 256 + c) * 256 + d.
(** All addresses of the network *)
Definition all_of (W ip p : Z) (P : Z -> Prop) : Prop := forall a, in_net W ip p a -> P a.
(** The network [b] = address/length contains [a]. *)
Definition in_range (W : Z) (b : Z * Z) (a : Z) : Prop := 0 <= a < 2 ^ W /\ a / 2 ^ (W - snd b) = fst b / 2 ^ (W - snd b).
(** IPv6 addresses outside those given out (RFC 4291): all that do not begin with 001, 1111110,
    11111110 1 or 11111111 *)
Definition unassigned (a : Z) : Prop :=
  let h := a / 2 ^ 112 in h < 8192 \/ 16384 <= h < 64512 \/ 65024 <= h < 65152.

(** The address of eight groups *)
Definition v6 (l : list Z) : Z := combine 65536 l.
(** The networks CPython 3.11 calls private, and the exceptions inside them *)
Definition private_blocks4 : list (Z * Z) :=
  [(v4 0 0 0 0, 8); (v4 10 0 0 0, 8); (v4 127 0 0 0, 8); (v4 169 254 0 0, 16); (v4 172 16 0 0, 12); (v4 192 0 0 0, 24);
   (v4 192 0 0 170, 31); (v4 192 0 2 0, 24); (v4 192 168 0 0, 16); (v4 198 18 0 0, 15); (v4 198 51 100 0, 24); (v4 203 0 113 0, 24);
   (v4 240 0 0 0, 4); (v4 255 255 255 255, 32)].
Definition global_blocks4 : list (Z * Z) := [(v4 192 0 0 9, 32); (v4 192 0 0 10, 32)].
Definition private_blocks6 : list (Z * Z) :=
  [(v6 [0;0;0;0;0;0;0;1], 128); (v6 [0;0;0;0;0;0;0;0], 128); (v6 [0;0;0;0;0;65535;0;0], 96); (v6 [100;65435;1;0;0;0;0;0], 48);
   (v6 [256;0;0;0;0;0;0;0], 64); (v6 [8193;0;0;0;0;0;0;0], 23); (v6 [8193;3512;0;0;0;0;0;0], 32); (v6 [8194;0;0;0;0;0;0;0], 16);
   (v6 [64512;0;0;0;0;0;0;0], 7); (v6 [65152;0;0;0;0;0;0;0], 10)].
Definition global_blocks6 : list (Z * Z) :=
  [(v6 [8193;1;0;0;0;0;0;1], 128); (v6 [8193;1;0;0;0;0;0;2], 128); (v6 [8193;3;0;0;0;0;0;0], 32); (v6 [8193;4;274;0;0;0;0;0], 48);
   (v6 [8193;32;0;0;0;0;0;0], 28); (v6 [8193;48;0;0;0;0;0;0], 28)].
