(** Specification side of IPv6 texts (RFC 4291 section 2.2, RFC 5952): what a text stands for and
    how an address is written. *)
From Coq Require Import Ascii String ZArith Bool List.
From Verif Require Import PyStr.
Import ListNotations.
Local Open Scope char_scope.
Local Open Scope Z_scope.

(** A hexadecimal digit, in either case, and a number made of such digits *)
Definition hex_digit (c : ascii) (d : Z) : Prop :=
  0 <= d < 16 /\ (nth_error (lit "0123456789abcdef") (Z.to_nat d) = Some c \/ nth_error (lit "0123456789ABCDEF") (Z.to_nat d) = Some c).
Inductive hex_number : str -> Z -> Prop :=
| hn_one c d : hex_digit c d -> hex_number [c] d
| hn_more s v c d : hex_number s v -> hex_digit c d -> hex_number (s ++ [c]) (16 * v + d).
(** A group: one to four digits *)
Definition hextet (h : str) (v : Z) : Prop := hex_number h v /\ (length h <= 4)%nat.
(** Four decimal numbers *)
Definition dotted_quad (t : str) (q : Z) : Prop :=
  exists a b c d, 0 <= a <= 255 /\ 0 <= b <= 255 /\ 0 <= c <= 255 /\ 0 <= d <= 255 /\
    t = join ["."] [show_Z a; show_Z b; show_Z c; show_Z d] /\ q = ((a * 256 + b) * 256 + c) * 256 + d.
(** Groups, the last of which may be an IPv4 address, and their 16-bit values *)
Inductive groups : list str -> list Z -> Prop :=
| gr_hex l vs : Forall2 hextet l vs -> groups l vs
| gr_v4 l vs t q : Forall2 hextet l vs -> dotted_quad t q -> groups (l ++ [t]) (vs ++ [q / 65536; q mod 65536]).
(** The address made of eight 16-bit values *)
Definition value (l : list Z) : Z := fold_left (fun a v => a * 65536 + v) l 0.

(** The text [t] stands for the address [n]: eight groups, or fewer with "::" for the zeros that
    are missing. *)
Inductive v6_text : str -> Z -> Prop :=
| v6_full l vs : groups l vs -> length vs = 8%nat -> v6_text (join [":"] l) (value vs)
| v6_short hi a lo b n : Forall2 hextet hi a -> groups lo b -> (length a + n + length b = 8)%nat -> (1 <= n)%nat ->
    v6_text (join [":"] hi ++ lit "::" ++ join [":"] lo) (value (a ++ repeat 0 n ++ b)).

(** The text [s] of an object: an address with a prefix length after "/" or white space, or an
    address alone; white space around it *)
Definition space (s : str) : Prop := forallb is_space s = true.
Inductive written : str -> Z -> Z -> Prop :=
| wr_slash i t e n p : space i -> space e -> v6_text t n -> 0 <= p <= 128 -> written (i ++ t ++ "/" :: show_Z p ++ e) n p
| wr_gap i t g e n p : space i -> space g -> g <> [] -> space e -> v6_text t n -> 0 <= p <= 128 -> written (i ++ t ++ g ++ show_Z p ++ e) n p
| wr_alone i t e n : space i -> space e -> v6_text t n -> written (i ++ t ++ e) n 128.

(** The way an address is written (RFC 5952): groups in lower case without zeros in front, "::" for
    the longest run of zero groups, if there are two in it at least, the first such run. *)
Definition plain (h : str) (v : Z) : Prop :=
  hextet h v /\ lower h = h /\ (h = ["0"] \/ hd "0" h <> "0").
Definition run_at (vs : list Z) (k n : nat) : Prop :=
  (k + n <= length vs)%nat /\ forall i, (k <= i < k + n)%nat -> nth i vs 1 = 0.
Inductive canonical (vs : list Z) : str -> Prop :=
| ca_full l : Forall2 plain l vs -> (forall k, ~ run_at vs k 2) -> canonical vs (join [":"] l)
| ca_short hi lo k n : (2 <= n)%nat -> run_at vs k n ->
    (forall k' n', run_at vs k' n' -> (n' <= n)%nat) -> (forall k', run_at vs k' n -> (k <= k')%nat) ->
    Forall2 plain hi (firstn k vs) -> Forall2 plain lo (skipn (k + n) vs) -> canonical vs (join [":"] hi ++ lit "::" ++ join [":"] lo).
