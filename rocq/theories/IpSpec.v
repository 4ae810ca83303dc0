(** Vocabulary of the address properties. *)
From Coq Require Import ZArith.
From Verif Require Import IpModel.
Local Open Scope Z_scope.

(** The first address of the block of [2^(W-p)] addresses that contains [ip]. *)
Definition first (W ip p : Z) : Z := ip / 2 ^ (W - p) * 2 ^ (W - p).
(** The object written ip/p. *)
Definition obj (W ip p : Z) : ipo := {| ip_int := ip; ip_net := first W ip p; ip_plen := p |}.
Definition valid (W ip p : Z) : Prop := 0 <= ip < 2 ^ W /\ 0 <= p <= W.

(** The addresses of the network of ip/p: those with the same leading [p] bits. *)
Definition in_net (W ip p a : Z) : Prop := 0 <= a < 2 ^ W /\ a / 2 ^ (W - p) = ip / 2 ^ (W - p).
Definition included (W ip p ip' p' : Z) : Prop := forall a, in_net W ip p a -> in_net W ip' p' a.

(** By network, then prefix length, then address. *)
Definition before (W a p b q : Z) : Prop :=
  first W a p < first W b q \/
  (first W a p = first W b q /\ (p < q \/ (p = q /\ a < b))).
