(** Specification side of the collapsing of networks. *)
From Coq Require Import ZArith Bool List.
From Verif Require Import IpModel IpSpec CollapseModel.
Import ListNotations.
Local Open Scope Z_scope.

(** A network begins at a multiple of its size. *)
Definition size (n : net) : Z := 2 ^ (width (n_six n) - n_plen n).
Definition good_net (n : net) : Prop :=
  0 <= n_plen n <= width (n_six n) /\ (exists k, n_addr n = k * size n) /\ 0 <= n_addr n < 2 ^ width (n_six n).
(** The addresses of a network; an address is its version and its number. *)
Definition holds (n : net) (a : bool * Z) : Prop := fst a = n_six n /\ n_addr n <= snd a < n_addr n + size n.
Definition some_holds (l : list net) (a : bool * Z) : Prop := exists n, In n l /\ holds n a.
(** One after another, without common addresses. *)
Fixpoint ascending (l : list net) : Prop :=
  match l with
  | n :: r => match r with m :: _ => n_six n = n_six m /\ n_addr n + size n <= n_addr m | [] => True end /\ ascending r
  | [] => True
  end.
(** [out] are the largest networks within the addresses of [cover], each once and in order. *)
Definition summary (cover : bool * Z -> Prop) (out : list net) : Prop :=
  Forall good_net out /\ ascending out /\
  (forall a, some_holds out a <-> cover a) /\
  (forall n, good_net n -> (forall a, holds n a -> cover a) -> exists m, In m out /\ forall a, holds n a -> holds m a).

(** ** Arguments *)

(** The addresses of the networks of objects and of networks *)
Definition arg_holds (x : arg) (a : bool * Z) : Prop :=
  match x with
  | Obj4 o => fst a = false /\ in_net 32 (ip_int o) (ip_plen o) (snd a)
  | Obj6 o => fst a = true /\ in_net 128 (ip_int o) (ip_plen o) (snd a)
  | Net n => holds n a
  | Other => False
  end.
Definition covers (l : list arg) (a : bool * Z) : Prop := exists x, In x l /\ arg_holds x a.
Definition good_arg (x : arg) : Prop :=
  match x with
  | Obj4 o => exists ip p, valid 32 ip p /\ o = obj 32 ip p
  | Obj6 o => exists ip p, valid 128 ip p /\ o = obj 128 ip p
  | Net n => good_net n
  | Other => False
  end.
Definition is_six (x : arg) : bool := match x with Obj4 _ | Other => false | Obj6 _ => true | Net n => n_six n end.
