(** Vocabulary of the port specification properties. *)
From Coq Require Import Ascii String ZArith Bool List.
From Verif Require Import PyStr L4Model.
Import ListNotations.
Local Open Scope Z_scope.

Definition blank (g : str) : Prop := forallb is_space g = true.

(** The protocols and their port names. *)
Inductive protocol_names : str -> list (str * Z) -> Prop :=
| p_tcp : protocol_names (lit "tcp") asa_tcp_ports
| p_udp : protocol_names (lit "udp") asa_udp_ports.

(** [w] stands for port [p]: it is a name of the protocol or the number. *)
Definition names_port (ports : list (str * Z)) (w : str) (p : Z) : Prop :=
  In (w, p) ports \/ w = show_Z p.
