(** Specification side of ASA service groups: the ports the lines of a group stand for. *)
From Coq Require Import Ascii String ZArith Bool List Sorted.
From Verif Require Import PyStr L4Model L4Spec RangeSpec IntfSpec IosSpec.
Import ListNotations.
Local Open Scope char_scope.

(** The transport protocols a word of a line stands for, in order. *)
Inductive transports : str -> list str -> Prop :=
| tr_tcp : transports (lit "tcp") [lit "tcp"]
| tr_udp : transports (lit "udp") [lit "udp"]
| tr_both : transports (lit "tcp-udp") [lit "tcp"; lit "udp"].

(** What is written after "port-object", and the ports of a protocol it stands for.  A single port
    is written with two characters at least. *)
Definition port_text (op rest : str) (names : list (str * Z)) (l : list Z) : Prop :=
  (op = lit "eq" /\ 2 <= length rest /\ exists p, names_port names rest p /\ (1 <= p <= 65535)%Z /\ l = [p]) \/
  (op = lit "range" /\ exists v g w a b, rest = v ++ g ++ w /\ blank g /\ g <> [] /\ ~ In "010" g /\ names_port names v a /\ names_port names w b /\
     (a <= b)%Z /\ StronglySorted Z.lt l /\ forall x, In x l <-> (a <= x <= b)%Z).
(** "port-object eq PORT" and "port-object range FIRST LAST" in a group for the protocol [pr] *)
Definition port_line (pr t : str) (o : l4) : Prop :=
  exists i g1 op g2 rest names, t = i ++ lit "port-object" ++ g1 ++ op ++ g2 ++ rest /\ white i /\ gap g1 /\ gap g2 /\
    protocol_names pr names /\ l4_protocol o = pr /\ port_text op rest names (l4_ports o).
(** "service-object PROTOCOL WORD PORT", whatever the group is for *)
Definition service_line (prs : list str) (t : str) (os : list l4) : Prop :=
  exists i p g1 pr g2 d g3 w e, t = i ++ p ++ g1 ++ pr ++ g2 ++ d ++ g3 ++ w ++ e /\ p = lit "service-object" /\ white i /\ gap g1 /\ gap g2 /\ gap g3 /\
    word d /\ word_ends e /\ transports pr prs /\
    Forall2 (fun q o => l4_protocol o = q /\ exists names z, protocol_names q names /\ names_port names w z /\ (1 <= z <= 65535)%Z /\ l4_ports o = [z]) prs os.
(** "description ..." *)
Definition described (t : str) : Prop := exists i r, t = i ++ lit "description " ++ r /\ white i.

(** The objects of the lines of a group for the protocols [prs], line by line. *)
Inductive services (prs : list str) : list str -> list l4 -> Prop :=
| se_nil : services prs [] []
| se_port t r os l : Forall2 (fun pr o => port_line pr t o) prs os -> services prs r l -> services prs (t :: r) (os ++ l)
| se_service t r ps os l : service_line ps t os -> services prs r l -> services prs (t :: r) (os ++ l)
| se_remark t r l : described t -> services prs r l -> services prs (t :: r) l.

(** "object-group service NAME PROTOCOL" *)
Definition service_head (t p : str) : Prop :=
  exists g1 name g2, t = lit "object-group service " ++ g1 ++ name ++ g2 ++ p /\ white g1 /\ word name /\ gap g2.
