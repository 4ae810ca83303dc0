(** Specification side of the line classes: the rule for each class. *)
From Coq Require Import Ascii String ZArith Bool List.
From Verif Require Import PyStr PyBase IntfSpec IosSpec RouteSpec.
Import ListNotations.
Local Open Scope char_scope.

(** The first words of the line are these. *)
Definition first (ws : list string) : str -> Prop := line_of white word_ends (map lit ws).
(** The line begins with these words; the last one may go on. [lead] comes before them. *)
Definition begins (lead : str -> Prop) (ws : list string) : str -> Prop := line_of lead (fun _ => True) (map lit ws).
(** The words with one white character between them. *)
Inductive tight : list str -> str -> Prop :=
| ti_one w : tight [w] w
| ti_more w c ws p : is_space c = true -> tight ws p -> tight (w :: ws) (w ++ c :: p).
(** Somewhere in the line. *)
Definition within (P : str -> Prop) (l : str) : Prop := exists a p b, l = a ++ p ++ b /\ P p.
Definition starts (w : string) (l : str) : Prop := exists r, l = lit w ++ r.
Definition none : str -> Prop := eq [].

(** "interface" as the first word, indented or not. *)
Definition intf_line : str -> Prop := first ["interface"]%string.
Definition route_line (l : str) : Prop := starts "ip route " l \/ starts "ipv6 route " l.
Definition global_line (l : str) : Prop :=
  begins none ["no"; "cdp"; "run"]%string l \/ within (phrase (map lit ["logging"; "event"; "link-status"; "global"]%string)) l \/
  within (tight (map lit ["spanning-tree"; "portfast"; "default"]%string)) l \/
  within (tight (map lit ["spanning-tree"; "portfast"; "bpduguard"; "default"]%string)) l.
Definition group_line (l : str) : Prop := exists p e, l = p ++ e /\ tight (map lit ["aaa"; "group"; "server"]%string) p.
(** "aaa group server", a protocol and a name, and nothing else. *)
Definition group_server (l : str) : Prop :=
  exists proto name p e, l = p ++ e /\ word proto /\ word name /\ tight [lit "aaa"; lit "group"; lit "server"; proto; name] p /\ white e.
(** A static route, as far as it is needed: the words up to the mask. *)
Definition ip_route (l : str) : Prop :=
  exists v a b p e, l = p ++ e /\ given word v /\ quad a /\ quad b /\ phrase ([lit "ip"; lit "route"] ++ arg "vrf" v ++ [a; b]) p.
