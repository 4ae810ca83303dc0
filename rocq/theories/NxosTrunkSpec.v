(** Specification side of the NX-OS trunk VLANs.  The statements and what a switch makes of
    them ([stmt], [device]) are those of the IOS property. *)
From Coq Require Import Ascii String ZArith Bool List.
From Verif Require Import PyStr PyBase RangeSpec TrunkSpec IntfSpec IosSpec NxosSpec.
Import ListNotations.
Local Open Scope char_scope.
Local Open Scope Z_scope.

(** The indented words "switchport trunk allowed vlan", then [r]. *)
Definition trunk_head (t r : str) : Prop :=
  exists g1 g2 g3 g4, t = g1 ++ lit "switchport" ++ g2 ++ lit "trunk" ++ g3 ++ lit "allowed" ++ g4 ++ lit "vlan" ++ r /\
    IosSpec.gap g1 /\ IosSpec.gap g2 /\ IosSpec.gap g3 /\ IosSpec.gap g4.
(** A text on one line that begins with a digit. *)
Definition from_digit (v : str) : Prop := exists d r, v = d :: r /\ is_digit d = true /\ no_newline r.
(** The statement gives [v] right after "vlan". *)
Definition gives (v t : str) : Prop := exists x e, trunk_head t (x :: v ++ e) /\ is_space x = true /\ line_end e.
(** The statement has this keyword and the value [v]. *)
Definition changes (kw v t : str) : Prop :=
  exists g g' e, trunk_head t (g ++ kw ++ g' ++ v ++ e) /\ IosSpec.gap g /\ IosSpec.gap g' /\ from_digit v /\ line_end e.

(** Lines and their statements; only one VLAN at a time is added, excepted or removed. *)
Inductive nx_writes : str -> stmt -> Prop :=
| nw_allow t v es : gives v t -> vlan_list v es -> no_newline v -> nx_writes t (SAllow es)
| nw_all t : gives (lit "all") t -> nx_writes t SAll
| nw_none t : gives (lit "none") t -> nx_writes t SNone
| nw_add t v a : changes (lit "add") v t -> denotes v (One a) -> nx_writes t (SAdd [One a])
| nw_except t v a : changes (lit "except") v t -> denotes v (One a) -> nx_writes t (SExcept [One a])
| nw_remove t v a : changes (lit "remove") v t -> denotes v (One a) -> nx_writes t (SRemove [One a])
| nw_other t : (forall r, ~ trunk_head t r) -> nx_writes t SOther.

(** A VLAN is removed only while it is allowed, added only while none is allowed, and excepted
    only from those there are. *)
Definition moderate (ss : list stmt) : Prop :=
  forall pre s post, ss = pre ++ s :: post ->
    match s with
    | SAdd _ => forall x, ~ device pre x
    | SExcept es => forall x, listed es x -> 1 <= x <= 4094
    | SRemove es => forall x, listed es x -> device pre x
    | _ => True
    end.

(** "switchport mode access", with one blank before "mode". *)
Definition access_line (t : str) : Prop := exists a, joined (lit "switchport") (lit "mode") a /\ says_loosely [a; lit "access"] t.
(** A switch port that is not in access mode. *)
Definition trunk_port (own : str) (below : list str) : Prop :=
  (exists t, In t (own :: below) /\ begins_switchport t) /\ forall t, In t (own :: below) -> ~ access_line t.
