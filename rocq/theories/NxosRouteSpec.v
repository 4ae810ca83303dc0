(** Specification side of the NX-OS static routes: a command and how it is written. *)
From Coq Require Import Ascii String ZArith Bool List.
From Verif Require Import PyStr PyBase IntfSpec IosSpec RouteSpec.
Import ListNotations.
Local Open Scope char_scope.

(** The parts of an "ip route" command. *)
Record nxroute := {
  n_prefix : str; n_len : str; n_intf : option str; n_addr : option str;
  n_track : option str; n_name : option str; n_tag : option str; n_ad : option str }.
(** Every part is of its kind. *)
Definition nx_formed (r : nxroute) : Prop :=
  quad (n_prefix r) /\ digits (n_len r) /\ given intf_name (n_intf r) /\ given quad (n_addr r) /\
  given digits (n_track r) /\ given word (n_name r) /\ given digits (n_tag r) /\ given digits (n_ad r).
Definition destination (r : nxroute) : str := n_prefix r ++ "/" :: n_len r.
(** The words after the next hop, and all of them. *)
Definition nx_after (r : nxroute) : list str := arg "track" (n_track r) ++ arg "name" (n_name r) ++ arg "tag" (n_tag r) ++ here (n_ad r).
Definition nx_words (r : nxroute) : list str := [lit "ip"; lit "route"; destination r] ++ here (n_intf r) ++ here (n_addr r) ++ nx_after r.
(** The text is this command: over an interface, with any white space; or to an address, with
    one white character before that address. *)
Definition nx_route_writes (r : nxroute) (t : str) : Prop :=
  match n_intf r, n_addr r with
  | Some _, _ => line_of (eq []) white (nx_words r) t
  | None, Some a => exists da, joined (destination r) a da /\ line_of (eq []) white ([lit "ip"; lit "route"; da] ++ nx_after r) t
  | None, None => False
  end.
