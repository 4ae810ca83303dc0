(** Specification side of the static routes: a command and how it is written. *)
From Coq Require Import Ascii String ZArith Bool List.
From Verif Require Import PyStr PyBase IntfSpec IosSpec.
Import ListNotations.
Local Open Scope char_scope.

(** The parts of an "ip route" command. *)
Record route := {
  r_vrf : option str; r_prefix : str; r_mask : str;
  r_intf : option str; r_addr : option str;
  r_dhcp : bool; r_global : bool; r_ad : option str; r_multicast : bool; r_name : option str;
  r_permanent : bool; r_track : option str; r_tag : option str }.

Definition here (o : option str) : list str := match o with Some v => [v] | None => [] end.
Definition flag (w : string) (b : bool) : list str := if b then [lit w] else [].
Definition arg (w : string) (o : option str) : list str := match o with Some v => [lit w; v] | None => [] end.

Definition digits (d : str) : Prop := d <> [] /\ forallb is_digit d = true.
(** The name of an interface as it can follow a mask: at least two characters, and no
    digit comes first. *)
Definition intf_name (i : str) : Prop := word i /\ exists c x r, i = c :: x :: r /\ is_digit c = false.
Definition given (P : str -> Prop) (o : option str) : Prop := match o with Some v => P v | None => True end.
(** Every part is of its kind. *)
Definition well_formed (r : route) : Prop :=
  given word (r_vrf r) /\ quad (r_prefix r) /\ quad (r_mask r) /\ given intf_name (r_intf r) /\ given quad (r_addr r) /\
  given digits (r_ad r) /\ given word (r_name r) /\ given digits (r_track r) /\ given digits (r_tag r).

(** The words before the next hop, and those after it. *)
Definition before_hop (r : route) : list str := [lit "ip"; lit "route"] ++ arg "vrf" (r_vrf r) ++ [r_prefix r].
Definition after_hop (r : route) : list str :=
  flag "dhcp" (r_dhcp r) ++ flag "global" (r_global r) ++ here (r_ad r) ++ flag "multicast" (r_multicast r) ++ arg "name" (r_name r) ++
  flag "permanent" (r_permanent r) ++ arg "track" (r_track r) ++ arg "tag" (r_tag r).
(** All the words in their order. *)
Definition route_words (r : route) : list str :=
  before_hop r ++ [r_mask r] ++ here (r_intf r) ++ here (r_addr r) ++ after_hop r.
(** The text is this command: over an interface, with any white space; or to an address,
    with one white character before that address. *)
Definition writes (r : route) (t : str) : Prop :=
  match r_intf r, r_addr r with
  | Some _, _ => line_of (eq []) white (route_words r) t
  | None, Some a => exists ma, joined (r_mask r) a ma /\ line_of (eq []) white (before_hop r ++ [ma] ++ after_hop r) t
  | None, None => False
  end.
