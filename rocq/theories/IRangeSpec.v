(** Specification side of the interface-range properties. *)
From Coq Require Import Ascii String NArith ZArith Bool List Sorted Permutation.
From Verif Require Import PyStr PyBase IntfModel IntfSpec IRangeModel.
Import ListNotations.
Local Open Scope char_scope.
Local Open Scope Z_scope.

(** [list(set(l))]: one member of [l] for each class of equal members, in some order. *)
Definition member_order (f : list intf -> list intf) : Prop :=
  forall l, (forall x, In x (f l) -> In x l) /\
            (forall x, In x l -> exists y, In y (f l) /\ intf_eq x y = true) /\
            ForallOrdPairs (fun x y => intf_eq x y = false) (f l).

(** The number a range runs over: the channel of an interface that has one, else the
    subinterface, else the port. *)
Inductive runs_over : intf -> attr -> Prop :=
| ro_channel i c : i_chan i = Some c -> runs_over i AChannel
| ro_subinterface i s : i_chan i = None -> i_sub i = Some s -> runs_over i ASubinterface
| ro_port i : i_chan i = None -> i_sub i = None -> runs_over i APort.
Definition number_of (a : attr) (i : intf) : option Z :=
  match a with AChannel => i_chan i | ASubinterface => i_sub i | APort => Some (i_port i) end.

(** The interface [i] with another number and class. *)
Definition renumbered (a : attr) (n : Z) (cl : option str) (i : intf) : intf :=
  {| i_prefix := i_prefix i; i_sep := i_sep i; i_slot := i_slot i; i_card := i_card i;
     i_port := match a with APort => n | _ => i_port i end;
     i_sub := match a with ASubinterface => Some n | _ => i_sub i end;
     i_chan := match a with AChannel => Some n | _ => i_chan i end;
     i_class := cl |}.

(** A character that is no digit, superscript digits included. *)
Definition no_digit (c : ascii) : Prop := is_digit c = false /\ ~ In (N_of_ascii c) [178; 179; 185]%N.

(** One part of the text: the name of the interface [i], whose number is [v]; or such a
    name, a dash and the last number, after which there may be other text. *)
Inductive writes_part (a : attr) : str -> intf -> Z -> Z -> Prop :=
| wp_name h i v : ~ In "-" h -> intf_of_name h = Ok i -> number_of a i = Some v -> writes_part a h i v v
| wp_range h i v g d e r : ~ In "-" h -> intf_of_name h = Ok i -> number_of a i = Some v ->
    white g -> numeral d e -> (forall c, In c r -> no_digit c /\ c <> "-" /\ c <> ",") ->
    writes_part a (h ++ "-" :: g ++ d ++ r) i v e.

(** The class: the last word of the text if there is no digit in it, else the class of
    the first name. *)
Definition last_word (t w : str) : Prop :=
  w <> [] /\ (forall c, In c w -> is_space c = false) /\
  exists r post, t = r ++ w ++ post /\ white post /\ (r = [] \/ exists u c, r = u ++ [c] /\ is_space c = true).
Inductive range_class (t : str) (i : intf) : option str -> Prop :=
| rc_word w : last_word t w -> (forall c, In c w -> no_digit c) -> range_class t i (Some w)
| rc_first w c : last_word t w -> In c w -> ~ no_digit c -> range_class t i (i_class i).

(** Two interfaces that < can compare. *)
Definition can_compare (x y : intf) : Prop :=
  components x = components y \/ first_difference comparable (components x) (components y).
(** In ascending order; members with the same numbers may follow each other. *)
Definition ascending (l : list intf) : Prop := StronglySorted (fun x y => components x = components y \/ before x y) l.
(** The same interface, whatever the separator. *)
Definition same (x y : intf) : Prop := i_prefix x = i_prefix y /\ components x = components y.
(** An interface whose attributes fit together, as those read from a name do. *)
Definition whole (i : intf) : Prop := exists p n sub chan cl, i = interface p n sub chan cl.
