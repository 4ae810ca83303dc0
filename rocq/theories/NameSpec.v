(** Specification side of the interface naming properties. *)
From Coq Require Import Ascii String ZArith Bool List.
From Verif Require Import PyStr PyBase IntfSpec IosSpec RouteSpec.
Import ListNotations.
Local Open Scope char_scope.

(** Subinterface numbers: nothing, ".100", ".1.2", ... *)
Inductive dotted : str -> Prop :=
| do_nil : dotted []
| do_more d s : digits d -> dotted s -> dotted ("." :: d ++ s).
(** Further words such as "point-to-point", each after one white character. *)
Inductive trailing : str -> Prop :=
| tr_nil : trailing []
| tr_more c w e : is_space c = true -> word w -> trailing e -> trailing (c :: w ++ e).
(** The number without the subinterface: it begins with a digit, has no white space and does
    not end in a dot and digits. *)
Definition base (b : str) : Prop :=
  word b /\ (exists c r, b = c :: r /\ is_digit c = true) /\ ~ exists a d, b = a ++ "." :: d /\ digits d.
(** "interface", the type, the number, the subinterface number, further words. *)
Definition named_so (t T b s : str) : Prop :=
  exists g e, t = lit "interface " ++ T ++ g ++ b ++ s ++ e /\ class_word T /\ white g /\ base b /\ dotted s /\ trailing e.
(** [v] abbreviates an interface of type [T] with number [n]: some first letters of the type in any
    case, perhaps a space, then the number. *)
Definition abbreviates (v T n : str) : Prop :=
  exists p q, p <> [] /\ lower T = p ++ q /\ (lower v = p ++ n \/ lower v = p ++ " " :: n).
(** "interface", white space, then this. *)
Definition interface_of (P : str -> Prop) (t : str) : Prop := exists g r, t = lit "interface" ++ g ++ r /\ gap g /\ P r.
