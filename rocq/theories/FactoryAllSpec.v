(** Specification side of the line classes of the other syntaxes: the rule for each class. *)
From Coq Require Import Ascii String ZArith Bool List.
From Verif Require Import PyStr PyBase IntfSpec IosSpec RouteSpec NameSpec FactorySpec XrSpec AsaIntfSpec.
Import ListNotations.
Local Open Scope char_scope.

(** The line begins with these words, one white character between them. *)
Definition tightly (ws : list string) (l : str) : Prop := exists p e, l = p ++ e /\ tight (map lit ws) p.
(** The line begins with this text, in small or capital letters. *)
Definition low_starts (w : string) (l : str) : Prop := exists x r, l = x ++ r /\ lower x = lit w.
(** "interface" and a name that begins with a letter or a digit; not indented. *)
Definition nx_interface : str -> Prop := interface_of (fun r => exists c s, r = c :: s /\ alnum c = true).
(** "interface" and at least two characters; not indented. *)
Definition long_interface : str -> Prop := interface_of (fun r => exists c d s, r = c :: d :: s /\ is_space c = false /\ d <> "010").
(** "ip route", a dotted quad, a slash and digits. *)
Definition nx_ip_route (t : str) : Prop :=
  exists g g' a l e, t = lit "ip" ++ g ++ lit "route" ++ g' ++ a ++ "/" :: l ++ e /\ gap g /\ gap g' /\ quad a /\ digits l.

(** The class of the first rule that holds of the line; without one it is the last class. *)
Definition first_rule {C} (rules : list (C * (str -> Prop))) (last : C) (c : C) (l : str) : Prop :=
  (exists pre P post, rules = pre ++ (c, P) :: post /\ P l /\ forall c' P', In (c', P') pre -> ~ P' l) \/
  (c = last /\ forall c' P', In (c', P') rules -> ~ P' l).
