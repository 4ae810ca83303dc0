(** Specification side of HSRP groups. *)
From Coq Require Import Ascii String ZArith Bool List Sorted.
From Verif Require Import PyStr PyBase IntfSpec IosSpec RouteSpec FactorySpec.
Import ListNotations.
Local Open Scope char_scope.

(** The words of the line, in any case of letters, are [ws]. *)
Definition caseless (ws : list str) (t : str) : Prop :=
  exists us, Forall word us /\ map lower us = ws /\ line_of white white us t.
(** "standby", the number of the group, the word [w] and then [rest]. *)
Definition standby_cmd (g : Z) (w : string) (t : str) (rest : list str) : Prop := caseless (lit "standby" :: show_Z g :: lit w :: rest) t.
(** The first line that says something decides; if none does, [r] is the default.  [value] gives
    the value for what the line says. *)
Definition first_says {V} (says : str -> list str -> Prop) (value : list str -> V -> Prop) (lines : list str) (default : result V) (r : result V) : Prop :=
  (exists pre t post rest, lines = pre ++ t :: post /\ (forall u x, In u pre -> ~ says u x) /\ says t rest /\ forall v, value rest v -> r = Ok v) \/
  ((forall u x, In u lines -> ~ says u x) /\ r = default).

(** The value is the last of the words after "ip" or "ipv6". *)
Definition last_is (rest : list str) (v : str) : Prop := exists r, rest = r ++ [v].
(** The value is the number written first, or last. *)
Definition first_number (rest : list str) (n : Z) : Prop := exists d r, rest = d :: r /\ numeral d n.
Definition last_number (rest : list str) (n : Z) : Prop := exists d r, rest = r ++ [d] /\ numeral d n.
Definition version_cmd (t : str) (rest : list str) : Prop := caseless (lit "standby" :: lit "version" :: rest) t.

(** Timers, in seconds or in milliseconds.  What is written after "timers" is the time between
    hellos and the time after which a neighbour is lost. *)
Inductive time := Sec (n : Z) | Msec (n : Z).
Inductive writes_time : list str -> time -> Prop :=
| wt_sec d n : numeral d n -> writes_time [d] (Sec n)
| wt_msec d n : numeral d n -> writes_time [lit "msec"; d] (Msec n).
Definition timers (rest : list str) (hello hold : time) : Prop :=
  exists a b, rest = a ++ b /\ writes_time a hello /\ writes_time b hold.

(** "standby", a number, and a word that begins with "ip", as the first words of the line. *)
Definition group_line (t : str) (n : Z) : Prop :=
  exists d e i p q, numeral d n /\ t = i ++ p ++ e /\ white i /\ phrase [lit "standby"; d; lit "ip" ++ q] p /\ forallb (fun c => negb (is_space c)) q = true /\ word_ends e.
(** Those words somewhere in the line. *)
Definition mentions_group (t : str) : Prop :=
  exists a g d h b, t = a ++ lit "standby" ++ g ++ d ++ h ++ lit "ip" ++ b /\ gap g /\ digits d /\ gap h.
(** The line "standby", one white character, the group, "track", an interface of one word of two
    or more characters and the decrement, ten if it is not written. *)
Definition track_line (g : Z) (t i : str) (n : Z) : Prop :=
  word i /\ (2 <= length i)%nat /\
  exists a c h1 h2 tail, t = a ++ lit "standby" ++ [c] ++ show_Z g ++ h1 ++ lit "track" ++ h2 ++ i ++ tail /\ white a /\ is_space c = true /\ gap h1 /\ gap h2 /\
    ((tail = [] /\ n = 10%Z) \/ exists h3 d, tail = h3 ++ d /\ gap h3 /\ numeral d n).
(** The tracked interfaces, in order: every line that says "standby G track ..." is of that form. *)
Definition track_cmd (g : Z) (t : str) : Prop := exists rest, Forall word rest /\ says_loosely (lit "standby" :: show_Z g :: lit "track" :: rest) t.
Inductive tracks (g : Z) : list (str * list str) -> list (str * Z) -> Prop :=
| tr_nil : tracks g [] []
| tr_skip t b cs l : ~ track_cmd g t -> tracks g cs l -> tracks g ((t, b) :: cs) l
| tr_take t b i n cs l : track_line g t i n -> tracks g cs l -> tracks g ((t, b) :: cs) ((i, n) :: l).
