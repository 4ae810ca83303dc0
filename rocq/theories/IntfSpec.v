(** Specification side of the interface-name properties. *)
From Coq Require Import Ascii String ZArith Bool List.
From Verif Require Import PyStr PyBase IntfModel.
Import ListNotations.
Local Open Scope char_scope.
Local Open Scope Z_scope.

(** The number of an interface: "3", "1/3" or "1/2/3". *)
Inductive shape := Port (p : Z) | SlotPort (s p : Z) | SlotCardPort (s c p : Z).

(** A way of writing a number: leading zeros are allowed. *)
Definition numeral (t : str) (n : Z) : Prop := 0 <= n /\ exists k, t = repeat "0" k ++ show_Z n.

Inductive writes_shape : str -> shape -> Prop :=
| ws_port a p : numeral a p -> writes_shape a (Port p)
| ws_slot a b s p : numeral a s -> numeral b p -> writes_shape (a ++ "/" :: b) (SlotPort s p)
| ws_card a b d s c p : numeral a s -> numeral b c -> numeral d p -> writes_shape (a ++ "/" :: b ++ "/" :: d) (SlotCardPort s c p).

(** The subinterface and the channel, each optional, in either order. *)
Inductive writes_marks : str -> option Z -> option Z -> Prop :=
| wm_none : writes_marks [] None None
| wm_sub a s : numeral a s -> writes_marks ("." :: a) (Some s) None
| wm_chan a c : numeral a c -> writes_marks (":" :: a) None (Some c)
| wm_both a b s c : numeral a s -> numeral b c -> writes_marks ("." :: a ++ ":" :: b) (Some s) (Some c)
| wm_swap a b s c : numeral a s -> numeral b c -> writes_marks (":" :: b ++ "." :: a) (Some s) (Some c).

Definition white (s : str) : Prop := forallb is_space s = true.

(** The class, such as "point-to-point": letters and dashes, after white space. *)
Definition class_word (w : str) : Prop := w <> [] /\ forallb (fun c => is_alpha c || Ascii.eqb c "-") w = true.
Inductive writes_class : str -> option str -> Prop :=
| wc_none : writes_class [] None
| wc_word g w : white g -> g <> [] -> class_word w -> writes_class (g ++ w) (Some w).

(** The prefix, such as "Ten Gigabit-Ethernet": letters, dashes and white space. *)
Definition prefix_text (q : str) : Prop := forallb (fun c => is_alpha c || Ascii.eqb c "-" || is_space c) q = true.

Definition slot_of (n : shape) : option Z := match n with Port _ => None | SlotPort s _ | SlotCardPort s _ _ => Some s end.
Definition card_of (n : shape) : option Z := match n with SlotCardPort _ c _ => Some c | _ => None end.
Definition port_of (n : shape) : Z := match n with Port p | SlotPort _ p | SlotCardPort _ _ p => p end.

(** The interface with the given components. *)
Definition interface (p : str) (n : shape) (sub chan : option Z) (cl : option str) : intf :=
  {| i_prefix := p; i_sep := match n with Port _ => None | _ => Some ["/"] end;
     i_slot := slot_of n; i_card := card_of n; i_port := port_of n; i_sub := sub; i_chan := chan; i_class := cl |}.

(** Its canonical name. *)
Definition shape_text (n : shape) : str :=
  match n with
  | Port p => show_Z p
  | SlotPort s p => show_Z s ++ ["/"] ++ show_Z p
  | SlotCardPort s c p => show_Z s ++ ["/"] ++ show_Z c ++ ["/"] ++ show_Z p
  end.
Definition opt_text {A} (f : A -> str) (o : option A) : str := match o with None => [] | Some x => f x end.
Definition canonical (p : str) (n : shape) (sub chan : option Z) (cl : option str) : str :=
  p ++ shape_text n ++ opt_text (fun s => "." :: show_Z s) sub ++ opt_text (fun c => ":" :: show_Z c) chan
    ++ opt_text (fun w => " " :: w) cl.

(** Components that can occur: a prefix without surrounding white space, numbers that
    are not negative, a class word. *)
Definition natural (z : Z) : Prop := 0 <= z.
Definition whenever {A} (P : A -> Prop) (o : option A) : Prop := forall x, o = Some x -> P x.
Definition proper (p : str) (n : shape) (sub chan : option Z) (cl : option str) : Prop :=
  prefix_text p /\ strip p = p /\ whenever natural (slot_of n) /\ whenever natural (card_of n) /\ natural (port_of n) /\
  whenever natural sub /\ whenever natural chan /\ whenever class_word cl.

(** ** Order *)

(** Lexicographic comparison of what two interfaces have, in the order slot, card,
    port, subinterface, channel, class: components are compared with [lt], and equal
    ones are passed over. *)
Inductive component := CNum (z : Z) | CWord (w : str) | Absent.
Definition num (o : option Z) : component := match o with None => Absent | Some z => CNum z end.
Definition components (i : intf) : list component :=
  [num (i_slot i); num (i_card i); CNum (i_port i); num (i_sub i); num (i_chan i);
   match i_class i with None => Absent | Some w => CWord w end].

(** The order of words: by code point, a proper prefix first. *)
Definition word_before (a b : str) : Prop :=
  (exists c r, b = a ++ c :: r) \/
  (exists p x y r s, a = p ++ x :: r /\ b = p ++ y :: s /\ (N_of_ascii x < N_of_ascii y)%N).
Inductive comes_first : component -> component -> Prop :=
| cf_num x y : x < y -> comes_first (CNum x) (CNum y)
| cf_word x y : word_before x y -> comes_first (CWord x) (CWord y).
(** Two components that have an order at all. *)
Inductive comparable : component -> component -> Prop :=
| cmp_num x y : comparable (CNum x) (CNum y)
| cmp_word x y : comparable (CWord x) (CWord y).
Definition first_difference (R : component -> component -> Prop) (a b : list component) : Prop :=
  exists k x y, nth_error a k = Some x /\ nth_error b k = Some y /\ x <> y /\ firstn k a = firstn k b /\ R x y.
Definition before (a b : intf) : Prop := first_difference comes_first (components a) (components b).
(** The same components are present. *)
Definition same_shape (a b : intf) : Prop :=
  Forall2 (fun x y => x = Absent <-> y = Absent) (components a) (components b).
