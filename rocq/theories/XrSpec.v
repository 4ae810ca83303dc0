(** Specification side of the IOS-XR interface names (C73). *)
From Coq Require Import Ascii String ZArith Bool List.
From Verif Require Import PyStr PyBase IntfModel IntfSpec XrModel.
Import ListNotations.
Local Open Scope char_scope.
Local Open Scope Z_scope.

(** Letters and digits. *)
Definition alnum (c : ascii) : bool := is_alpha c || is_digit c.
Definition word (w : str) : Prop := w <> [] /\ forallb alnum w = true.
(** What may follow the port: nothing, or something that does not go on with it. *)
Definition breaks (f : ascii -> bool) (t : str) : Prop := match t with [] => True | c :: _ => f c = false end.
(** After slot and port, what could be taken for a separator must not follow either: one of the
    marks ":", ".", "-", "^" or white space does. *)
Definition mark_char (c : ascii) : bool := existsb (Ascii.eqb c) [":"; "."; "-"; "^"] || is_space c.
Definition mark_first (t : str) : Prop := match t with [] => True | c :: _ => mark_char c = true end.

(** What may stand between the numbers: "/" does, and so would "#". *)
Definition divider (k : ascii) : Prop := alnum k = false /\ mark_char k = false /\ k <> ",".

(** An interface by its parts: "Bundle-Ether3", "Ethernet0/3", "MgmtEth0/RP0/CPU0/3". *)
Inductive xshape := XPort (p : Z) | XSlotPort (s p : Z) | XRack (s : Z) (card proc : str) (p : Z).
Definition xinterface (q : str) (n : xshape) (sub chan : option Z) (cl : option str) : xr :=
  match n with
  | XPort p => mkXr q None None None None p sub chan cl
  | XSlotPort s p => mkXr q (Some ["/"]) (Some s) None None p sub chan cl
  | XRack s c r p => mkXr q (Some ["/"]) (Some s) (Some c) (Some r) p sub chan cl
  end.
Definition xshape_text (n : xshape) : str :=
  match n with
  | XPort p => show_Z p
  | XSlotPort s p => show_Z s ++ ["/"] ++ show_Z p
  | XRack s c r p => show_Z s ++ ["/"] ++ c ++ ["/"] ++ r ++ ["/"] ++ show_Z p
  end.
Definition xcanonical (q : str) (n : xshape) (sub chan : option Z) (cl : option str) : str :=
  q ++ xshape_text n ++ opt_text (fun s => "." :: show_Z s) sub ++ opt_text (fun c => ":" :: show_Z c) chan
    ++ opt_text (fun w => " " :: w) cl.
Definition xproper_shape (n : xshape) : Prop :=
  match n with
  | XPort p => 0 <= p
  | XSlotPort s p => 0 <= s /\ 0 <= p
  | XRack s c r p => 0 <= s /\ word c /\ word r /\ 0 <= p
  end.
Definition xproper (q : str) (n : xshape) (sub chan : option Z) (cl : option str) : Prop :=
  prefix_text q /\ strip q = q /\ xproper_shape n /\ whenever natural sub /\ whenever natural chan /\ whenever class_word cl.
(** What comes back when such a name is read: behind a slot the rest is not looked at. *)
Definition reread (q : str) (n : xshape) (sub chan : option Z) (cl : option str) : xr :=
  match n with XPort _ => xinterface q n sub chan cl | _ => xinterface q n None None None end.

(** What two interfaces are compared by, as texts, in this order. *)
Definition text_part (o : option str) : component := match o with Some s => CWord s | None => Absent end.
Definition xcomponents (x : xr) : list component :=
  [text_part (option_map show_Z (x_slot x)); text_part (x_card x); text_part (x_proc x); CWord (show_Z (x_port x));
   text_part (option_map show_Z (x_sub x)); text_part (option_map show_Z (x_chan x)); text_part (x_class x)].
