(** What assigning to the attributes of an interface is meant to do, without reference
    to how the object keeps them. *)
From Coq Require Import Ascii String Arith NArith ZArith Bool List.
From Verif Require Import PyStr PyBase IntfModel IntfSetModel.
Import ListNotations.
Local Open Scope char_scope.
Local Open Scope Z_scope.

(** The attributes that an assignment can change. *)
Definition plain (f : field) : Prop := f <> FNumber /\ f <> FSort.
Definition numeric (f : field) : Prop := f = FSlot \/ f = FCard \/ f = FPort \/ f = FSub \/ f = FChan.

(** [takes f v w]: a field f given the value v then reads as w.  A number may be given
    as an integer or as text that [int()] reads; texts lose the white space around
    them, except the separator. *)
Inductive takes : field -> given_value -> given_value -> Prop :=
| T_int f z : numeric f -> takes f (GInt z) (GInt z)
| T_text f s z : numeric f -> py_int s = Some z -> takes f (GText s) (GInt z)
| T_none f : numeric f -> takes f GNone GNone
| T_prefix s : takes FPrefix (GText s) (GText (strip s))
| T_sep s : takes FSep (GText s) (GText s)
| T_class s : takes FClass (GText s) (GText (strip s))
| T_no_class : takes FClass GNone GNone.

(** [ends o l f w]: after the assignments l, made in turn to an object o, the field f
    reads as w: the last value it took, or what it was. *)
Inductive ends (o : parts) : list (field * given_value) -> field -> given_value -> Prop :=
| E_start f : ends o [] f (read o f)
| E_takes l f v w : takes f v w -> ends o (l ++ [(f, v)]) f w
| E_refused l f v w : (forall w', ~ takes f v w') -> ends o l f w -> ends o (l ++ [(f, v)]) f w
| E_other l g v f w : g <> f -> ends o l f w -> ends o (l ++ [(g, v)]) f w.

(** The number of an interface as its fields give it. *)
Inductive numbered (o : parts) : str -> Prop :=
| N_port p : p_slot o = None -> p_card o = None -> p_port o = Some p -> numbered o (show_Z p)
| N_slot k s p : p_sep o = Some k -> p_slot o = Some s -> p_card o = None -> p_port o = Some p -> numbered o (show_Z s ++ k ++ show_Z p)
| N_card k s c p : p_sep o = Some k -> p_slot o = Some s -> p_card o = Some c -> p_port o = Some p ->
    numbered o (show_Z s ++ k ++ show_Z c ++ k ++ show_Z p).

(** What follows the number. *)
Definition shown {A} (x : option A) (f : A -> str) : str := match x with Some a => f a | None => [] end.
Definition tail (o : parts) : str :=
  shown (p_sub o) (fun n => "." :: show_Z n) ++ shown (p_chan o) (fun n => ":" :: show_Z n) ++ shown (p_class o) (fun w => " " :: w).

(** Texts as the constructor and the setters leave them. *)
Definition trimmed (o : parts) : Prop := strip (p_prefix o) = p_prefix o /\ (forall w, p_class o = Some w -> strip w = w).
