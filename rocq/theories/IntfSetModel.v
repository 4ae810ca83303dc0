(** Model of the attributes of a CiscoIOSInterface read and assigned after it was built
    (ccp_util.py:3457-3819).  Here every number, the port included, may be None. *)
From Coq Require Import Ascii String Arith NArith ZArith Bool List.
From Verif Require Import PyStr PyBase IntfModel.
Import ListNotations.
Local Open Scope char_scope.
Local Open Scope Z_scope.

(** The attributes with an underscore of an initialised object. *)
Record parts := {
  p_prefix : str; p_sep : option str;
  p_slot : option Z; p_card : option Z; p_port : option Z;
  p_sub : option Z; p_chan : option Z; p_class : option str }.

(** A freshly built object: IntfModel. *)
Definition fresh (i : intf) : parts :=
  {| p_prefix := i_prefix i; p_sep := i_sep i; p_slot := i_slot i; p_card := i_card i; p_port := Some (i_port i);
     p_sub := i_sub i; p_chan := i_chan i; p_class := i_class i |}.

(** A value given to a setter; a list is told apart for [sort_list] only, and the
    contents of a list do not matter. *)
Inductive given_value := GInt (z : Z) | GText (s : str) | GNone | GList | GOther.

(** The attributes with a setter. *)
Inductive field := FPrefix | FSep | FSlot | FCard | FPort | FSub | FChan | FClass | FNumber | FSort.

(** 3684-3692, 3707-3715, 3730-3738, 3750-3758, 3770-3778: the setters of a number *)
Definition number_of_value (v : given_value) : result (option Z) :=
  match v with
  | GInt z => Ok (Some z)
  | GText s => match py_int s with Some z => Ok (Some z) | None => Err ValueError end
  | GNone => Ok None
  | GList | GOther => Err ValueError
  end.

(** 3560-3566 *)
Definition set_prefix (o : parts) (v : given_value) : result parts :=
  match v with
  | GText s => Ok {| p_prefix := strip s; p_sep := p_sep o; p_slot := p_slot o; p_card := p_card o; p_port := p_port o;
                     p_sub := p_sub o; p_chan := p_chan o; p_class := p_class o |}
  | _ => Err ValueError
  end.

Definition is_none {A} (x : option A) : bool := match x with None => true | Some _ => false end.

(** 3630-3643 *)
Definition set_sep (o : parts) (v : given_value) : result parts :=
  match v with
  | GText s => Ok {| p_prefix := p_prefix o; p_sep := Some s; p_slot := p_slot o; p_card := p_card o; p_port := p_port o;
                     p_sub := p_sub o; p_chan := p_chan o; p_class := p_class o |}
  | _ => if negb (is_none (p_slot o)) || negb (is_none (p_card o)) then Err ValueError else Ok o
  end.

(** 3684-3692 *)
Definition set_slot (o : parts) (v : given_value) : result parts :=
  bind (number_of_value v) (fun n =>
  Ok {| p_prefix := p_prefix o; p_sep := p_sep o; p_slot := n; p_card := p_card o; p_port := p_port o;
        p_sub := p_sub o; p_chan := p_chan o; p_class := p_class o |}).
(** 3707-3715 *)
Definition set_card (o : parts) (v : given_value) : result parts :=
  bind (number_of_value v) (fun n =>
  Ok {| p_prefix := p_prefix o; p_sep := p_sep o; p_slot := p_slot o; p_card := n; p_port := p_port o;
        p_sub := p_sub o; p_chan := p_chan o; p_class := p_class o |}).
(** 3730-3738 *)
Definition set_port (o : parts) (v : given_value) : result parts :=
  bind (number_of_value v) (fun n =>
  Ok {| p_prefix := p_prefix o; p_sep := p_sep o; p_slot := p_slot o; p_card := p_card o; p_port := n;
        p_sub := p_sub o; p_chan := p_chan o; p_class := p_class o |}).
(** 3750-3758 *)
Definition set_sub (o : parts) (v : given_value) : result parts :=
  bind (number_of_value v) (fun n =>
  Ok {| p_prefix := p_prefix o; p_sep := p_sep o; p_slot := p_slot o; p_card := p_card o; p_port := p_port o;
        p_sub := n; p_chan := p_chan o; p_class := p_class o |}).
(** 3770-3778 *)
Definition set_chan (o : parts) (v : given_value) : result parts :=
  bind (number_of_value v) (fun n =>
  Ok {| p_prefix := p_prefix o; p_sep := p_sep o; p_slot := p_slot o; p_card := p_card o; p_port := p_port o;
        p_sub := p_sub o; p_chan := n; p_class := p_class o |}).
(** 3793-3801 *)
Definition set_class (o : parts) (v : given_value) : result parts :=
  let with_class c :=
    Ok {| p_prefix := p_prefix o; p_sep := p_sep o; p_slot := p_slot o; p_card := p_card o; p_port := p_port o;
          p_sub := p_sub o; p_chan := p_chan o; p_class := c |} in
  match v with
  | GText s => with_class (Some (strip s))
  | GNone => with_class None
  | _ => Err ValueError
  end.
(** 3602-3603: the value is kept in an attribute that the getter (3571-3597) overwrites before reading *)
Definition set_number (o : parts) (v : given_value) : result parts := Ok o.
(** 3813-3819: the value is kept in an attribute that nothing reads (3806-3808) *)
Definition set_sort (o : parts) (v : given_value) : result parts :=
  match v with GList => Ok o | _ => Err ValueError end.

(** [o.field = v] *)
Definition assign (o : parts) (f : field) (v : given_value) : result parts :=
  match f with
  | FPrefix => set_prefix o v | FSep => set_sep o v | FSlot => set_slot o v | FCard => set_card o v | FPort => set_port o v
  | FSub => set_sub o v | FChan => set_chan o v | FClass => set_class o v | FNumber => set_number o v | FSort => set_sort o v
  end.

(** A program of assignments, each within [try: ... except ValueError: pass]; the object
    is the same one all along. *)
Fixpoint assigns (o : parts) (l : list (field * given_value)) : parts :=
  match l with
  | [] => o
  | (f, v) :: r => assigns (match assign o f v with Ok o' => o' | Err _ => o end) r
  end.

(** ** Reading *)

(** A property may give a value, raise, or end the interpreter (3582). *)
Inductive outcome (A : Type) := Gives (a : A) | Raises (e : pyerr) | Exits (code : Z).
Arguments Gives {A} a.
Arguments Raises {A} e.
Arguments Exits {A} code.

(** 3783-3788 *)
Definition interface_class (o : parts) : option str := option_map strip (p_class o).

(** What the f-string makes of [digit_separator]. *)
Definition sep_text (o : parts) : str := match p_sep o with Some s => s | None => lit "None" end.

(** 3571-3597; the object is initialised *)
Definition number (o : parts) : outcome str :=
  match p_slot o, p_card o, p_port o with
  | None, None, None => Exits 99
  | None, None, Some p => Gives (show_Z p)
  | Some s, None, Some p => Gives (show_Z s ++ sep_text o ++ show_Z p)
  | Some s, Some c, Some p => Gives (show_Z s ++ sep_text o ++ show_Z c ++ sep_text o ++ show_Z p)
  | _, _, _ => Raises ValueError
  end.

(** 3519-3532, 3536-3537, 3547-3548: [render_as_string], [str(o)], [o.name] *)
Definition name (o : parts) : outcome str :=
  let cl := match interface_class o with None => [] | Some w => " " :: w end in
  match number o with
  | Gives n =>
      Gives (match p_sub o, p_chan o with
             | None, None => p_prefix o ++ n ++ cl
             | Some s, None => p_prefix o ++ n ++ "." :: show_Z s ++ cl
             | None, Some c => p_prefix o ++ n ++ ":" :: show_Z c ++ cl
             | Some s, Some c => p_prefix o ++ n ++ "." :: show_Z s ++ ":" :: show_Z c ++ cl
             end)
  | Raises e => Raises e
  | Exits k => Exits k
  end.

(** 3541-3542 *)
Definition repr (o : parts) : outcome str :=
  match name o with
  | Gives n => Gives (lit "<CiscoIOSInterface " ++ n ++ lit ">")
  | r => r
  end.

(** 3648-3669 *)
Definition slot_card_port_subinterface_channel (o : parts) : result str :=
  let cl := match interface_class o with None => [] | Some w => " " :: strip w end in
  match p_sep o, p_slot o, p_card o, p_port o, p_sub o, p_chan o with
  | Some k, Some s, Some c, Some p, Some n, Some h =>
      Ok (show_Z s ++ k ++ show_Z c ++ k ++ show_Z p ++ "." :: show_Z n ++ ":" :: show_Z h ++ cl)
  | Some k, Some s, Some c, Some p, Some n, None => Ok (show_Z s ++ k ++ show_Z c ++ k ++ show_Z p ++ "." :: show_Z n ++ cl)
  | Some k, Some s, Some c, Some p, None, None => Ok (show_Z s ++ k ++ show_Z c ++ k ++ show_Z p ++ cl)
  | Some k, Some s, None, Some p, None, None => Ok (show_Z s ++ k ++ show_Z p ++ cl)
  | _, None, None, Some p, None, None => Ok (show_Z p ++ cl)
  | _, _, _, _, _, _ => Err ValueError
  end.

(** 3608-3618 *)
Definition number_list (o : parts) : list (option Z) := [p_slot o; p_card o; p_port o].

(** 3084-3106, 3806-3808: the numbers and the class *)
Definition sort_list (o : parts) : list (option Z) * option str :=
  ([p_slot o; p_card o; p_port o; p_sub o; p_chan o], p_class o).

(** 3485-3492: [a == b] for two interfaces *)
Definition opt_eqb {A} (f : A -> A -> bool) (x y : option A) : bool :=
  match x, y with Some a, Some b => f a b | None, None => true | _, _ => false end.
Fixpoint all_eqb (x y : list (option Z)) : bool :=
  match x, y with
  | [], [] => true
  | a :: x', b :: y' => opt_eqb Z.eqb a b && all_eqb x' y'
  | _, _ => false
  end.
Definition equal (a b : parts) : bool :=
  str_eqb (p_prefix a) (p_prefix b) && (all_eqb (fst (sort_list a)) (fst (sort_list b)) && opt_eqb str_eqb (snd (sort_list a)) (snd (sort_list b))).

(** Reading one of the settable attributes (3553-3555, 3623-3625, 3674-3788), as a Python value. *)
Definition of_number (n : option Z) : given_value := match n with Some z => GInt z | None => GNone end.
Definition of_text (t : option str) : given_value := match t with Some s => GText s | None => GNone end.
Definition read (o : parts) (f : field) : given_value :=
  match f with
  | FPrefix => GText (p_prefix o)
  | FSep => of_text (p_sep o)
  | FSlot => of_number (p_slot o) | FCard => of_number (p_card o) | FPort => of_number (p_port o)
  | FSub => of_number (p_sub o) | FChan => of_number (p_chan o)
  | FClass => of_text (interface_class o)
  | FNumber => match number o with Gives n => GText n | _ => GOther end
  | FSort => GList
  end.

(** 3471-3482: [as_dict()], whose keys are the names of eight of the fields *)
Definition as_dict (o : parts) : field -> given_value := read o.

(** 3457-3468: [from_dict(d)], which starts from [CiscoIOSInterface("Ethernet1")] *)
Definition ethernet1 : parts :=
  {| p_prefix := lit "Ethernet"; p_sep := None; p_slot := None; p_card := None; p_port := Some 1; p_sub := None; p_chan := None; p_class := None |}.
Definition from_dict (d : field -> given_value) : result parts :=
  bind (set_prefix ethernet1 (d FPrefix)) (fun o =>
  bind (set_sep o (d FSep)) (fun o =>
  bind (set_slot o (d FSlot)) (fun o =>
  bind (set_card o (d FCard)) (fun o =>
  bind (set_port o (d FPort)) (fun o =>
  bind (set_sub o (d FSub)) (fun o =>
  bind (set_chan o (d FChan)) (fun o =>
  set_class o (d FClass)))))))).
