(** Model of CiscoRange with interface members (ccp_util.py:4729-5552): the default
    result_type str and result_type None both give CiscoIOSInterface members
    (4796-4798, 4862-4865).  The state is [_list].

    [set_list] stands for [list(set(..))], whose order Python leaves open. *)
From Coq Require Import Ascii String Arith NArith ZArith Bool List.
From Verif Require Import PyStr PyBase RangeModel IntfModel.
Import ListNotations.
Local Open Scope char_scope.
Local Open Scope Z_scope.

(** [str.isdigit] on one character: superscript two, three and one count. *)
Definition str_isdigit (c : ascii) : bool :=
  is_digit c || (code c =? 178)%N || (code c =? 179)%N || (code c =? 185)%N.

(** ** Expansion of a text *)

(** 4929-4932: the attribute that is iterated.  The port is never None, so "card" and
    "slot" are not reached. *)
Inductive attr := AChannel | ASubinterface | APort.
Definition get_attr (a : attr) (i : intf) : option Z :=
  match a with AChannel => i_chan i | ASubinterface => i_sub i | APort => Some (i_port i) end.
Definition iter_attr (b : intf) : attr :=
  match i_chan b with
  | Some _ => AChannel
  | None => match i_sub b with Some _ => ASubinterface | None => APort end
  end.

(** The setters 3730-3779.  They take None for the channel and the subinterface; the
    port of an object is not None, so None is not given for the port. *)
Definition set_attr (a : attr) (v : option Z) (i : intf) : intf :=
  {| i_prefix := i_prefix i; i_sep := i_sep i; i_slot := i_slot i; i_card := i_card i;
     i_port := match a, v with APort, Some p => p | _, _ => i_port i end;
     i_sub := match a with ASubinterface => v | _ => i_sub i end;
     i_chan := match a with AChannel => v | _ => i_chan i end;
     i_class := i_class i |}.
Definition set_class (c : str) (i : intf) : intf :=
  {| i_prefix := i_prefix i; i_sep := i_sep i; i_slot := i_slot i; i_card := i_card i; i_port := i_port i;
     i_sub := i_sub i; i_chan := i_chan i; i_class := Some c |}.

(** [_csv_part.split("-")[0]] *)
Definition head_of (part : str) : str := hd [] (split_on "-" part).

(** 4893-4917: the object of the first part.  The last word of the whole text is the
    interface class if it has no digit. *)
Definition begin_obj (text part : str) : result intf :=
  do b <- intf_of_name (head_of part);
  do _ <- intf_of_dict b;
  match rev (words text) with
  | [] => Err IndexError
  | w :: _ => if existsb str_isdigit w then Ok b else intf_of_dict (set_class w b)
  end.

(** 4939-4951: a later part gives the iterated attribute only *)
Definition later_obj (a : attr) (b : intf) (part : str) : result intf :=
  do o <- intf_of_name (strip (head_of part)); Ok (set_attr a (get_attr a o) b).

(** 4967-5111: [from_dict] (3457-3467) copies the attributes *)
Definition expand_part (a : attr) (this : intf) (part : str) : result (list intf) :=
  if has_char "-" part then
    match split_on "-" part with
    | [x; y] =>
        do o <- intf_of_name (strip x);
        do e <- int_or_err (filter str_isdigit (strip y));
        match get_attr a o with
        | None => Err TypeErr
        | Some s => Ok (map (fun n => set_attr a (Some n) this) (interval s e))
        end
    | _ => Err InvalidCiscoRange
    end
  else Ok [this].

Fixpoint later_parts (a : attr) (b : intf) (parts : list str) : result (list intf) :=
  match parts with
  | [] => Ok []
  | p :: r =>
      do t <- later_obj a b p;
      do l <- expand_part a t p;
      do m <- later_parts a b r;
      Ok (l ++ m)
  end.

(** 4875-5111: the loop *)
Definition expand_intfs (text : str) : result (list intf) :=
  match split_on "," text with
  | [] => Ok []
  | p :: r =>
      do b <- begin_obj text p;
      do l <- expand_part (iter_attr b) b p;
      do m <- later_parts (iter_attr b) b r;
      Ok (l ++ m)
  end.

(** [sorted(l, key=lambda x: x.sort_list)], also [sorted(l)], as [__lt__] compares the
    sort lists.  Python compares other pairs than this insertion does.  The outcome is
    the same: two neighbours in the sorted list have been compared in either case, and
    if some pair has no order then so have two neighbours. *)
Fixpoint insert_intf (x : intf) (l : list intf) : result (list intf) :=
  match l with
  | [] => Ok [x]
  | y :: r =>
      do b <- intf_lt y x;
      if b then (do r' <- insert_intf x r; Ok (y :: r')) else Ok (x :: l)
  end.
Fixpoint sort_intfs (l : list intf) : result (list intf) :=
  match l with
  | [] => Ok []
  | x :: r => do r' <- sort_intfs r; insert_intf x r'
  end.

(** 5232-5263 with a target list *)
Definition attribute_sort (l : list intf) : result (list intf) :=
  match l with [] => Err ValueError | _ => sort_intfs l end.

(** 4765-4810 and 5113-5127: [CiscoRange(text)] *)
Definition irange_of_text (set_list : list intf -> list intf) (text : str) : result (list intf) :=
  match text with
  | [] => Ok []
  | _ =>
      if contains (lit ",,") text then Err InvalidCiscoRange
      else do l <- expand_intfs text; attribute_sort (set_list l)
  end.

(** ** Operations *)

(** 5206-5214 *)
Definition irange_add (set_list : list intf -> list intf) (self other : list intf) : result (list intf) :=
  sort_intfs (set_list (self ++ other)).

(** [list.remove] *)
Fixpoint remove_intf (x : intf) (l : list intf) : list intf :=
  match l with
  | [] => []
  | y :: r => if intf_eq y x then r else y :: remove_intf x r
  end.
(** 5216-5228 with another range *)
Definition irange_sub (self other : list intf) : list intf := fold_left (fun l x => remove_intf x l) other self.

Definition imem (x : intf) (l : list intf) : bool := existsb (fun y => intf_eq y x) l.

(** 5278-5315 with an interface, sort=True, ignore_errors=False, on a range made with
    result_type None or from a text; errors while copying or sorting are logged and
    the range is left as it is (5311-5313). *)
Definition irange_append (l : list intf) (v : intf) : result (list intf) :=
  if imem v l then Err DuplicateMember
  else
    let copied := match l with [] => Ok v | _ => intf_of_dict v end in
    match (do v' <- copied; attribute_sort (l ++ [v'])) with
    | Ok l' => Ok l'
    | Err _ => Ok l
    end.

(** 5325-5388 with an interface: no type in the list at 5343 is the type of the
    members, so [new_list] is not bound when it is read. *)
Definition irange_remove (l : list intf) (v : intf) (ignore_errors : bool) : result (list intf) :=
  if negb (imem v l) && ignore_errors then Ok l else Err UnboundLocal.

Fixpoint copy_all (l : list intf) : result (list intf) :=
  match l with
  | [] => Ok []
  | x :: r => do y <- intf_of_dict x; do m <- copy_all r; Ok (y :: m)
  end.
(** 5392-5434 with result_type "auto": the returned list and the new state.  Members
    have a [sort_list], so 5396-5404 lists each of them twice.  Any error becomes a
    ValueError.  (On an empty range the empty set is returned.) *)
Definition irange_as_list (set_list : list intf -> list intf) (reverse : bool) (l : list intf) : result (list intf) * list intf :=
  (match (do s <- sort_intfs (set_list (l ++ l)); copy_all s) with
   | Ok s => Ok (if reverse then rev s else s)
   | Err _ => Err ValueError
   end, l ++ l).

(** 5465-5520: the members' type is not an instance of an interface class *)
Definition irange_compressed (l : list intf) : result str :=
  match l with [] => Ok [] | _ => Err UnexpectedType end.
