(** Model of trunk_vlans_allowed of an NX-OS interface (models_nxos.py:1352-1415) and of the
    CiscoRange methods it calls with a text. *)
From Coq Require Import Ascii String Arith NArith ZArith Bool List.
From Verif Require Import PyStr PyBase SearchModel PyRe RangeModel AttrModel IosModel TrunkModel NxosModel.
Import ListNotations.
Local Open Scope char_scope.
Local Open Scope Z_scope.

(** models_nxos.py:1367-1386 [obj.re_match_typed(...).lower()]; None stands for "_nomatch_" *)
Definition vlan_str (p : string) (t : str) : option str :=
  match rx_find (pattern false (lit p)) t with
  | Some m => match group 1 m with Ok (Some s) => Some (lower s) | _ => None end
  | None => None
  end.
(** 1367-1371 *)
Definition nx_abs_str := vlan_str "^\s+switchport\s+trunk\s+allowed\s+vlan\s(all|none|\d.*?)$".
(** 1372-1376 *)
Definition nx_add_str := vlan_str "^\s+switchport\s+trunk\s+allowed\s+vlan\s+add\s+(\d.*?)$".
(** 1377-1381 *)
Definition nx_exc_str := vlan_str "^\s+switchport\s+trunk\s+allowed\s+vlan\s+except\s+(\d.*?)$".
(** 1382-1386 *)
Definition nx_rem_str := vlan_str "^\s+switchport\s+trunk\s+allowed\s+vlan\s+remove\s+(\d.*?)$".

(** ccp_util.py:5278-5315 with a text, on a range of integers: the types differ unless the
    range is empty; then [int(val)] is stored, and any error is logged and swallowed *)
Definition range_append_text (l : list Z) (v : str) : result (list Z) :=
  match l with
  | _ :: _ => Err MismatchedType
  | [] => match py_int v with Some z => Ok [z] | None => Ok [] end
  end.
(** 5325-5388 with a text: [int(arg)] is taken for the first member of the range already, and
    only TypeError is caught *)
Definition range_remove_text (l : list Z) (v : str) : result (list Z) :=
  match l with
  | [] => Err UnboundLocal
  | _ => match py_int v with None => Err ValueError | Some z => range_remove l z false end
  end.

(** models_nxos.py:1389-1413, one child: the four keys in this order *)
Definition nx_vlan_step (set_list : list Z -> list Z) (retval : list Z) (t : str) : result (list Z) :=
  do retval <- match nx_abs_str t with
               | None => Ok retval
               | Some v => if str_eqb v (lit "all") then range_of_text set_list all_vlans
                           else if str_eqb v (lit "none") then Ok []
                           else range_of_text set_list v
               end;
  do retval <- match nx_add_str t with None => Ok retval | Some v => range_append_text retval v end;
  do retval <- match nx_exc_str t with
               | None => Ok retval
               | Some v => do all <- range_of_text set_list all_vlans; range_remove_text all v
               end;
  match nx_rem_str t with None => Ok retval | Some v => range_remove_text retval v end.
Fixpoint nx_vlan_loop (set_list : list Z -> list Z) (retval : list Z) (kids : list str) : result (list Z) :=
  match kids with
  | [] => Ok retval
  | t :: r => do retval <- nx_vlan_step set_list retval t; nx_vlan_loop set_list retval r
  end.
(** 1352-1415; None stands for the result 0 *)
Definition nx_trunk_vlans_allowed (set_list : list Z -> list Z) (own : str) (below kids : list str) : result (option (list Z)) :=
  do sw <- nx_is_switchport own below;
  do ac <- (if (sw : bool) then nx_has_manual_switch_access own below else Ok true);
  if (sw : bool) && negb ac then
    do retval <- range_of_text set_list all_vlans;
    do retval <- nx_vlan_loop set_list retval kids;
    Ok (Some retval)
  else Ok None.
