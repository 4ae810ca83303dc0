(** Model of further attributes of an IOS interface (models_cisco.py): IPv6 and secondary
    addresses, and the switchport flags.  [own] is the text of the interface line, [below] the texts
    of its all_children, [kids] those of its children. *)
From Coq Require Import Ascii String Arith NArith ZArith Bool List.
From Verif Require Import PyStr PyBase SearchModel PyRe IpModel Ip6TextModel IosModel TrunkModel.
Import ListNotations.
Local Open Scope char_scope.
Local Open Scope Z_scope.

(** ** IPv6 *)

(** 1764-1787 *)
Definition v6addr_pattern : string := "^\s+ipv6\s+address\s+(?P<v6addr>[^\/]+)".
Definition ipv6_addr (own : str) (below : list str) : result str :=
  do retval <- iter_str v6addr_pattern 1 own below;
  do condition1 <- iter_str "^\s+ipv6\s+address\s+(dhcp)\s*$" 1 own below;
  do condition2 <- iter_str "^\s+ipv6\s+address\s+(autoconfig)\s*$" 1 own below;
  do condition3 <- iter_str "^\s+ipv6\s+address\s+(negotiated)\s*$" 1 own below;
  if str_eqb (lower condition1) (lit "dhcp") then Ok []
  else if str_eqb (lower condition2) (lit "autoconfig") then Ok []
  else if str_eqb (lower condition3) (lit "negotiated") then Ok []
  else Ok retval.
(** 1400-1416; None stands for the empty IPv6Obj.  A group that takes part is not empty. *)
Definition v6obj_pattern : string := "^\s+ipv6\s+address\s+(?P<v6addr>\S+?)\/(?P<v6masklength>\d+)".
Definition ipv6_addr_object (own : str) (below : list str) : result (option ipo) :=
  match iter_dict v6obj_pattern "v6addr" own below, iter_dict v6obj_pattern "v6masklength" own below with
  | Some (Some a), Some (Some m) =>
      if str_eqb a (lit "dhcp") || str_eqb a (lit "negotiated") then Ok None
      else do o <- ip6_of_str (a ++ "/" :: m); Ok (Some o)
  | _, _ => Ok None
  end.
(** 1792-1797; an object that is not empty differs from the empty one (ccp_util.py:1917-1939) *)
Definition ipv6_masklength (own : str) (below : list str) : result Z :=
  do o <- ipv6_addr_object own below;
  Ok (match o with Some a => ip_plen a | None => 0 end).

(** ** Secondary IPv4 addresses *)

(** 1433-1460.  The interface line is its own parent; [fam] are its all_children, each with its text
    and the texts of its own all_children.  The set is given as a list. *)
Definition secondary_pattern : string := "^\s*ip\s+address\s+(?P<secondary>\S+\s+\S+)\s+secondary\s*$".
Fixpoint secondaries (show : ipo -> str) (fam : list (str * list str)) : result (list str) :=
  match fam with
  | [] => Ok []
  | (own, below) :: r =>
      match iter_dict secondary_pattern "secondary" own below with
      | Some (Some s) => do o <- ip4_of_str s; do l <- secondaries show r; Ok (show o :: l)
      | _ => secondaries show r
      end
  end.
Definition ip_secondary_addresses := secondaries (fun o => dotted (ip_int o)).
Definition ip_secondary_networks := secondaries (fun o => dotted (ip_int o) ++ "/" :: show_Z (ip_plen o)).

(** ** Switchport flags *)

(** 2128-2133 *)
Fixpoint manual_switch_trunk_encap (kids : list str) : str :=
  match kids with
  | [] => []
  | t :: r =>
      let parts := words (strip t) in
      if Nat.eqb (length parts) 4 && strs_eqb (firstn 3 parts) [lit "switchport"; lit "trunk"; lit "encap"]
      then nth 3 parts [] else manual_switch_trunk_encap r
  end.
(** 2122-2123 *)
Definition has_manual_switch_trunk_encap (kids : list str) : bool := truth (manual_switch_trunk_encap kids).
(** 2138-2142 *)
Definition has_manual_switch_trunk (kids : list str) : bool :=
  existsb (fun t => begins_with [lit "switchport"; lit "mode"; lit "trunk"] (strip t)) kids.
(** 2147-2156 *)
Definition has_switch_portsecurity (kids : list str) : result bool :=
  do s <- is_switchport kids;
  if negb s then Ok false else Ok (existsb (fun t => begins_with [lit "switchport"; lit "port-security"] (strip t)) kids).
(** 2161-2167 *)
Definition has_switch_stormcontrol (kids : list str) : result bool :=
  do s <- is_switchport kids;
  if negb s then Ok false else Ok (existsb (fun t => begins_with [lit "storm-control"] (strip t)) kids).
(** ccp_abc.py:1097-1140 [re_match]; a text is not None *)
Definition re_match1 (p : string) (t : str) : result (option str) :=
  match rx_find (pattern false (lit p)) t with Some m => group 1 m | None => Ok (Some []) end.
(** 2172-2183 *)
Fixpoint dtp_loop (kids : list str) : result bool :=
  match kids with
  | [] => Ok true
  | t :: r =>
      do switch <- re_match1 "^\s*(switchport\snoneg\S*)\s*$" t;
      match switch with Some _ => Ok false | None => dtp_loop r end
  end.
Definition has_dtp (kids : list str) : result bool :=
  do s <- is_switchport kids;
  if negb s then Ok false else dtp_loop kids.
(** 2354-2359 *)
Definition has_manual_disable_cdp (kids : list str) : bool :=
  existsb (fun t => let parts := words (strip t) in Nat.eqb (length parts) 3 && strs_eqb (firstn 3 parts) [lit "no"; lit "cdp"; lit "enable"]) kids.
(** 2563-2574 *)
Definition has_mac_accessgroup_in (own : str) (below kids : list str) : result bool :=
  do s <- is_switchport kids;
  if negb s then Ok false else Ok (truth (mac_accessgroup_in own below)).
Definition has_mac_accessgroup_out (own : str) (below kids : list str) : result bool :=
  do s <- is_switchport kids;
  if negb s then Ok false else Ok (truth (mac_accessgroup_out own below)).
