(** Model of NX-OS interface lines and vPC domain lines (models_nxos.py).

    [own] is the text of the line, [below] the texts of its all_children in order and [kids]
    those of its children.  The pattern texts are those of the source. *)
From Coq Require Import Ascii String Arith NArith ZArith Bool List.
From Verif Require Import PyStr PyBase SearchModel PyRe IpModel AttrModel IosModel TrunkModel PortModel NameModel.
Import ListNotations.
Local Open Scope char_scope.
Local Open Scope Z_scope.

(** ** Kinds *)

(** models_nxos.py:92-128: [self.text[10]] fails on a text of ten characters *)
Definition nx_is_intf (t : str) : result bool :=
  if starts_with (lit "interface ") t
  then match nth_error t 10 with Some c => Ok (negb (Ascii.eqb c " ")) | None => Err IndexError end
  else Ok false.
(** 245-251 *)
Definition nx_is_ethernet_intf (t : str) : bool := truth (line_match false "^interface\s+(.*?\Sthernet|mgmt)" t).
(** 253-261 *)
Definition nx_intf_in_portchannel := iter_bool "^\s*channel-group\s+(\d+)" 1.
(** 263-272 *)
Definition nx_portchannel_number := iter_int "^\s*channel-group\s+(\d+)" 1 (-1).
(** 282-288: the pattern has no group, and group 1 is asked for *)
Definition nx_is_vpc_peerlink := iter_str "^\s*vpc\s+peer-link" 1.

(** ** Texts, numbers and flags *)

(** 670-677 *)
Definition nx_description := iter_str "^\s*description\s+(\S.+)$" 1.
(** 680-684 *)
Definition nx_manual_speed := iter_int "^\s*speed\s+(\d+)$" 1 0.
(** 687-691 *)
Definition nx_manual_duplex := iter_str "^\s*duplex\s+(\S.+)$" 1.
(** 694-698 *)
Definition nx_manual_beacon := iter_bool "^\s*(beacon)\s*$" 1.
(** 701-705 *)
Definition nx_manual_bandwidth := iter_int "^\s*bandwidth\s+(\d+)$" 1 0.
(** 708-712 *)
Definition nx_manual_delay := iter_int "^\s*delay\s+(\d+)$" 1 0.
(** 725-729 *)
Definition nx_manual_encapsulation := iter_str "^\s*encapsulation\s+(\S+)" 1.
(** 732-736 *)
Definition nx_has_mpls := iter_bool "^\s*(mpls\s+ip\s+forwarding)$" 1.
(** 798-802, 805-809 *)
Definition nx_has_manual_speed := iter_bool "^\s*speed\s+(\d+)$" 1.
Definition nx_has_manual_duplex := iter_bool "^\s*duplex\s+(\S.+)$" 1.
(** 784-794; the branch that raises ValueError is not reached *)
Definition nx_has_autonegotiation (own : str) (below : list str) : result bool :=
  if negb (nx_is_ethernet_intf own) then Ok false
  else do s <- nx_has_manual_speed own below;
       if (s : bool) then Ok false
       else do d <- nx_has_manual_duplex own below; if (d : bool) then Ok false else Ok true.
(** 838-843 *)
Definition nx_manual_clock_rate := iter_int "^\s*clock\s+rate\s+(\d+)$" 1 0.
(** 846-886 *)
Definition nx_manual_mtu := iter_int "^\s*mtu\s+(\d+)$" 1 0.
(** 889-895 *)
Definition nx_manual_mpls_mtu := iter_int "^\s*mpls\s+mtu\s+(\d+)$" 1 0.
(** 898-904 *)
Definition nx_manual_ip_mtu := iter_int "^\s*ip\s+mtu\s+(\d+)$" 1 0.
(** 919-923 *)
Definition nx_is_shutdown := iter_bool "^\s*(shut\S*)\s*$" 1.
(** 930-934; one white character after "member" *)
Definition nx_vrf := iter_str "^\s*vrf\s+member\s(\S+)\s*$" 1.
(** 1230-1234 *)
Definition nx_is_switchport := iter_bool "^\s*(switchport)\s*" 1.
(** 1237-1241 *)
Definition nx_has_manual_switch_access := iter_bool "^\s*(switchport\smode\s+access)\s*$" 1.
(** 1248-1255: group 1 is the whole command *)
Definition nx_manual_switch_trunk_encap := iter_str "^\s*(switchport\s+trunk\s+encapsulation\s+(\S+))\s*$" 1.
(** 1266-1270 *)
Definition nx_has_manual_switch_trunk := iter_bool "^\s*(switchport\s+mode\s+trunk)\s*$" 1.
(** 1310-1322 *)
Definition nx_access_vlan (own : str) (below : list str) : result Z :=
  do s <- nx_is_switchport own below;
  iter_int "^\s*switchport\s+access\s+vlan\s+(\d+)$" 1 (if (s : bool) then 1 else 0) own below.
(** 1419-1431 *)
Definition nx_native_vlan (own : str) (below : list str) : result Z :=
  do s <- nx_is_switchport own below;
  iter_int "^\s*switchport\s+trunk\s+native\s+vlan\s+(\d+)$" 1 (if (s : bool) then 1 else 0) own below.
(** 1340-1346 *)
Definition nx_vpc := iter_int "^\s*vpc\s+(\d+)$" 1 0.
(** 1348-1354 *)
Definition nx_fex_associate_chassis_id := iter_int "^\s*fex\s+associate\s+(\d+)$" 1 0.
(** 1293-1307: [re_match] gives a text, which is not None *)
Definition nx_has_dtp (own : str) (below kids : list str) : result bool :=
  do s <- nx_is_switchport own below;
  if negb s then Ok false else dtp_loop kids.

(** ** Addresses *)

(** 941-956; the inner None says that DynamicAddressException is raised *)
Definition nx_addr_pattern : string := "^\s+ip\s+address\s+(\d+\.\d+\.\d+\.\d+)\s*\/\d+\s*$".
Definition nx_len_pattern : string := "^\s+ip\s+address\s+\d+\.\d+\.\d+\.\d+\s*\/(\d+)\s*$".
Definition nx_dhcp_pattern : string := "^\s+ip\s+address\s+(dhcp)\s*$".
Definition nx_ipv4_addr (own : str) (below : list str) : result (option str) :=
  do retval <- iter_str nx_addr_pattern 1 own below;
  do condition1 <- iter_str nx_dhcp_pattern 1 own below;
  if str_eqb (lower condition1) (lit "dhcp") then Ok None else Ok (Some retval).
(** 958-966 *)
Definition nx_ipv4_masklength := iter_int nx_len_pattern 1 0.
(** 310: IPv4Obj("0.0.0.1/32") *)
Definition nx_default : ipo := {| ip_int := 1; ip_net := 1; ip_plen := 32 |}.
(** 739-746, 756-766; None says that DynamicAddressException is raised *)
Definition nx_ipv4_addr_object (own : str) (below : list str) : option ipo :=
  match nx_ipv4_addr own below with
  | Ok None => None
  | Ok (Some a) =>
      match (do m <- nx_ipv4_masklength own below; ip4_of_str (a ++ "/" :: show_Z m)) with Ok o => Some o | Err _ => Some nx_default end
  | Err _ => Some nx_default
  end.
(** 968-973; the comparison of two objects does not fail *)
Definition nx_ipv4_netmask (own : str) (below : list str) : option str :=
  match nx_ipv4_addr_object own below with
  | None => None
  | Some o => match ne4 (Some o) (Some nx_default) with Ok true => Some (dotted (netmask 32 o)) | _ => Some [] end
  end.
(** 769-781 *)
Definition nx_ip_network_object (own : str) (below : list str) : option ipo :=
  match nx_ipv4_addr own below with
  | Ok None => None
  | Ok (Some a) =>
      match nx_ipv4_netmask own below with
      | None => None
      | Some m => match ip4_of_str (a ++ "/" :: m) with Ok o => Some o | Err _ => Some nx_default end
      end
  | Err _ => Some nx_default
  end.
(** 749-753; None says that DynamicAddressException is raised *)
Definition nx_has_no_ipv4 (own : str) (below : list str) : option bool :=
  match nx_ip_network_object own below with
  | None => None
  | Some o => match eq4 (Some o) (Some nx_default) with Ok b => Some b | Err _ => Some false end
  end.
(** 981-1033; the outer None says that DynamicAddressException is raised, the inner one is
    Python's None *)
Definition nx_in_ipv4_subnet (own : str) (below : list str) (net : option ipo) : option (result (option bool)) :=
  match nx_ipv4_addr_object own below with
  | None => None
  | Some a =>
      if str_eqb (dotted (ip_int a)) (lit "0.0.0.1") then Some (Ok None)
      else match contains4 net (nx_ip_network_object own below) with Ok b => Some (Ok (Some b)) | Err _ => Some (Err ValueError) end
  end.

(** ** Relay addresses *)

(** 1213-1217: [vrf] is not bound if no child contains the words *)
Fixpoint nx_member (kids : list str) : option str :=
  match kids with
  | [] => None
  | t :: r => if contains (lit "vrf member") t then Some (line_match false "vrf\s+member\s+(\S+)" t) else nx_member r
  end.
(** 1219-1227; the third component is "global" *)
Fixpoint nx_relays (vrf : option str) (kids : list str) : result (list (str * str * bool)) :=
  match kids with
  | [] => Ok []
  | t :: r =>
      if contains (lit "dhcp relay address") t then
        let addr := line_match false "ip\s+dhcp\s+relay\s+address\s+(\d+\.\d+\.\d+\.\d+)" t in
        match vrf with
        | None => Err UnboundLocal
        | Some v => do l <- nx_relays vrf r; Ok ((addr, v, false) :: l)
        end
      else nx_relays vrf r
  end.
(** 1194-1227 *)
Definition nx_ip_helper_addresses (kids : list str) : result (list (str * str * bool)) := nx_relays (nx_member kids) kids.
(** 1187-1191 *)
Definition nx_has_ip_helper_addresses (kids : list str) : result bool :=
  do l <- nx_ip_helper_addresses kids; Ok (match l with [] => false | _ => true end).

(** ** vPC domains *)

(** 1793-1798: [str(-1)] without a match *)
Definition vpc_domain_id (own : str) : str :=
  match rx_find (pattern false (lit "^vpc\s+domain\s+(\d+)$")) own with
  | Some m => match group 1 m with Ok (Some s) => s | _ => lit "-1" end
  | None => lit "-1"
  end.
(** 1801-1805 *)
Definition vpc_role_priority := iter_int "^\s+role\s+priority\s+(\d+)" 1 (-1).
(** 1808-1812 *)
Definition vpc_system_priority := iter_int "^\s+system-priority\s+(\d+)" 1 (-1).
(** 1815-1819 *)
Definition vpc_system_mac := iter_str "^\s+system-mac\s+(\S+)" 1.
(** 1822-1826 *)
Definition vpc_peer_config_check_bypass := iter_bool "^\s+(peer-config-check-bypass)" 1.
(** 1829-1833 *)
Definition vpc_peer_switch := iter_bool "^\s+(peer-switch)" 1.
(** 1836-1840 *)
Definition vpc_layer3_peer_router := iter_bool "^\s+(layer3\s+peer-router)" 1.
(** 1843-1847 *)
Definition vpc_peer_gateway := iter_bool "^\s+(peer-gateway)" 1.
(** 1850-1854 *)
Definition vpc_auto_recovery := iter_bool "^\s+(auto-recovery)" 1.
(** 1857-1862 *)
Definition vpc_reload_delay := iter_int "^\s+auto-recovery\s+reload-delay\s+(\d+)" 1 (-1).
(** 1865-1869 *)
Definition vpc_ip_arp_synchronize := iter_bool "(ip\s+arp\s+synchronize)" 1.
(** 1872-1918 vpc_peer_keepalive, one entry of the dictionary each *)
Definition keep_destination := iter_str "peer-keepalive\s+.*?destination\s+(\d+\.\d+\.\d+\.\d+)" 1.
Definition keep_hold_timeout := iter_int "peer-keepalive\s+.*?hold-timeout\s+(\d+)" 1 (-1).
Definition keep_interval := iter_int "peer-keepalive\s+.*?interval\s+(\d+)" 1 (-1).
Definition keep_timeout := iter_int "peer-keepalive\s+.*?timeout\s+(\d+)" 1 (-1).
Definition keep_precedence := iter_str "peer-keepalive\s+.*?precedence\s+(\S+)" 1.
Definition keep_source := iter_str "peer-keepalive\s+.*?source\s+(\d+\.\d+\.\d+\.\d+)" 1.
Definition keep_tos := iter_str "peer-keepalive\s+.*?tos\s+(\S+)" 1.
Definition keep_tos_byte := iter_int "peer-keepalive\s+.*?tos-byte\s+(\S+)" 1 (-1).
Definition keep_udp_port := iter_int "peer-keepalive\s+.*?udp-port\s+(\d+)" 1 (-1).
Definition keep_vrf := iter_str "peer-keepalive\s+.*?vrf\s+(\S+)" 1.
