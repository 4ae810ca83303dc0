(** Model of attributes of IOS interface lines (models_cisco.py:819-2652).

    An attribute looks at the text of the interface line ([own]) and at the texts of its
    all_children in order ([below]); [kids] are the texts of its children.  The pattern
    texts are those of the source.  Numbers typed [float] are not modelled. *)
From Coq Require Import Ascii String Arith NArith ZArith Bool List.
From Verif Require Import PyStr PyBase SearchModel PyRe IpModel.
Import ListNotations.
Local Open Scope char_scope.
Local Open Scope Z_scope.

(** ** Result types *)

(** [str(x)] *)
Definition to_str (o : option str) : result str := Ok (match o with Some s => s | None => lit "None" end).
(** [int(x)] *)
Definition to_int (o : option str) : result Z :=
  match o with
  | None => Err TypeErr
  | Some s => match py_int s with Some n => Ok n | None => Err ValueError end
  end.
(** [bool(x)] *)
Definition truth (s : str) : bool := match s with [] => false | _ => true end.
Definition to_bool (o : option str) : result bool := Ok (match o with Some s => truth s | None => false end).

(** ccp_abc.py:1342-1374: [re_match_iter_typed] with recurse=True, see SearchModel *)
Definition iter_str (p : string) (g : nat) (own : str) (below : list str) : result str :=
  first_match to_str (Ok []) (pattern false (lit p)) g (own :: below).
Definition iter_int (p : string) (g : nat) (default : Z) (own : str) (below : list str) : result Z :=
  first_match to_int (Ok default) (pattern false (lit p)) g (own :: below).
Definition iter_bool (p : string) (g : nat) (own : str) (below : list str) : result bool :=
  first_match to_bool (Ok false) (pattern false (lit p)) g (own :: below).
(** ccp_abc.py:1375-1419 and 1015-1027: with a groupdict.  The value is None if the group
    did not take part; the inner None of the result says that nothing matched. *)
Definition iter_dict (p : string) (nm : string) (own : str) (below : list str) : option (option str) :=
  match first_found (pattern false (lit p)) (own :: below) with
  | Some m => Some (named (lit p) (lit nm) m)
  | None => None
  end.

(** ** Numbers *)

(** 1323-1327 *)
Definition manual_bandwidth := iter_int "^\s*bandwidth\s+(\d+)$" 1 0.
(** 1332-1336 *)
Definition manual_delay := iter_int "^\s*delay\s+(\d+)$" 1 0.
(** 1341-1346 *)
Definition manual_holdqueue_out := iter_int "^\s*hold-queue\s+(\d+)\s+out$" 1 0.
(** 1351-1356 *)
Definition manual_holdqueue_in := iter_int "^\s*hold-queue\s+(\d+)\s+in$" 1 0.
(** 1570-1575 *)
Definition manual_clock_rate := iter_int "^\s*clock\s+rate\s+(\d+)$" 1 0.
(** 1580-1626 *)
Definition manual_mtu := iter_int "^\s*mtu\s+(\d+)$" 1 0.
(** 1631-1637 *)
Definition manual_mpls_mtu := iter_int "^\s*mpls\s+mtu\s+(\d+)$" 1 0.
(** 1642-1648 *)
Definition manual_ip_mtu := iter_int "^\s*ip\s+mtu\s+(\d+)$" 1 0.
(** 1653-1657 *)
Definition manual_speed := iter_int "^\s*speed\s+(\d+)$" 1 0.
(** 835-845 *)
Definition portchannel_number := iter_int "^\s*channel-group\s+(\d+)" 1 (-1).
(** 2372-2376 *)
Definition xconnect_vc := iter_int "^\s*xconnect\s+\S+\s+(\d+)\s+\S+" 1 0.

(** [bool(n)], as in 1564-1565 has_manual_clock_rate, 1671-1684 has_manual_mtu,
    has_manual_mpls_mtu, has_manual_ip_mtu, 2366-2367 has_xconnect *)
Definition is_set (r : result Z) : result bool := do n <- r; Ok (negb (n =? 0)).
Definition has_manual_clock_rate own below := is_set (manual_clock_rate own below).
Definition has_manual_mtu own below := is_set (manual_mtu own below).
Definition has_manual_mpls_mtu own below := is_set (manual_mpls_mtu own below).
Definition has_manual_ip_mtu own below := is_set (manual_ip_mtu own below).
Definition has_xconnect own below := is_set (xconnect_vc own below).

(** ** Words and texts *)

(** 1311-1318 *)
Definition description := iter_str "^\s*description\s+(\S.*)$" 1.
(** 1361-1365 *)
Definition manual_encapsulation := iter_str "^\s*encapsulation\s+(\S+)" 1.
(** 1662-1666 *)
Definition manual_duplex := iter_str "^\s*duplex\s+(\S.+)$" 1.
(** 1704-1708 *)
Definition vrf := iter_str "^\s*(ip\s+)*vrf\sforwarding\s(\S+)$" 2.
(** 2639-2643 *)
Definition ipv4_accessgroup_in := iter_str "^\s*ip\saccess-group\s+(\S+)\s+in\s*$" 1.
(** 2648-2652 *)
Definition ipv4_accessgroup_out := iter_str "^\s*ip\saccess-group\s+(\S+)\s+out\s*$" 1.
(** 2579-2596; the group always takes part *)
Definition dict_str (o : option (option str)) : str :=
  match o with Some (Some s) => s | _ => [] end.
Definition mac_accessgroup_in own below :=
  dict_str (iter_dict "^\s*mac\saccess-group\s+(?P<group_number>\S+)\s+in\s*$" "group_number" own below).
Definition mac_accessgroup_out own below :=
  dict_str (iter_dict "^\s*mac\saccess-group\s+(?P<group_number>\S+)\s+out\s*$" "group_number" own below).

(** 1698-1699, 2603-2634: [bool(text)] *)
Definition nonblank (r : result str) : result bool := do s <- r; Ok (truth s).
Definition has_vrf own below := nonblank (vrf own below).
Definition has_ip_accessgroup_in own below := nonblank (ipv4_accessgroup_in own below).
Definition has_ip_accessgroup_out own below := nonblank (ipv4_accessgroup_out own below).

(** ** Flags *)

(** 821-831 *)
Definition intf_in_portchannel := iter_bool "^\s*channel-group\s+(\d+)" 1.
(** 1370-1374 *)
Definition has_mpls := iter_bool "^\s*(mpls\s+ip)$" 1.
(** 1520-1524 *)
Definition has_manual_speed := iter_bool "^\s*speed\s+(\d+)$" 1.
(** 1529-1533 *)
Definition has_manual_duplex := iter_bool "^\s*duplex\s+(\S.+)$" 1.
(** 1689-1693 *)
Definition is_shutdown := iter_bool "^\s*(shut\S*)\s*$" 1.

(** ** IPv4 addresses *)

(** 1719-1737 *)
Definition ipv4_addr (own : str) (below : list str) : result str :=
  do retval <- iter_str "^\s+ip\s+address\s+(\d+\.\d+\.\d+\.\d+)\s+\d+\.\d+\.\d+\.\d+\s*$" 1 own below;
  do condition1 <- iter_str "^\s+ip\s+address\s+(dhcp)\s*$" 1 own below;
  do condition2 <- iter_str "^\s+ip\s+address\s+(negotiated)\s*$" 1 own below;
  if str_eqb (lower condition1) (lit "dhcp") then Ok []
  else if str_eqb (lower condition2) (lit "negotiated") then Ok []
  else Ok retval.
(** 1742-1749 *)
Definition ipv4_netmask := iter_str "^\s+ip\s+address\s+\d+\.\d+\.\d+\.\d+\s+(\d+\.\d+\.\d+\.\d+)\s*$" 1.
(** 1379-1395; None stands for the empty IPv4Obj *)
Definition addr_pattern : string := "^\s+ip\s+address\s+(?P<v4addr>\S+)\s+(?P<v4netmask>\d+\.\d+\.\d+\.\d+)".
Definition ipv4_addr_object (own : str) (below : list str) : result (option ipo) :=
  match iter_dict addr_pattern "v4addr" own below, iter_dict addr_pattern "v4netmask" own below with
  | Some (Some a), Some (Some m) =>
      if str_eqb a (lit "dhcp") || str_eqb a (lit "negotiated") then Ok None
      else do o <- ip4_of_str (a ++ "/" :: m); Ok (Some o)
  | _, _ => Ok None
  end.
(** 1754-1759 *)
Definition ipv4_masklength (own : str) (below : list str) : result Z :=
  do o <- ipv4_addr_object own below;
  Ok (match o with Some a => ip_plen a | None => 0 end).
(** 1421-1428 *)
Definition has_ip_secondary (own : str) (below : list str) : bool :=
  truth (dict_str (iter_dict "^\s*ip\s+address\s+\S+\s+\S+\s+(?P<secondary>secondary)\s*$" "secondary" own below)).
(** 1809-1879: membership in a network; None stands for the empty IPv4Obj.  Errors of
    "in" become ValueError. *)
Definition in_ipv4_subnet (own : str) (below : list str) (net : option ipo) : result bool :=
  do a <- ipv4_addr_object own below;
  match a, net with
  | None, _ | _, None => Ok false
  | Some _, Some _ =>
      match contains4 net a with Ok b => Ok b | Err _ => Err ValueError end
  end.

(** 2063-2099: the dictionaries, each as address, vrf and the global flag.  The children's
    own texts are searched. *)
Record helper := { h_addr : str; h_vrf : str; h_global : bool }.
Definition match_typed {T} (conv : option str -> result T) (dflt : T) (p : string) (t : str) : result T :=
  match rx_find (pattern false (lit p)) t with
  | Some m => do v <- group 1 m; match v with Some _ => conv v | None => Ok dflt end
  | None => Ok dflt
  end.
Fixpoint ip_helper_addresses (kids : list str) : result (list helper) :=
  match kids with
  | [] => Ok []
  | t :: r =>
      if contains (lit "helper-address") t then
        do a <- match_typed to_str [] "ip\s+helper-address\s.*?(\d+\.\d+\.\d+\.\d+)" t;
        do g <- match_typed to_bool false "ip\s+helper-address\s+(global)" t;
        do v <- match_typed to_str [] "ip\s+helper-address\s+vrf\s+(\S+)" t;
        do l <- ip_helper_addresses r;
        Ok ({| h_addr := a; h_vrf := v; h_global := g |} :: l)
      else ip_helper_addresses r
  end.
(** 2054-2058 *)
Definition has_ip_helper_addresses (kids : list str) : result bool :=
  do l <- ip_helper_addresses kids; Ok (match l with [] => false | _ => true end).

(** ** HSRP *)

(** 2389-2402 *)
Definition hsrp_ip_addr (own : str) (below : list str) : result str :=
  do a <- ipv4_addr own below;
  if truth a then iter_str "^\s*standby\s+(\d+\s+)*ip\s+(\S+)" 2 own below else Ok [].
(** 2383-2384 *)
Definition has_ip_hsrp own below := nonblank (hsrp_ip_addr own below).
(** 2505-2515 *)
Definition has_hsrp_usebia := iter_bool "^\s*standby\s+(\d+\s+)*(use-bia)" 2.
(** 2519-2529 *)
Definition has_hsrp_preempt := iter_bool "^\s*standby\s+(\d+\s+)*(use-bia)" 2.
(** 2534-2543 *)
Definition hsrp_authentication_md5_keychain := iter_str "^\s*standby\s+(\d+\s+)*authentication\s+md5\s+key-chain\s+(\S+)" 2.
(** 2425-2434 *)
Definition hsrp_group (own : str) (below : list str) : result Z :=
  match iter_dict "^\s*standby\s+(?P<group>\d+)\s+ip\s+(?P<hsrp_addr>\S+)" "group" own below with
  | Some o => to_int o
  | None => Ok (-1)
  end.
(** 2438-2449: the group number is converted as well *)
Definition hsrp_priority (own : str) (below : list str) : result Z :=
  let p := "^\s*standby\s+(?P<group>\d+\s+)*priority\s+(?P<priority>\d+)"%string in
  do h <- has_ip_hsrp own below;
  if h then
    match iter_dict p "group" own below, iter_dict p "priority" own below with
    | Some g, Some q => do _ <- to_int g; to_int q
    | _, _ => Ok 100
    end
  else Ok 0.

(** ** ARP and flags that need an address *)

Definition needs_addr {T} (without : T) (f : str -> list str -> result T) (own : str) (below : list str) : result T :=
  do a <- ipv4_addr own below; if truth a then f own below else Ok without.
(** 1900-1912 *)
Definition has_no_icmp_unreachables := needs_addr false (iter_bool "^\s*no\sip\s(unreachables)\s*$" 1).
(** 1917-1929 *)
Definition has_no_icmp_redirects := needs_addr false (iter_bool "^\s*no\sip\s(redirects)\s*$" 1).
(** 1934-1978 *)
Definition has_no_ip_proxyarp := needs_addr false (iter_bool "^\s*no\sip\s(proxy-arp)\s*$" 1).
(** 1983-1995 *)
Definition has_ip_pim_dense_mode := needs_addr false (iter_bool "^\s*(ip\spim\sdense-mode)\s*$" 1).
(** 2000-2012 *)
Definition has_ip_pim_sparse_mode := needs_addr false (iter_bool "^\s*(ip\spim\ssparse-mode)\s*$" 1).
(** 2034-2049 *)
Definition manual_arp_timeout := needs_addr (-1) (iter_int "^\s*arp\s+timeout\s+(\d+)\s*$" 1 0).
