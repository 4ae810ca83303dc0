(** Model of ASA interface, name, route and hostname lines (models_asa.py).

    [own] is the text of the interface line, [below] the texts of its all_children in order,
    [kids] those of its children; [t] is the text of any other line.  The pattern texts are
    those of the source. *)
From Coq Require Import Ascii String Arith NArith ZArith Bool List.
From Verif Require Import PyStr PyBase SearchModel PyRe IpModel IosModel TrunkModel PortModel NameModel.
Import ListNotations.
Local Open Scope char_scope.
Local Open Scope Z_scope.

(** [re.search] compiles its pattern first, and raises re.error if it cannot *)
Definition compiled {T} (p : string) (k : result T) : result T :=
  match compile false (lit p) with Some _ => k | None => Err ReErr end.

(** ** Kinds and names *)

(** models_asa.py:103-108; the group takes part and is not empty *)
Definition asa_is_intf (t : str) : bool := truth (line_match false "^interface\s+(\S+.+)" t).
(** 112-117 *)
Definition asa_is_subintf (t : str) : bool := truth (line_match false "^interface\s+(\S+?\.\d+)" t).
(** 120-125 *)
Definition asa_is_virtual_intf (t : str) : bool :=
  truth (line_match false "^interface\s+(Loopback|Tunnel|Virtual-Template|Port-Channel)" t).
(** 128-133 *)
Definition asa_is_loopback_intf (t : str) : bool := truth (line_match false "^interface\s+(\Soopback)" t).
(** 136-141 *)
Definition asa_is_ethernet_intf (t : str) : bool := truth (line_match false "^interface\s+(.*?\Sthernet)" t).
(** 224-227 *)
Definition asa_name (t : str) : str := if asa_is_intf t then join [" "] (tl (words t)) else [].
(** 238-241 *)
Definition asa_port_type (t : str) : str := line_match false "^interface\s+([A-Za-z\-]+)" t.
(** 245-257 *)
Fixpoint ints (l : list str) : result (list Z) :=
  match l with
  | [] => Ok []
  | s :: r => match py_int s with None => Err ValueError | Some v => do t <- ints r; Ok (v :: t) end
  end.
Definition asa_ordinal_list (t : str) : result (list Z) :=
  if negb (asa_is_intf t) then Ok []
  else match line_match false "^interface\s+[A-Za-z\-]+\s*(\d+.*?)(\.\d+)*(\s\S+)*\s*$" t with
       | [] => Ok []
       | intf_number => ints (split_on "/" intf_number)
       end.
(** 232-234: [ordinal_list[-1]] *)
Definition asa_port (t : str) : result Z :=
  do l <- asa_ordinal_list t;
  match rev l with [] => Err IndexError | z :: _ => Ok z end.

(** ** Texts, numbers and flags *)

(** 261-265 *)
Definition asa_description := iter_str "^\s*description\s+(\S.+)$" 1.
(** 269-273 *)
Definition asa_manual_delay := iter_int "^\s*delay\s+(\d+)$" 1 0.
(** 403-407 *)
Definition asa_has_manual_speed := iter_bool "^\s*speed\s+(\d+)$" 1.
(** 412-416 *)
Definition asa_has_manual_duplex := iter_bool "^\s*duplex\s+(\S.+)$" 1.
(** 388-398; the branch that raises ValueError is not reached *)
Definition asa_has_autonegotiation (own : str) (below : list str) : result bool :=
  if negb (asa_is_ethernet_intf own) then Ok false
  else do s <- asa_has_manual_speed own below;
       if (s : bool) then Ok false
       else do d <- asa_has_manual_duplex own below; if (d : bool) then Ok false else Ok true.
(** 421-425 *)
Definition asa_is_shutdown := iter_bool "^\s*(shut\S*)\s*$" 1.
(** 530-534 *)
Definition asa_is_switchport := iter_bool "^\s*(switchport)\s*" 1.
(** 539-543 *)
Definition asa_has_manual_switch_access := iter_bool "^\s*(switchport\smode\s+access)\s*$" 1.
(** 548-549: the class has no manual_switch_trunk_encap *)
Definition asa_has_manual_switch_trunk_encap (own : str) (below : list str) : result bool := Err AttributeErr.
(** 554-558 *)
Definition asa_has_manual_switch_trunk := iter_bool "^\s*(switchport\s+mode\s+trunk)\s*$" 1.
(** 563-567 *)
Definition asa_access_vlan := iter_int "^\s*switchport\s+access\s+vlan\s+(\d+)$" 1 0.

(** ** Addresses *)

(** 436-442, 430-432 *)
Definition asa_ipv4_addr := iter_str "^\s+ip\s+address\s+(\d+\.\d+\.\d+\.\d+)" 1.
(** 460-466 *)
Definition asa_ipv4_netmask := iter_str "^\s+ip\s+address\s+\d+\.\d+\.\d+\.\d+\s+(\d+\.\d+\.\d+\.\d+)" 1.
(** 448-454 *)
Definition standby_pattern : string := "^\s+ip\s+address\s+\d+\.\d+\.\d+\.\d+\s+\d+\.\d+\.\d+\.\d+\sstandby\s+(\S+)\s*$".
Definition asa_ipv4_standby_addr := iter_str standby_pattern 1.
(** 299-303, 285-294, 330-334; None stands for the empty IPv4Obj.  Everything that goes wrong
    gives that. *)
Definition object_of (addr mask : result str) : option ipo :=
  match (do a <- addr; do m <- mask; ip4_of_str (a ++ "/" :: m)) with Ok o => Some o | Err _ => None end.
Definition asa_ipv4_addr_object (own : str) (below : list str) : option ipo :=
  object_of (asa_ipv4_addr own below) (asa_ipv4_netmask own below).
Definition asa_ipv4_standby_addr_object (own : str) (below : list str) : option ipo :=
  object_of (asa_ipv4_standby_addr own below) (asa_ipv4_netmask own below).
(** 278-280; the empty object equals only the empty object *)
Definition asa_has_no_ipv4 (own : str) (below : list str) : bool :=
  match asa_ipv4_addr_object own below with None => true | Some _ => false end.
(** 347-357, 340-342: the network, as its first address and its prefix length.  Attributes read
    in the error texts do not fail. *)
Definition asa_ip_network_object (own : str) (below : list str) : result (Z * Z) :=
  match (do a <- asa_ipv4_addr own below; do m <- asa_ipv4_netmask own below; ip4_of_str (a ++ "/" :: m)) with
  | Ok o => Ok (ip_net o, ip_plen o)
  | Err AttributeErr => Err AttributeErr
  | Err _ => Err ValueError
  end.
(** 472-476 *)
Definition asa_ipv4_masklength (own : str) (below : list str) : Z :=
  match asa_ipv4_addr_object own below with Some a => ip_plen a | None => 0 end.
(** 481-493; the outer None is Python's None *)
Definition asa_in_ipv4_subnet (own : str) (below : list str) (net : option ipo) : result (option bool) :=
  match asa_ipv4_addr_object own below with
  | Some a => match contains4 net (Some a) with Ok b => Ok (Some b) | Err _ => Err ValueError end
  | None => Ok None
  end.
(** 498-508, with a list; without elements the name [tmp] is not bound *)
Fixpoint subnets_loop (own : str) (below : list str) (tmp : option (option bool)) (nets : list (option ipo)) : result (option bool) :=
  match nets with
  | [] => match tmp with Some b => Ok b | None => Err UnboundLocal end
  | n :: r =>
      do b <- asa_in_ipv4_subnet own below n;
      do c <- contains4 n (asa_ipv4_addr_object own below);
      if (c : bool) then Ok b else subnets_loop own below (Some b) r
  end.
Definition asa_in_ipv4_subnets (own : str) (below : list str) (nets : option (list (option ipo))) : result (option bool) :=
  match nets with None => Err ValueError | Some l => subnets_loop own below None l end.
(** 309-325 *)
Definition asa_ipv6_addr_object := ipv6_addr_object.
(** 369-375 *)
Fixpoint asa_ipv6_standby_addr (kids : list str) : str :=
  match kids with
  | [] => []
  | t :: r =>
      let parts := words t in
      if Nat.eqb (length parts) 5 && strs_eqb (firstn 2 parts) [lit "ipv6"; lit "address"] && str_eqb (nth 3 parts []) (lit "standby")
      then nth 4 parts [] else asa_ipv6_standby_addr r
  end.
(** 380-383 *)
Definition asa_ipv6_masklength (own : str) (below : list str) : result Z :=
  do o <- asa_ipv6_addr_object own below;
  Ok (match o with Some a => ip_plen a | None => 0 end).
(** 513-525 *)
Definition pim_pattern : string := "^\s*ip\spim\ssparse-mode\s*$)\s*$".
Definition asa_has_ip_pim_sparse_mode (own : str) (below : list str) : result bool :=
  do a <- asa_ipv4_addr own below;
  if truth a then compiled pim_pattern (iter_bool pim_pattern 1 own below) else Ok false.

(** ** Names *)

(** 574-575, 581-592, 603-610: the address and the name; the flag VERBOSE drops nothing from this
    pattern *)
Definition name_pattern : string := "^name\s+(?P<addr>\d+\.\d+\.\d+\.\d+)\s(?P<name>\S+)".
Definition asa_name_line (t : str) : result (str * str) :=
  match rx_find (pattern false (unverbose false false (lit name_pattern))) t with
  | Some m =>
      match named (lit name_pattern) (lit "addr") m, named (lit name_pattern) (lit "name") m with
      | Some a, Some n => Ok (a, n)
      | _, _ => Err KeyErr
      end
  | None => Err ValueError
  end.
(** 596-599 *)
Definition asa_name_for (t : str) : bool := contains (lit "name ") (lower (firstn 5 t)).

(** ** Routes *)

(** 1066-1071 *)
Definition af_pattern : string := "^(ip|ipv6)\s+route\s+*(\S+)".
Definition asa_address_family (t : str) : result str := compiled af_pattern (match_typed to_str [] af_pattern t).
(** 1074-1083, 1087-1096, 1111-1124: none of the branches is taken if the family is another text, and
    then [retval] is not bound.  The two patterns of each have no group 2. *)
Definition by_family (p4 p6 : string) (t : str) : result str :=
  do f <- asa_address_family t;
  if str_eqb f (lit "ip") then compiled p4 (match rx_find (pattern false (lit p4)) t with Some _ => Err IndexError | None => Ok [] end)
  else do g <- asa_address_family t;
       if str_eqb g (lit "ipv6") then compiled p6 (match rx_find (pattern false (lit p6)) t with Some _ => Err IndexError | None => Ok [] end)
       else Err UnboundLocal.
Definition asa_network := by_family "^ip\s+route\s+*(\S+)" "^ipv6\s+route\s+*(\S+?)\/\d+".
Definition asa_netmask := by_family "^ip\s+route\s+*\S+\s+(\S+)" "^ipv6\s+route\s+*\S+?\/(\d+)".
Definition asa_nexthop_str := by_family "^ip\s+route\s+*\S+\s+\S+\s+(\S+)" "^ipv6\s+route\s+*\S+\s+(\S+)".
(** 1100-1107: errors become None *)
Definition asa_network_object (t : str) : option ipo :=
  match (do f <- asa_address_family t;
         if str_eqb f (lit "ip") then do n <- asa_network t; do m <- asa_netmask t; do o <- ip4_of_str (n ++ "/" :: m); Ok (Some o)
         else Ok None) with
  | Ok o => o
  | Err _ => None
  end.
(** 1128-1130 *)
Definition asa_admin_distance := match_typed to_int 1 "(\d+)$".
(** 1134-1138 *)
Definition track_pattern : string := "^ip(v6)*\s+route\s+.+?track\s+(\S+)".
Definition asa_tracking_object_name (t : str) : result str :=
  match rx_find (pattern false (lit track_pattern)) t with
  | Some m => do v <- group 2 m; match v with Some _ => to_str v | None => Ok [] end
  | None => Ok []
  end.
(** 993-1006 *)
Definition asa_routeinfo (t : str) : result str :=
  do k <- asa_tracking_object_name t;
  do h <- asa_nexthop_str t;
  do d <- asa_admin_distance t;
  if truth k then Ok (h ++ lit " AD: " ++ show_Z d ++ lit " Track: " ++ k) else Ok (h ++ lit " AD: " ++ show_Z d).
(** 983-989: [repr] needs it *)
Definition asa_route_repr (show : option ipo -> str -> str) (t : str) : result str :=
  do i <- asa_routeinfo t; Ok (show (asa_network_object t) i).
(** 1059-1062 *)
Definition asa_route_for (t : str) : bool := match rx_find (pattern false (lit "^(ip|ipv6)\s+route\s+\S")) t with Some _ => true | None => false end.

(** ** The hostname *)

(** 967-969 *)
Definition asa_hostname := match_typed to_str [] "^hostname\s+(\S+)".
