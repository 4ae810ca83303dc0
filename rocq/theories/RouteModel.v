(** Model of the IPv4 static routes. *)
From Coq Require Import Ascii String Arith NArith ZArith Bool List.
From Verif Require Import PyStr PyBase SearchModel IpModel PyRe IosModel.
Import ListNotations.
Local Open Scope char_scope.

(** models_cisco.py:2944-2963 _RE_IP_ROUTE, as it is written, then read with re.VERBOSE *)
Definition route_verbose : str := lit "^ip\s+route
(?:\s+(?:vrf\s+(?P<vrf>\S+)))?          # VRF detection
\s+
(?P<prefix>\d+\.\d+\.\d+\.\d+)          # Prefix detection
\s+
(?P<netmask>\d+\.\d+\.\d+\.\d+)         # Netmask detection
(?:\s+(?P<nh_intf>[^\d]\S+))?           # NH intf
(?:\s+(?P<nh_addr>\d+\.\d+\.\d+\.\d+))? # NH addr
(?:\s+(?P<dhcp>dhcp))?           # DHCP keyword       (FIXME: add unit test)
(?:\s+(?P<global>global))?       # Global keyword
(?:\s+(?P<ad>\d+))?              # Administrative distance
(?:\s+(?P<mcast>multicast))?     # Multicast Keyword  (FIXME: add unit test)
(?:\s+name\s+(?P<name>\S+))?     # Route name
(?:\s+(?P<permanent>permanent))? # Permanent Keyword  (exclusive of track)
(?:\s+track\s+(?P<track>\d+))?   # Track object (exclusive of permanent)
(?:\s+tag\s+(?P<tag>\d+))?       # Route tag
".
Definition route_pattern : str := unverbose false false route_verbose.

(** models_cisco.py:2990-3007 IOSRouteLine.__init__, for texts that do not begin with
    "ipv6": the groupdict.  IPv6 routes are not modelled. *)
Definition route_init (t : str) : result rmatch :=
  match rx_find (pattern false route_pattern) t with Some m => Ok m | None => Err ValueError end.
(** [self.route_info[nm]] *)
Definition info (m : rmatch) (nm : string) : option str := named route_pattern (lit nm) m.
(** [x or ""] and [bool(x)] *)
Definition or_empty (o : option str) : str := match o with Some s => s | None => [] end.
Definition bool_of (o : option str) : bool := match o with Some s => truth s | None => false end.

(** 3018-3022 *)
Definition rt_vrf (m : rmatch) : str := or_empty (info m "vrf").
(** 3032-3034, 3046-3048 *)
Definition rt_network (m : rmatch) : option str := info m "prefix".
Definition rt_netmask (m : rmatch) : option str := info m "netmask".
(** 3063-3071: every exception becomes None *)
Definition rt_network_object (m : rmatch) : option ipo :=
  match rt_network m, rt_netmask m with
  | Some n, Some k => match ip4_of_str (n ++ "/" :: k) with Ok o => Some o | Err _ => None end
  | _, _ => None
  end.
(** 3054-3056 *)
Definition rt_masklen (m : rmatch) : result Z :=
  match rt_network_object m with Some o => Ok (ip_plen o) | None => Err AttributeErr end.
(** 3092-3097, 3106-3108, 3075-3080 *)
Definition rt_next_hop_interface (m : rmatch) : str := or_empty (info m "nh_intf").
Definition rt_next_hop_addr (m : rmatch) : str := or_empty (info m "nh_addr").
Definition rt_nexthop_str (m : rmatch) : str :=
  if truth (rt_next_hop_interface m) then rt_next_hop_interface m ++ " " :: rt_next_hop_addr m else rt_next_hop_addr m.
(** 3114-3118 *)
Definition rt_global_next_hop (m : rmatch) : bool := if truth (rt_vrf m) then bool_of (info m "global") else true.
(** 3145-3149 *)
Definition rt_admin_distance (m : rmatch) : result Z :=
  if bool_of (info m "ad") then to_int (info m "ad") else Ok 1%Z.
(** 3153-3155, 3165-3169, 3173-3178, 3184-3188, 3192-3193 *)
Definition rt_multicast (m : rmatch) : bool := bool_of (info m "mcast").
Definition rt_name (m : rmatch) : str := or_empty (info m "name").
Definition rt_permanent (m : rmatch) : bool := bool_of (info m "permanent").
Definition rt_tracking_object_name (m : rmatch) : str := or_empty (info m "track").
Definition rt_tag (m : rmatch) : str := or_empty (info m "tag").
