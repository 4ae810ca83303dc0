(** Model of the NX-OS IPv4 static routes (models_nxos.py, NXOSRouteLine). *)
From Coq Require Import Ascii String Arith NArith ZArith Bool List.
From Verif Require Import PyStr PyBase SearchModel IpModel PyRe IosModel AttrModel RouteModel.
Import ListNotations.
Local Open Scope char_scope.

(** models_nxos.py:2094-2108 _RE_IP_ROUTE, as it is written, then read with re.VERBOSE *)
Definition nxr_verbose : str := lit "^ip\s+route
\s+
(?P<prefix>\d+\.\d+\.\d+\.\d+)          # Prefix detection
\/
(?P<masklen>\d+)                        # Netmask detection
(?:\s+(?P<nh_intf>[^\d]\S+))?           # NH intf
(?:\s+(?P<nh_addr>\d+\.\d+\.\d+\.\d+))? # NH addr
(?:\s+track\s+(?P<track_group>\d+))?    # Tracking object
(?:\s+name\s+(?P<name>\S+))?     # Route name
(?:\s+tag\s+(?P<tag>\d+))?       # Route tag
(?:\s+(?P<ad>\d+))?              # Admin distance
".
Definition nxr_pattern : str := unverbose false false nxr_verbose.

(** 2152-2156 is_object_for *)
Definition nxr_is_object_for (line : str) : bool :=
  str_eqb (firstn 8 line) (lit "ip route") || str_eqb (firstn 11 line) (lit "ipv6 route ").
(** 2133-2150 __init__, for texts that do not begin with "ipv6": the groupdict.  IPv6 routes
    are not modelled. *)
Definition nxr_init (t : str) : result rmatch :=
  match rx_find (pattern false nxr_pattern) t with Some m => Ok m | None => Err ValueError end.
(** [self.route_info[nm]] *)
Definition nxr_info (m : rmatch) (nm : string) : option str := named nxr_pattern (lit nm) m.
(** 2163-2169: a text *)
Definition nxr_admin_distance (m : rmatch) : option str := match nxr_info m "ad" with None => Some (lit "1") | Some d => Some d end.
(** 2171-2174, 2188-2191: a text *)
Definition nxr_network (m : rmatch) : option str := nxr_info m "prefix".
Definition nxr_masklen (m : rmatch) : option str := nxr_info m "masklen".
(** 2196-2204: every exception becomes None *)
Definition nxr_network_object (m : rmatch) : option ipo :=
  match nxr_network m, nxr_masklen m with
  | Some n, Some k => match ip4_of_str (n ++ "/" :: k) with Ok o => Some o | Err _ => None end
  | _, _ => None
  end.
(** 2184-2186 *)
Definition nxr_netmask (m : rmatch) : result str :=
  match nxr_network_object m with Some o => Ok (dotted (netmask 32 o)) | None => Err AttributeErr end.
(** 2222-2228, 2235-2238, 2206-2212 *)
Definition nxr_next_hop_interface (m : rmatch) : str := or_empty (nxr_info m "nh_intf").
Definition nxr_next_hop_addr (m : rmatch) : str := or_empty (nxr_info m "nh_addr").
Definition nxr_nexthop_str (m : rmatch) : str :=
  if truth (nxr_next_hop_interface m) then nxr_next_hop_interface m ++ " " :: nxr_next_hop_addr m else nxr_next_hop_addr m.
(** 2247-2253, 2257-2259, 2261-2263 *)
Definition nxr_name (m : rmatch) : str := or_empty (nxr_info m "name").
Definition nxr_tag (m : rmatch) : str := or_empty (nxr_info m "tag").
Definition nxr_tracking_object_name (m : rmatch) : option str := nxr_info m "track_group".
