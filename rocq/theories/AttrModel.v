(** Model of the attributes of IPv4Obj and IPv6Obj that show an address in other bases, give its
    masks and last address, run through its network and classify it (ccp_util.py), and of the part of
    CPython 3.11's [ipaddress] they use.  The objects are not empty. *)
From Coq Require Import Ascii String Arith NArith ZArith Bool List.
From Verif Require Import PyStr PyBase IpModel Ip6TextModel.
Import ListNotations.
Local Open Scope char_scope.
Local Open Scope Z_scope.

(** ** Numbers as texts *)

(** [hex], and [format] with "x" and "b"; the digits of a number that is not negative *)
Fixpoint radix_text (fuel : nat) (b n : Z) : str :=
  match fuel with
  | O => []
  | S f => (if n <? b then [] else radix_text f b (n / b)) ++ [hex_low (n mod b)]
  end.
Definition in_radix (b n : Z) : str := radix_text (S (Z.to_nat (Z.log2 n))) b n.
(** the width in f"{n:02x}", f"{n:08b}" *)
Definition zero_fill (w : nat) (s : str) : str := zeros (w - length s) ++ s.
Definition py_hex (n : Z) : str := lit "0x" ++ in_radix 16 n.
(** [int.to_bytes(k, "big")] *)
Fixpoint big_endian (k : nat) (n : Z) : str :=
  match k with O => [] | S k' => big_endian k' (n / 256) ++ [ascii_of_N (Z.to_N (n mod 256))] end.

Fixpoint octet_texts (f : Z -> str) (l : list str) : result (list str) :=
  match l with
  | [] => Ok []
  | s :: r => match py_int s with None => Err ValueError | Some v => do t <- octet_texts f r; Ok (f v :: t) end
  end.
(** 1694-1697; [hex] calls 1291-1296 [__index__] *)
Definition as_hex4 (o : ipo) : result str := do n <- as_decimal4 o; Ok (py_hex n).
(** 1708-1711 *)
Definition as_hex_tuple4 (o : ipo) : result (list str) :=
  octet_texts (fun v => zero_fill 2 (in_radix 16 v)) (split_on "." (dotted (ip_int o))).
(** 1701-1704 *)
Definition as_binary_tuple4 (o : ipo) : result (list str) :=
  octet_texts (fun v => zero_fill 8 (in_radix 2 v)) (split_on "." (dotted (ip_int o))).
(** 1526-1529, 2215-2218 *)
Definition packed (k : nat) (o : ipo) : str := big_endian k (ip_int o).
(** 1685-1690; the last text is the number [prefixlen] *)
Definition as_zeropadded_network (o : ipo) : result str :=
  do t <- as_cidr_net o;
  do l <- octet_texts (fun v => zero_fill 3 (show_Z v)) (split_on "." (hd [] (split_on "/" t)));
  Ok (join ["."] l ++ "/" :: show_Z (ip_plen o)).
(** 2357-2360; 2010-2015 [__index__] *)
Definition as_hex6 (o : ipo) : result str := do n <- as_decimal6 o; Ok (py_hex n).
(** 2363-2367 *)
Definition as_hex_tuple6 (o : ipo) : list str := split_on ":" (exploded6 (ip_int o)).
Fixpoint group_bits (l : list str) : result (list str) :=
  match l with
  | [] => Ok []
  | s :: r => match int_hex s with None => Err ValueError | Some v => do t <- group_bits r; Ok (zero_fill 16 (in_radix 2 v) :: t) end
  end.
(** 2350-2354 *)
Definition as_binary_tuple6 (o : ipo) : result (list str) := group_bits (as_hex_tuple6 o).

(** ** Masks and addresses *)

(** 1445-1448, 2149-2152: [network_object.netmask] *)
Definition netmask (W : Z) (o : ipo) : Z := netmask_int W (ip_plen o).
(** 1601-1604, 1615-1618, 2296-2299, 2308-2311: [int(netmask) ^ _ALL_ONES] *)
Definition hostmask (W : Z) (o : ipo) : Z := Z.lxor (netmask W o) (all_ones W).
(** [broadcast_address]: [int(network_address) | int(hostmask)].  1533-1539 [broadcast]; 2221-2223
    refuses *)
Definition last_address (W : Z) (o : ipo) : Z := Z.lor (ip_net o) (hostmask W o).
Definition broadcast4 (o : ipo) : result Z := Ok (last_address 32 o).
Definition broadcast6 (o : ipo) : result Z := Err NotImplementedErr.
(** 1374-1375, 2074-2075 [__iter__]: [for x in range(network, broadcast + 1)] *)
Definition iterate (W : Z) (o : ipo) : list Z :=
  map (fun i => ip_net o + Z.of_nat i) (seq 0 (Z.to_nat (last_address W o + 1 - ip_net o))).
(** 1379-1387, 2078-2085: a network has no [__next__] *)
Definition next (o : ipo) : result Z := Err AttributeErr.

(** ** Classes *)

(** [address in network]: [other._ip & self.netmask._ip == self.network_address._ip] *)
Definition in_block (W : Z) (b : Z * Z) (a : Z) : bool := Z.land a (netmask_int W (snd b)) =? fst b.
Definition block4 (s : string) : Z * Z := match network4 (lit s) with Ok n => n | Err _ => (0, 0) end.
Definition block6 (s : string) : Z * Z := match network6 (lit s) with Ok n => n | Err _ => (0, 0) end.
(** [_BaseNetwork.is_multicast] and the like: asked of the first and the last address *)
Definition both (W : Z) (f : Z -> bool) (o : ipo) : bool := f (ip_net o) && f (last_address W o).
(** [_BaseNetwork.is_private] *)
Definition private (W : Z) (nets exceptions : list (Z * Z)) (o : ipo) : bool :=
  existsb (fun b => in_block W b (ip_net o) && in_block W b (last_address W o)) nets &&
  forallb (fun b => negb (in_block W b (ip_net o)) && negb (in_block W b (last_address W o))) exceptions.
Definition private_nets4 : list (Z * Z) := map block4
  ["0.0.0.0/8"; "10.0.0.0/8"; "127.0.0.0/8"; "169.254.0.0/16"; "172.16.0.0/12"; "192.0.0.0/24"; "192.0.0.170/31"; "192.0.2.0/24";
   "192.168.0.0/16"; "198.18.0.0/15"; "198.51.100.0/24"; "203.0.113.0/24"; "240.0.0.0/4"; "255.255.255.255/32"]%string.
Definition exceptions4 : list (Z * Z) := map block4 ["192.0.0.9/32"; "192.0.0.10/32"]%string.
Definition private_nets6 : list (Z * Z) := map block6
  ["::1/128"; "::/128"; "::ffff:0:0/96"; "64:ff9b:1::/48"; "100::/64"; "2001::/23"; "2001:db8::/32"; "2002::/16"; "fc00::/7"; "fe80::/10"]%string.
Definition exceptions6 : list (Z * Z) := map block6
  ["2001:1::1/128"; "2001:1::2/128"; "2001:3::/32"; "2001:4:112::/48"; "2001:20::/28"; "2001:30::/28"]%string.
Definition reserved_nets6 : list (Z * Z) := map block6
  ["::/8"; "100::/8"; "200::/7"; "400::/6"; "800::/5"; "1000::/4"; "4000::/3"; "6000::/3"; "8000::/3"; "A000::/3"; "C000::/3";
   "E000::/4"; "F000::/5"; "F800::/6"; "FE00::/9"]%string.
(** 1732-1749 *)
Definition is_multicast4 : ipo -> bool := both 32 (in_block 32 (block4 "224.0.0.0/4")).
Definition is_private4 : ipo -> bool := private 32 private_nets4 exceptions4.
Definition is_reserved4 : ipo -> bool := both 32 (in_block 32 (block4 "240.0.0.0/4")).
(** 2385-2419 *)
Definition is_multicast6 : ipo -> bool := both 128 (in_block 128 (block6 "ff00::/8")).
Definition is_private6 : ipo -> bool := private 128 private_nets6 exceptions6.
Definition is_reserved6 : ipo -> bool := both 128 (fun a => existsb (fun b => in_block 128 b a) reserved_nets6).
Definition is_link_local6 : ipo -> bool := both 128 (in_block 128 (block6 "fe80::/10")).
Definition is_site_local6 : ipo -> bool := both 128 (in_block 128 (block6 "fec0::/10")).
Definition is_unspecified6 : ipo -> bool := both 128 (fun a => a =? 0).
(** 2422-2429: a network has neither attribute *)
Definition teredo6 (o : ipo) : result (Z * Z) := Err AttributeErr.
Definition sixtofour6 (o : ipo) : result Z := Err AttributeErr.
