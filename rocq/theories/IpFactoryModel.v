(** Model of ip_factory and what it calls (ccp_util.py:695-835), of check_valid_ipaddress
    (2891-2921) and of the setters of the prefix length of an IPv4Obj.

    Arguments of other types than texts and integers, and values of [stdlib] and [debug] that are not
    a truth value and an integer, raise ValueError before anything else; they are left out. *)
From Coq Require Import Ascii String Arith NArith ZArith Bool List.
From Verif Require Import PyStr PyBase IpModel Ip6TextModel.
Import ListNotations.
Local Open Scope char_scope.

Inductive ipval := VStr (s : str) | VInt (n : Z).
Inductive ipmode := Auto | OnlyV4 | OnlyV6 | OtherMode.
(** IPv4Obj, IPv6Obj; IPv4Address or IPv6Address; IPv4Network or IPv6Network *)
Inductive ipres := Of4 (o : ipo) | Of6 (o : ipo) | StdAddr (six : bool) (n : Z) | StdNet (six : bool) (n p : Z).

(** 714, 731-732: whatever is raised within becomes AddressValueError *)
Definition as_address_error {A} (r : result A) : result A := match r with Ok x => Ok x | Err _ => Err AddressErr end.

(** [IPv4Network(n, strict=False)] of an integer *)
Definition network4_int (n : Z) : result (Z * Z) := if (0 <=? n)%Z && (n <=? all_ones 32)%Z then Ok (n, 32%Z) else Err AddressErr.
Definition network6_int (n : Z) : result (Z * Z) := if (0 <=? n)%Z && (n <=? all_ones 128)%Z then Ok (n, 128%Z) else Err AddressErr.

(** [IPv6Address._split_scope_id]: [partition('%')] *)
Definition split_scope (s : str) : result str :=
  match split_on "%" s with
  | [a] => Ok a
  | [a; sc] => if nothing sc then Err AddressErr else Ok a
  | _ => Err AddressErr
  end.
(** [IPv6Network(text, strict=False)] when the address may have a scope identifier *)
Definition network6_scoped (s : str) : result (Z * Z) :=
  match split_on "/" s with
  | [a; m] => do a <- split_scope a; do ip <- addr6 a; do p <- prefix6 m; Ok (net_of 128 ip p, p)
  | [a] => do a <- split_scope a; do ip <- addr6 a; Ok (ip, 128%Z)
  | _ => Err AddressErr
  end.

(** 695-732 [_get_ipv4]; 1544-1550 is [network] *)
Definition get_ipv4 (v : ipval) (stdlib : bool) : result ipres :=
  as_address_error (
    do _ <- (match v with VStr s => network4 s | VInt n => network4_int n end);
    do o <- (match v with VStr s => ip4_of_str s | VInt n => ip4_of_int n end);
    if negb stdlib then Ok (Of4 o)
    else if (ip_plen o =? 32)%Z then Ok (StdAddr false (ip_int o))
    else do n <- network o; Ok (StdNet false (fst n) (snd n))).
(** 735-773 [_get_ipv6]; 2227-2230 *)
Definition get_ipv6 (v : ipval) (stdlib : bool) : result ipres :=
  as_address_error (
    do _ <- (match v with VStr s => network6_scoped s | VInt n => network6_int n end);
    do o <- (match v with VStr s => ip6_of_str s | VInt n => ip6_of_int n end);
    if negb stdlib then Ok (Of6 o)
    else if (ip_plen o =? 128)%Z then Ok (StdAddr true (ip_int o))
    else do n <- network6 (as_cidr_net6 o); Ok (StdNet true (fst n) (snd n))).
(** 776-835 *)
Definition ip_factory (v : ipval) (stdlib : bool) (m : ipmode) : result ipres :=
  match m with
  | OtherMode => Err RequirementFailure
  | Auto =>
      match v with
      | VStr s => if has_char ":" s then get_ipv6 v stdlib else get_ipv4 v stdlib
      | VInt _ => Err NotImplementedErr
      end
  | OnlyV4 => as_address_error (get_ipv4 v stdlib)
  | OnlyV6 => as_address_error (get_ipv6 v stdlib)
  end.

(** 2891-2921: the second attempt (for IPv6) is never reached, since the first one raises *)
Definition check_valid_ipaddress (s : str) : result (str * Z) :=
  let s := strip s in
  match ip4_of_str s with
  | Ok _ => Ok (s, 4%Z)
  | Err _ => Err ValueError
  end.

(** 1460-1464 [masklen], 1476-1480 [masklength], 1494-1499 [prefixlen], 1511-1515 [prefixlength]: the
    same assignment four times *)
Definition set_masklen4 (o : ipo) (arg : str) : result ipo := set_prefixlen4 o arg.
(** 1453-1455, 1469-1471, 1485-1490, 1504-1506 *)
Definition masklen4 (o : ipo) : Z := ip_plen o.
