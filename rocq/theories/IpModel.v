(** Model of IPv4Obj (ccp_util.py:872-1749) and IPv6Obj (ccp_util.py:1755-2429),
    and of the part of CPython's [ipaddress] module they use.

    An address is an integer.  [W] is the address length in bits, 32 or 128. *)
From Coq Require Import Ascii String Arith NArith ZArith Bool List.
From Verif Require Import PyStr PyBase PwModel.
Import ListNotations.
Local Open Scope char_scope.
Local Open Scope Z_scope.

(** ** CPython ipaddress *)

(** [_ALL_ONES] *)
Definition all_ones (W : Z) : Z := 2 ^ W - 1.
(** [_ip_int_from_prefix]: [_ALL_ONES ^ (_ALL_ONES >> prefixlen)] *)
Definition netmask_int (W p : Z) : Z := Z.lxor (all_ones W) (Z.shiftr (all_ones W) p).
(** [IPv4Network(.., strict=False)]: [packed & int(self.netmask)] *)
Definition net_of (W ip p : Z) : Z := Z.land ip (netmask_int W p).

(** [IPv4Address.__str__] *)
Definition dotted (n : Z) : str :=
  join ["."] (map show_Z [n / 16777216 mod 256; n / 65536 mod 256; n / 256 mod 256; n mod 256]).

(** [_parse_octet] *)
Definition parse_octet (s : str) : option Z :=
  match s with
  | [] => None
  | c :: _ =>
      if negb (forallb is_digit s) then None
      else if (3 <? length s)%nat then None
      else if negb (str_eqb s ["0"]) && Ascii.eqb c "0" then None
      else let v := Z.of_N (digits_val s) in if 255 <? v then None else Some v
  end.

(** [_ip_int_from_string] *)
Definition addr4 (s : str) : result Z :=
  match split_on "." s with
  | [a; b; c; d] =>
      match parse_octet a, parse_octet b, parse_octet c, parse_octet d with
      | Some a, Some b, Some c, Some d => Ok (((a * 256 + b) * 256 + c) * 256 + d)
      | _, _, _, _ => Err AddressErr
      end
  | _ => Err AddressErr
  end.

(** [_count_righthand_zero_bits] *)
Fixpoint right_zeros (bits : nat) (n : Z) : Z :=
  match bits with
  | O => 0
  | S b => if Z.odd n then 0 else 1 + right_zeros b (Z.div2 n)
  end.
(** [_prefix_from_ip_int] *)
Definition prefix_from_int (n : Z) : option Z :=
  let tz := right_zeros 32 n in
  let p := 32 - tz in
  if Z.eqb (Z.shiftr n tz) (2 ^ p - 1) then Some p else None.

(** [_make_netmask] with a string: [_prefix_from_prefix_string], then
    [_prefix_from_ip_string].  NetmaskValueError is modelled as the ValueError it is. *)
Definition make_netmask (s : str) : result Z :=
  match (if all_digits s then
           let p := Z.of_N (digits_val s) in if p <=? 32 then Some p else None
         else None) with
  | Some p => Ok p
  | None =>
      match addr4 s with
      | Err _ => Err ValueError
      | Ok n =>
          match prefix_from_int n with
          | Some p => Ok p
          | None => match prefix_from_int (Z.lxor n (all_ones 32)) with
                    | Some p => Ok p
                    | None => Err ValueError
                    end
          end
      end
  end.

(** [IPv4Network(address, strict=False)] with "addr/mask": network address and
    prefix length. *)
Definition network4 (s : str) : result (Z * Z) :=
  match split_on "/" s with
  | [a; m] => do ip <- addr4 a; do p <- make_netmask m; Ok (net_of 32 ip p, p)
  | [a] => do ip <- addr4 a; Ok (ip, 32)
  | _ => Err AddressErr
  end.

(** ** IPv4Obj *)

(** [ip_object], [network_object].  An empty object is [None] below. *)
Record ipo := { ip_int : Z; ip_net : Z; ip_plen : Z }.

(** [\d+] *)
Fixpoint take_digits (s : str) : str * str :=
  match s with
  | c :: s' => if is_digit c then let '(d, r) := take_digits s' in (c :: d, r) else ([], s)
  | [] => ([], [])
  end.
(** [\d+\.] *)
Definition take_digits_dot (s : str) : option (str * str) :=
  match take_digits s with
  | ((_ :: _) as d, c :: r) => if Ascii.eqb c "." then Some (d ++ ["."], r) else None
  | _ => None
  end.
(** [\d+\.\d+\.\d+\.\d+]; greedy, what follows is never a digit *)
Definition take_quad (s : str) : option (str * str) :=
  match take_digits_dot s with
  | None => None
  | Some (a, s) =>
      match take_digits_dot s with
      | None => None
      | Some (b, s) =>
          match take_digits_dot s with
          | None => None
          | Some (c, s) =>
              match take_digits s with
              | ([], _) => None
              | (d, s) => Some (a ++ b ++ c ++ d, s)
              end
          end
      end
  end.

(** ccp_util.py:125-136 [_RGX_IPV4ADDR_WITH_MASK] on stripped text, and 1031-1057:
    the address and the mask or prefix length text ("32" when there is none). *)
Definition split_v4 (s : str) : option (str * str) :=
  match take_quad s with
  | None => None
  | Some (a, []) => Some (a, lit "32")
  | Some (a, c :: r) =>
      if Ascii.eqb c "/" then
        match take_quad r with
        | Some (m, []) => Some (a, m)
        | _ => if all_digits r then Some (a, r) else None
        end
      else if is_space c then
        match take_quad (lstrip r) with
        | Some (m, []) => Some (a, m)
        | _ => None
        end
      else None
  end.

(** 1030-1071 [IPv4Obj(str)], with the prefixlen setter call at 1064 *)
Definition ip4_of_str (s : str) : result ipo :=
  match split_v4 (strip s) with
  | None => Err AddressErr
  | Some (a, m) =>
      do ip <- addr4 a;
      do n <- network4 (a ++ "/" :: m);
      do n' <- network4 (dotted ip ++ "/" :: show_Z (snd n));
      Ok {| ip_int := ip; ip_net := fst n'; ip_plen := snd n' |}
  end.

(** 1074-1079 [IPv4Obj(int)] *)
Definition ip4_of_int (n : Z) : result ipo :=
  if (0 <=? n) && (n <=? 4294967295)
  then Ok {| ip_int := n; ip_net := n; ip_plen := 32 |} else Err RequirementFailure.

(** [str(IPv4Network)]; 1543-1550 [network] re-reads that text; 1722-1728 [as_cidr_net] *)
Definition net_text (o : ipo) : str := dotted (ip_net o) ++ "/" :: show_Z (ip_plen o).
Definition network (o : ipo) : result (Z * Z) := network4 (net_text o).
Definition as_cidr_net (o : ipo) : result str :=
  do n <- network o; Ok (dotted (fst n) ++ "/" :: show_Z (snd n)).
(** 1715-1718 *)
Definition as_cidr_addr (o : ipo) : str := dotted (ip_int o) ++ "/" :: show_Z (ip_plen o).

(** 1081-1084 [IPv4Obj(IPv4Obj)] *)
Definition ip4_of_obj (o : ipo) : result ipo :=
  do t <- as_cidr_net o; do n <- network4 t;
  Ok {| ip_int := ip_int o; ip_net := fst n; ip_plen := snd n |}.

(** 1494-1499 the prefixlen setter (also masklen, masklength, prefixlength) *)
Definition set_prefixlen4 (o : ipo) (arg : str) : result ipo :=
  do n <- network4 (dotted (ip_int o) ++ "/" :: arg);
  Ok {| ip_int := ip_int o; ip_net := fst n; ip_plen := snd n |}.

(** [sum(int(num) * (base ** idx) for idx, num in enumerate(nums))] *)
Fixpoint sum_digits (conv : str -> option Z) (base weight : Z) (nums : list str) : result Z :=
  match nums with
  | [] => Ok 0
  | s :: r => match conv s with
              | None => Err ValueError
              | Some v => do t <- sum_digits conv base (weight * base) r; Ok (v * weight + t)
              end
  end.

(** 1644-1649 *)
Definition as_decimal4 (o : ipo) : result Z :=
  sum_digits py_int 256 1 (rev (split_on "." (dotted (ip_int o)))).
(** 1653-1658 *)
Definition as_decimal_network4 (o : ipo) : result Z :=
  do t <- as_cidr_net o;
  sum_digits py_int 256 1 (rev (split_on "." (hd [] (split_on "/" t)))).
(** 1662-1666 *)
Definition as_decimal_broadcast4 (o : ipo) : result Z :=
  do n <- as_decimal_network4 o; Ok (n + (2 ^ (32 - ip_plen o) - 1)).

(** 1628-1640 *)
Definition numhosts4 (o : ipo) : result Z :=
  if ip_plen o <=? 30 then Ok (2 ^ (32 - ip_plen o) - 2)
  else if ip_plen o =? 31 then Ok 2
  else if ip_plen o =? 32 then Ok 1
  else Err NotImplementedErr.

(** 1554-1560 *)
Definition get_offset4 (o : ipo) : result Z :=
  do d <- as_decimal4 o; do n <- as_decimal_network4 o; do h <- numhosts4 o;
  if h <? d - n then Err RequirementFailure else Ok (d - n).
(** 1564-1588, for an integer *)
Definition set_offset4 (o : ipo) (arg : Z) : result ipo :=
  do b <- as_decimal_broadcast4 o; do n <- as_decimal_network4 o;
  if arg <=? b - n then
    if (0 <=? n + arg) && (n + arg <=? 4294967295)
    then Ok {| ip_int := n + arg; ip_net := ip_net o; ip_plen := ip_plen o |}
    else Err AddressErr
  else Err AddressErr.

(** 1300-1313 *)
Definition add4 (o : ipo) (val : Z) : result ipo :=
  do d <- as_decimal4 o;
  let total := d + val in
  if 4294967295 <? total then Err RequirementFailure
  else if total <? 0 then Err RequirementFailure
  else do r <- ip4_of_int total; set_prefixlen4 r (show_Z (ip_plen o)).
(** 1317-1330 *)
Definition sub4 (o : ipo) (val : Z) : result ipo :=
  do d <- as_decimal4 o;
  let total := d - val in
  if 4294967295 <=? total then Err RequirementFailure
  else if total <? 0 then Err RequirementFailure
  else do r <- ip4_of_int total; set_prefixlen4 r (show_Z (ip_plen o)).

(** 1175-1197; [None] is IPv4Obj() *)
Definition eq4 (a b : option ipo) : result bool :=
  match a, b with
  | Some a, Some b =>
      do x <- as_decimal4 a; do y <- as_decimal4 b;
      Ok ((x =? y) && (ip_plen a =? ip_plen b))
  | None, None => Ok true
  | _, _ => Ok false
  end.
(** 1202-1206 *)
Definition ne4 (a b : option ipo) : result bool := do e <- eq4 a b; Ok (negb e).

(** Any exception while comparing becomes ValueError. *)
Definition as_value_error {A} (r : result A) : result A :=
  match r with Ok x => Ok x | Err _ => Err ValueError end.

(** 1210-1240 *)
Definition gt4 (a b : option ipo) : result bool :=
  match a, b with
  | Some a, Some b =>
      as_value_error
        (do vn <- as_decimal_network4 b; do sn <- as_decimal_network4 a;
         do vd <- as_decimal4 b; do sd <- as_decimal4 a;
         Ok (if (sn =? vn) && (ip_plen a =? ip_plen b) then vd <? sd
             else if sn =? vn then ip_plen b <? ip_plen a
             else vn <? sn))
  | _, _ => Err ValueError
  end.
(** 1244-1278 *)
Definition lt4 (a b : option ipo) : result bool :=
  match a, b with
  | Some a, Some b =>
      as_value_error
        (do vn <- as_decimal_network4 b; do sn <- as_decimal_network4 a;
         do vd <- as_decimal4 b; do sd <- as_decimal4 a;
         Ok (if (sn =? vn) && (ip_plen a =? ip_plen b) then sd <? vd
             else if sn =? vn then ip_plen a <? ip_plen b
             else sn <? vn))
  | _, _ => Err ValueError
  end.

(** 1334-1361 [val in self] *)
Definition contains4 (self val : option ipo) : result bool :=
  match self, val with
  | None, None => Ok true
  | Some s, Some v =>
      if ip_plen s =? 0 then Ok true
      else if ip_plen v <? ip_plen s then Ok false
      else
        as_value_error
          (do sn <- as_decimal_network4 s; do vn <- as_decimal_network4 v;
           do sb <- as_decimal_broadcast4 s; do vb <- as_decimal_broadcast4 v;
           Ok ((sn <=? vn) && (vb <=? sb) && (ip_plen s <=? ip_plen v)))
  | _, _ => Ok false
  end.

(** 1365-1370; [h] is Python's hash of a text and [h0] that of None *)
Definition hash4 (h : str -> Z) (h0 : Z) (a : option ipo) : Z :=
  match a with
  | Some o => h (dotted (ip_int o)) + h (show_Z (ip_plen o))
  | None => h0
  end.

(** 1678-1681: [f"{int(num):03}"] for each octet *)
Definition zeros (n : nat) : str := repeat "0" n.
Definition pad3 (s : str) : str := zeros (3 - length s) ++ s.
Definition as_zeropadded (o : ipo) : str :=
  join ["."] (map (fun s => match py_int s with Some v => pad3 (show_Z v) | None => [] end)
                  (split_on "." (dotted (ip_int o)))).

(** ** IPv6Obj

    Texts of IPv6 addresses are modelled in Ip6TextModel.v: here objects are built from
    integers or as [{| ip; net; plen |}] with [network_object] the masked address. *)

(** One group of [IPv6Address.exploded]: four hexadecimal digits. *)
Definition hex_low (n : Z) : ascii := nth (Z.to_nat n) (lit "0123456789abcdef") "0".
Definition hex4 (n : Z) : str :=
  [hex_low (n / 4096 mod 16); hex_low (n / 256 mod 16); hex_low (n / 16 mod 16); hex_low (n mod 16)].
Definition exploded6 (n : Z) : str :=
  join [":"] (map (fun i => hex4 (n / 65536 ^ i mod 65536)) [7; 6; 5; 4; 3; 2; 1; 0]).

(** [int(num, 16)] on hexadecimal digits *)
Fixpoint hex_acc (acc : Z) (s : str) : option Z :=
  match s with
  | [] => Some acc
  | c :: r => match hex_val c with Some d => hex_acc (16 * acc + d) r | None => None end
  end.
Definition int_hex (s : str) : option Z := match s with [] => None | _ => hex_acc 0 s end.

(** 2335-2342, 2271-2278 *)
Definition as_decimal6 (o : ipo) : result Z :=
  sum_digits int_hex 65536 1 (rev (split_on ":" (exploded6 (ip_int o)))).
Definition as_decimal_network6 (o : ipo) : result Z :=
  sum_digits int_hex 65536 1 (rev (split_on ":" (exploded6 (ip_net o)))).
(** 2289-2293 *)
Definition as_decimal_maxint6 (o : ipo) : result Z :=
  do n <- as_decimal_network6 o; Ok (n + (2 ^ (128 - ip_plen o) - 1)).
(** 2320-2332 *)
Definition numhosts6 (o : ipo) : result Z :=
  if ip_plen o <=? 126 then Ok (2 ^ (128 - ip_plen o) - 2)
  else if ip_plen o =? 127 then Ok 2
  else if ip_plen o =? 128 then Ok 1
  else Err NotImplementedErr.

Definition max6 : Z := 2 ^ 128 - 1.
(** 1893-1897 *)
Definition ip6_of_int (n : Z) : result ipo :=
  if (0 <=? n) && (n <=? max6)
  then Ok {| ip_int := n; ip_net := n; ip_plen := 128 |} else Err RequirementFailure.
(** 2189-2194, for an integer *)
Definition set_prefixlen6 (o : ipo) (p : Z) : result ipo :=
  if (0 <=? p) && (p <=? 128)
  then Ok {| ip_int := ip_int o; ip_net := net_of 128 (ip_int o) p; ip_plen := p |} else Err ValueError.

(** 2234-2240 *)
Definition get_offset6 (o : ipo) : result Z :=
  do d <- as_decimal6 o; do n <- as_decimal_network6 o; do h <- numhosts6 o;
  if h <? d - n then Err RequirementFailure else Ok (d - n).
(** 2244-2268 *)
Definition set_offset6 (o : ipo) (arg : Z) : result ipo :=
  do b <- as_decimal_maxint6 o; do n <- as_decimal_network6 o;
  if arg <=? b - n then
    if (0 <=? n + arg) && (n + arg <=? max6)
    then Ok {| ip_int := n + arg; ip_net := ip_net o; ip_plen := ip_plen o |}
    else Err AddressErr
  else Err AddressErr.

(** 2018-2031 *)
Definition add6 (o : ipo) (val : Z) : result ipo :=
  do d <- as_decimal6 o;
  let total := d + val in
  if max6 <? total then Err RequirementFailure
  else if total <? 0 then Err RequirementFailure
  else do r <- ip6_of_int total; set_prefixlen6 r (ip_plen o).
(** 2034-2047 *)
Definition sub6 (o : ipo) (val : Z) : result ipo :=
  do d <- as_decimal6 o;
  let total := d - val in
  if max6 <=? total then Err RequirementFailure
  else if total <? 0 then Err RequirementFailure
  else do r <- ip6_of_int total; set_prefixlen6 r (ip_plen o).

(** 1917-1935 *)
Definition eq6 (a b : option ipo) : result bool :=
  match a, b with
  | Some a, Some b =>
      do x <- as_decimal6 a; do y <- as_decimal6 b;
      Ok ((x =? y) && (ip_plen a =? ip_plen b))
  | None, None => Ok true
  | _, _ => Ok false
  end.
(** 1942-1969 *)
Definition gt6 (a b : option ipo) : result bool :=
  match a, b with
  | Some a, Some b =>
      as_value_error
        (do vn <- as_decimal_network6 b; do sn <- as_decimal_network6 a;
         do vd <- as_decimal6 b; do sd <- as_decimal6 a;
         Ok (if (sn =? vn) && (ip_plen a =? ip_plen b) then vd <? sd
             else if sn =? vn then ip_plen b <? ip_plen a
             else vn <? sn))
  | _, _ => Err ValueError
  end.
(** 1972-1999 *)
Definition lt6 (a b : option ipo) : result bool :=
  match a, b with
  | Some a, Some b =>
      as_value_error
        (do vn <- as_decimal_network6 b; do sn <- as_decimal_network6 a;
         do vd <- as_decimal6 b; do sd <- as_decimal6 a;
         Ok (if (sn =? vn) && (ip_plen a =? ip_plen b) then sd <? vd
             else if sn =? vn then ip_plen a <? ip_plen b
             else sn <? vn))
  | _, _ => Err ValueError
  end.

(** 2050-2066 [val in self] *)
Definition contains6 (self val : option ipo) : result bool :=
  match self with
  | None => Err ValueError
  | Some s =>
      if ip_plen s =? 0 then Ok true
      else
        match val with
        | None => Err ValueError
        | Some v =>
            if ip_plen v <? ip_plen s then Ok false
            else
              as_value_error
                (do sn <- as_decimal_network6 s; do vn <- as_decimal_network6 v;
                 do sh <- numhosts6 s; do vh <- numhosts6 v;
                 Ok ((sn <=? vn) && (vn + vh - 1 <=? sn + sh - 1)))
        end
  end.

(** 2069-2071: an empty object has no prefix length; [text6] is [str(ip_object)] *)
Definition hash6 (h : str -> Z) (text6 : Z -> str) (a : option ipo) : result Z :=
  match a with
  | Some o => Ok (h (text6 (ip_int o)) + h (show_Z (ip_plen o)))
  | None => Err AttributeErr
  end.
