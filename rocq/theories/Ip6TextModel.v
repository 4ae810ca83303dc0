(** Model of IPv6Obj built from a text (ccp_util.py:83-119, 1855-1891) and of the texts it gives
    back (2369-2382), with the part of CPython's [ipaddress] module that reads and writes IPv6
    addresses.

    Scope identifiers ("%eth0") never reach [ipaddress]: the pattern does not match them. *)
From Coq Require Import Ascii String Arith NArith ZArith Bool List.
From Verif Require Import PyStr PyBase SearchModel PwModel IpModel PyRe.
Import ListNotations.
Local Open Scope char_scope.

(** ** CPython ipaddress *)

(** [_parse_hextet]; [int(s, 16)] of the empty text raises ValueError *)
Definition is_hex (c : ascii) : bool := match hex_val c with Some _ => true | None => false end.
Definition parse_hextet (s : str) : option Z :=
  if negb (forallb is_hex s) then None
  else if (4 <? length s)%nat%nat then None
  else int_hex s.
(** A loop over hextets: shift by 16 bits and add *)
Fixpoint read_hextets (acc : Z) (l : list str) : result Z :=
  match l with
  | [] => Ok acc
  | s :: r => match parse_hextet s with Some v => read_hextets (acc * 65536 + v)%Z r | None => Err AddressErr end
  end.
(** ['%x' % n] for 16 bits *)
Definition strip_zeros (s : str) : str :=
  match s with
  | "0" :: "0" :: "0" :: [d] => [d]
  | "0" :: "0" :: r => r
  | "0" :: r => r
  | _ => s
  end.
Definition show_hex (n : Z) : str := strip_zeros (hex4 n).
(** An IPv4 suffix becomes two hextets. *)
Definition expand_v4 (parts : list str) : result (list str) :=
  let l := last parts [] in
  if existsb (Ascii.eqb ".") l then
    match addr4 l with
    | Ok v => Ok (removelast parts ++ [show_hex (v / 65536)%Z; show_hex (v mod 65536)%Z])
    | Err _ => Err AddressErr
    end
  else Ok parts.
(** The index of the empty part strictly inside: [i] is the index of the first part of [l]; the last
    part is left out. *)
Fixpoint find_skip (i : nat) (l : list str) (found : option nat) : result (option nat) :=
  match l with
  | [] | [_] => Ok found
  | p :: r =>
      match p with
      | [] => match found with Some _ => Err AddressErr | None => find_skip (S i) r (Some i) end
      | _ => find_skip (S i) r found
      end
  end.
Definition nothing (s : str) : bool := match s with [] => true | _ => false end.
Definition lastn {T} (n : nat) (l : list T) : list T := skipn (length l - n) l.
(** [_ip_int_from_string] *)
Definition addr6 (s : str) : result Z :=
  if nothing s then Err AddressErr
  else
    let parts := split_on ":" s in
    if (length parts <? 3)%nat%nat then Err AddressErr
    else
      do parts <- expand_v4 parts;
      if (9 <? length parts)%nat%nat then Err AddressErr
      else
        do skip <- find_skip 1 (tl parts) None;
        let first := nothing (hd [] parts) in
        let final := nothing (last parts []) in
        match skip with
        | Some k =>
            let hi := if first then k - 1 else k in
            let lo := if final then length parts - k - 1 - 1 else length parts - k - 1 in
            if first && negb (hi =? 0)%nat then Err AddressErr
            else if final && negb (lo =? 0)%nat then Err AddressErr
            else if (8 <=? hi + lo)%nat%nat then Err AddressErr
            else
              do a <- read_hextets 0%Z (firstn hi parts);
              read_hextets (a * 65536 ^ Z.of_nat (8 - (hi + lo)))%Z (lastn lo parts)
        | None =>
            if negb (length parts =? 8)%nat then Err AddressErr
            else if first then Err AddressErr
            else if final then Err AddressErr
            else read_hextets 0%Z parts
        end.

(** [_prefix_from_prefix_string]; NetmaskValueError is the ValueError it is *)
Definition prefix6 (s : str) : result Z :=
  if all_digits s then
    let p := Z.of_N (digits_val s) in if (p <=? 128)%Z then Ok p else Err ValueError
  else Err ValueError.
(** [IPv6Network(text, strict=False)]: network address and prefix length *)
Definition network6 (s : str) : result (Z * Z) :=
  match split_on "/" s with
  | [a; m] => do ip <- addr6 a; do p <- prefix6 m; Ok (net_of 128 ip p, p)
  | [a] => do ip <- addr6 a; Ok (ip, 128%Z)
  | _ => Err AddressErr
  end.

(** [_compress_hextets], the loop: [i] is the index; the best run of zeros so far begins at [bs]
    and has [bl] elements, the present one begins at [s] (if there is one) and has [n]. *)
Fixpoint best_run (i bs bl : nat) (s : option nat) (n : nat) (l : list str) : nat * nat :=
  match l with
  | [] => (bs, bl)
  | h :: r =>
      if str_eqb h ["0"] then
        let n' := S n in
        let s' := match s with Some x => x | None => i end in
        if (bl <? n')%nat%nat then best_run (S i) s' n' (Some s') n' r
        else best_run (S i) bs bl (Some s') n' r
      else best_run (S i) bs bl None 0 r
  end.
Definition compress (l : list str) : list str :=
  let (bs, bl) := best_run 0 0 0 None 0 l in
  if (1 <? bl)%nat%nat then
    let e := bs + bl in
    let l1 := if (e =? length l)%nat%nat then l ++ [[]] else l in
    let l2 := firstn bs l1 ++ [[]] ++ skipn e l1 in
    if (bs =? 0)%nat%nat then [] :: l2 else l2
  else l.
(** [str(IPv6Address(n))]: the hextets of ['%032x' % n].  Python 3.13 writes IPv4-mapped addresses
    with dots; this is what earlier versions do. *)
Definition hextets (n : Z) : list Z := map (fun i => n / 65536 ^ i mod 65536)%Z [7; 6; 5; 4; 3; 2; 1; 0]%Z.
Definition show6 (n : Z) : str := join [":"] (compress (map show_hex (hextets n))).

(** ** IPv6Obj *)

(** 89: [_IPV6_RGX_CLS] *)
Definition cls6 : string := "[0-9a-fA-F]{1,4}".
(** 97-112: [_IPV6_REGEX_STR]; the lookahead first *)
Definition look6 : string := ":::\S+?$".
Definition verbose6 : string :=
 (" (?P<addr>                                     # Begin a group named 'addr'
 (?P<opt1>" ++ cls6 ++ "(?::" ++ cls6 ++ "){7})                    # no double colons, option 1
|(?P<opt2>[0-9a-fA-F\:]+?\d+\.\d+\.\d+\.\d+)   # ipv4 embedded in an ipv6 address
|(?P<opt3>(?:" ++ cls6 ++ ":){1}(?::" ++ cls6 ++ "){1,6})        # match fe80::1
|(?P<opt4>(?:" ++ cls6 ++ ":){2}(?::" ++ cls6 ++ "){1,5})        # match fe80:a::1
|(?P<opt5>(?:" ++ cls6 ++ ":){3}(?::" ++ cls6 ++ "){1,4})        # match fe80:a:b::1
|(?P<opt6>(?:" ++ cls6 ++ ":){4}(?::" ++ cls6 ++ "){1,3})        # match fe80:a:b:c::1
|(?P<opt7>(?:" ++ cls6 ++ ":){5}(?::" ++ cls6 ++ "){1,2})        # match fe80:a:b:c:d::1
|(?P<opt8>(?:" ++ cls6 ++ ":){6}(?::" ++ cls6 ++ "){1,1})        # match fe80:a:b:c:d:e::1
|(?P<opt9>:(?::" ++ cls6 ++ "){1,7})                    # ipv6 with leading double colons
|(?P<opt10>(?:" ++ cls6 ++ ":){1,7}:)                   # ipv6 with trailing double colons
|(?P<opt11>(?:::))                             # ipv6 bare double colons (default route)
)([/\s](?P<masklen>\d+))*                      # match 'masklen' and end 'addr' group
")%string.
Definition pattern6 : str := unverbose false false (lit verbose6).
(** [_RGX_IPV6ADDR.search(t)] *)
Definition search6 (t : str) : option rmatch :=
  match compile false (lit look6), compile false pattern6 with
  | Some (look, _), Some (r, e) =>
      match search_unless look r 0 t with
      | Some (m, c) => Some (mkMatch m (map (fun n => cap n c) (seq 1 (fst e))))
      | None => None
      end
  | _, _ => None
  end.

(** 1859-1868: [re.split(r"\s+", t.strip())] of a text *)
Definition pieces (s : str) : list str := match words s with [] => [[]] | l => l end.
Definition text6 (s : str) : result str :=
  if (43 <? length s)%nat%nat then Err RequirementFailure
  else match pieces s with
       | [a; b] => Ok (a ++ "/" :: b)
       | [a] => Ok a
       | _ => Err NotImplementedErr
       end.
(** 1855-1891 [IPv6Obj(str)].  The group addr takes part in every match, so it is the first key
    with a value; [None.groupdict()] raises AttributeError. *)
Definition ip6_of_str (s : str) : result ipo :=
  do t <- text6 s;
  match search6 (strip t) with
  | None => Err AttributeErr
  | Some m =>
      match named pattern6 (lit "addr") m with
      | None => Err RequirementFailure
      | Some a =>
          do ip <- addr6 a;
          let mask := match named pattern6 (lit "masklen") m with Some d => d | None => lit "128" end in
          do n <- network6 (a ++ "/" :: mask);
          Ok {| ip_int := ip; ip_net := fst n; ip_plen := snd n |}
      end
  end.
(** 2369-2372 *)
Definition as_cidr_addr6 (o : ipo) : str := show6 (ip_int o) ++ "/" :: show_Z (ip_plen o).
(** 2376-2381, Python 3: [str] of the network *)
Definition as_cidr_net6 (o : ipo) : str := show6 (ip_net o) ++ "/" :: show_Z (ip_plen o).
(** 2188-2193: the setter of the prefix length, for an integer *)
Definition set_prefixlen6_text (o : ipo) (p : Z) : result ipo :=
  do n <- network6 (show6 (ip_int o) ++ "/" :: show_Z p);
  Ok {| ip_int := ip_int o; ip_net := fst n; ip_plen := snd n |}.
(** 1899-1901 [IPv6Obj(IPv6Obj)] *)
Definition copy6 (o : ipo) : result ipo :=
  do n <- network6 (as_cidr_net6 o);
  Ok {| ip_int := ip_int o; ip_net := fst n; ip_plen := snd n |}.
(** 2117-2127 [is_ipv4_mapped]: is the address in ::ffff:0:0/96; [ipv4_mapped] of the address *)
Definition mapped4 (n : Z) : option Z := if (n / 2 ^ 32 =? 65535)%Z then Some (n mod 2 ^ 32)%Z else None.
(** 1907-1914 [__repr__] of an object that is not empty *)
Definition repr6 (o : ipo) : str :=
  match mapped4 (ip_int o) with
  | Some v => lit "<IPv6Obj ::ffff:" ++ dotted v ++ "/" :: show_Z (ip_plen o) ++ [">"]
  | None => lit "<IPv6Obj " ++ show6 (ip_int o) ++ "/" :: show_Z (ip_plen o) ++ [">"]
  end.
