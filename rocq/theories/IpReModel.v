(** IPv4Obj of a text with the regular expressions as they are written in ccp_util.py. *)
From Coq Require Import Ascii String Arith NArith ZArith Bool List.
From Verif Require Import PyStr PyBase SearchModel IpModel PyRe JunosReModel.
Import ListNotations.
Local Open Scope char_scope.

(** ccp_util.py:125-135 *)
Definition v4_text : string := "
     (?:
       ^(?P<v4addr_nomask>\d+\.\d+\.\d+\.\d+)$
      |(?:^
         (?:(?P<v4addr_netmask>\d+\.\d+\.\d+\.\d+))(\s+|\/)(?:(?P<netmask>\d+\.\d+\.\d+\.\d+))
       $)
      |^(?:\s*(?P<v4addr_prefixlen>\d+\.\d+\.\d+\.\d+)(?:\/(?P<masklen>\d+))\s*)$
    )
    ".
(** 136, [re.VERBOSE] *)
Definition v4_pattern : str := unverbose false false (lit v4_text).
Definition found_in (p : string) (s : str) : bool := match rx_find (pattern false (lit p)) s with Some _ => true | None => false end.
Definition is_empty (s : str) : bool := match s with [] => true | _ => false end.

(** 1031-1070: [v4addr] and [mask_prefixlen] when an address is read from them; [None]
    stands for AddressValueError.  "dhcp" contains no digits, so the pattern never
    gives it. *)
Definition split_v4_re (s : str) : option (str * str) :=
  let mm := rx_find (pattern false v4_pattern) s in
  let get nm := match mm with Some m => or_empty (named v4_pattern (lit nm) m) | None => [] end in
  let nomask := get "v4addr_nomask"%string in
  let with_netmask := get "v4addr_netmask"%string in
  let with_prefixlen := get "v4addr_prefixlen"%string in
  let netmask := get "netmask"%string in
  let prefixlen := get "masklen"%string in
  let prefixlen := if is_empty netmask && is_empty prefixlen then lit "32" else prefixlen in
  let prefixlen := if found_in "^\d+$" (strip prefixlen) then prefixlen else [] in
  let netmask := if found_in "^\d+\.\d+\.\d+\.\d+$" (strip netmask) then netmask else [] in
  let prefixlen := if negb (is_empty netmask) && negb (is_empty prefixlen) then [] else prefixlen in
  let v4addr := nomask ++ with_netmask ++ with_prefixlen in
  if found_in "\d+\.\d+\.\d+\.\d+" v4addr then Some (v4addr, netmask ++ prefixlen) else None.
