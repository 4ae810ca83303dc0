(** Model of L4Object (ccp_util.py:2432-2517) and of its port names
    (protocol_values.py). *)
From Coq Require Import Ascii String Arith NArith ZArith Bool List.
From Verif Require Import PyStr PyBase RangeModel.
Import ListNotations.
Local Open Scope Z_scope.

(** protocol_values.py:53-106 ASA_TCP_PORTS *)
Definition asa_tcp_ports : list (str * Z) :=
  [
    (lit "aol", 5190); (lit "bgp", 179); (lit "chargen", 19); (lit "cifs", 3020);
    (lit "citrix-ica", 1494); (lit "cmd", 514); (lit "ctiqbe", 2748); (lit "daytime", 13);
    (lit "discard", 9); (lit "domain", 53); (lit "echo", 7); (lit "exec", 512); (lit "finger", 79);
    (lit "ftp", 20); (lit "ftp-data", 21); (lit "gopher", 70); (lit "h323", 1720);
    (lit "hostname", 101); (lit "http", 80); (lit "https", 443); (lit "ident", 113);
    (lit "imap4", 143); (lit "irc", 194); (lit "kerberos", 88); (lit "klogin", 543);
    (lit "kshell", 544); (lit "ldap", 389); (lit "ldaps", 636); (lit "login", 513);
    (lit "lotusnotes", 1352); (lit "lpd", 515); (lit "netbios-ssn", 139); (lit "nfs", 2049);
    (lit "nntp", 119); (lit "pcanywhere-data", 5631); (lit "pim-auto-rp", 496); (lit "pop2", 109);
    (lit "pop3", 110); (lit "pptp", 1723); (lit "rsh", 514); (lit "rtsp", 554); (lit "sip", 5060);
    (lit "smtp", 25); (lit "sqlnet", 1521); (lit "ssh", 22); (lit "sunrpc", 111); (lit "tacacs", 49);
    (lit "talk", 517); (lit "telnet", 23); (lit "uucp", 540); (lit "whois", 43); (lit "www", 80)
  ].
(** protocol_values.py:108-145 ASA_UDP_PORTS *)
Definition asa_udp_ports : list (str * Z) :=
  [
    (lit "biff", 512); (lit "bootpc", 68); (lit "bootps", 67); (lit "cifs", 3020);
    (lit "discard", 9); (lit "dnsix", 90); (lit "domain", 53); (lit "echo", 7); (lit "http", 80);
    (lit "isakmp", 500); (lit "kerberos", 88); (lit "mobile-ip", 434); (lit "nameserver", 42);
    (lit "netbios-dgm", 138); (lit "netbios-ns", 137); (lit "nfs", 2049); (lit "ntp", 123);
    (lit "pcanywhere-status", 5632); (lit "pim-auto-rp", 496); (lit "radius", 1812);
    (lit "radius-acct", 1813); (lit "rip", 520); (lit "rtsp", 5004); (lit "secureid-udp", 5500);
    (lit "sip", 5060); (lit "snmp", 161); (lit "snmptrap", 162); (lit "sunrpc", 111);
    (lit "syslog", 514); (lit "tacacs", 49); (lit "talk", 517); (lit "tftp", 69); (lit "time", 37);
    (lit "who", 513); (lit "www", 80); (lit "xdmcp", 177)
  ].

(** [ports.get(w, w)] then [int()] *)
Definition port_of (ports : list (str * Z)) (w : str) : result Z :=
  match find (fun kv => str_eqb (fst kv) w) ports with
  | Some kv => Ok (snd kv)
  | None => int_or_err w
  end.

Definition between (a x b : Z) : bool := (a <=? x) && (x <=? b).

(** [re.split(r"\s+", s)] of a stripped, non-empty text is [s.split()]; the branches
    that use it have found a space in the text *)
Definition last_word (s : str) : str := last (words s) [].

(** [re.search(r"^\S+$", s)] of a stripped text *)
Definition one_word (s : str) : bool :=
  match s with [] => false | _ => forallb (fun c => negb (is_space c)) s end.

(** 2474-2506: the port list.  The last branch, "neq ", is never taken since "eq " is
    found first. *)
Definition l4_list (ports : list (str * Z)) (port_spec : str) : result (list Z) :=
  let s := strip port_spec in
  if contains (lit "eq ") s then
    do p <- port_of ports (strip (last_word s));
    if between 1 p 65535 then Ok [p] else Err RequirementFailure
  else if one_word s then
    do p <- port_of ports s;
    if between 1 p 65535 then Ok [p] else Err RequirementFailure
  else if contains (lit "range ") s then
    match tl (words s) with
    | a :: b :: _ =>
        do low <- port_of ports a;
        do high <- port_of ports b;
        if high <? low then Err RequirementFailure else Ok (interval low high)
    | [a] => do _ <- port_of ports a; Err IndexError
    | [] => Err IndexError
    end
  else if contains (lit "lt ") s then
    do high <- port_of ports (last_word s);
    if between 2 high 65535 then Ok (interval 1 (high - 1)) else Err RequirementFailure
  else if contains (lit "gt ") s then
    do low <- port_of ports (last_word s);
    if between 1 low 65534 then Ok (interval (low + 1) 65535) else Err RequirementFailure
  else Err NotImplementedErr.

Record l4 := { l4_protocol : str; l4_ports : list Z }.

(** 2450-2506 *)
Definition l4_object (protocol port_spec syntax : str) : result l4 :=
  if str_eqb syntax (lit "asa") then
    if str_eqb protocol (lit "tcp") then
      do l <- l4_list asa_tcp_ports port_spec; Ok {| l4_protocol := protocol; l4_ports := l |}
    else if str_eqb protocol (lit "udp") then
      do l <- l4_list asa_udp_ports port_spec; Ok {| l4_protocol := protocol; l4_ports := l |}
    else Err NotImplementedErr
  else Err NotImplementedErr.

Fixpoint zs_eqb (a b : list Z) : bool :=
  match a, b with
  | [], [] => true
  | x :: a', y :: b' => (x =? y) && zs_eqb a' b'
  | _, _ => false
  end.
(** 2508-2511 *)
Definition l4_eq (a b : l4) : bool :=
  str_eqb (l4_protocol a) (l4_protocol b) && zs_eqb (l4_ports a) (l4_ports b).
