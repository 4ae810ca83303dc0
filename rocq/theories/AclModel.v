(** Model of access list lines of ASA configurations (models_asa.py:1141-1469). *)
From Coq Require Import Ascii String Arith NArith ZArith Bool List.
From Verif Require Import PyStr PyBase SearchModel PyRe.
Import ListNotations.
Local Open Scope char_scope.

(** [str.format] with the arguments 0 to 9, on texts without other braces *)
Fixpoint fmt (args : list str) (s : str) : str :=
  match s with
  | [] => []
  | "{" :: r => match r with
                | d :: "}" :: r' => nth (N.to_nat (digit_val d)) args [] ++ fmt args r'
                | _ => "{" :: fmt args r
                end
  | x :: r => x :: fmt args r
  end.
(** 1141-1145 *)
Definition acl_protocols : str := lit "ip|tcp|udp|ah|eigrp|esp|gre|igmp|igrp|ipinip|ipsec|ospf|pcp|pim|pptp|snp|\d+".
Definition acl_icmp_protocols : str := lit "alternate-address|conversion-error|echo-reply|echo|information-reply|information-request|mask-reply|mask-request|mobile-redirect|parameter-problem|redirect|router-advertisement|router-solicitation|source-quench|time-exceeded|timestamp-reply|timestamp-request|traceroute|unreachable".
Definition acl_loglevels : str := lit "alerts|critical|debugging|emergencies|errors|informational|notifications|warnings|[0-7]".
(** 1146-1282, compiled with re.VERBOSE *)
Definition acl_verbose : str := fmt [acl_protocols; acl_loglevels; acl_icmp_protocols] (lit "(?:                         # Non-capturing parenthesis
# remark
 (^access-list\s+(?P<acl_name0>\S+)\s+(?P<action0>remark)\s+(?P<remark>\S.+?)$)

# extended service object with source network object, destination network object
|(?:^access-list\s+(?P<acl_name1>\S+)
  \s+extended\s+(?P<action1>permit|deny)
  \s+(?:
     (?:object-group\s+(?P<service_object1>\S+))
    |(?P<protocol1>{0})
  )
  \s+(?:                       # 10.0.0.0 255.255.255.0
     (?:object-group\s+(?P<src_networkobject1>\S+))
    |(?:object\s+(?P<src_object1>\S+))
    |(?:(?P<src_network1a>\S+)\s+(?P<src_netmask1a>\d+\.\d+\.\d+\.\d+))
  )
  \s+(?:                       # 10.0.0.0 255.255.255.0
     (?:object-group\s+(?P<dst_networkobject1>\S+))
    |(?:object\s+(?P<dst_object1>\S+))
    |(?:(?P<dst_network1a>\S+)\s+(?P<dst_netmask1a>\d+\.\d+\.\d+\.\d+))
  )
  (?:\s+
    (?P<log1>log)
    (?:\s+(?P<loglevel1>{1}))?
    (?:\s+interval\s+(?P<log_interval1>\d+))?
  )?
  (?:\s+(?P<disable1>disable))?
  (?:
    (?:\s+(?P<inactive1>inactive))
   |(?:\s+time-range\s+(?P<time_range1>\S+))
  )?
 \s*$)    # END access-list 1 parse

# extended service object with source network, destination network
# access-list TESTME1 extended permit ip any any log
|(?:^access-list\s+(?P<acl_name2>\S+)
  \s+extended
  \s+(?P<action2>permit|deny)
  \s+(?:                       # service-object or protocol
     (?:object-group\s+(?P<service_object2>\S+))
    |(?P<protocol2>{0})
  )
  (?:\s+       # any, any4, host foo, object-group FOO or 10.0.0.0 255.255.255.0
     (?:
       (?P<src_network2a>any|any4)
      |(?:host\s+(?P<src_network2b>\S+))
      |(?:object\s+(?P<src_object2>\S+))
      |(?:object-group\s+(?P<src_networkobject2>\S+))
      |(?:(?P<src_network2c>\S+)\s+(?P<src_netmask2c>\d+\.\d+\.\d+\.\d+))
    )
  )
  (?:\s+
    (?:
       (?:(?P<src_port_operator>eq|neq|lt|gt)\s+(?P<src_port>\S+))
      |(?:range\s+(?P<src_port_low>\S+)\s+(?P<src_port_high>\S+))
      |(?:object-group\s+(?P<src_service_object>\S+))
    )
  )?
  (?:\s+       # any, any4, host foo, object-group FOO or 10.0.0.0 255.255.255.0
     (?:
       (?P<dst_network2a>any|any4)
      |(?:host\s+(?P<dst_network2b>\S+))
      |(?:object\s+(?P<dst_object2>\S+))
      |(?:object-group\s+(?P<dst_networkobject2>\S+))
      |(?:(?P<dst_network2c>\S+)\s+(?P<dst_netmask2c>\d+\.\d+\.\d+\.\d+))
    )
  )
  (?:\s+
    (?:
       (?:(?P<dst_port_operator>eq|neq|lt|gt)\s+(?P<dst_port>\S+))
      |(?:range\s+(?P<dst_port_low>\S+)\s+(?P<dst_port_high>\S+))
      |(?:object-group\s+(?P<dst_service_object>\S+))
    )
  )?
  (?:\s+
    (?P<log2>log)
    (?:\s+(?P<loglevel2>{1}))?
    (?:\s+interval\s+(?P<log_interval2>\d+))?
  )?
  (?:\s+(?P<disable2>disable))?
  (?:
    (?:\s+(?P<inactive2>inactive))
   |(?:\s+time-range\s+(?P<time_range2>\S+))
  )?
 \s*$)    # END access-list 2 parse

# access-list SPLIT_TUNNEL_NETS standard permit 192.0.2.0 255.255.255.0
|(?:^access-list\s+(?P<acl_name3>\S+)
  \s+standard
  \s+(?P<action3>permit|deny)
  \s+(?:
    (?P<dst_network3a>any|any4)
   |(?:host\s+(?P<dst_network3b>\S+))
   |(?:(?P<dst_network3c>\S+)\s+(?P<dst_netmask3c>\d+\.\d+\.\d+\.\d+))
  )

  )
#access-list TESTME extended permit icmp any4 0.0.0.0 0.0.0.0 unreachable log interval 1
|(?:^access-list\s+(?P<acl_name4>\S+)
  \s+extended
  \s+(?P<action4>permit|deny)
  \s+(?P<protocol4>icmp)
  (?:\s+       # any, any4, host foo, object-group FOO or 10.0.0.0 255.255.255.0
     (?:
       (?P<src_network4a>any|any4)
      |(?:host\s+(?P<src_network4b>\S+))
      |(?:object\s+(?P<src_object4>\S+))
      |(?:object-group\s+(?P<src_networkobject4>\S+))
      |(?:(?P<src_network4c>\S+)\s+(?P<src_netmask4c>\d+\.\d+\.\d+\.\d+))
    )
  )
  (?:\s+       # any, any4, host foo, object-group FOO or 10.0.0.0 255.255.255.0
     (?:
       (?P<dst_network4a>any|any4)
      |(?:host\s+(?P<dst_network4b>\S+))
      |(?:object\s+(?P<dst_object4>\S+))
      |(?:object-group\s+(?P<dst_networkobject4>\S+))
      |(?:(?P<dst_network4c>\S+)\s+(?P<dst_netmask4c>\d+\.\d+\.\d+\.\d+))
    )
  )
  (?:\s+(?P<icmp_proto4>{2}|\d+))?
  (?:\s+
    (?P<log4>log)
    (?:\s+(?P<loglevel4>{1}))?
    (?:\s+interval\s+(?P<log_interval4>\d+))?
  )?
  (?:\s+(?P<disable4>disable))?
  (?:
    (?:\s+(?P<inactive4>inactive))
   |(?:\s+time-range\s+(?P<time_range4>\S+))
  )?
  )
)                                                   # Close non-capture parens
").
Definition re_acl : str := unverbose false false acl_verbose.

(** [_mm_results], a dictionary by group names *)
Definition groups := str -> option str.
(** 1287-1306: the constructor.  The text is that of the line; a call without text is left out. *)
Definition acl_line (text : str) : result groups :=
  match rx_find (pattern false re_acl) text with
  | Some m => Ok (fun nm => named re_acl nm m)
  | None => Err ValueError
  end.
(** 1308-1314 *)
Definition is_acl_line (line : str) : bool := contains (lit "access-list ") (lower (firstn 12 line)).

(** the truth of a text or None, and [or] *)
Definition truthy (x : option str) : bool := match x with Some (_ :: _) => true | _ => false end.
Definition por (x y : option str) : option str := if truthy x then x else y.
Definition any_of (g : groups) (names : list string) : bool := existsb (fun n => truthy (g (lit n))) names.
Definition first_of (g : groups) (names : list string) : option str := fold_right (fun n r => por (g (lit n)) r) None names.
(** The last of a chain of [or] is given as it is. *)
Fixpoint or_chain (g : groups) (names : list string) : option str :=
  match names with
  | [] => None
  | [n] => g (lit n)
  | n :: r => por (g (lit n)) (or_chain g r)
  end.
Definition is_remark (g : groups) : bool :=
  truthy (g (lit "action0")) && match g (lit "action0") with Some s => str_eqb s (lit "remark") | None => false end.
(** 1316-1349; that a key is added to the dictionary is left out, nothing reads it *)
Definition src_addr_method (g : groups) : result str :=
  if is_remark g then Ok []
  else if any_of g ["src_networkobject1"; "src_networkobject2"; "src_networkobject4"]%string then Ok (lit "object-group")
  else if any_of g ["src_object1"; "src_object2"; "src_object4"]%string then Ok (lit "object")
  else if any_of g ["src_network1a"; "src_network2a"; "src_network2b"; "src_network2c"; "src_network4a"; "src_network4b"; "src_network4c"]%string then Ok (lit "network")
  else if any_of g ["acl_name3"]%string then Ok (lit "network")
  else Err ValueError.
(** 1351-1383 *)
Definition dst_addr_method (g : groups) : result str :=
  if is_remark g then Ok []
  else if any_of g ["dst_networkobject1"; "dst_networkobject2"; "dst_networkobject4"]%string then Ok (lit "object-group")
  else if any_of g ["dst_object1"; "dst_object2"; "dst_object4"]%string then Ok (lit "object")
  else if any_of g ["dst_network1a"; "dst_network2a"; "dst_network2b"; "dst_network2c"; "dst_network4a"; "dst_network4b"; "dst_network4c"]%string then Ok (lit "network")
  else if any_of g ["dst_network3a"; "dst_network3b"; "dst_network3c"]%string then Ok (lit "network")
  else Err ValueError.
(** protocol_values.py:29-49 *)
Definition asa_ip_protocols : list (string * Z) :=
  [("ah", 51); ("eigrp", 88); ("esp", 50); ("gre", 47); ("icmp", 1); ("icmp6", 58); ("igmp", 2); ("igrp", 9); ("ip", 0); ("ipinip", 4);
   ("ipsec", 50); ("nos", 94); ("ospf", 89); ("pcp", 108); ("pim", 103); ("pptp", 47); ("snp", 109); ("tcp", 6); ("udp", 17)]%string%Z.
(** [int(ASA_IP_PROTOCOLS.get(p, p))] *)
Definition protocol_number (p : str) : result Z :=
  match find (fun x => str_eqb (lit (fst x)) p) asa_ip_protocols with
  | Some (_, v) => Ok v
  | None => match py_int p with Some v => Ok v | None => Err ValueError end
  end.
(** 1385-1417 *)
Definition acl_protocol (g : groups) : result (Z * option str) :=
  if any_of g ["remark"]%string then Ok ((-1)%Z, Some [])
  else if any_of g ["protocol1"; "protocol2"; "protocol4"]%string then
    match first_of g ["protocol1"; "protocol2"; "protocol4"]%string with
    | Some p => do v <- protocol_number p; Ok (v, Some [])
    | None => Ok ((-1)%Z, Some [])
    end
  else if any_of g ["acl_name3"]%string then do v <- protocol_number (lit "ip"); Ok (v, Some [])
  else if any_of g ["service_object1"; "service_object2"]%string then Ok (65535%Z, or_chain g ["service_object1"; "service_object2"]%string)
  else Err ValueError.
Record acl := mkAcl {
  a_protocol : Z; a_protocol_object : option str; a_name : option str; a_action : option str; a_remark : option str;
  a_src : str; a_dst : str; a_disable : bool; a_time_range : option str; a_log : bool; a_interval : Z; a_level : str }.
(** 1419-1469 *)
Definition result_dict (g : groups) : result acl :=
  do p <- acl_protocol g;
  do src <- src_addr_method g;
  do dst <- dst_addr_method g;
  let log := any_of g ["log1"; "log2"; "log4"]%string in
  do lv <- (if negb log then Ok ((-1)%Z, [])
            else let level := match first_of g ["loglevel1"; "loglevel2"; "loglevel4"]%string with Some l => l | None => lit "informational" end in
                 match first_of g ["log_interval1"; "log_interval2"; "log_interval4"]%string with
                 | Some t => match py_int t with Some v => Ok (v, level) | None => Err ValueError end
                 | None => Ok (300%Z, level)
                 end);
  Ok (mkAcl (fst p) (snd p) (or_chain g ["acl_name0"; "acl_name1"; "acl_name2"; "acl_name3"; "acl_name4"]%string)
            (or_chain g ["action0"; "action1"; "action2"; "action3"; "action4"]%string) (g (lit "remark")) src dst
            (any_of g ["disable1"; "disable2"; "disable4"]%string) (or_chain g ["time_range1"; "time_range2"; "time_range4"]%string)
            log (fst lv) (snd lv)).
Definition acl_result (text : str) : result acl := do g <- acl_line text; result_dict g.

Example acl_ex1 : acl_result (lit "access-list TESTME1 extended permit tcp object-group A host 10.1.1.1 eq 80 log warnings interval 5 inactive") =
  Ok (mkAcl 6 (Some []) (Some (lit "TESTME1")) (Some (lit "permit")) None (lit "object-group") (lit "network") false None true 5 (lit "warnings")).
Proof. vm_compute. reflexivity. Qed.
Example acl_ex2 : acl_result (lit "access-list X extended permit icmp any any4 echo log") =
  Ok (mkAcl 1 (Some []) (Some (lit "X")) (Some (lit "permit")) None (lit "network") (lit "network") false None false (-1) []).
Proof. vm_compute. reflexivity. Qed.
Example acl_ex3 : acl_result (lit "access-list X standard permit 10.0.0.0 255.0.0.0") =
  Ok (mkAcl 0 (Some []) (Some (lit "X")) (Some (lit "permit")) None (lit "network") (lit "network") false None false (-1) []).
Proof. vm_compute. reflexivity. Qed.
Example acl_ex4 : acl_result (lit "access-list X remark hello there") =
  Ok (mkAcl (-1) (Some []) (Some (lit "X")) (Some (lit "remark")) (Some (lit "hello there")) [] [] false None false (-1) []).
Proof. vm_compute. reflexivity. Qed.
Example acl_ex5 : acl_result (lit "access-list X extended permit object-group S host 1.1.1.1 object O disable time-range T") =
  Ok (mkAcl 65535 (Some (lit "S")) (Some (lit "X")) (Some (lit "permit")) None (lit "network") (lit "object") true (Some (lit "T")) false (-1) []).
Proof. vm_compute. reflexivity. Qed.
