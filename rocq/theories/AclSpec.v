(** Specification side of ASA access list lines. *)
From Coq Require Import Ascii String NArith ZArith Bool List.
From Verif Require Import PyStr AclModel.
Import ListNotations.
Local Open Scope char_scope.

Definition a_word (w : str) : Prop := w <> [] /\ Forall (fun x => is_space x = false) w.
Definition a_gap (w : str) : Prop := w <> [] /\ Forall (fun x => is_space x = true) w.
(** The words with white space between them *)
Inductive spaced : list str -> str -> Prop :=
| sd_one w : a_word w -> spaced [w] w
| sd_more w g ws t : a_word w -> a_gap g -> spaced ws t -> spaced (w :: ws) (w ++ g ++ t).
Definition digits (w : str) : Prop := w <> [] /\ Forall (fun x => is_digit x = true) w.
(** Four numbers with dots between them *)
Definition quad (w : str) : Prop := exists a b c d, digits a /\ digits b /\ digits c /\ digits d /\ w = a ++ "." :: b ++ "." :: c ++ "." :: d.

Inductive endpoint := EAny | EAny4 | EHost (x : str) | EObject (x : str) | EGroup (x : str) | ENet (n m : str).
Definition end_words (e : endpoint) : list str :=
  match e with
  | EAny => [lit "any"] | EAny4 => [lit "any4"] | EHost x => [lit "host"; x] | EObject x => [lit "object"; x]
  | EGroup x => [lit "object-group"; x] | ENet n m => [n; m]
  end.
Inductive portspec := PNone | POp (op p : str) | PRange (a b : str) | PGroup (x : str).
Definition port_words (p : portspec) : list str :=
  match p with PNone => [] | POp o x => [o; x] | PRange a b => [lit "range"; a; b] | PGroup x => [lit "object-group"; x] end.
Inductive protocol := Proto (p : str) | ServiceGroup (x : str).
Definition proto_words (p : protocol) : list str := match p with Proto x => [x] | ServiceGroup x => [lit "object-group"; x] end.
(** log, perhaps with a level and an interval *)
Definition logging := option (option str * option str).
Definition opt_words {T} (f : T -> list str) (x : option T) : list str := match x with Some v => f v | None => [] end.
Definition log_words (l : logging) : list str :=
  opt_words (fun x => lit "log" :: opt_words (fun v => [v]) (fst x) ++ opt_words (fun v => [lit "interval"; v]) (snd x)) l.
Inductive when := Always | Inactive | TimeRange (x : str).
Definition when_words (w : when) : list str := match w with Always => [] | Inactive => [lit "inactive"] | TimeRange x => [lit "time-range"; x] end.
Record options := mkOpts { o_log : logging; o_disable : bool; o_when : when }.
Definition option_words (o : options) : list str := log_words (o_log o) ++ (if o_disable o then [lit "disable"] else []) ++ when_words (o_when o).
(** An extended entry *)
Record entry := mkEntry { e_name : str; e_action : str; e_protocol : protocol; e_src : endpoint; e_sport : portspec; e_dst : endpoint; e_dport : portspec; e_opts : options }.
Definition entry_words (e : entry) : list str :=
  [lit "access-list"; e_name e; lit "extended"; e_action e] ++ proto_words (e_protocol e) ++ end_words (e_src e) ++ port_words (e_sport e) ++
  end_words (e_dst e) ++ port_words (e_dport e) ++ option_words (e_opts e).

(** Words with a meaning of their own cannot be names of networks; ports and time ranges are not
    written like addresses. *)
Definition end_keywords : list string := ["any"; "any4"; "host"; "object"; "object-group"]%string.
Definition port_keywords : list string := ["eq"; "neq"; "lt"; "gt"; "range"; "object-group"]%string.
Definition option_keywords : list string := ["log"; "disable"; "inactive"; "time-range"]%string.
Definition one_of (l : list string) (w : str) : Prop := exists k, In k l /\ w = lit k.
Definition good_end (e : endpoint) : Prop :=
  match e with
  | EAny | EAny4 => True
  | EHost x | EObject x | EGroup x => a_word x
  | ENet n m => a_word n /\ ~ one_of (end_keywords ++ port_keywords ++ option_keywords) n /\ quad m
  end.
Definition good_port (p : portspec) : Prop :=
  match p with
  | PNone => True
  | POp o x => one_of ["eq"; "neq"; "lt"; "gt"]%string o /\ a_word x /\ ~ quad x
  | PRange a b => a_word a /\ a_word b /\ ~ quad a
  | PGroup x => a_word x
  end.
(** The protocols with their numbers *)
Definition numbers : list (string * Z) :=
  [("ip", 0); ("tcp", 6); ("udp", 17); ("ah", 51); ("eigrp", 88); ("esp", 50); ("gre", 47); ("igmp", 2); ("igrp", 9); ("ipinip", 4);
   ("ipsec", 50); ("ospf", 89); ("pcp", 108); ("pim", 103); ("pptp", 47); ("snp", 109)]%string%Z.
Inductive number_of : str -> Z -> Prop :=
| no_name k v : In (k, v) numbers -> number_of (lit k) v
| no_digits w : digits w -> number_of w (Z.of_N (digits_val w)).
Definition good_protocol (p : protocol) : Prop := match p with Proto x => exists v, number_of x v | ServiceGroup x => a_word x end.
Definition levels : list string := ["alerts"; "critical"; "debugging"; "emergencies"; "errors"; "informational"; "notifications"; "warnings"; "0"; "1"; "2"; "3"; "4"; "5"; "6"; "7"]%string.
Definition good_log (l : logging) : Prop :=
  match l with None => True | Some (v, i) => (forall x, v = Some x -> one_of levels x) /\ (forall x, i = Some x -> digits x) end.
Definition good_when (w : when) : Prop := match w with TimeRange x => a_word x /\ ~ quad x | _ => True end.
Definition good_options (o : options) : Prop := good_log (o_log o) /\ good_when (o_when o).
Definition good_entry (e : entry) : Prop :=
  a_word (e_name e) /\ one_of ["permit"; "deny"]%string (e_action e) /\ good_protocol (e_protocol e) /\ good_end (e_src e) /\ good_port (e_sport e) /\
  good_end (e_dst e) /\ good_port (e_dport e) /\ good_options (e_opts e).

(** ** What the dictionary should say *)
Definition method (e : endpoint) : str :=
  match e with EObject _ => lit "object" | EGroup _ => lit "object-group" | _ => lit "network" end.
Definition level_of (l : logging) : str := match l with None => [] | Some (Some v, _) => v | Some (None, _) => lit "informational" end.
Definition interval_of (l : logging) : Z :=
  match l with None => (-1)%Z | Some (_, Some i) => Z.of_N (digits_val i) | Some (_, None) => 300%Z end.
Definition range_of (w : when) : option str := match w with TimeRange x => Some x | _ => None end.
(** the number of the protocol and the name of the service group *)
Definition protocol_says (p : protocol) (v : Z) (o : str) : Prop :=
  match p with Proto x => number_of x v /\ o = [] | ServiceGroup x => v = 65535%Z /\ o = x end.
Definition dict (name action : str) (remark : option str) (v : Z) (o : str) (src dst : str) (opts : options) : acl :=
  mkAcl v (Some o) (Some name) (Some action) remark src dst (o_disable opts) (range_of (o_when opts))
        (match o_log opts with Some _ => true | None => false end) (interval_of (o_log opts)) (level_of (o_log opts)).

(** ** ICMP entries *)

(** The kinds of message with names *)
Definition icmp_names : list string :=
  ["alternate-address"; "conversion-error"; "echo-reply"; "echo"; "information-reply"; "information-request"; "mask-reply"; "mask-request"; "mobile-redirect"; "parameter-problem"; "redirect";
   "router-advertisement"; "router-solicitation"; "source-quench"; "time-exceeded"; "timestamp-reply"; "timestamp-request"; "traceroute"; "unreachable"]%string.
Record icmp_entry := mkIcmp { i_name : str; i_action : str; i_src : endpoint; i_dst : endpoint; i_kind : option str; i_opts : options }.
Definition icmp_words (e : icmp_entry) : list str :=
  [lit "access-list"; i_name e; lit "extended"; i_action e; lit "icmp"] ++ end_words (i_src e) ++ end_words (i_dst e) ++ opt_words (fun v => [v]) (i_kind e) ++ option_words (i_opts e).
Definition good_kind (k : option str) : Prop := match k with Some v => one_of icmp_names v \/ digits v | None => True end.
(** the destination does not begin with "any", unless it is "any" *)
Definition not_anyish (e : endpoint) : Prop := match e with EAny4 => False | ENet n _ => forall s, n <> lit "any" ++ s | _ => True end.
Definition good_icmp (e : icmp_entry) : Prop :=
  a_word (i_name e) /\ one_of ["permit"; "deny"]%string (i_action e) /\ good_end (i_src e) /\ good_end (i_dst e) /\ good_kind (i_kind e) /\ good_options (i_opts e).

(** ** Standard entries *)
Definition standard_words (name act : str) (dst : endpoint) : list str := [lit "access-list"; name; lit "standard"; act] ++ end_words dst.
Definition standard_end (e : endpoint) : Prop := match e with EObject _ | EGroup _ => False | _ => good_end e end.
Definition plain : options := mkOpts None false Always.
