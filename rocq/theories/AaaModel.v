(** Model of the attributes of the hostname, access-line, AAA and global interface lines
    (models_cisco.py:2686-2861 and 3203-3415).

    [t] is the text of the line object, without white space at its end; [below] are the texts
    of its all_children in order and [kids] those of its children.  The attributes of AAA lines
    are computed when the object is made. *)
From Coq Require Import Ascii String Arith NArith ZArith Bool List.
From Verif Require Import PyStr PyBase SearchModel PyRe IosModel FactoryModel.
Import ListNotations.
Local Open Scope char_scope.

(** ccp_abc.py:1194-1258 [re_match_typed]; the defaults used have the type already *)
Definition typed {T} (conv : option str -> result T) (dflt : T) (p : string) (g : nat) (t : str) : result T :=
  match rx_find (pattern false (lit p)) t with
  | Some m => do v <- group g m; match v with Some _ => conv v | None => Ok dflt end
  | None => Ok dflt
  end.
(** ccp_abc.py:1143-1171 [bool(re_search(p))]: the pattern text itself in the line counts; the
    value is the text of the line *)
Definition line_has (p : string) (t : str) : bool := if contains (lit p) t || finds p t then truth t else false.

(** 2708-2741 *)
Definition has_cdp_disabled := line_has "^no\s+cdp\s+run\s*".
Definition has_intf_logging_def := line_has "^logging\s+event\s+link-status\s+global".
Definition has_stp_portfast_def := line_has "^spanning-tree\sportfast\sdefault".
Definition has_stp_portfast_bpduguard_def := line_has "^spanning-tree\sportfast\sbpduguard\sdefault".
Definition has_stp_mode_rapidpvst := line_has "^spanning-tree\smode\srapid-pvst".

(** 2766-2770 *)
Definition hostname := typed to_str [] "^hostname\s+(\S+)" 1.

(** 2800-2804 *)
Definition is_accessline (t : str) : result bool := nonblank (typed to_str [] "^(line\s+\S+)" 1 t).
(** 2806-2813 *)
Definition access_name (t : str) : result str :=
  do retval <- typed to_str [] "^line\s+(\S+)" 1 t;
  if finds "\d+" retval then Ok [] else Ok retval.
(** [list(map(int, s.strip().split()))] *)
Fixpoint int_all (l : list str) : result (list Z) :=
  match l with
  | [] => Ok []
  | w :: r => do n <- to_int (Some w); do ns <- int_all r; Ok (n :: ns)
  end.
Definition ints_of (s : str) : result (list Z) := int_all (words (strip s)).
(** 2830-2840; the value is the map object, of which this is the list *)
Definition line_range (t : str) : result (list Z) :=
  do retval <- typed to_str [] "([a-zA-Z]+\s+)*(\d+\s*\d*)$" 2 t; ints_of retval.
(** 2825-2828 *)
Definition range_str (t : str) : result str := do l <- line_range t; Ok (join [" "] (map show_Z l)).
(** 2854-2861 *)
Definition parse_exectimeout (t : str) (below : list str) : result (list Z) :=
  do retval <- iter_str "^\s*exec-timeout\s+(\d+\s*\d*)\s*$" 1 t below; ints_of retval.
(** 2842-2852: a map object has no items and no order *)
Definition manual_exectimeout_minutes (t : str) (below : list str) : result Z := Err TypeErr.
Definition manual_exectimeout_seconds (t : str) (below : list str) : result Z := Err TypeErr.

(** [s.split(r"\s")]: the separator is a backslash and an s *)
Fixpoint split_bs (acc s : str) : list str :=
  match s with
  | [] => [rev acc]
  | c :: r =>
      match r with
      | d :: r' => if Ascii.eqb c "\" && Ascii.eqb d "s" then rev acc :: split_bs [] r' else split_bs (c :: acc) r
      | [] => split_bs (c :: acc) r
      end
  end.
Definition methods_of (s : str) : list str := split_bs [] (strip s).
(** List name, group and methods: 3263-3273 and 3289-3299 *)
Definition authentication (p : string) (t : str) : result (str * str * list str) :=
  do l <- typed to_str [] p 1 t;
  do g <- typed to_str [] p 2 t;
  do m <- typed to_str [] p 3 t;
  Ok (l, g, methods_of m).
Definition login_authentication := authentication "^aaa\sauthentication\slogin\s(\S+)\sgroup\s(\S+)(.+?)$".
Definition enable_authentication := authentication "^aaa\s+authentication\s+enable\s+(\S+)\s+group\s+(\S+)(.+?)$".
(** Level, list name, group and methods: 3315-3326 and 3342-3353 *)
Definition authorization (p : string) (t : str) : result (Z * str * str * list str) :=
  do n <- typed to_int 0%Z p 1 t;
  do l <- typed to_str [] p 2 t;
  do g <- typed to_str [] p 3 t;
  do m <- typed to_str [] p 4 t;
  Ok (n, l, g, methods_of m).
Definition commands_authorization := authorization "^aaa\s+authorization\s+commands\s+(\d+)\s+(\S+)\s+group\s+(\S+)(.+?)$".
Definition console_authorization := authorization "^aaa\s+authorization\s+console\s+(\d+)\s+(\S+)\s+group\s+(\S+)(.+?)$".
(** Level, list name, record type and group: 3369-3381 *)
Definition commands_accounting (t : str) : result (Z * str * str * str) :=
  let p := "^aaa\s+accounting\s+commands\s+(\d+)\s+(\S+)\s+(none|stop\-only|start\-stop)\s+group\s+(\S+)$"%string in
  do n <- typed to_int 0%Z p 1 t;
  do l <- typed to_str [] p 2 t;
  do r <- typed to_str [] p 3 t;
  do g <- typed to_str [] p 4 t;
  Ok (n, l, r, g).
(** List name, record type and group: 3397-3408 *)
Definition exec_accounting (t : str) : result (str * str * str) :=
  let p := "^aaa\s+accounting\s+exec\s+(\S+)\s+(none|stop\-only|start\-stop)\s+group\s(\S+)$"%string in
  do l <- typed to_str [] p 1 t;
  do r <- typed to_str [] p 2 t;
  do g <- typed to_str [] p 3 t;
  Ok (l, r, g).

(** Protocol and group: 3205-3216 *)
Definition group_server_init (t : str) : result (str * str) :=
  match rx_find (pattern false (lit group_pattern)) t with
  | Some m => Ok (dict_str (Some (named (lit group_pattern) (lit "protocol") m)), dict_str (Some (named (lit group_pattern) (lit "group") m)))
  | None => Err ValueError
  end.
(** 3225-3233 *)
Definition server_vrf := iter_str "^\s+(ip\s+)*vrf\s+forwarding\s+(\S+)" 2.
(** 3235-3243 *)
Definition source_interface := iter_str "^\s+ip\s+tacacs\s+source-interface\s+(\S.+?\S)\s*$" 1.
(** 3245-3254; the set is kept as a list *)
Fixpoint server_private (kids : list str) : result (list str) :=
  match kids with
  | [] => Ok []
  | t :: r =>
      do l <- server_private r;
      match rx_find (pattern false (lit "^\s+server-private\s+(\S+)\s")) t with
      | Some m => do v <- group 1 m; do s <- to_str v; Ok (s :: l)
      | None => Ok l
      end
  end.
