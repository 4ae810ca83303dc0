(** Model of the attributes of the AAA lines of NX-OS (models_nxos.py:2275-2461).

    [t] is the text of the line object, without white space at its end; [below] are the texts of
    its all_children in order and [kids] those of its children.  The patterns differ from those of
    IOS (AaaModel) in the white space they allow and in the lines below a group of servers. *)
From Coq Require Import Ascii String Arith NArith ZArith Bool List.
From Verif Require Import PyStr PyBase SearchModel PyRe IosModel FactoryModel AaaModel.
Import ListNotations.
Local Open Scope char_scope.

(** 2324-2335: list name, group and methods *)
Definition nx_login_authentication := authentication "^aaa\sauthentication\slogin\s(\S+)\sgroup\s(\S+)(.+?)$".
(** 2347-2358 *)
Definition nx_enable_authentication := authentication "^aaa\sauthentication\senable\s(\S+)\sgroup\s(\S+)(.+?)$".
(** 2370-2382: level, list name, group and methods *)
Definition nx_commands_authorization := authorization "^aaa\sauthorization\scommands\s(\d+)\s(\S+)\sgroup\s(\S+)(.+?)$".
(** 2394-2406 *)
Definition nx_console_authorization := authorization "^aaa\s+authorization\s+console\s+(\d+)\s(\S+)\s+group\s+(\S+)(.+?)$".
(** 2418-2431: level, list name, record type and group *)
Definition nx_commands_accounting (t : str) : result (Z * str * str * str) :=
  let p := "^aaa\saccounting\scommands\s(\d+)\s(\S+)\s(none|stop\-only|start\-stop)\sgroup\s(\S+)$"%string in
  do n <- typed to_int 0%Z p 1 t;
  do l <- typed to_str [] p 2 t;
  do r <- typed to_str [] p 3 t;
  do g <- typed to_str [] p 4 t;
  Ok (n, l, r, g).
(** 2443-2455: list name, record type and group *)
Definition nx_exec_accounting (t : str) : result (str * str * str) :=
  let p := "^aaa\saccounting\sexec\s(\S+)\s(none|stop\-only|start\-stop)\sgroup\s(\S+)$"%string in
  do l <- typed to_str [] p 1 t;
  do r <- typed to_str [] p 2 t;
  do g <- typed to_str [] p 3 t;
  Ok (l, r, g).

(** 2276-2287: protocol and group; the pattern is the one of IOS *)
Definition nx_group_server (t : str) : result (str * str) := group_server_init t.
(** 2295-2299 *)
Definition nx_vrf := iter_str "^\s+use-vrf\s+(\S+)" 1.
(** 2301-2308 *)
Definition nx_source_interface := iter_str "^\s+source-interface\s+(\S.+?\S)\s*$" 1.
(** 2310-2318; the pattern is the one of IOS *)
Definition nx_server_private (kids : list str) : result (list str) := server_private kids.
