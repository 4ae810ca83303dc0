(** Model of the line classes of factory=True for the ios syntax: which class a line gets,
    and how the configuration is then parsed. *)
From Coq Require Import Ascii String Arith NArith ZArith Bool List.
From Verif Require Import PyStr PyBase CfgModel SearchModel IpModel PyRe IosModel RouteModel.
Import ListNotations.
Local Open Scope char_scope.

(** ciscoconfparse.py:104-118 ALL_IOS_FACTORY_CLASSES, in that order *)
Inductive lclass :=
| IOSIntfLine | IOSRouteLine | IOSAccessLine
| IOSAaaLoginAuthenticationLine | IOSAaaEnableAuthenticationLine
| IOSAaaCommandsAuthorizationLine | IOSAaaConsoleAuthorizationLine
| IOSAaaCommandsAccountingLine | IOSAaaExecAccountingLine | IOSAaaGroupServerLine
| IOSHostnameLine | IOSIntfGlobal | IOSCfgLine.
Definition ios_classes : list lclass :=
  [IOSIntfLine; IOSRouteLine; IOSAccessLine; IOSAaaLoginAuthenticationLine; IOSAaaEnableAuthenticationLine;
   IOSAaaCommandsAuthorizationLine; IOSAaaConsoleAuthorizationLine; IOSAaaCommandsAccountingLine; IOSAaaExecAccountingLine;
   IOSAaaGroupServerLine; IOSHostnameLine; IOSIntfGlobal; IOSCfgLine].

(** [if re.search(p, line)] *)
Definition finds (p : string) (line : str) : bool :=
  match rx_find (pattern false (lit p)) line with Some _ => true | None => false end.
(** [line.strip().split()[0:n] == ws] *)
Fixpoint list_eqb {A} (eqb : A -> A -> bool) (a b : list A) : bool :=
  match a, b with
  | [], [] => true
  | x :: a', y :: b' => eqb x y && list_eqb eqb a' b'
  | _, _ => false
  end.
Definition first_words (ws : list string) (line : str) : bool :=
  list_eqb str_eqb (firstn (length ws) (words (strip line))) (map lit ws).

(** models_cisco.py:559-628: the seven tests of IOSCfgLine.is_object_for 537-557 *)
Definition cfgline_for (line : str) : bool :=
  if first_words ["hostname"]%string line then false
  else if first_words ["interface"]%string line then false
  else if first_words ["aaa"; "authentication"]%string line then false
  else if first_words ["aaa"; "authorization"]%string line then false
  else if first_words ["aaa"; "accounting"]%string line then false
  else if first_words ["ip"; "route"]%string line then false
  else if first_words ["ipv6"; "route"]%string line then false
  else true.
(** The classes' is_object_for: models_cisco.py:2680-2681, 3011-3014, 2794-2797, 3275-3278,
    3301-3304, 3328-3331, 3355-3358, 3383-3386, 3410-3413, 3219-3222, 2760-2763, 2699-2706,
    535-557 *)
Definition is_object_for (c : lclass) (line : str) : bool :=
  match c with
  | IOSIntfLine => first_words ["interface"]%string line
  | IOSRouteLine => starts_with (lit "ip route ") line || starts_with (lit "ipv6 route ") line
  | IOSAccessLine => finds "^line" line
  | IOSAaaLoginAuthenticationLine => finds "^aaa\s+authentication\s+login" (strip line)
  | IOSAaaEnableAuthenticationLine => finds "^aaa\s+authentication\s+enable" (strip line)
  | IOSAaaCommandsAuthorizationLine => finds "^aaa\s+authorization\s+commands" (strip line)
  | IOSAaaConsoleAuthorizationLine => finds "^aaa\s+authorization\s+console" (strip line)
  | IOSAaaCommandsAccountingLine => finds "^aaa\s+accounting\s+commands" (strip line)
  | IOSAaaExecAccountingLine => finds "^aaa\s+accounting\s+exec" (strip line)
  | IOSAaaGroupServerLine => finds "^aaa\sgroup\sserver" line
  | IOSHostnameLine => finds "^hostname" line
  | IOSIntfGlobal => finds "^(no\s+cdp\s+run)|(logging\s+event\s+link-status\s+global)|(spanning-tree\sportfast\sdefault)|(spanning-tree\sportfast\sbpduguard\sdefault)" line
  | IOSCfgLine => cfgline_for line
  end.

(** models_cisco.py:3209 *)
Definition group_pattern : string := "^aaa\sgroup\sserver\s(?P<protocol>\S+)\s(?P<group>\S+)\s*$".
(** The constructors that can raise: models_cisco.py:2990-3007 and 3205-3217.  The text of
    the object is the line without white space at its end.  Whether _RE_IPV6_ROUTE finds
    something is the parameter [v6]. *)
Definition construct (v6 : str -> bool) (c : lclass) (line : str) : result unit :=
  let t := rstrip line in
  match c with
  | IOSRouteLine =>
      if starts_with (lit "ipv6") t then if v6 t then Ok tt else Err ValueError
      else do _ <- route_init t; Ok tt
  | IOSAaaGroupServerLine => if finds group_pattern t then Ok tt else Err ValueError
  | _ => Ok tt
  end.

(** ciscoconfparse.py:6146-6166, the walk over the classes; without a class the line is an
    IOSCfgLine *)
Fixpoint walk_classes (v6 : str -> bool) (line : str) (cs : list lclass) : result lclass :=
  match cs with
  | [] => Ok IOSCfgLine
  | c :: r => if is_object_for c line then do _ <- construct v6 c line; Ok c else walk_classes v6 line r
  end.
Definition config_line_factory (v6 : str -> bool) (line : str) : result lclass := walk_classes v6 line ios_classes.

(** The objects of all lines, in the order of bootstrap_obj_init_ng (5758-5772) *)
Fixpoint classify (v6 : str -> bool) (lines : list str) : result (list lclass) :=
  match lines with
  | [] => Ok []
  | l :: r => do c <- config_line_factory v6 l; do cs <- classify v6 r; Ok (c :: cs)
  end.
(** ciscoconfparse.py:753-763 with factory=True, the config given as a list: no line is
    dropped before the parse.  The classes are those of the objects in the heap. *)
Definition parse_factory (v6 : str -> bool) (o : opts) (lines : list str) : result (world * list lclass) :=
  do cs <- classify v6 lines;
  do w <- reboot (mkW o [] []) lines;
  Ok (w, cs).
(** ciscoconfparse.py:1400-1416 find_objects_dna; [dna] is the name of the class
    (ccp_abc.py:467-470) *)
Definition class_name (c : lclass) : str :=
  match c with
  | IOSIntfLine => lit "IOSIntfLine" | IOSRouteLine => lit "IOSRouteLine" | IOSAccessLine => lit "IOSAccessLine"
  | IOSAaaLoginAuthenticationLine => lit "IOSAaaLoginAuthenticationLine" | IOSAaaEnableAuthenticationLine => lit "IOSAaaEnableAuthenticationLine"
  | IOSAaaCommandsAuthorizationLine => lit "IOSAaaCommandsAuthorizationLine" | IOSAaaConsoleAuthorizationLine => lit "IOSAaaConsoleAuthorizationLine"
  | IOSAaaCommandsAccountingLine => lit "IOSAaaCommandsAccountingLine" | IOSAaaExecAccountingLine => lit "IOSAaaExecAccountingLine"
  | IOSAaaGroupServerLine => lit "IOSAaaGroupServerLine" | IOSHostnameLine => lit "IOSHostnameLine" | IOSIntfGlobal => lit "IOSIntfGlobal"
  | IOSCfgLine => lit "IOSCfgLine"
  end.
Definition find_objects_dna (dnaspec : regex) (w : world) (cs : list lclass) : list nat :=
  filter (fun x => match nth_error cs x with Some c => match rx_find dnaspec (class_name c) with Some _ => true | None => false end | None => false end) (w_conf w).
