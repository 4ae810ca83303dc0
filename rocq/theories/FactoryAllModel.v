(** Model of the line classes of factory=True for the nxos, asa, iosxr and junos syntaxes. *)
From Coq Require Import Ascii String Arith NArith ZArith Bool List.
From Verif Require Import PyStr PyBase CfgModel SearchModel IpModel PyRe IosModel RouteModel FactoryModel AclModel AsaIntfModel NxosRouteModel.
Import ListNotations.
Local Open Scope char_scope.

(** ciscoconfparse.py:119-134, 139-150, 135-138, 151-157 *)
Inductive nclass :=
| NXOSIntfLine | NXOSRouteLine | NXOSAccessLine
| NXOSAaaLoginAuthenticationLine | NXOSAaaEnableAuthenticationLine
| NXOSAaaCommandsAuthorizationLine | NXOSAaaConsoleAuthorizationLine
| NXOSAaaCommandsAccountingLine | NXOSAaaExecAccountingLine | NXOSAaaGroupServerLine
| NXOSvPCLine | NXOSHostnameLine | NXOSIntfGlobal | NXOSCfgLine.
Inductive aclass :=
| ASAIntfLine | ASAName | ASAObjNetwork | ASAObjService | ASAObjGroupNetwork | ASAObjGroupService
| ASAIntfGlobal | ASAHostnameLine | ASAAclLine | ASACfgLine.
Inductive xclass := IOSXRIntfLine | IOSXRCfgLine.
Inductive jclass := JunosCfgLine.
Definition nxos_classes : list nclass :=
  [NXOSIntfLine; NXOSRouteLine; NXOSAccessLine; NXOSAaaLoginAuthenticationLine; NXOSAaaEnableAuthenticationLine;
   NXOSAaaCommandsAuthorizationLine; NXOSAaaConsoleAuthorizationLine; NXOSAaaCommandsAccountingLine; NXOSAaaExecAccountingLine;
   NXOSAaaGroupServerLine; NXOSvPCLine; NXOSHostnameLine; NXOSIntfGlobal; NXOSCfgLine].
Definition asa_classes : list aclass :=
  [ASAIntfLine; ASAName; ASAObjNetwork; ASAObjService; ASAObjGroupNetwork; ASAObjGroupService; ASAIntfGlobal; ASAHostnameLine; ASAAclLine; ASACfgLine].
Definition xr_classes : list xclass := [IOSXRIntfLine; IOSXRCfgLine].
Definition junos_classes : list jclass := [JunosCfgLine].

(** The classes' is_object_for: models_nxos.py:1721-1724, 2152-2156, 1965-1968, 2337-2341, 2360-2364, 2384-2388,
    2408-2412, 2433-2437, 2457-2461, 2289-2293, 1785-1789, 1935-1938, 1740-1747, 85-88 *)
Definition nxos_for (c : nclass) (line : str) : bool :=
  match c with
  | NXOSIntfLine => finds "^interface\s+([a-zA-Z0-9]\S*)" line
  | NXOSRouteLine => nxr_is_object_for line
  | NXOSAccessLine => finds "^line" line
  | NXOSAaaLoginAuthenticationLine => finds "^aaa\sauthentication\slogin" line
  | NXOSAaaEnableAuthenticationLine => finds "^aaa\sauthentication\senable" line
  | NXOSAaaCommandsAuthorizationLine => finds "^aaa\sauthorization\scommands" line
  | NXOSAaaConsoleAuthorizationLine => finds "^aaa\s+authorization\s+console" (strip line)
  | NXOSAaaCommandsAccountingLine => finds "^aaa\saccounting\scommands" line
  | NXOSAaaExecAccountingLine => finds "^aaa\saccounting\sexec" line
  | NXOSAaaGroupServerLine => finds "^aaa\sgroup\sserver" line
  | NXOSvPCLine => finds "^vpc\s+domain" line
  | NXOSHostnameLine => finds "^hostname" line
  | NXOSIntfGlobal => finds "^(no\s+cdp\s+run)|(logging\s+event\s+link-status\s+global)|(spanning-tree\sportfast\sdefault)|(spanning-tree\sportfast\sbpduguard\sdefault)" line
  | NXOSCfgLine => true
  end.
(** [w in line[0:len(w)].lower()] *)
Definition low_start (w : string) (line : str) : bool := contains (lit w) (lower (firstn (String.length w) line)).
(** models_asa.py:911-917, 594-599, 624-629, 644-649, 675-680, 809-814, 935-940, 958-963, 1308-1314, 95-99 *)
Definition asa_for (c : aclass) (line : str) : bool :=
  match c with
  | ASAIntfLine => finds "^interface\s+(\S+.+)" line
  | ASAName => low_start "name " line
  | ASAObjNetwork => low_start "object network " line
  | ASAObjService => low_start "object service " line
  | ASAObjGroupNetwork => low_start "object-group network " line
  | ASAObjGroupService => low_start "object-group service " line
  | ASAIntfGlobal => finds "^mtu" line
  | ASAHostnameLine => finds "^hostname" line
  | ASAAclLine => low_start "access-list " line
  | ASACfgLine => true
  end.
(** models_iosxr.py:1952-1958, 105-109; models_junos.py:99-103 *)
Definition xr_for (c : xclass) (line : str) : bool :=
  match c with IOSXRIntfLine => finds "^interface\s+(\S+.+)" line | IOSXRCfgLine => true end.
Definition junos_for (c : jclass) (line : str) : bool := true.

(** The constructors that can raise: models_nxos.py:2133-2150 and 2276-2287; whether
    _RE_IPV6_ROUTE finds something is the parameter [v6].  The text of the object is the line
    without white space at its end. *)
Definition nxos_build (v6 : str -> bool) (c : nclass) (line : str) : result unit :=
  let t := rstrip line in
  match c with
  | NXOSRouteLine =>
      if starts_with (lit "ipv6") t then if v6 t then Ok tt else Err ValueError
      else do _ <- nxr_init t; Ok tt
  | NXOSAaaGroupServerLine => if finds group_pattern t then Ok tt else Err ValueError
  | _ => Ok tt
  end.
(** models_asa.py:580-592 and 1286-1306; the access list is read from the line as it is given *)
Definition asa_build (c : aclass) (line : str) : result unit :=
  match c with
  | ASAName => do _ <- asa_name_line (rstrip line); Ok tt
  | ASAAclLine => do _ <- acl_line line; Ok tt
  | _ => Ok tt
  end.

(** ciscoconfparse.py:6147-6166: the walk over the classes.  A ValueError is raised again; any
    other exception is dropped, and then, as without a class, the line is an IOSCfgLine: [None] *)
Fixpoint walk {C} (isfor : C -> str -> bool) (build : C -> str -> result unit) (line : str) (cs : list C) : result (option C) :=
  match cs with
  | [] => Ok None
  | c :: r =>
      if isfor c line then
        match build c line with
        | Ok _ => Ok (Some c)
        | Err ValueError => Err ValueError
        | Err _ => Ok None
        end
      else walk isfor build line r
  end.
Definition nxos_factory (v6 : str -> bool) (line : str) : result (option nclass) := walk nxos_for (nxos_build v6) line nxos_classes.
Definition asa_factory (line : str) : result (option aclass) := walk asa_for asa_build line asa_classes.
Definition xr_factory (line : str) : result (option xclass) := walk xr_for (fun _ _ => Ok tt) line xr_classes.
Definition junos_factory (line : str) : result (option jclass) := walk junos_for (fun _ _ => Ok tt) line junos_classes.

(** The objects of all lines (5758-5772), and the parse (753-763) with factory=True: the config
    given as a list, no line is dropped before *)
Fixpoint classify_by {C} (f : str -> result (option C)) (lines : list str) : result (list (option C)) :=
  match lines with
  | [] => Ok []
  | l :: r => do c <- f l; do cs <- classify_by f r; Ok (c :: cs)
  end.
Definition parse_by {C} (f : str -> result (option C)) (o : opts) (lines : list str) : result (world * list (option C)) :=
  do cs <- classify_by f lines;
  do w <- reboot (mkW o [] []) lines;
  Ok (w, cs).
