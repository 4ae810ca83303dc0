(** Model of the naming attributes of IOS interface lines and of find_interface_objects
    (models_cisco.py:625-856, 903-1305, 1801-1805; ciscoconfparse.py:1286-1346).

    [t] is the text of the line object, without white space at its end. *)
From Coq Require Import Ascii String Arith NArith ZArith Bool List.
From Verif Require Import PyStr PyBase CfgModel SearchModel IntfModel PyRe IosModel FactoryModel.
Import ListNotations.
Local Open Scope char_scope.

(** ccp_abc.py:1097-1140 [re_match(regex, group=1, default="")]; the group takes part in
    every match of the patterns below *)
Definition line_match (icase : bool) (p : string) (t : str) : str :=
  match rx_find (pattern icase (lit p)) t with
  | Some m => match group 1 m with Ok (Some s) => s | _ => [] end
  | None => []
  end.

(** 627-670 *)
Definition is_intf (t : str) : result bool :=
  if starts_with (lit "interface ") t
  then match nth_error t 10 with Some c => Ok (negb (Ascii.eqb c " ")) | None => Err IndexError end
  else Ok false.
(** 674-716 *)
Definition is_subintf (t : str) : bool := truth (line_match false "^interface\s+(\S+?\.\d+)" t).
(** 718-728 *)
Definition is_virtual_intf (t : str) : bool :=
  truth (line_match true "^interface\s+(Loopback|Vlan|Tunnel|Dialer|Virtual-Template|Port-Channel)" t).
(** 732-769 *)
Definition is_loopback_intf (t : str) : bool := truth (line_match false "^interface\s+(\Soopback)" t).
(** 773-817 *)
Definition is_ethernet_intf (t : str) : bool := truth (line_match false "^interface\s+(.*?\Sthernet)" t).
(** 1006-1048 *)
Definition name (t : str) : str := join [" "] (tl (words t)).
(** 849-856 *)
Definition is_portchannel_intf (t : str) : bool := contains (lit "channel") (lower (name t)).
(** 989-1001 *)
Definition interface_object (t : str) : result intf :=
  do b <- is_intf t;
  if b then intf_of_name (concat (tl (words t))) else Err InvalidInterface.
(** 1053-1092 *)
Definition port (t : str) : result Z := do o <- interface_object t; Ok (i_port o).
(** 1097-1137 *)
Definition port_type (t : str) : str := line_match false "^interface\s+([A-Za-z\-]+)" t.
(** 1142-1202; the class is a text or None, so it always gives -1 *)
Definition ordinal (o : option Z) : Z := match o with Some z => z | None => -1 end.
Definition ordinal_list (t : str) : result (list Z) :=
  do b <- is_intf t;
  if b then
    do o <- interface_object t;
    Ok [ordinal (i_slot o); ordinal (i_card o); i_port o; ordinal (i_sub o); ordinal (i_chan o); (-1)%Z]
  else Ok [].
(** 1207-1254 *)
Definition interface_number (t : str) : result str :=
  do b <- is_intf t;
  if b then Ok (line_match false "^interface\s+[A-Za-z\-]+\s*(\d+.*?)(\.\d+)*(\s\S+)*\s*$" t) else Ok [].
(** 1259-1306 *)
Definition subinterface_number (t : str) : result str :=
  do b <- is_intf t;
  if b then Ok (line_match false "^interface\s+[A-Za-z\-]+\s*(\d+.*?\.?\d?)(\s\S+)*\s*$" t) else Ok [].
(** 903-911, 981-983; the set is kept as a list *)
Definition abbvs (t : str) : result (list str) :=
  let port_type := lower (port_type t) in
  do subinterface_number <- subinterface_number t;
  Ok (flat_map (fun sep => map (fun ii => firstn ii port_type ++ sep ++ subinterface_number) (seq 1 (length port_type))) [[]; [" "]]).
(** 1801-1805 *)
Definition is_abbreviated_as (t v : str) : result bool :=
  do a <- abbvs t; Ok (existsb (str_eqb (lower v)) a).

(** ciscoconfparse.py:1332-1335.  Only interface lines have the attribute abbvs. *)
Fixpoint first_abbreviated (w : world) (cs : list lclass) (intfspec : str) (objs : list nat) : result (list nat) :=
  match objs with
  | [] => Ok []
  | x :: r =>
      match nth_error cs x with
      | Some IOSIntfLine =>
          do b <- is_abbreviated_as (text_of w x) intfspec;
          if b then Ok [x] else first_abbreviated w cs intfspec r
      | _ => Err AttributeErr
      end
  end.
(** 1286-1346 with factory=True, exactmatch=True, a syntax without braces *)
Definition find_interface_objects (w : world) (cs : list lclass) (intfspec : str) : result (list nat) :=
  first_abbreviated w cs intfspec (find_objects w (pattern false (lit "^interface"))).
