(** Model of ASA names, object groups and access lists (ciscoconfparse.py:5929-5977 and
    models_asa.py:573-896).

    The lines of a configuration parsed with syntax="asa" and factory=True are the lines of the
    tree; the class of a line is decided on its text.  The text of an object is its line without
    white space at the end, so a line with nothing after "object-group network " is of no class
    here. *)
From Coq Require Import Ascii String Arith NArith ZArith Bool List.
From Verif Require Import PyStr PyBase CfgModel SearchModel IpModel PyRe IosModel RouteModel FactoryModel L4Model.
Import ListNotations.
Local Open Scope char_scope.

(** Python's dictionaries with texts as keys *)
Fixpoint dset {T} (d : list (str * T)) (k : str) (v : T) : list (str * T) :=
  match d with
  | [] => [(k, v)]
  | (k', v') :: r => if str_eqb k k' then (k, v) :: r else (k', v') :: dset r k v
  end.
Fixpoint dget {T} (d : list (str * T)) (k : str) : option T :=
  match d with
  | [] => None
  | (k', v) :: r => if str_eqb k k' then Some v else dget r k
  end.

(** ciscoconfparse.py:4984-4989 *)
Definition re_names : string := "^\s*name\s+(\d+\.\d+\.\d+\.\d+)\s+(\S+)".
Definition re_objnet : string := "^\s*object-group\s+network\s+(\S+)".
Definition re_objacl : string := "^\s*access-list\s+(\S+)".

Definition is_asa (w : world) : bool := match o_syntax (w_opts w) with Asa => true | _ => false end.
(** [obj.re_match_typed(rgx, group=g, result_type=str)] *)
Definition group_text (w : world) (p : string) (g : nat) (x : nat) : result str :=
  line_re_match_typed to_str (Ok []) w (pattern false (lit p)) g x.
(** The loops over find_objects that fill a dictionary *)
Fixpoint fill {T} (step : list (str * T) -> nat -> result (list (str * T))) (d : list (str * T)) (xs : list nat) : result (list (str * T)) :=
  match xs with
  | [] => Ok d
  | x :: r => do d' <- step d x; fill step d' r
  end.
(** ciscoconfparse.py:5932-5944 *)
Definition names (w : world) : result (list (str * str)) :=
  if negb (is_asa w) then Err RequirementFailure
  else fill (fun d x => do a <- group_text w re_names 1 x; do n <- group_text w re_names 2 x; Ok (dset d n a)) []
            (find_objects w (pattern false (lit re_names))).
(** 5949-5959 *)
Definition object_group_network (w : world) : result (list (str * nat)) :=
  if negb (is_asa w) then Err RequirementFailure
  else fill (fun d x => do n <- group_text w re_objnet 1 x; Ok (dset d n x)) [] (find_objects w (pattern false (lit re_objnet))).
(** 5964-5977 *)
Definition access_list (w : world) : result (list (str * list nat)) :=
  if negb (is_asa w) then Err RequirementFailure
  else fill (fun d x => do n <- group_text w re_objacl 1 x;
                        let tmp := match dget d n with Some l => l | None => [] end in
                        Ok (dset d n (tmp ++ [x]))) [] (find_objects w (pattern false (lit re_objacl))).

(** ** Network groups *)

(** models_asa.py:655-661 _RE_NETOBJECT_STR, read with re.VERBOSE *)
Definition netobject_verbose : str := lit "(?:                         # Non-capturing parenthesis
 (^\s*network-object\s+host\s+(?P<host>\S+))
|(^\s*network-object\s+(?P<network>\S+)\s+(?P<netmask>\d+\.\d+\.\d+\.\d+))
|(^\s*group-object\s+(?P<groupobject>\S+))
)                                                   # Close non-capture parens
".
Definition netobject : str := unverbose false false netobject_verbose.
(** 676-680; the earlier classes of ALL_ASA_FACTORY_CLASSES do not take such a line *)
Definition is_netgroup (t : str) : bool := contains (lit "object-group network ") (lower (firstn 21 t)).
(** 671-673 *)
Definition netgroup_name (w : world) (x : nat) : result str := group_text w "^object-group\s+network\s+(\S+)" 1 x.
(** [net_obj.get(nm, None)] is true: the entry *)
Definition entry (m : option rmatch) (nm : string) : str :=
  match m with Some m => or_empty (named netobject (lit nm) m) | None => [] end.
Definition subst_name (ns : list (str * str)) (h : str) : str := match dget ns h with Some a => a | None => h end.
(** 706-745, the body of the loop for one child with the text [t]; [group g] is the list of the
    group [g] *)
Definition netgroup_child (ns : list (str * str)) (me : str) (group : str -> result (list str)) (t : str) : result (list str) :=
  let mm := rx_find (pattern false netobject) t in
  let network := entry mm "network" in
  let netmask := entry mm "netmask" in
  let host := if str_eqb netmask (lit "255.255.255.255") then network else entry mm "host" in
  let groupobject := entry mm "groupobject" in
  if truth host then Ok [subst_name ns host]
  else if truth network then Ok [subst_name ns network ++ "/" :: netmask]
  else if truth groupobject then if str_eqb groupobject me then Err ValueError else group groupobject
  else if contains (lit "description ") t then Ok []
  else Err NotImplementedErr.
Fixpoint netgroup_children (f : str -> result (list str)) (kids : list str) : result (list str) :=
  match kids with
  | [] => Ok []
  | t :: r => do l <- f t; do l' <- netgroup_children f r; Ok (l ++ l')
  end.
(** 699-746 network_strings.  Groups are followed to any depth; Python gives up with
    RecursionError at its own limit, the model when [fuel] is used up. *)
Fixpoint network_strings (fuel : nat) (w : world) (x : nat) : result (list str) :=
  match fuel with
  | O => Err OutOfFuel
  | S f =>
      if negb (is_netgroup (text_of w x)) then Err AttributeErr
      else
        do ns <- names w;
        do me <- netgroup_name w x;
        netgroup_children (netgroup_child ns me (fun g =>
          do d <- object_group_network w;
          match dget d g with Some y => network_strings f w y | None => Err ValueError end)) (map (text_of w) (children_of w x))
  end.
(** 693-696 *)
Definition network_count (fuel : nat) (w : world) (x : nat) : result nat := do l <- network_strings fuel w x; Ok (length l).
(** 750-766: the cache holds what IPv4Obj() made of the same text before *)
Fixpoint each {T U} (f : T -> result U) (l : list T) : result (list U) :=
  match l with
  | [] => Ok []
  | x :: r => do y <- f x; do ys <- each f r; Ok (y :: ys)
  end.
Definition networks (fuel : nat) (w : world) (x : nat) : result (list ipo) :=
  do l <- network_strings fuel w x; each ip4_of_str l.

(** ** Service groups *)

(** models_asa.py:772-781 _RE_PORTOBJ_STR *)
Definition portobject_verbose : str := lit "(?:                            # Non-capturing parentesis
 # service-object udp destination eq dns
 (^\s*service-object\s+(?P<protocol>tcp|udp|tcp-udp)\s+(?P<src_dst>\S+)\s+(?P<s_port>\S+))
|(^\s*port-object\s+(?P<operator>eq|range)\s+(?P<p_port>\S.+))
|(^\s*group-object\s+(?P<groupobject>\S+))
)                                                   # Close non-capture parens
".
Definition portobject : str := unverbose false false portobject_verbose.
(** 791-799 *)
Definition svc_protocol (w : world) (x : nat) : result str :=
  do p <- group_text w "^object-group\s+service\s+\S+(\s+.+)*$" 1 x; Ok (strip p).
Definition is_svcgroup (t : str) : bool := contains (lit "object-group service ") (lower (firstn 21 t)).
Definition sentry (m : option rmatch) (nm : string) : str :=
  match m with Some m => or_empty (named portobject (lit nm) m) | None => [] end.
(** [L4Object(...)] once, or for both protocols *)
Definition svc_objects (protocol port_spec : str) : result (list l4) :=
  if str_eqb protocol (lit "tcp-udp") then
    do a <- l4_object (lit "tcp") port_spec (lit "asa");
    do b <- l4_object (lit "udp") port_spec (lit "asa");
    Ok [a; b]
  else do a <- l4_object protocol port_spec (lit "asa"); Ok [a].
(** 829-895, one child.  ConfigList has no attribute object_group_service. *)
Definition svcgroup_child (protocol_type : str) (t : str) : result (list l4) :=
  let mm := rx_find (pattern false portobject) t in
  if truth (sentry mm "protocol") then svc_objects (sentry mm "protocol") (sentry mm "s_port")
  else if truth (sentry mm "operator") then svc_objects protocol_type (sentry mm "operator" ++ " " :: sentry mm "p_port")
  else if truth (sentry mm "groupobject") then Err AttributeErr
  else if contains (lit "description ") t then Ok []
  else Err NotImplementedErr.
Fixpoint svcgroup_children (p : str) (kids : list str) : result (list l4) :=
  match kids with
  | [] => Ok []
  | t :: r => do l <- svcgroup_child p t; do l' <- svcgroup_children p r; Ok (l ++ l')
  end.
(** 823-896 ports *)
Definition ports (w : world) (x : nat) : result (list l4) :=
  if negb (is_svcgroup (text_of w x)) then Err AttributeErr
  else do p <- svc_protocol w x; svcgroup_children p (map (text_of w) (children_of w x)).
