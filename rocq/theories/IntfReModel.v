(** CiscoIOSInterface(name) once more, this time with the patterns of ccp_util.py as they are
    written there; IntfModel has functions in their place. *)
From Coq Require Import Ascii String Arith NArith ZArith Bool List.
From Verif Require Import PyStr PyBase IntfModel SearchModel PyRe.
Import ListNotations.
Local Open Scope char_scope.

(** ccp_util.py:3182, 3183, 3288, 3305, 3311, 3317 and 3357 *)
Definition short_pattern : string := "^(?P<prefix>[a-zA-Z\-\s]*)(?P<port_subinterface_channel>[\d\:\.^\-^a-z^A-Z^\s]+)(?P<interface_class>\s+[a-zA-Z\-]+){0,1}$".
Definition long_pattern : string := "^(?P<prefix>[a-zA-Z\-\s]*)(?P<slot_card_port_subinterface_channel>[\d\:\.\/^\-^a-z^A-Z^\s]+)(?P<interface_class>\s+[a-zA-Z\-]+){0,1}$".
Definition port_pattern : string := "^\D*(?P<port>\d+)".
Definition sub_pattern : string := "\.(?P<subinterface>\d+)".
Definition chan_pattern : string := "\:(?P<channel>\d+)".
Definition class_pattern : string := "(?P<interface_class>\s+[a-zA-Z\-]+)$".
Definition slots_pattern : string := "^(?P<slot>\d+)(?P<sep1>[^\:^\.^\-^\s^\d^a-z^A-Z])?(?P<card>\d+)?(?P<sep2>[^\:^\.^\-^\s^\d^a-z^A-Z])?(?P<port>\d+)?".


(** [re.search(p, s)] and [groupdict()[nm]] *)
Definition re_search (p : string) (s : str) : option rmatch := rx_find (pattern false (lit p)) s.
Definition grp (p : string) (nm : string) (m : rmatch) : option str := named (lit p) (lit nm) m.
Definition grp_text (p nm : string) (m : rmatch) : str := match grp p nm m with Some s => s | None => [] end.
(** [int(...)] of a group of digits: 3308, 3314, 3383-3387, 3415, 3421 and the setters *)
Definition grp_int (p nm : string) (m : rmatch) : option Z := option_map digits_Z (grp p nm m).
Definition sub_of (s : str) : option Z := match re_search sub_pattern s with Some m => grp_int sub_pattern "subinterface" m | None => None end.
Definition chan_of (s : str) : option Z := match re_search chan_pattern s with Some m => grp_int chan_pattern "channel" m | None => None end.
(** 3317-3321, stripped by the setter (3795) *)
Definition intf_class_of (s : str) : option str :=
  match re_search class_pattern s with Some m => option_map strip (grp class_pattern "interface_class" m) | None => None end.

(** 3270-3334 then 3115-3144 *)
Definition parse_short_re (m : rmatch) : result intf :=
  let rest := grp_text short_pattern "port_subinterface_channel" m in
  match re_search port_pattern rest with
  | None => Err NoRegexMatch
  | Some pm =>
      match grp_int port_pattern "port" pm with
      | None => Err InvalidInterface
      | Some port =>
          Ok {| i_prefix := strip (grp_text short_pattern "prefix" m); i_sep := None; i_slot := None; i_card := None; i_port := port;
                i_sub := sub_of rest; i_chan := chan_of rest; i_class := intf_class_of rest |}
      end
  end.
(** 3338-3453 then 3115-3144; at 3399 the slot is a number already *)
Definition parse_long_re (m : rmatch) : result intf :=
  let rest := grp_text long_pattern "slot_card_port_subinterface_channel" m in
  match re_search slots_pattern rest with
  | None => Err InvalidInterface
  | Some sm =>
      let slot := grp_int slots_pattern "slot" sm in
      let card := grp_int slots_pattern "card" sm in
      let port := grp_int slots_pattern "port" sm in
      let '(card, port) := match slot, card, port with Some _, Some c, None => (None, Some c) | _, c, p => (c, p) end in
      match grp slots_pattern "sep1" sm with
      | None => Err ValueError
      | Some sp =>
          match slot, port with
          | Some _, Some p =>
              Ok {| i_prefix := strip (grp_text long_pattern "prefix" m); i_sep := Some sp; i_slot := slot; i_card := card; i_port := p;
                    i_sub := sub_of rest; i_chan := chan_of rest; i_class := intf_class_of rest |}
          | _, _ => Err InvalidInterface
          end
      end
  end.
(** 3014-3041, 3155-3232 *)
Definition intf_of_name_re (name : str) : result intf :=
  if has_char "," name then Err InvalidInterface
  else match re_search short_pattern (strip name) with
       | Some m => parse_short_re m
       | None =>
           match re_search long_pattern (strip name) with
           | Some m => parse_long_re m
           | None => Err InvalidInterface
           end
       end.
