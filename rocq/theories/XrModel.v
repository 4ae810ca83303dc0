(** Model of CiscoIOSXRInterface (ccp_util.py:3822-4726).

    The constructor and the methods of a finished object; setters called with a value of a type
    they refuse, and a port set to None, are not modelled.  The patterns for the short form and
    for its parts are those of CiscoIOSInterface, character for character. *)
From Coq Require Import Ascii String Arith NArith ZArith Bool List.
From Verif Require Import PyStr PyBase IntfModel SearchModel PyRe IosModel IntfReModel.
Import ListNotations.
Local Open Scope char_scope.

(** The attributes: slot, port, subinterface and channel are kept as numbers, card and processor
    as texts (4567-4708). *)
Record xr := mkXr {
  x_prefix : str; x_sep : option str;
  x_slot : option Z; x_card : option str; x_proc : option str; x_port : Z;
  x_sub : option Z; x_chan : option Z; x_class : option str }.

(** 4058 and 4242 *)
Definition xr_long_pattern : string := "^(?P<prefix>[a-zA-Z\-\s]*)(?P<slot_card_port_subinterface_channel>(?P<slot>[a-zA-Z0-9]+)(?P<sep1>[^\:^\.^\-^\s^\d^a-z^A-Z])?(?P<card>[a-zA-Z0-9]+)?(?P<sep2>[^\:^\.^\-^\s^\d^a-z^A-Z])?(?P<processor>[a-zA-Z0-9]+)?(?P<sep3>[^\:^\.^\-^\s^\d^a-z^A-Z])?(?P<port>[a-zA-Z0-9]+)?)".

(** 4149-4217 then 3981-4018: as for IOS, and there is no processor *)
Definition xr_of_ios (i : intf) : xr :=
  mkXr (i_prefix i) (i_sep i) None None None (i_port i) (i_sub i) (i_chan i) (i_class i).
Definition xr_short (m : rmatch) : result xr := do i <- parse_short_re m; Ok (xr_of_ios i).
(** 4221-4335 then 3981-4018.  What is read of the name is the second group, which ends with the
    port.  The first two cases of 4271-4290 are one; a slot always matches. *)
Definition xr_long (m : rmatch) : result xr :=
  let rest := grp_text xr_long_pattern "slot_card_port_subinterface_channel" m in
  match re_search xr_long_pattern rest with
  | None => Err InvalidInterface
  | Some sm =>
      let get nm := grp xr_long_pattern nm sm in
      let '(card, port) := match get "slot"%string, get "card"%string, get "port"%string with
                           | Some _, Some c, None => (None, Some c)
                           | _, c, p => (c, p)
                           end in
      do sep <- (match get "sep1"%string, get "sep2"%string with
                 | Some s, _ => Ok (Some s)
                 | None, None => Ok None
                 | None, Some _ => Err ValueError
                 end);
      match get "slot"%string, port with
      | Some s, Some p =>
          do s <- to_int (Some s);
          do p <- to_int (Some p);
          Ok (mkXr (strip (grp_text xr_long_pattern "prefix" m)) sep (Some s) card (get "processor"%string) p
                   (sub_of rest) (chan_of rest) (intf_class_of rest))
      | _, _ => Err InvalidInterface
      end
  end.
(** 3844-3934 with a name, 4029-4124 *)
Definition xr_of_name (name : str) : result xr :=
  if has_char "," name then Err InvalidInterface
  else match re_search short_pattern (strip name) with
       | Some m => xr_short m
       | None =>
           match re_search xr_long_pattern (strip name) with
           | Some m => xr_long m
           | None => Err InvalidInterface
           end
       end.

(** ** Dictionaries *)

Inductive dval := DNone | DInt (z : Z) | DStr (s : str).
Definition ddict := list (string * dval).
Definition dlookup (d : ddict) (k : string) : result dval :=
  match find (fun e => String.eqb (fst e) k) d with Some (_, v) => Ok v | None => Err KeyErr end.
Definition of_num (o : option Z) : dval := match o with Some z => DInt z | None => DNone end.
Definition of_text (o : option str) : dval := match o with Some s => DStr s | None => DNone end.
(** 4354-4365; 4558-4563: the slot is given as a text *)
Definition as_dict (x : xr) : ddict :=
  [("prefix", DStr (x_prefix x)); ("digit_separator", of_text (x_sep x)); ("card", of_text (x_card x));
   ("slot", of_text (option_map show_Z (x_slot x))); ("processor", of_text (x_proc x)); ("port", DInt (x_port x));
   ("subinterface", of_num (x_sub x)); ("channel", of_num (x_chan x)); ("interface_class", of_text (x_class x))]%string.
(** the setters 4568-4576, 4636-4645, 4656-4685: [int(value)] *)
Definition set_num (v : dval) : result (option Z) :=
  match v with DNone => Ok None | DInt z => Ok (Some z) | DStr s => do z <- to_int (Some s); Ok (Some z) end.
(** the setters 4591-4599, 4614-4622: [str(value)] *)
Definition set_text (v : dval) : result (option str) :=
  match v with DNone => Ok None | DInt z => Ok (Some (show_Z z)) | DStr s => Ok (Some s) end.
(** 4444-4450 *)
Definition set_prefix (v : dval) : result str := match v with DStr s => Ok (strip s) | _ => Err ValueError end.
(** 4700-4708 *)
Definition set_class (v : dval) : result (option str) :=
  match v with DStr s => Ok (Some (strip s)) | DNone => Ok None | DInt _ => Err ValueError end.
(** 4514-4527; [held] tells whether the object has a slot or a card, [old] is what it had *)
Definition set_sep (held : bool) (old : option str) (v : dval) : result (option str) :=
  match v with DStr s => Ok (Some s) | _ => if held then Err ValueError else Ok old end.
(** 3981-4025 on an object that is made: no slot, no card, no separator yet *)
Definition update_internal_state (d : ddict) : result xr :=
  do prefix <- dlookup d "prefix";
  do sep <- dlookup d "digit_separator";
  do slot <- dlookup d "slot";
  do port <- dlookup d "port";
  do scp <-
    (match slot, port with
     | _, DNone => Err InvalidInterface
     | DNone, _ => do p <- dlookup d "processor"; Ok (DNone, DNone, p)
     | s, _ => do c <- dlookup d "card"; do p <- dlookup d "processor"; Ok (s, c, p)
     end);
  let '(slot, card, proc) := scp in
  do sub <- dlookup d "subinterface";
  do chan <- dlookup d "channel";
  do prefix <- (match prefix with DStr s => Ok (strip s) | _ => Err AttributeErr end);
  do sep <- set_sep false None sep;
  do slot <- set_num slot;
  do card <- set_text card;
  do proc <- set_text proc;
  do port <- set_num port;
  do sub <- set_num sub;
  do chan <- set_num chan;
  do cl <- dlookup d "interface_class";
  do cl <- set_class cl;
  match port with Some p => Ok (mkXr prefix sep slot card proc p sub chan cl) | None => Err InvalidInterface end.
(** 4128-4145 *)
Definition dict_keys : list string := ["prefix"; "slot"; "card"; "port"; "digit_separator"; "subinterface"; "channel"; "interface_class"]%string.
Definition check_interface_dict (d : ddict) : result unit :=
  if negb (Nat.eqb (length d) 8) then Err ValueError
  else if forallb (fun e => existsb (String.eqb (fst e)) dict_keys) d then Ok tt else Err KeyErr.
(** 3867-3869, 3888-3889, 3913-3926; the dictionary is read twice, and the second time into an
    object that may have a slot or a card *)
Definition xr_of_dict (d : ddict) : result xr :=
  do x <- update_internal_state d;
  do _ <- check_interface_dict d;
  do sep <- dlookup d "digit_separator";
  do sep <- set_sep (match x_slot x, x_card x with None, None => false | _, _ => true end) (x_sep x) sep;
  Ok (mkXr (x_prefix x) sep (x_slot x) (x_card x) (x_proc x) (x_port x) (x_sub x) (x_chan x) (x_class x)).
(** 3861-3866 *)
Definition xr_copy (x : xr) : result xr := xr_of_dict (as_dict x).
(** 4339-4350, on the object of "Ethernet1" *)
Definition from_dict (d : ddict) : result xr :=
  do v <- dlookup d "prefix"; do prefix <- set_prefix v;
  do v <- dlookup d "digit_separator"; do sep <- set_sep false None v;
  do v <- dlookup d "slot"; do slot <- set_num v;
  do v <- dlookup d "card"; do card <- set_text v;
  do v <- dlookup d "processor"; do proc <- set_text v;
  do v <- dlookup d "port"; do port <- set_num v;
  do v <- dlookup d "subinterface"; do sub <- set_num v;
  do v <- dlookup d "channel"; do chan <- set_num v;
  do v <- dlookup d "interface_class"; do cl <- set_class v;
  match port with Some p => Ok (mkXr prefix sep slot card proc p sub chan cl) | None => Err NotImplementedErr end.

(** ** Texts *)

(** 4455-4481 *)
Definition xr_number (x : xr) : result str :=
  let sep := sep_text (x_sep x) in
  match x_slot x, x_card x, x_proc x with
  | None, None, None => Ok (show_Z (x_port x))
  | Some s, None, None => Ok (show_Z s ++ sep ++ show_Z (x_port x))
  | Some s, Some c, Some p => Ok (show_Z s ++ sep ++ c ++ sep ++ p ++ sep ++ show_Z (x_port x))
  | _, _, _ => Err ValueError
  end.
(** 4403-4416, 4420-4432 *)
Definition xr_render (x : xr) : result str :=
  do n <- xr_number x;
  let cl := match x_class x with None => [] | Some c => " " :: c end in
  match x_sub x, x_chan x with
  | None, None => Ok (x_prefix x ++ n ++ cl)
  | Some s, None => Ok (x_prefix x ++ n ++ "." :: show_Z s ++ cl)
  | None, Some c => Ok (x_prefix x ++ n ++ ":" :: show_Z c ++ cl)
  | Some s, Some c => Ok (x_prefix x ++ n ++ "." :: show_Z s ++ ":" :: show_Z c ++ cl)
  end.

(** ** Comparison *)

(** 3955-3977: texts *)
Definition xr_key (o : option str) : key := match o with Some s => KStr s | None => KNone end.
Definition xr_sort_list (x : xr) : list key :=
  [xr_key (option_map show_Z (x_slot x)); xr_key (x_card x); xr_key (x_proc x); KStr (show_Z (x_port x));
   xr_key (option_map show_Z (x_sub x)); xr_key (option_map show_Z (x_chan x)); xr_key (x_class x)].
(** 4369-4376, 4380-4384, 4388-4392 *)
Definition xr_eq (a b : xr) : bool := str_eqb (x_prefix a) (x_prefix b) && keys_eqb (xr_sort_list a) (xr_sort_list b).
Definition xr_gt (a b : xr) : result bool := keys_ltb (xr_sort_list b) (xr_sort_list a).
Definition xr_lt (a b : xr) : result bool := keys_ltb (xr_sort_list a) (xr_sort_list b).
(** 4396-4399 *)
Definition xr_hash (x : xr) : Z := hash_from 0 (xr_sort_list x).
