(** Model of HSRP groups (models_cisco.py:59-479 and 914-926) and of the last attributes of
    interface lines that speak of HSRP (models_cisco.py:2405-2422 and 2454-2500).

    A group object holds its number [g] and its interface; the attributes look at the children
    of the interface.  [kids] are their texts in order; where the lines below a child matter as
    well, a child is a pair of its own text and the texts of its all_children. *)
From Coq Require Import Ascii String Arith NArith ZArith Bool List.
From Verif Require Import PyStr PyBase SearchModel PyRe IosModel FactoryModel RangeModel.
Import ListNotations.
Local Open Scope char_scope.

(** [obj.text.lower().strip().split()] *)
Definition parts (t : str) : list str := words (strip (lower t)).
(** [l[0:n] == ws] *)
Definition slice_is (n : nat) (l ws : list str) : bool := if list_eq_dec (list_eq_dec ascii_dec) (firstn n l) ws then true else false.
(** [l[k]] and [l[-k]] *)
Definition item_at (l : list str) (k : nat) : result str := match nth_error l k with Some x => Ok x | None => Err IndexError end.
Definition item_back (l : list str) (k : nat) : result str :=
  match k with O => item_at l 0 | S k => match nth_error (rev l) k with Some x => Ok x | None => Err IndexError end end.
Definition int_of (s : str) : result Z := to_int (Some s).
(** The loops "for obj in self._parent.children: ... return": the first child for which [f]
    returns. *)
Fixpoint first_child {T C} (f : C -> option (result T)) (dflt : result T) (kids : list C) : result T :=
  match kids with
  | [] => dflt
  | t :: r => match f t with Some v => v | None => first_child f dflt r end
  end.

Definition standby_w : str := lit "standby".

(** 243-254: without such a child the text of the error is made from the object itself, whose
    text asks for the same attribute again; Python gives up with RecursionError, the model with
    [OutOfFuel] *)
Definition grp_ipv4 (g : Z) (kids : list str) : result str :=
  first_child (fun t => let l := parts t in if slice_is 3 l [standby_w; show_Z g; lit "ip"] then Some (item_back l 1) else None) (Err OutOfFuel) kids.
(** 269-279 *)
Definition grp_ipv6 (g : Z) (kids : list str) : result str :=
  first_child (fun t => let l := parts t in if slice_is 3 l [standby_w; show_Z g; lit "ipv6"] then Some (item_back l 1) else None) (Ok []) kids.
(** 259-264 *)
Definition grp_has_ipv6 (g : Z) (kids : list str) : result bool := do a <- grp_ipv6 g kids; Ok (truth a).
(** 284-287 *)
Definition grp_interface_name (own : str) : str := join (lit " ") (tl (words (strip own))).
(** 350-360 *)
Definition grp_preempt_delay (g : Z) (kids : list str) : result Z :=
  first_child (fun t => let l := parts t in
    if slice_is 4 l [standby_w; show_Z g; lit "preempt"; lit "delay"; lit "minimum"] then Some (do x <- item_at l 5; int_of x) else None) (Ok 0%Z) kids.
(** The timers are whole seconds or a float, the milliseconds divided by 1000.  [float] is
    modelled for texts that [int] reads. *)
Inductive timer := Seconds (z : Z) | Millis (z : Z).
Definition seconds (r : result str) : result timer := do x <- r; do n <- int_of x; Ok (Seconds n).
Definition millis (r : result str) : result timer := do x <- r; do n <- int_of x; Ok (Millis n).
(** 365-377 *)
Definition grp_hello_timer (g : Z) (kids : list str) : result timer :=
  first_child (fun t => let l := parts t in
    if slice_is 4 l [standby_w; show_Z g; lit "timers"; lit "msec"] then Some (millis (item_at l 4))
    else if slice_is 3 l [standby_w; show_Z g; lit "timers"] then Some (seconds (item_back l 2)) else None) (Ok (Seconds 3)) kids.
(** 382-394 *)
Definition grp_hold_timer (g : Z) (kids : list str) : result timer :=
  first_child (fun t => let l := parts t in
    if slice_is 2 l [standby_w; show_Z g] && (match item_back l 2 with Ok x => str_eqb x (lit "msec") | Err _ => false end) then Some (millis (item_back l 1))
    else if slice_is 3 l [standby_w; show_Z g; lit "timers"] then Some (seconds (item_back l 1)) else None) (Ok (Seconds 10)) kids.
(** 399-406 *)
Definition grp_priority (g : Z) (kids : list str) : result Z :=
  first_child (fun t => let l := parts t in
    if slice_is 3 l [standby_w; show_Z g; lit "priority"] then Some (do x <- item_at l 3; int_of x) else None) (Ok 100%Z) kids.
(** 411-421 *)
Definition grp_version (kids : list str) : result Z :=
  first_child (fun t => let l := parts t in
    if slice_is 2 l [standby_w; lit "version"] then Some (do x <- item_back l 1; int_of x) else None) (Ok 1%Z) kids.
(** 432-437 *)
Definition grp_use_bia (kids : list str) : bool := existsb (contains (lit "use-bia")) kids.
(** 442-450 *)
Definition grp_preempt (g : Z) (kids : list str) : bool :=
  existsb (fun t => slice_is 3 (parts t) [standby_w; show_Z g; lit "preempt"]) kids.
(** 455-465: the search runs over the group object, a line object of its own, whose text is
    "__undefined__" and that has no children *)
Definition grp_keychain : result str := iter_str "^\s*standby\s+{self.group}\s+authentication\s+md5\s+key-chain\s+(\S+)" 1 (lit "__undefined__") [].
(** 470-473 *)
Definition grp_has_md5 : result bool := do a <- grp_keychain; Ok (truth a).

(** 310-336: the interface and the decrement of each.  Without a match both values are the
    default "" (ccp_abc.py:1375-1419), which [int] does not read; a decrement that is not
    written is the text "None". *)
Definition track_pattern : string := "standby\s(\d+)\s+track\s+(?P<intf>\S.+?)(?P<decr>\s+\d+)*$".
Definition grp_track1 (c : str * list str) : result (str * Z) :=
  match iter_dict track_pattern "intf" (fst c) (snd c), iter_dict track_pattern "decr" (fst c) (snd c) with
  | Some i, Some d =>
      do i <- to_str i;
      do d <- to_str d;
      if str_eqb d (lit "None") then Ok (i, 10%Z) else do n <- int_of (strip d); Ok (i, n)
  | _, _ => Err ValueError
  end.
Fixpoint grp_tracking (g : Z) (kids : list (str * list str)) : result (list (str * Z)) :=
  match kids with
  | [] => Ok []
  | c :: r =>
      if slice_is 3 (words (strip (fst c))) [standby_w; show_Z g; lit "track"] then
        do x <- grp_track1 c; do l <- grp_tracking g r; Ok (x :: l)
      else grp_tracking g r
  end.
(** 424-427 *)
Definition grp_has_track (g : Z) (kids : list (str * list str)) : result bool :=
  do l <- grp_tracking g kids; Ok (match l with [] => false | _ => true end).

(** 914-926: the numbers of the groups; the objects of one interface are equal if their numbers
    are (203-217) *)
Fixpoint hsrp_numbers (kids : list str) : result (list Z) :=
  match kids with
  | [] => Ok []
  | t :: r =>
      if finds "standby\s+(?P<group>\d+)\s+ip" (strip t) then
        do x <- item_at (words t) 1; do n <- int_of x; do l <- hsrp_numbers r; Ok (n :: l)
      else hsrp_numbers r
  end.
Definition hsrp_interfaces (kids : list str) : result (list Z) := do l <- hsrp_numbers kids; Ok (sorted_set l).
(** 193-197: the text of a group; [None] where one of the attributes has none *)
Definition grp_str (g : Z) (own : str) (kids : list str) : result (Z * str * bool * Z * bool * Z * timer * timer) :=
  do v <- grp_version kids;
  do a <- grp_ipv4 g kids;
  do h <- grp_has_ipv6 g kids;
  do p <- grp_priority g kids;
  do d <- grp_preempt_delay g kids;
  do t1 <- grp_hello_timer g kids;
  do t2 <- grp_hold_timer g kids;
  Ok (v, a, h, p, grp_preempt g kids, d, t1, t2).

(** ** The attributes of the interface *)

(** 2407-2421 *)
Definition hsrp_ip_mask (own : str) (below : list str) : result str :=
  do a <- ipv4_addr own below;
  if truth a then
    match iter_dict "^\s*standby\s+(?P<group>\d+\s+)*ip\s+\S+\s+(?P<mask>\S+)\s*$" "mask" own below with Some o => to_str o | None => Ok [] end
  else Ok [].
(** 2454-2465 and 2470-2481; a float is modelled by the whole number that was written *)
Definition hsrp_hello_timer := iter_int "^\s*standby\s+(\d+\s+)*timers\s+(\d+)\s+\d+" 2 0.
Definition hsrp_hold_timer := iter_int "^\s*standby\s+(\d+\s+)*timers\s+\d+\s+(\d+)" 2 0.
(** 2492-2501 *)
Definition hsrp_track := iter_str "^\s*standby\s+(\d+\s+)*track\s(\S+.+?)\s+\d+\s*" 2.
(** 2486-2487 *)
Definition has_hsrp_track own below := nonblank (hsrp_track own below).
(** 2548-2550 *)
Definition has_hsrp_authentication_md5 own below := nonblank (hsrp_authentication_md5_keychain own below).
