(** Model of [collapse_addresses] (ccp_util.py:838-866) and of the part of CPython 3.11's
    [ipaddress] it calls.  The generator that is returned is taken with all its elements, so an error
    while it runs is an error of the call. *)
From Coq Require Import Ascii String Arith NArith ZArith Bool List.
From Verif Require Import PyStr PyBase IpModel Ip6TextModel.
Import ListNotations.
Local Open Scope char_scope.
Local Open Scope Z_scope.

(** [IPv4Network] and [IPv6Network] *)
Record net := mkNet { n_six : bool; n_addr : Z; n_plen : Z }.
Definition width (six : bool) : Z := if six then 128 else 32.
(** [_BaseNetwork.__init__] of a pair of numbers, strict *)
Definition mk_net (six : bool) (a p : Z) : result net :=
  if negb ((0 <=? a) && (a <=? all_ones (width six))) then Err AddressErr
  else if negb ((0 <=? p) && (p <=? width six)) then Err ValueError
  else if Z.land a (netmask_int (width six) p) =? a then Ok (mkNet six a p) else Err ValueError.
(** [__eq__] *)
Definition net_eqb (a b : net) : bool :=
  Bool.eqb (n_six a) (n_six b) && (n_addr a =? n_addr b) && (netmask_int (width (n_six a)) (n_plen a) =? netmask_int (width (n_six b)) (n_plen b)).
(** [__lt__] of networks of one version *)
Definition net_ltb (a b : net) : bool :=
  if negb (n_addr a =? n_addr b) then n_addr a <? n_addr b
  else if negb (netmask_int (width (n_six a)) (n_plen a) =? netmask_int (width (n_six b)) (n_plen b))
       then netmask_int (width (n_six a)) (n_plen a) <? netmask_int (width (n_six b)) (n_plen b)
       else false.
(** [broadcast_address] *)
Definition broadcast (n : net) : Z :=
  Z.lor (n_addr n) (Z.lxor (netmask_int (width (n_six n)) (n_plen n)) (all_ones (width (n_six n)))).
(** [supernet()] *)
Definition supernet (n : net) : result net :=
  if n_plen n =? 0 then Ok n
  else mk_net (n_six n) (Z.land (n_addr n) (Z.shiftl (netmask_int (width (n_six n)) (n_plen n)) 1)) (n_plen n - 1).

(** ** [sorted] *)

Section sorting.
  Context {T : Type} (ltb : T -> T -> bool).
  Fixpoint insert (x : T) (l : list T) : list T :=
    match l with
    | [] => [x]
    | y :: r => if ltb x y then x :: l else y :: insert x r
    end.
  Definition sorted (l : list T) : list T := fold_right insert [] l.
End sorting.
(** of networks: a sort compares two of different versions if there are any *)
Definition sorted_nets (l : list net) : result (list net) :=
  match l with
  | [] => Ok []
  | n :: r => if forallb (fun m => Bool.eqb (n_six m) (n_six n)) r then Ok (sorted net_ltb l) else Err TypeErr
  end.

(** ** [summarize_address_range] *)

(** [int.bit_length] of a number that is not negative *)
Definition bit_length (n : Z) : Z := if n =? 0 then 0 else Z.log2 n + 1.
(** [_count_righthand_zero_bits] *)
Definition zero_bits (number bits : Z) : Z :=
  if number =? 0 then bits else Z.min bits (bit_length (Z.land (Z.lnot number) (number - 1))).
Fixpoint summarize (fuel : nat) (six : bool) (first_int last_int : Z) : result (list net) :=
  match fuel with
  | O => Err OutOfFuel
  | S f =>
      if first_int <=? last_int then
        let nbits := Z.min (zero_bits first_int (width six)) (bit_length (last_int - first_int + 1) - 1) in
        do n <- mk_net six first_int (width six - nbits);
        let first_int := first_int + Z.shiftl 1 nbits in
        if first_int - 1 =? all_ones (width six) then Ok [n]
        else do l <- summarize f six first_int last_int; Ok (n :: l)
      else Ok []
  end.
(** [_find_address_range]; [ips] is the rest of the iterator *)
Fixpoint ranges (first last : Z) (ips : list Z) : list (Z * Z) :=
  match ips with
  | [] => [(first, last)]
  | ip :: r => if negb (ip =? last + 1) then (first, last) :: ranges ip ip r else ranges first ip r
  end.
Fixpoint summarize_all (fuel : nat) (six : bool) (l : list (Z * Z)) : result (list net) :=
  match l with
  | [] => Ok []
  | (first, last) :: r => do a <- summarize fuel six first last; do b <- summarize_all fuel six r; Ok (a ++ b)
  end.

(** ** [_collapse_addresses_internal] *)

(** The dictionary [subnets] *)
Definition dict := list (net * net).
Fixpoint dict_get (d : dict) (k : net) : option net :=
  match d with [] => None | (x, v) :: r => if net_eqb x k then Some v else dict_get r k end.
Fixpoint dict_del (d : dict) (k : net) : dict :=
  match d with [] => [] | (x, v) :: r => if net_eqb x k then r else (x, v) :: dict_del r k end.
(** [to_merge] is a stack: the head of the list is the end of Python's. *)
Fixpoint merge (fuel : nat) (to_merge : list net) (subnets : dict) : result dict :=
  match fuel with
  | O => Err OutOfFuel
  | S f =>
      match to_merge with
      | [] => Ok subnets
      | n :: r =>
          do s <- supernet n;
          match dict_get subnets s with
          | None => merge f r (subnets ++ [(s, n)])
          | Some existing => if negb (net_eqb existing n) then merge f (s :: r) (dict_del subnets s) else merge f r subnets
          end
      end
  end.
Fixpoint skip_subsumed (last : option net) (l : list net) : list net :=
  match l with
  | [] => []
  | n :: r =>
      match last with
      | Some m => if broadcast n <=? broadcast m then skip_subsumed last r else n :: skip_subsumed (Some n) r
      | None => n :: skip_subsumed (Some n) r
      end
  end.
Definition collapse_internal (addresses : list net) : result (list net) :=
  do subnets <- merge (S (2 * length addresses)) (rev addresses) [];
  do values <- sorted_nets (map snd subnets);
  Ok (skip_subsumed None values).

(** ** [ipaddress.collapse_addresses], of networks *)

(** the loop that splits them; [ips] and [nets] in order *)
Fixpoint split_loop (ips : list (bool * Z)) (nets addresses : list net) : result (list (bool * Z) * list net) :=
  match addresses with
  | [] => Ok (ips, nets)
  | ip :: r =>
      if n_plen ip =? width (n_six ip) then
        if match rev ips with x :: _ => negb (Bool.eqb (fst x) (n_six ip)) | [] => false end then Err TypeErr
        else split_loop (ips ++ [(n_six ip, n_addr ip)]) nets r
      else
        if match rev nets with x :: _ => negb (Bool.eqb (n_six x) (n_six ip)) | [] => false end then Err TypeErr
        else split_loop ips (nets ++ [ip]) r
  end.
Definition py_collapse (addresses : list net) : result (list net) :=
  do sp <- split_loop [] [] addresses;
  let (pairs, nets) := sp : list (bool * Z) * list net in
  let ips := sorted Z.ltb (nodup Z.eq_dec (map snd pairs)) in
  match pairs, ips with
  | (six, _) :: _, first :: rest =>
      do addrs <- summarize_all (S (length ips)) six (ranges first first rest);
      collapse_internal (addrs ++ nets)
  | _, _ => collapse_internal nets
  end.

(** ** [collapse_addresses] *)

(** The elements of the list: objects that are not empty, networks, other values *)
Inductive arg := Obj4 (o : ipo) | Obj6 (o : ipo) | Net (n : net) | Other.
(** 855-864; 1544-1550 and 2227-2230 [network]: written and read again (the latter strictly, but
    [ip_net] is the address of a network) *)
Definition ip_net_of (x : arg) : result net :=
  match x with
  | Obj4 o => do n <- network4 (dotted (ip_net o) ++ "/" :: show_Z (ip_plen o)); Ok (mkNet false (fst n) (snd n))
  | Net n => Ok n
  | Obj6 o => do n <- network6 (show6 (ip_net o) ++ "/" :: show_Z (ip_plen o)); Ok (mkNet true (fst n) (snd n))
  | Other => Err ValueError
  end.
Fixpoint ip_nets (l : list arg) : result (list net) :=
  match l with [] => Ok [] | x :: r => do n <- ip_net_of x; do t <- ip_nets r; Ok (n :: t) end.
(** 851-866 of a sequence *)
Definition collapse_addresses (network_list : list arg) : result (list net) :=
  do l <- ip_nets network_list; py_collapse l.
