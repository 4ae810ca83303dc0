(** Model of CiscoIOSInterface (ccp_util.py:2958-3819). *)
From Coq Require Import Ascii String Arith NArith ZArith Bool List.
From Verif Require Import PyStr PyBase.
Import ListNotations.
Local Open Scope char_scope.
Local Open Scope Z_scope.

(** The attributes of an initialised object.  The port is never None: 3120-3133. *)
Record intf := {
  i_prefix : str; i_sep : option str;
  i_slot : option Z; i_card : option Z; i_port : Z;
  i_sub : option Z; i_chan : option Z; i_class : option str }.

(** ** Parsing *)

Fixpoint take_while (f : ascii -> bool) (s : str) : str :=
  match s with
  | c :: s' => if f c then c :: take_while f s' else []
  | [] => []
  end.

(** The character classes of 3182-3183: the prefix; the rest of a short name (in
    which "^" is a member); the rest of a long name. *)
Definition prefix_char (c : ascii) : bool := is_alpha c || Ascii.eqb c "-" || is_space c.
Definition short_char (c : ascii) : bool :=
  is_digit c || Ascii.eqb c ":" || Ascii.eqb c "." || Ascii.eqb c "^" || Ascii.eqb c "-" || is_alpha c || is_space c.
Definition long_char (c : ascii) : bool := short_char c || Ascii.eqb c "/".
(** The separator of 3357: a negated class. *)
Definition sep_char (c : ascii) : bool :=
  negb (Ascii.eqb c ":" || Ascii.eqb c "^" || Ascii.eqb c "." || Ascii.eqb c "-" || is_space c || is_digit c || is_alpha c).
(** [[a-zA-Z\-]] *)
Definition class_char (c : ascii) : bool := is_alpha c || Ascii.eqb c "-".

(** 3182-3183 on the stripped name.  The prefix is greedy and its class is part of the
    class of the rest, so the pattern matches exactly when every character is in the
    latter; the last group, being optional and included in that class, stays empty.
    When all characters could go to the prefix, one is given back. *)
Definition split_name (cls : ascii -> bool) (s : str) : option (str * str) :=
  match s with
  | [] => None
  | _ =>
      if forallb cls s then
        match drop_while prefix_char s with
        | [] => Some (removelast s, [last s " "])
        | r => Some (take_while prefix_char s, r)
        end
      else None
  end.

Definition digits_Z (d : str) : Z := Z.of_N (digits_val d).
Definition opt_digits (d : str) : option Z := match d with [] => None | _ => Some (digits_Z d) end.

(** [re.search(r"\.(\d+)", s)] and [re.search(r"\:(\d+)", s)]: 3305, 3311, 3412, 3418 *)
Fixpoint after_mark (m : ascii) (s : str) : option Z :=
  match s with
  | [] => None
  | c :: r =>
      if Ascii.eqb c m then
        match take_while is_digit r with
        | [] => after_mark m r
        | d => Some (digits_Z d)
        end
      else after_mark m r
  end.

(** 3317, 3424: whitespace, then letters or "-", at the end of the text.  The group is
    stripped by the setter (3795). *)
Definition class_of (s : str) : option str :=
  let w := take_while class_char (rev s) in
  match w, drop_while class_char (rev s) with
  | _ :: _, c :: _ => if is_space c then Some (rev w) else None
  | _, _ => None
  end.

(** 3270-3334 then 3115-3144 *)
Definition parse_short (prefix rest : str) : result intf :=
  match take_while is_digit (drop_while (fun c => negb (is_digit c)) rest) with
  | [] => Err NoRegexMatch
  | d => Ok {| i_prefix := strip prefix; i_sep := None; i_slot := None; i_card := None; i_port := digits_Z d;
               i_sub := after_mark "." rest; i_chan := after_mark ":" rest; i_class := class_of rest |}
  end.

(** An optional separator. *)
Definition opt_sep (s : str) : option str * str :=
  match s with
  | c :: r => if sep_char c then (Some [c], r) else (None, s)
  | [] => (None, [])
  end.

(** 3338-3453 then 3115-3144.  Every group of 3357 but the first is optional, so the
    greedy match needs no backtracking.  Without a separator the slot, already an
    integer at 3399, falls to the error at 3410. *)
Definition parse_long (prefix rest : str) : result intf :=
  match take_while is_digit rest with
  | [] => Err InvalidInterface
  | d1 =>
      let '(sep1, r1) := opt_sep (drop_while is_digit rest) in
      let d2 := take_while is_digit r1 in
      let '(_, r2) := opt_sep (drop_while is_digit r1) in
      let d3 := take_while is_digit r2 in
      let '(card, port) :=
        match opt_digits d2, opt_digits d3 with
        | Some c, None => (None, Some c)
        | c, p => (c, p)
        end in
      match sep1 with
      | None => Err ValueError
      | Some sp =>
          match port with
          | None => Err InvalidInterface
          | Some p =>
              Ok {| i_prefix := strip prefix; i_sep := Some sp; i_slot := Some (digits_Z d1); i_card := card; i_port := p;
                    i_sub := after_mark "." rest; i_chan := after_mark ":" rest; i_class := class_of rest |}
          end
      end
  end.

(** 3014-3041, 3155-3232: [CiscoIOSInterface(name)] *)
Definition intf_of_name (name : str) : result intf :=
  if has_char "," name then Err InvalidInterface
  else match split_name short_char (strip name) with
       | Some (p, r) => parse_short p r
       | None =>
           match split_name long_char (strip name) with
           | Some (p, r) => parse_long p r
           | None => Err InvalidInterface
           end
       end.

(** 2987-3000, 3017-3018, 3044-3048, 3115-3150: [CiscoIOSInterface(other)], which reads
    [other.as_dict()] (3472-3482), and [CiscoIOSInterface(interface_dict=d)].  The state is
    updated twice; at the second time a missing separator is refused if there is a
    slot or a card (3620-3630).  Without a slot the card is dropped. *)
Definition intf_of_dict (d : intf) : result intf :=
  match i_slot d with
  | Some _ => match i_sep d with Some _ => Ok d | None => Err ValueError end
  | None => Ok {| i_prefix := i_prefix d; i_sep := i_sep d; i_slot := None; i_card := None; i_port := i_port d;
                  i_sub := i_sub d; i_chan := i_chan d; i_class := i_class d |}
  end.

(** ** Rendering *)

(** Formatting of the separator attribute: None prints as "None". *)
Definition sep_text (o : option str) : str := match o with Some s => s | None => lit "None" end.
(** 3571-3597 *)
Definition number (i : intf) : result str :=
  match i_slot i, i_card i with
  | None, None => Ok (show_Z (i_port i))
  | Some s, None => Ok (show_Z s ++ sep_text (i_sep i) ++ show_Z (i_port i))
  | Some s, Some c => Ok (show_Z s ++ sep_text (i_sep i) ++ show_Z c ++ sep_text (i_sep i) ++ show_Z (i_port i))
  | None, Some _ => Err ValueError
  end.
(** 3519-3532 *)
Definition render (i : intf) : result str :=
  do n <- number i;
  let cl := match i_class i with None => [] | Some c => " " :: c end in
  match i_sub i, i_chan i with
  | None, None => Ok (i_prefix i ++ n ++ cl)
  | Some s, None => Ok (i_prefix i ++ n ++ "." :: show_Z s ++ cl)
  | None, Some c => Ok (i_prefix i ++ n ++ ":" :: show_Z c ++ cl)
  | Some s, Some c => Ok (i_prefix i ++ n ++ "." :: show_Z s ++ ":" :: show_Z c ++ cl)
  end.

(** ** Comparison *)

(** A member of [sort_list] (3084-3106) *)
Inductive key := KNone | KInt (z : Z) | KStr (s : str).
Definition of_Z (o : option Z) : key := match o with None => KNone | Some z => KInt z end.
Definition sort_list (i : intf) : list key :=
  [of_Z (i_slot i); of_Z (i_card i); KInt (i_port i); of_Z (i_sub i); of_Z (i_chan i);
   match i_class i with None => KNone | Some s => KStr s end].

Definition key_eqb (a b : key) : bool :=
  match a, b with
  | KNone, KNone => true
  | KInt x, KInt y => x =? y
  | KStr x, KStr y => str_eqb x y
  | _, _ => false
  end.
(** [<] on strings: by code point *)
Fixpoint str_ltb (a b : str) : bool :=
  match a, b with
  | _, [] => false
  | [], _ :: _ => true
  | x :: a', y :: b' => (code x <? code y)%N || (Ascii.eqb x y && str_ltb a' b')
  end.
(** [<] on members; None and mixed types are not ordered *)
Definition key_ltb (a b : key) : result bool :=
  match a, b with
  | KInt x, KInt y => Ok (x <? y)
  | KStr x, KStr y => Ok (str_ltb x y)
  | _, _ => Err TypeErr
  end.
(** [==] and [<] on lists: the first differing members decide *)
Fixpoint keys_eqb (a b : list key) : bool :=
  match a, b with
  | [], [] => true
  | x :: a', y :: b' => key_eqb x y && keys_eqb a' b'
  | _, _ => false
  end.
Fixpoint keys_ltb (a b : list key) : result bool :=
  match a, b with
  | x :: a', y :: b' => if key_eqb x y then keys_ltb a' b' else key_ltb x y
  | [], _ :: _ => Ok true
  | _, [] => Ok false
  end.

(** 3485-3492 *)
Definition intf_eq (a b : intf) : bool := str_eqb (i_prefix a) (i_prefix b) && keys_eqb (sort_list a) (sort_list b).
(** 3504-3508 *)
Definition intf_lt (a b : intf) : result bool := keys_ltb (sort_list a) (sort_list b).
(** 3496-3500: [a > b] on lists is [b < a] *)
Definition intf_gt (a b : intf) : result bool := keys_ltb (sort_list b) (sort_list a).
(** 3512-3515 *)
Fixpoint hash_from (idx : Z) (l : list key) : Z :=
  match l with
  | [] => 0
  | KInt z :: r => (idx + 1) ^ z + hash_from (idx + 1) r
  | _ :: r => hash_from (idx + 1) r
  end.
Definition intf_hash (i : intf) : Z := hash_from 0 (sort_list i).
