(** Model of the switchport attributes of an interface (models_cisco.py:2101-2352).
    Only the texts of the interface's children matter. *)
From Coq Require Import Ascii String Arith NArith ZArith Bool List.
From Verif Require Import PyStr PyBase RangeModel.
Import ListNotations.
Local Open Scope char_scope.
Local Open Scope Z_scope.

Fixpoint strs_eqb (a b : list str) : bool :=
  match a, b with
  | [], [] => true
  | x :: a', y :: b' => str_eqb x y && strs_eqb a' b'
  | _, _ => false
  end.
(** [text.split()[0:n] == kws] *)
Definition begins_with (kws : list str) (text : str) : bool :=
  strs_eqb (firstn (length kws) (words text)) kws.

Definition kw_switchport : list str := [lit "switchport"].
Definition kw_access : list str := [lit "switchport"; lit "mode"; lit "access"].
Definition kw_allowed : list str := [lit "switchport"; lit "trunk"; lit "allowed"; lit "vlan"].
Definition kw_add : list str := kw_allowed ++ [lit "add"].
Definition kw_except : list str := kw_allowed ++ [lit "except"].
Definition kw_remove : list str := kw_allowed ++ [lit "remove"].
Definition kw_access_vlan : list str := [lit "switchport"; lit "access"; lit "vlan"].
Definition kw_native_vlan : list str := [lit "switchport"; lit "trunk"; lit "native"; lit "vlan"].

(** 2104-2108: [split()[0]] fails on a blank child *)
Fixpoint is_switchport (children : list str) : result bool :=
  match children with
  | [] => Ok false
  | t :: r =>
      match words (strip t) with
      | [] => Err IndexError
      | w :: _ => if str_eqb w (lit "switchport") then Ok true else is_switchport r
      end
  end.

(** 2113-2117 *)
Definition has_manual_switch_access (children : list str) : bool :=
  existsb (fun t => begins_with kw_access (strip t)) children.

(** What follows the first [n] words, without the whitespace before it. *)
Definition after_word (s : str) : str := lstrip (drop_while (fun c => negb (is_space c)) s).
Definition word_rest (n : nat) (text : str) : str := Nat.iter n after_word (lstrip text).
Definition vlan_char (c : ascii) : bool :=
  is_digit c || Ascii.eqb c "-" || Ascii.eqb c "," || is_space c.

(** The pattern "\s+w1\s+...\s+wn\s+(group)" anchored at both ends, the group being a
    digit followed by digits, "-", "," and whitespace (2227, 2239, 2251), on a text
    whose first n words are known to be w1..wn: the group, or None *)
Definition vlan_group (n : nat) (text : str) : option str :=
  match text with
  | c :: _ =>
      if is_space c then
        let r := word_rest n text in
        match r with
        | d :: r' => if is_digit d && forallb vlan_char r' then Some r else None
        | [] => None
        end
      else None
  | [] => None
  end.
(** the same where the group may also be "all" or "none" (2265); [$] also matches
    before a final newline *)
Definition allowed_group (n : nat) (text : str) : option str :=
  match text with
  | c :: _ =>
      if is_space c then
        let r := word_rest n text in
        if str_eqb r (lit "all") || str_eqb r (lit "all" ++ ["010"]) then Some (lit "all")
        else if str_eqb r (lit "none") || str_eqb r (lit "none" ++ ["010"]) then Some (lit "none")
        else vlan_group n text
      else None
  | [] => None
  end.

(** 2215-2220 [vdict] *)
Record vdict := { v_allowed : str; v_add : option str; v_except : option str; v_remove : option str }.
Definition all_vlans : str := lit "1-4094".
Definition vdict0 : vdict := {| v_allowed := all_vlans; v_add := None; v_except := None; v_remove := None |}.
(** 2232-2235 *)
Definition comma_add (old : option str) (s : str) : option str :=
  match old with None => Some s | Some o => Some (o ++ "," :: s) end.

(** 2223-2283, one child *)
Definition vdict_step (d : vdict) (t : str) : vdict :=
  if begins_with kw_add t then
    match vlan_group 5 t with
    | Some s => {| v_allowed := v_allowed d; v_add := comma_add (v_add d) (lower s); v_except := v_except d; v_remove := v_remove d |}
    | None => d
    end
  else if begins_with kw_except t then
    match vlan_group 5 t with
    | Some s => {| v_allowed := v_allowed d; v_add := v_add d; v_except := comma_add (v_except d) (lower s); v_remove := v_remove d |}
    | None => d
    end
  else if begins_with kw_remove t then
    match vlan_group 5 t with
    | Some s => {| v_allowed := v_allowed d; v_add := v_add d; v_except := v_except d; v_remove := comma_add (v_remove d) (lower s) |}
    | None => d
    end
  else if begins_with kw_allowed t then
    match allowed_group 4 t with
    | Some s0 =>
        let s := lower s0 in
        let a :=
          if str_eqb s (lit "none") then []
          else if str_eqb s (lit "all") then all_vlans
          else if str_eqb (v_allowed d) all_vlans then s
          else match v_allowed d with [] => s | o => o ++ "," :: s end in
        {| v_allowed := a; v_add := v_add d; v_except := v_except d; v_remove := v_remove d |}
    | None => d
    end
  else d.

(** 2324, 2326 *)
Definition vlans_op (set_list : list Z -> list Z) (op : list Z -> list Z -> list Z) (retval : list Z) (value : option str) : result (list Z) :=
  match value with
  | None => Ok retval
  | Some v =>
      match strip v with
      | [] => Ok retval
      | s => do o <- range_of_text set_list s; Ok (op retval o)
      end
  end.

(** 2203-2331; None stands for the result 0.  2286-2293 parse [v_allowed]; 2309-2317
    parse it again after stripping.  The branches for the values "none" and "all"
    (2312-2315) and the error at 2319 are not reachable: [v_allowed] is "", "1-4094"
    or starts with a digit. *)
Definition trunk_vlans_allowed (set_list : list Z -> list Z) (children : list str) : result (option (list Z)) :=
  do sw <- is_switchport children;
  if sw && negb (has_manual_switch_access children) then
    let d := fold_left vdict_step children vdict0 in
    do retval <- (if str_eqb (v_allowed d) all_vlans then range_of_text set_list all_vlans
                  else range_of_text set_list (v_allowed d));
    do retval <- (match strip (v_allowed d) with
                  | [] => Ok retval
                  | s => do o <- range_of_text set_list s; Ok (range_add [] o)
                  end);
    do retval <- vlans_op set_list range_add retval (v_add d);
    do retval <- vlans_op set_list range_sub retval (v_except d);
    do retval <- vlans_op set_list range_sub retval (v_remove d);
    Ok (Some retval)
  else Ok None.

(** 2188-2198: [int(split()[3])] of the first matching child *)
Definition access_vlan (children : list str) : result Z :=
  do sw <- is_switchport children;
  match find (fun t => begins_with kw_access_vlan (strip t)) children with
  | Some t =>
      match nth_error (words (strip t)) 3 with
      | Some w => int_or_err w
      | None => Err IndexError
      end
  | None => Ok (if sw then 1 else 0)
  end.

(** 2336-2346: the child must have exactly five words *)
Definition native_vlan (children : list str) : result Z :=
  do sw <- is_switchport children;
  match find (fun t => (length (words (strip t)) =? 5)%nat && begins_with kw_native_vlan (strip t)) children with
  | Some t =>
      match nth_error (words (strip t)) 4 with
      | Some w => int_or_err w
      | None => Err IndexError
      end
  | None => Ok (if sw then 1 else 0)
  end.
