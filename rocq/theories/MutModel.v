(** Model of the methods that modify a configuration: deletion, insertion,
    replacement.  When a Python method raises half-way, the changes it already
    made stay; the model returns the exception only. *)
From Coq Require Import Ascii String Arith NArith ZArith Bool List.
From Verif Require Import PyStr PyBase CfgModel SearchModel.
Import ListNotations.
Local Open Scope nat_scope.

(** [t.strip() == ""] *)
Definition blank_text (t : str) : bool := match strip t with [] => true | _ => false end.
(** [len(t) - len(t.lstrip())] *)
Definition text_lead (t : str) : nat := length t - length (lstrip t).

Definition set_conf (conf : list nat) (w : world) : world := mkW (w_opts w) (w_heap w) conf.
Definition set_heap (h : list cfgline) (w : world) : world := mkW (w_opts w) h (w_conf w).

(** ciscoconfparse.py:5908-5911 reassign_linenums *)
Fixpoint renumber (i : nat) (conf : list nat) (h : list cfgline) : list cfgline :=
  match conf with
  | [] => h
  | x :: conf' => renumber (S i) conf' (upd h x (set_linenum (Z.of_nat i)))
  end.
Definition reassign_linenums (w : world) : world := set_heap (renumber 0 (w_conf w) (w_heap w)) w.

(** [self.confobj] is None on inserted lines: every use of it raises
    AttributeError (first in the junos_unsupported wrapper, ccp_util.py:464). *)
Definition owned (w : world) (x : nat) : bool :=
  match obj w x with Some l => cl_owned l | None => false end.

(** ** BaseCfgLine.delete: ccp_abc.py:667-722 *)

(** 696-702 the loop [for obj in sorted(delete_these, reverse=True): del _list[linenum]] *)
Fixpoint del_lines (zs : list Z) (conf : list nat) : result (list nat) :=
  match zs with
  | [] => Ok conf
  | z :: zs' => do c <- py_del z conf; del_lines zs' c
  end.

Definition delete (w : world) (recurse : bool) (x : nat) : result world :=
  if owned w x then
    if recurse then
      do cs <- all_children w x;
      let these := set_of w (x :: cs) in
      do c <- del_lines (rev (map (linenum_of w) (sorted_objs w these))) (w_conf w);
      Ok (reassign_linenums (set_conf c w))
    else
      (* 713-719 *)
      match py_index (length (w_conf w)) (linenum_of w x) with
      | None => Err IndexError
      | Some i =>
          match nth_error (w_conf w) i with
          | None => Err IndexError
          | Some y =>
              if str_eqb (text_of w y) (text_of w x)
              then Ok (reassign_linenums (set_conf (del_nth i (w_conf w)) w))
              else Err AssertionErr
          end
      end
  else Err AttributeErr.

(** delete the given lines one after the other *)
Fixpoint delete_each (w : world) (xs : list nat) : result world :=
  match xs with
  | [] => Ok w
  | x :: xs' => do w' <- delete w true x; delete_each w' xs'
  end.

(** ccp_abc.py:725-777 delete_children_matching (re_search is evaluated just
    before each deletion; deletions do not change texts). *)
Definition delete_children_matching (w : world) (r : regex) (x : nat) : result world :=
  if owned w x then delete_each w (filter (line_re_search w r) (children_of w x))
  else Err AttributeErr.

(** ciscoconfparse.py:3060-3068 CiscoConfParse.delete_lines *)
Definition delete_lines (w : world) (r : regex) : result world :=
  delete_each w (rev (find_objects w r)).

(** ciscoconfparse.py:5055-5058 ConfigList.__delitem__ *)
Definition del_item (w : world) (z : Z) : result world :=
  do c <- py_del z (w_conf w);
  reboot (set_conf c w) (ioscfg (set_conf c w)).

(** ciscoconfparse.py:5163-5164 ConfigList.pop: no renumbering *)
Definition pop (w : world) (z : Z) : result (nat * world) :=
  match py_index (length (w_conf w)) z with
  | None => Err IndexError
  | Some i =>
      match nth_error (w_conf w) i with
      | None => Err IndexError
      | Some x => Ok (x, set_conf (del_nth i (w_conf w)) w)
      end
  end.

(** ** Insertion *)

(** A new line object without owner: [CFGLINE[syntax](all_lines, line=new_val)] *)
Definition alloc (w : world) (line : str) : world * nat :=
  let id := length (w_heap w) in
  (set_heap (w_heap w ++ [new_line (o_comment (w_opts w)) id (-1) false line]) w, id).

(** [for idx in sorted(all_idx, reverse=True): _list.insert(idx + d, new)] *)
Definition insert_all (d : nat) (idxs : list nat) (x : nat) (conf : list nat) : list nat :=
  fold_left (fun c i => insert_at (i + d) x c) (rev idxs) conf.

(** ciscoconfparse.py:5259-5366 ConfigList.insert_before ([d = 0]) and 5371-5486
    insert_after ([d = 1]).  [from_obj]: exist_val is a line object, whose text
    is then used as the pattern; otherwise an empty exist_val is refused.
    [atomic]: parse again instead of renumbering. *)
Definition conf_insert (d : nat) (w : world) (from_obj : bool) (r : regex) (new_val : str) (atomic : bool) : result world :=
  if blank_text new_val && o_ignore_blank (w_opts w) then Err InvalidParameters
  else if negb from_obj && negb (nonempty (rx_src r)) then Err ValueError
  else
    let idxs := positions (fun x => hits r (text_of w x)) 0 (w_conf w) in
    let (w1, x) := alloc w new_val in
    let w2 := set_conf (insert_all d idxs x (w_conf w1)) w1 in
    if atomic then reboot w2 (ioscfg w2) else Ok (reassign_linenums w2).
Definition conf_insert_before := conf_insert 0.
Definition conf_insert_after := conf_insert 1.

(** ciscoconfparse.py:2776-2894 CiscoConfParse.insert_before and 2898-3012
    insert_after.  [rf] is the pattern used by find_objects (with exactmatch and
    ignore_ws applied), [r] the pattern of [exist_val] itself, which is what is
    passed on.  [indent]: new_val_indent, None when negative. *)
Fixpoint insert_loop (d : nat) (w : world) (r : regex) (val : str) (objs : list nat) : result world :=
  match objs with
  | [] => Ok w
  | x :: objs' =>
      if text_lead (text_of w x) =? indent_of w x
      then do w' <- conf_insert d w false r val false; insert_loop d w' r val objs'
      else Err RequirementFailure
  end.
Definition indented (indent : option nat) (new_val : str) : str :=
  match indent with Some n => spaces n ++ lstrip new_val | None => new_val end.
Definition ccp_insert_before (w : world) (rf r : regex) (new_val : str) (indent : option nat) (atomic : bool)
  : result (list str * world) :=
  if nonempty (rx_src r) && nonempty new_val then
    let objs := find_objects w rf in
    do w1 <- insert_loop 0 w r (indented indent new_val) objs;
    do w2 <- (if atomic then commit w1 else Ok w1);
    Ok (map (text_of w1) (sorted_objs w1 objs), w2)
  else Err ValueError.
Definition ccp_insert_after (w : world) (rf r : regex) (new_val : str) (indent : option nat) (atomic : bool)
  : result (list str * world) :=
  let objs := find_objects w rf in
  do w1 <- insert_loop 1 w r (indented indent new_val) objs;
  do w2 <- (if atomic then commit w1 else Ok w1);
  Ok (map (text_of w1) (sorted_objs w1 objs), w2).

Section Compile.
  (** [re.compile] of the text of a line used as a pattern; Err ReErr when it is
      not a valid pattern.  (Python compiles it once per line of the
      configuration, so on an empty configuration it would not raise.) *)
  Variable compile : str -> result regex.

  (** ccp_abc.py:794-857 BaseCfgLine.insert_before / insert_after with a string:
      the text of the line is used as the pattern, as a string *)
  Definition line_insert (d : nat) (w : world) (x : nat) (new_val : str) : result world :=
    if owned w x then do r <- compile (text_of w x); conf_insert d w false r new_val false
    else Err AttributeErr.

  (** ccp_abc.py:860-931 append_to_family.  [auto]: auto_indent with its width;
      [indent]: the indent parameter when positive. *)
  Definition family_text (w : world) (x : nat) (s : str) (auto : option nat) (indent : option nat) : str :=
    match auto, indent with
    | Some k, _ => spaces (indent_of w x + k) ++ lstrip s
    | None, Some k => spaces (indent_of w x + k) ++ lstrip s
    | None, None => s
    end.
  Definition append_to_family (w : world) (x : nat) (s : str) (auto indent : option nat) : result world :=
    if owned w x then
      do cs <- all_children w x;
      let target := last cs x in
      do r <- compile (text_of w target);
      conf_insert 1 w true r (family_text w x s auto indent) false
    else Err AttributeErr.

  (** ciscoconfparse.py:3016-3056 insert_after_child, [atomic=False] *)
  Fixpoint insert_after_each (w : world) (s : str) (cs : list nat) : result world :=
    match cs with
    | [] => Ok w
    | c :: cs' =>
        do r <- compile (text_of w c);
        do w' <- conf_insert 1 w true r s false;
        insert_after_each w' s cs'
    end.
  Definition excluded (w : world) (ex : option regex) (x : nat) : bool :=
    match ex with Some e => hits e (text_of w x) | None => false end.
  Definition matching_children (w : world) (p c : regex) (ex : option regex) : list nat :=
    flat_map (fun q => filter (fun x => negb (excluded w ex x) && hits c (text_of w x)) (children_of w q))
             (filter (fun q => negb (excluded w ex q)) (find_objects w p)).
  Definition insert_after_child (w : world) (p c : regex) (s : str) (ex : option regex) : result world :=
    insert_after_each w s (matching_children w p c ex).
End Compile.

(** Resolution of the index of [list.insert]. *)
Definition py_insert_pos (n : nat) (z : Z) : nat :=
  (if z <? 0 then Z.to_nat (Z.max 0 (Z.of_nat n + z)) else Nat.min n (Z.to_nat z))%Z.

(** ciscoconfparse.py:5491-5523 ConfigList.insert; 3072-3076 prepend_line *)
Definition conf_insert_index (w : world) (z : Z) (val : str) : world :=
  let (w1, x) := alloc w val in
  reassign_linenums (set_conf (insert_at (py_insert_pos (length (w_conf w1)) z) x (w_conf w1)) w1).
Definition prepend_line (w : world) (val : str) : world := conf_insert_index w 0 val.

(** ciscoconfparse.py:3080-3107 append_line with a string: the string is passed
    to IOSCfgLine() as its first positional parameter [all_lines], and the text
    stays DEFAULT_TEXT (ccp_abc.py:30,60). *)
Definition append_line (w : world) (val : str) : result world :=
  if blank_text val && o_ignore_blank (w_opts w) then Err InvalidParameters
  else
    let (w1, x) := alloc w (lit "__undefined__") in
    commit (set_conf (w_conf w1 ++ [x]) w1).

(** ** Changing the text of a line *)

Definition put_text (t : str) (delims : str) (l : cfgline) : cfgline :=
  mkLine t (cl_linenum l) (cl_indent l) (text_is_comment delims t) (cl_parent l)
         (cl_children l) (cl_child_indent l) (cl_keep l) (cl_owned l).

(** ccp_abc.py:1035-1094 re_sub.  [sub] is [re.sub(regex, replacergx, _)].  The
    result is the returned value with the new state. *)
Definition re_sub (w : world) (sub : str -> str) (ign : option regex) (x : nat) : result (option str * world) :=
  let t := text_of w x in
  if match ign with Some e => hits e t | None => false end then Ok (Some t, w)
  else
    let t' := sub t in
    if blank_text t' then do w' <- delete w true x; Ok (None, w')
    else Ok (Some t', set_heap (upd (w_heap w) x (put_text t' (o_comment (w_opts w)))) w).

Fixpoint re_sub_each (w : world) (sub : str -> str) (xs : list nat) : result world :=
  match xs with
  | [] => Ok w
  | x :: xs' => do r <- re_sub w sub None x; re_sub_each (snd r) sub xs'
  end.

(** ciscoconfparse.py:3111-3223 replace_lines (factory=False): the exclusion is
    evaluated when the loop reaches the line *)
Fixpoint replace_each (w : world) (sub : str -> str) (ex : option regex) (xs : list nat) : result world :=
  match xs with
  | [] => Ok w
  | x :: xs' =>
      if excluded w ex x then replace_each w sub ex xs'
      else do r <- re_sub w sub None x; replace_each (snd r) sub ex xs'
  end.
Definition replace_lines (w : world) (r : regex) (sub : str -> str) (ex : option regex) : result world :=
  replace_each w sub ex (find_objects w r).

(** ciscoconfparse.py:3227-3310 replace_children, 3314-3345 replace_all_children;
    3956-3967 _find_all_child_OBJ looks two levels down only. *)
Fixpoint replace_among (w : world) (c : regex) (sub : str -> str) (ex : option regex) (xs : list nat) : result world :=
  match xs with
  | [] => Ok w
  | x :: xs' =>
      if negb (excluded w ex x) && hits c (text_of w x)
      then do r <- re_sub w sub None x; replace_among (snd r) c sub ex xs'
      else replace_among w c sub ex xs'
  end.
Definition two_levels (w : world) (x : nat) : list nat :=
  sorted_objs w
    (fold_left (fun acc k => fold_left (set_add w) (children_of w k) acc) (children_of w x)
       (set_of w (children_of w x))).
Fixpoint replace_below (w : world) (kids : world -> nat -> list nat) (c : regex) (sub : str -> str)
    (ex : option regex) (ps : list nat) : result world :=
  match ps with
  | [] => Ok w
  | p :: ps' =>
      if excluded w ex p then replace_below w kids c sub ex ps'
      else do w' <- replace_among w c sub ex (kids w p); replace_below w' kids c sub ex ps'
  end.
Definition replace_children (w : world) (p c : regex) (sub : str -> str) (ex : option regex) : result world :=
  replace_below w children_of c sub ex (find_objects w p).
Definition replace_all_children (w : world) (p c : regex) (sub : str -> str) (ex : option regex) : result world :=
  replace_below w two_levels c sub ex (find_objects w p).

(** ccp_abc.py:395-427 the text setter: [obj.text = newtext] *)
Definition set_text (w : world) (x : nat) (newtext : str) : world :=
  let t := rstrip newtext in
  let cm := text_is_comment (o_comment (w_opts w)) t in
  set_heap
    (upd (w_heap w) x (fun l =>
       mkLine t (cl_linenum l) (text_indent newtext) cm (if cm then x else cl_parent l)
              (cl_children l) (cl_child_indent l) (cl_keep l) (cl_owned l))) w.

(** ccp_abc.py:618-652 uncfgtext *)
Definition uncfgtext (w : world) (x : nat) : result str :=
  let t := text_of w x in
  if str_eqb t (lit "__undefined__") then Err AssertionErr
  else
    match words t with
    | [] => Err IndexError
    | w0 :: ws =>
        if str_eqb (lower w0) (lit "no") then
          match ws with
          | [] => Err AssertionErr
          | _ => Ok (spaces (indent_of w x) ++ join (lit " ") ws)
          end
        else Ok (spaces (indent_of w x) ++ lit "no " ++ lstrip t)
    end.
