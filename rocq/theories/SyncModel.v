(** Model of sync_diff, of the older required-configuration reports, and of the options
    exactmatch and ignore_ws of the searches. *)
From Coq Require Import Ascii String Arith NArith ZArith Bool List.
From Verif Require Import PyStr PyBase CfgModel SearchModel MutModel DiffModel PyRe.
Import ListNotations.
Local Open Scope char_scope.

(** ciscoconfparse.py:484-502 build_space_tolerant_regex, for one text: every run of
    white space becomes "\s+".  [in_gap]: the last character was white space. *)
Fixpoint space_tolerant (in_gap : bool) (s : str) : str :=
  match s with
  | [] => []
  | c :: r => if is_space c then (if in_gap then [] else lit "\s+") ++ space_tolerant true r
              else c :: space_tolerant false r
  end.

(** The pattern searched: ciscoconfparse.py:1463-1464 and 1494-1495 (ignore_ws), 3935-3940 and
    1496-1499 (exactmatch). *)
Definition spec_pattern (linespec : str) (exactmatch ignore_ws : bool) : regex :=
  let s := if ignore_ws then space_tolerant false linespec else linespec in
  pattern false (if exactmatch then lit "^" ++ s ++ lit "$" else s).
(** ciscoconfparse.py:1420-1469 find_objects and 1473-1500 find_lines with a text *)
Definition find_objects_spec (w : world) (linespec : str) (exactmatch ignore_ws : bool) : list nat :=
  find_objects w (spec_pattern linespec exactmatch ignore_ws).
Definition find_lines_spec (w : world) (linespec : str) (exactmatch ignore_ws : bool) : list str :=
  find_lines w (spec_pattern linespec exactmatch ignore_ws).

(** ccp_util.py:523-540 fix_repeated_words; [n] bounds the rounds: each one drops
    characters. *)
Definition repeated_pattern (word : str) : str :=
  lit "^(?P<indent>\s*)" ++ strip word ++ lit "\s+" ++ strip word ++ lit "\s+(?P<remaining_cmd>\S.+)$".
Definition part (m : rmatch) (k : nat) : str := match nth k (m_groups m) None with Some t => t | None => [] end.
Fixpoint fix_rounds (n : nat) (word cmd : str) : str :=
  match n with
  | 0 => cmd
  | S n' =>
      match rx_find (pattern false (repeated_pattern word)) cmd with
      | Some m => fix_rounds n' word (part m 0 ++ part m 1)
      | None => cmd
      end
  end.
Definition fix_repeated_words (cmd word : str) : result str :=
  match cmd, word with
  | [], _ | _, [] => Err RequirementFailure
  | _, _ => Ok (fix_rounds (length cmd) word cmd)
  end.

Section Hash.
Variable hash : str -> Z.

(** ciscoconfparse.py:3856-3897, one dictionary of the difference *)
Definition sync_one (linespec uncfgspec : regex) (remove_lines : bool) (d : ddict) : result (list str) :=
  if negb (hits linespec (d_text d)) then Ok []
  else match d_word d with
  | Remove =>
      if remove_lines then
        match rx_find uncfgspec (d_text d) with
        | None => Err AttributeErr
        | Some m => do c <- fix_repeated_words (spaces (d_indent d) ++ lit "no " ++ strip (m_all m)) (lit "no"); Ok [c]
        end
      else Ok []
  | Add => Ok (d_parents d ++ [d_text d])
  | _ => Ok []
  end.
Fixpoint sync_all (linespec uncfgspec : regex) (remove_lines : bool) (ds : list ddict) : result (list str) :=
  match ds with
  | [] => Ok []
  | d :: ds' =>
      do a <- sync_one linespec uncfgspec remove_lines d;
      do r <- sync_all linespec uncfgspec remove_lines ds';
      Ok (a ++ r)
  end.
(** ciscoconfparse.py:3749-3899 sync_diff, for a required configuration given as lines;
    [sy] is the syntax chosen at 3849.  Other syntaxes than ios and nxos have an empty
    difference, so the ValueError of 3883 is never raised. *)
Definition sync_diff (sy : syntax) (w : world) (cfgspec : list str) (linespec uncfgspec : regex) (remove_lines : bool) : result (list str) :=
  do ds <- hdiff hash sy true (ioscfg w) cfgspec;
  sync_all linespec uncfgspec remove_lines ds.
End Hash.

(** ciscoconfparse.py:3486-3550 req_cfgspec_all_diff *)
Definition same_line (w : world) (ignore_ws : bool) (x : nat) (reqline : str) : bool :=
  if ignore_ws then hits (pattern false (lit "^" ++ space_tolerant false reqline ++ lit "$")) (strip (text_of w x))
  else str_eqb (strip (text_of w x)) (strip reqline).
Definition req_all_diff (w : world) (cfgspec : list str) (ignore_ws : bool) : list str :=
  let found := find_objects w (pattern false (lit "[a-zA-Z]")) in
  filter (fun r => negb (existsb (fun x => same_line w ignore_ws x r) found)) cfgspec.

(** ccp_abc.py:592-616 add_uncfgtext.  The replacement is written "\3" in a plain string
    literal, which is the character 3 and no group reference. *)
Definition no_pattern : str := lit "^(\s*)(no\s+)(\S.*)?$".
Definition uncfg_text (w : world) (x : nat) (t : str) : str :=
  let conf := match rx_find (pattern false no_pattern) t with
              | Some m => ascii_of_nat 3 :: skipn (length (m_all m)) t
              | None => t
              end in
  spaces (match obj w (parent_of w x) with Some p => cl_child_indent p | None => 0 end) ++ lit "no " ++ conf.

(** ciscoconfparse.py:3606-3618: the texts that undo the lines [xs] *)
Fixpoint uncfg_texts (w : world) (uncfgspec : regex) (xs : list nat) : result (list (nat * str)) :=
  match xs with
  | [] => Ok []
  | x :: xs' =>
      match rx_find uncfgspec (text_of w x) with
      | None => Err AttributeErr
      | Some m => do r <- uncfg_texts w uncfgspec xs'; Ok ((x, uncfg_text w x (m_all m)) :: r)
      end
  end.
(** 3620-3624 *)
Fixpoint with_parents (w : world) (xs : list nat) : result (list nat) :=
  match xs with
  | [] => Ok []
  | x :: xs' => do ps <- all_parents w x; do r <- with_parents w xs'; Ok (ps ++ x :: r)
  end.
(** 3971-3994 _unique_OBJ and _objects_to_uncfg.  The dictionary compares objects with
    __eq__. *)
Definition to_uncfg (w : world) (objs : list nat) (undo : list (nat * str)) : list str :=
  map (fun y => match find (fun p => obj_eqb w y (fst p)) undo with Some p => snd p | None => text_of w y end)
      (sorted_objs w (fold_left (set_add w) objs [])).
(** ciscoconfparse.py:3558-3632 req_cfgspec_excl_diff *)
Definition req_excl_diff (w : world) (linespec uncfgspec : regex) (cfgspec : list str) : result (list str) :=
  let found := find_objects w linespec in
  let bad := filter (fun x => negb (existsb (fun r => str_eqb (strip (text_of w x)) (strip r)) cfgspec)) found in
  do undo <- uncfg_texts w uncfgspec bad;
  do objs <- with_parents w bad;
  Ok (to_uncfg w objs undo ++
      filter (fun r => negb (existsb (fun x => str_eqb (strip (text_of w x)) (strip r)) found)) cfgspec).
