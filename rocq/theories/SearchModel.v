(** Model of the search methods of CiscoConfParse and of BaseCfgLine. *)
From Coq Require Import Ascii String Arith NArith ZArith Bool List.
From Verif Require Import PyStr PyBase CfgModel.
Import ListNotations.
Local Open Scope nat_scope.

(** The result of a successful [re.search]: the matched text (group 0) and the
    capture groups 1, 2, ...  (None: the group did not participate). *)
Record rmatch := mkMatch { m_all : str; m_groups : list (option str) }.

(** A regular expression given by the caller: its source text and what
    [re.search] does with it, as an arbitrary function.  [re.compile] failing on
    a malformed pattern is not modelled. *)
Record regex := mkRx { rx_src : str; rx_find : str -> option rmatch }.

Definition hits (r : regex) (t : str) : bool :=
  match rx_find r t with Some _ => true | None => false end.

(** [mm.group(n)]: IndexError when there is no such group. *)
Definition group (n : nat) (m : rmatch) : result (option str) :=
  match n with
  | 0 => Ok (Some (m_all m))
  | S k => match nth_error (m_groups m) k with Some g => Ok g | None => Err IndexError end
  end.

(** [filter] with a predicate that may raise. *)
Fixpoint rfilter {A} (f : A -> result bool) (l : list A) : result (list A) :=
  match l with
  | [] => Ok []
  | x :: l' =>
      do b <- f x;
      do r <- rfilter f l';
      Ok (if b then x :: r else r)
  end.

(** ciscoconfparse.py:3921-3944 _find_line_OBJ (the pattern already wrapped in
    ["^%s$"] when exactmatch) and 1420-1469 find_objects. *)
Definition find_objects (w : world) (r : regex) : list nat :=
  filter (fun x => hits r (text_of w x)) (w_conf w).

(** ciscoconfparse.py:1473-1500 find_lines *)
Definition find_lines (w : world) (r : regex) : list str := filter (hits r) (ioscfg w).

(** ciscoconfparse.py:2763-2772 has_line_with *)
Definition has_line_with (w : world) (r : regex) : bool := existsb (hits r) (ioscfg w).

(** Truth value of BaseCfgLine.re_search, ccp_abc.py:1143-1171: the text of the
    line when the source of the pattern is a substring of it or the pattern
    matches, else "" (and an empty text is falsy as well). *)
Definition line_re_search (w : world) (r : regex) (x : nat) : bool :=
  match text_of w x with
  | [] => false
  | t => contains (rx_src r) t || hits r t
  end.

(** [self.children] or [self.all_children] *)
Definition offspring (w : world) (recurse : bool) (x : nat) : result (list nat) :=
  if recurse then all_children w x else Ok (children_of w x).

(** ccp_abc.py:1174-1191 BaseCfgLine.re_search_children *)
Definition line_re_search_children (w : world) (r : regex) (recurse : bool) (x : nat) : result (list nat) :=
  do cs <- offspring w recurse x;
  Ok (filter (line_re_search w r) cs).

(** ccp_abc.py:780-791 has_child_with *)
Definition has_child_with (w : world) (r : regex) (recurse : bool) (x : nat) : result bool :=
  do cs <- offspring w recurse x;
  Ok (match filter (line_re_search w r) cs with [] => false | _ => true end).

Definition nonempty {A} (l : list A) : bool := match l with [] => false | _ => true end.

(** ciscoconfparse.py:1933-1938 find_parent_objects with two string patterns
    (patterns after build_space_tolerant_regex / re.escape). *)
Definition find_parent_objects (w : world) (p c : regex) (recurse : bool) : result (list nat) :=
  rfilter (fun x => rmap nonempty (line_re_search_children w c recurse x)) (find_objects w p).

(** ciscoconfparse.py:2332-2336 find_parent_objects_wo_child *)
Definition find_parent_objects_wo_child (w : world) (p c : regex) (recurse : bool) : result (list nat) :=
  rfilter (fun x => rmap (fun l => negb (nonempty l)) (line_re_search_children w c recurse x))
          (find_objects w p).

(** ciscoconfparse.py:1887-1913 find_parent_objects with a list of patterns *)
Fixpoint fpo_list (w : world) (p : regex) (cs : list regex) (recurse : bool) (acc : list nat) : result (list nat) :=
  match cs with
  | [] => Ok (sorted_objs w acc)
  | c :: cs' =>
      do vs <- find_parent_objects w p c recurse;
      match vs with
      | [] => Ok []
      | _ => fpo_list w p cs' recurse (fold_left (set_add w) vs acc)
      end
  end.
Definition find_parent_objects_list (w : world) (specs : list regex) (recurse : bool) : result (list nat) :=
  match specs with
  | p :: c :: cs => fpo_list w p (c :: cs) recurse []
  | _ => Err InvalidParameters
  end.

(** ciscoconfparse.py:1942-2061 find_objects_w_all_children: the set [results]
    contains False exactly when some pattern has no match. *)
Fixpoint all_match (w : world) (cs : list regex) (recurse : bool) (x : nat) : result bool :=
  match cs with
  | [] => Ok true
  | c :: cs' =>
      do l <- line_re_search_children w c recurse x;
      do r <- all_match w cs' recurse x;
      Ok (nonempty l && r)
  end.
Definition find_objects_w_all_children (w : world) (p : regex) (cs : list regex) (recurse : bool) : result (list nat) :=
  rfilter (all_match w cs recurse) (find_objects w p).

(** ciscoconfparse.py:2065-2115 find_objects_w_missing_children *)
Definition find_objects_w_missing_children (w : world) (p : regex) (cs : list regex) : result (list nat) :=
  rfilter (fun x => rmap negb (all_match w cs false x)) (find_objects w p).

(** ciscoconfparse.py:1504-1555 find_children (the objects whose texts are returned) *)
Definition find_children_objs (w : world) (r : regex) : list nat :=
  sorted_objs w
    (fold_left (fun acc p => set_add w (fold_left (set_add w) (children_of w p) acc) p)
               (find_objects w r) []).
Definition find_children (w : world) (r : regex) : list str := map (text_of w) (find_children_objs w r).

(** ciscoconfparse.py:1559-1633 find_all_children *)
Fixpoint fac_loop (w : world) (ps : list nat) (acc : list nat) : result (list nat) :=
  match ps with
  | [] => Ok acc
  | p :: ps' =>
      do cs <- all_children w p;
      fac_loop w ps' (fold_left (set_add w) cs (set_add w acc p))
  end.
Definition find_all_children_objs (w : world) (r : regex) : result (list nat) :=
  rmap (sorted_objs w) (fac_loop w (find_objects w r) []).
Definition find_all_children (w : world) (r : regex) : result (list str) :=
  rmap (map (text_of w)) (find_all_children_objs w r).

(** ciscoconfparse.py:1637-1756 find_blocks; siblings are the children of the
    parent (3948-3952). *)
Definition fb_siblings (w : world) (objs : list nat) : list nat :=
  fold_left (fun acc x => fold_left (set_add w) (children_of w (parent_of w x)) (set_add w acc x)) objs [].
Fixpoint fb_parents (w : world) (xs : list nat) (acc : list nat) : result (list nat) :=
  match xs with
  | [] => Ok acc
  | x :: xs' => do ps <- all_parents w x; fb_parents w xs' (fold_left (set_add w) ps acc)
  end.
Definition find_blocks_objs (w : world) (r : regex) : result (list nat) :=
  let tmp := fb_siblings w (find_objects w r) in
  do ps <- fb_parents w tmp [];
  Ok (sorted_objs w (fold_left (set_add w) ps tmp)).
Definition find_blocks (w : world) (r : regex) : result (list str) :=
  rmap (map (text_of w)) (find_blocks_objs w r).

(** ciscoconfparse.py:2427-2534 find_children_w_parents *)
Fixpoint fcwp_loop (w : world) (p : regex) (cs : list nat) (acc : list nat) : result (list nat) :=
  match cs with
  | [] => Ok acc
  | c :: cs' =>
      do ps <- all_parents w c;
      fcwp_loop w p cs' (fold_left (fun a q => if hits p (text_of w q) then set_add w a c else a) ps acc)
  end.
Definition find_children_w_parents_objs (w : world) (p c : regex) : result (list nat) :=
  rmap (sorted_objs w) (fcwp_loop w p (find_objects w c) []).
Definition find_children_w_parents (w : world) (p c : regex) : result (list str) :=
  rmap (map (text_of w)) (find_children_w_parents_objs w p c).

(** [child.re_match(rf"({childspec})", default=False)] as a truth value,
    ccp_abc.py:1097-1140: the matched text, so an empty match is falsy. *)
Definition match_nonempty (r : regex) (t : str) : bool :=
  match rx_find r t with Some m => nonempty (m_all m) | None => false end.

(** ciscoconfparse.py:2710-2730 find_child_objects with two string patterns *)
Fixpoint fco_loop (w : world) (c : regex) (recurse : bool) (ps : list nat) (acc : list nat) : result (list nat) :=
  match ps with
  | [] => Ok acc
  | p :: ps' =>
      do cs <- offspring w recurse p;
      fco_loop w c recurse ps'
        (fold_left (fun a x => if match_nonempty c (text_of w x) then set_add w a x else a) cs acc)
  end.
Definition find_child_objects (w : world) (p c : regex) (recurse : bool) : result (list nat) :=
  rmap (sorted_objs w) (fco_loop w c recurse (find_objects w p) []).

(** ciscoconfparse.py:2660-2690 find_child_objects with a list of patterns: every
    pattern is searched below the first one; only the last result is returned. *)
Fixpoint fcol_loop (w : world) (p : regex) (cs : list regex) (recurse : bool) : result (list nat) :=
  match cs with
  | [] => Ok []
  | c :: cs' =>
      do vs <- find_child_objects w p c recurse;
      match vs with
      | [] => Ok []
      | _ => match cs' with
             | [] => Ok (sorted_objs w (fold_left (set_add w) vs []))
             | _ => fcol_loop w p cs' recurse
             end
      end
  end.
Definition find_child_objects_list (w : world) (specs : list regex) (recurse : bool) : result (list nat) :=
  match specs with
  | p :: c :: cs => fcol_loop w p (c :: cs) recurse
  | _ => Err InvalidParameters
  end.

(** ciscoconfparse.py:2734-2759 find_lineage *)
Definition find_lineage (w : world) (r : regex) : result (list str) :=
  match find_objects w r with
  | [] => Err IndexError
  | [x] => rmap (map (text_of w)) (lineage w x)
  | _ => Err ValueError
  end.

(** ** find_object_branches: ciscoconfparse.py:1012-1282 ([regex_flags = 0]) *)

(** 1132-1191 list_matching_children; [None] stands for "no match". *)
Definition list_matching (w : world) (r : regex) (cands : list nat) : list (option nat) :=
  match filter (fun x => hits r (text_of w x)) cands with
  | [] => [None]
  | l => map Some l
  end.

(** 1212-1233 one more level for one branch *)
Definition grow (w : world) (r : regex) (branch : list (option nat)) : list (list (option nat)) :=
  match last branch None with
  | Some x => map (fun k => branch ++ [k]) (list_matching w r (children_of w x))
  | None => [branch ++ [None]]
  end.

(** 1195-1238; with a single pattern the name [new_branches] is unbound at 1238. *)
Definition find_object_branches (w : world) (specs : list regex) : result (list (list (option nat))) :=
  match specs with
  | [] => Err ValueError
  | [_] => Err UnboundLocal
  | s :: ss =>
      Ok (fold_left (fun bs r => flat_map (grow w r) bs) ss
            (map (fun k => [k]) (list_matching w s (find_objects w s))))
  end.

(** 1241-1278 [regex_groups=True]: capture groups instead of objects *)
Definition branch_groups (w : world) (r : regex) (k : option nat) : list (option str) :=
  match k with
  | None => [None]
  | Some x =>
      match rx_find r (text_of w x) with
      | Some m => match m_groups m with [] => [Some (text_of w x)] | gs => gs end
      | None => [None]
      end
  end.
Fixpoint row_groups (w : world) (specs : list regex) (row : list (option nat)) : list (list (option str)) :=
  match specs, row with
  | r :: specs', k :: row' => branch_groups w r k :: row_groups w specs' row'
  | _, _ => []
  end.
Definition find_object_branches_groups (w : world) (specs : list regex) : result (list (list (list (option str)))) :=
  rmap (map (row_groups w specs)) (find_object_branches w specs).

(** ** Typed searches *)

Section Typed.
  Context {T : Type}.
  (** [result_type] applied to the matched group (or to None), may raise *)
  Variable conv : option str -> result T.
  (** the value returned without a match: [default] or [result_type(default)] *)
  Variable dflt : result T.

  (** [result_type(mm.group(group))] *)
  Definition typed_group (g : nat) (m : rmatch) : result T :=
    do v <- group g m; conv v.

  Fixpoint first_match (r : regex) (g : nat) (ts : list str) : result T :=
    match ts with
    | [] => dflt
    | t :: ts' =>
        match rx_find r t with
        | Some m => typed_group g m
        | None => first_match r g ts'
        end
    end.

  (** ccp_abc.py:1262-1374 BaseCfgLine.re_match_iter_typed, groupdict=None.  The
      children are only computed when the line itself does not match. *)
  Definition line_re_match_iter_typed (w : world) (r : regex) (g : nat) (recurse : bool) (x : nat) : result T :=
    match rx_find r (text_of w x) with
    | Some m => typed_group g m
    | None =>
        do cs <- offspring w recurse x;
        first_match r g (map (text_of w) cs)
    end.

  (** ccp_abc.py:1194-1258 re_match_typed: a group that did not participate
      counts as no match. *)
  Definition line_re_match_typed (w : world) (r : regex) (g : nat) (x : nat) : result T :=
    match rx_find r (text_of w x) with
    | Some m =>
        do v <- group g m;
        match v with Some _ => conv v | None => dflt end
    | None => dflt
    end.

  (** ciscoconfparse.py:3377-3478 CiscoConfParse.re_match_iter_typed: root lines only *)
  Definition conf_re_match_iter_typed (w : world) (r : regex) (g : nat) : result T :=
    first_match r g (map (text_of w) (filter (fun x => parent_of w x =? x) (w_conf w))).
End Typed.

(** ccp_abc.py:1375-1419, groupdict given: which match (or None) is handed to
    get_typed_dict.  With recurse=False the loop returns on its first child. *)
Fixpoint first_found (r : regex) (ts : list str) : option rmatch :=
  match ts with
  | [] => None
  | t :: ts' => match rx_find r t with Some m => Some m | None => first_found r ts' end
  end.
Definition line_groupdict_match (w : world) (r : regex) (recurse : bool) (x : nat) : result (option rmatch) :=
  match rx_find r (text_of w x) with
  | Some m => Ok (Some m)
  | None =>
      if recurse
      then do cs <- all_children w x; Ok (first_found r (map (text_of w) cs))
      else match children_of w x with
           | [] => Ok None
           | c :: _ => Ok (rx_find r (text_of w c))
           end
  end.

(** ciscoconfparse.py:3349-3373 CiscoConfParse.re_search_children *)
Definition conf_re_search_children (w : world) (r : regex) (recurse : bool) : list nat :=
  if recurse then find_objects w r
  else filter (fun x => parent_of w x =? x) (find_objects w r).
