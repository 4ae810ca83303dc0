(** find_parent_objects, find_parent_objects_wo_child and find_child_objects with all kinds of
    arguments and with the options ignore_ws and escape_chars (ciscoconfparse.py:1789-1938,
    2228-2336, 2562-2730).  That a malformed pattern raises re.error is not modelled: it finds
    nothing here, and the theorems speak of escaped texts, which are never malformed. *)
From Coq Require Import Ascii String Arith NArith ZArith Bool List.
From Verif Require Import PyStr PyBase CfgModel SearchModel PyRe JunosReModel SyncModel.
Import ListNotations.

(** An argument: a text, a line object (its text, and itself as an f-string shows it), a list or
    tuple of texts, or something else that is no compiled pattern (as an f-string shows it). *)
Inductive spec_arg := SText (s : str) | SLine (text shown : str) | SList (l : list str) | SOther (shown : str).

(** [re.escape] (CPython's library) *)
Definition escape (s : str) : str := flat_map re_escape s.
(** 1922-1931, 2321-2330, 2699-2708, one text *)
Definition prepared (ignore_ws escape_chars : bool) (s : str) : str :=
  let s := if ignore_ws then space_tolerant false s else s in
  if escape_chars then escape s else s.
(** The same lines given something that is no text: [build_space_tolerant_regex] and [re.escape]
    raise. *)
Definition unprepared (ignore_ws escape_chars : bool) : result unit :=
  if ignore_ws then Err ValueError else if escape_chars then Err TypeErr else Ok tt.

(** [re.search(childspec, ...)] where childspec is no text: TypeError, at the first child. *)
Definition object_children (w : world) (recurse : bool) (x : nat) : result bool :=
  do cs <- offspring w recurse x;
  match cs with [] => Ok false | _ => Err TypeErr end.

Section Args.
  Variables (w : world) (ignore_ws escape_chars recurse : bool).
  Definition prx (s : str) : regex := pattern false (prepared ignore_ws escape_chars s).

  (** 1919-1938: [p] is the text of parentspec; a line object given as childspec replaces it (1920) *)
  Definition parents_with (p : str) (child : spec_arg) : result (list nat) :=
    let other p :=
      do _ <- unprepared ignore_ws escape_chars;
      rfilter (object_children w recurse) (find_objects w (prx p)) in
    match child with
    | SText c => find_parent_objects w (prx p) (prx c) recurse
    | SLine t _ => other t
    | SList _ | SOther _ => other p
    end.
  (** 1883-1918 *)
  Definition find_parent_objects_args (parent child : spec_arg) : result (list nat) :=
    match parent with
    | SText p | SLine p _ => parents_with p child
    | SList l => find_parent_objects_list w (map prx l) recurse
    | SOther _ => Err InvalidParameters
    end.

  (** 2309-2336; a parentspec of another type reaches [re.compile] *)
  Definition find_parent_objects_wo_child_args (parent child : spec_arg) : result (list nat) :=
    let other p :=
      do _ <- unprepared ignore_ws escape_chars;
      rfilter (fun x => rmap negb (object_children w recurse x)) (find_objects w (prx p)) in
    match parent, child with
    | SList _, _ => Err InvalidParameters
    | _, SLine t _ => other t
    | SText p, SText c | SLine p _, SText c => find_parent_objects_wo_child w (prx p) (prx c) recurse
    | SText p, _ | SLine p _, _ => other p
    | SOther _, _ => do _ <- unprepared ignore_ws escape_chars; Err TypeErr
    end.

  (** The pattern of 2720 and 2730 *)
  Definition in_group (s : str) : regex := pattern false (["("%char] ++ s ++ [")"%char]).
  (** 2696-2730 *)
  Definition children_with (p : str) (child : spec_arg) : result (list nat) :=
    let other p shown :=
      do _ <- unprepared ignore_ws escape_chars;
      find_child_objects w (prx p) (in_group shown) recurse in
    match child with
    | SText c => find_child_objects w (prx p) (in_group (prepared ignore_ws escape_chars c)) recurse
    | SLine t shown => other t shown
    | SList l => do _ <- unprepared ignore_ws escape_chars; Err NotImplementedErr (* the text of a list is not modelled *)
    | SOther shown => other p shown
    end.
  (** 2656-2695; the elements of a list are searched pairwise, all below the first *)
  Fixpoint children_list (p : str) (cs : list str) : result (list nat) :=
    match cs with
    | [] => Ok []
    | c :: cs' =>
        do vs <- children_with p (SText c);
        match vs with
        | [] => Ok []
        | _ => match cs' with
               | [] => Ok (sorted_objs w (fold_left (set_add w) vs []))
               | _ => children_list p cs'
               end
        end
    end.
  Definition find_child_objects_args (parent child : spec_arg) : result (list nat) :=
    match parent with
    | SText p | SLine p _ => children_with p child
    | SList (p :: c :: cs) => children_list p (c :: cs)
    | SList _ => Err InvalidParameters
    | SOther _ => Err InvalidParameters
    end.
End Args.
