(** Specification vocabulary for the searches. *)
From Coq Require Import Ascii String Arith NArith ZArith Bool List.
From Verif Require Import PyStr PyBase CfgModel TreeSpec SearchModel.
Import ListNotations.

(** The pattern is found in the text. *)
Definition matches (r : regex) (t : str) : Prop := exists m, rx_find r t = Some m.

(** The pattern is found in the text, and not only as an empty match. *)
Definition matches_some (r : regex) (t : str) : Prop := exists m, rx_find r t = Some m /\ m_all m <> [].

(** How children are matched: the line is not empty and the pattern is found in
    it, as a regular expression or literally. *)
Definition found (r : regex) (t : str) : Prop :=
  t <> [] /\ ((exists a b, t = a ++ rx_src r ++ b) \/ matches r t).

(** [y] is a child of [x]; with [recurse], a descendant. *)
Definition below (w : world) (recurse : bool) (x y : nat) : Prop :=
  if recurse then descendant (children_of w) x y else In y (children_of w x).

(** [y] is an ancestor of [x]. *)
Definition above (w : world) (y x : nat) : Prop := ancestor (fun c p => parent_of w c = p) y x.

(** The lines of the configuration whose text matches. *)
Definition in_config (w : world) (r : regex) (x : nat) : Prop :=
  In x (w_conf w) /\ matches r (text_of w x).

(** One row of find_object_branches for candidates [cands]: the first pattern
    selects a matching candidate and the rest of the row is a row for its
    children; when no candidate matches, the row is filled with None. *)
Inductive branch (w : world) : list nat -> list regex -> list (option nat) -> Prop :=
| br_nil cands : branch w cands [] []
| br_match cands r rs x row :
    In x cands -> matches r (text_of w x) -> branch w (children_of w x) rs row ->
    branch w cands (r :: rs) (Some x :: row)
| br_none cands r rs :
    (forall x, In x cands -> ~ matches r (text_of w x)) ->
    branch w cands (r :: rs) (repeat None (S (length rs))).

(** All rows in depth-first order. *)
Fixpoint rows (w : world) (cands : list nat) (specs : list regex) : list (list (option nat)) :=
  match specs with
  | [] => [[]]
  | r :: rs =>
      match filter (fun x => hits r (text_of w x)) cands with
      | [] => [repeat None (S (length rs))]
      | xs => flat_map (fun x => map (cons (Some x)) (rows w (children_of w x) rs)) xs
      end
  end.
