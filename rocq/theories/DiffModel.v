(** Model of HDiff, the difference of two configurations.

    Sources: /repo/ciscoconfparse/ciscoconfparse.py:4110-4864 (class HDiff) and
    /repo/ciscoconfparse/ccp_abc.py:237-385 (BaseCfgLine, diff attributes). *)
From Coq Require Import Ascii String Arith NArith ZArith Bool List.
From Verif Require Import PyStr PyBase CfgModel MutModel JunosModel.
Import ListNotations.
Local Open Scope nat_scope.

Section Hash.
(** The builtin [hash] of a string; Python randomises it in each process. *)
Variable hash : str -> Z.

(** ccp_abc.py:237-275 calculate_line_id (the disabled branch left out) *)
Definition line_id (w : world) (x : nat) : Z :=
  hash (spaces (indent_of w x) ++ join (lit " ") (words (strip (text_of w x)))).

(** ccp_abc.py:278-311 diff_id_list: the line's own id first, the root's last *)
Definition diff_id_list (w : world) (x : nat) : result (list Z) :=
  do g <- geneology w x; Ok (fold_left (fun acc y => line_id w y :: acc) g []).

(** The values of diff_word that are used *)
Inductive word := Keep | Remove | Unchanged | Add | Unknown.
(** [diff_word] of each object of one side *)
Definition words_of := nat -> word.
Definition set_word (f : words_of) (x : nat) (v : word) : words_of := fun y => if y =? x then v else f y.

(** ccp_abc.py:320-348 diff_word setter in a loop over [xs]: objects outside the
    configuration have no diff_side (4306-4310), which is a ValueError. *)
Fixpoint set_words (w : world) (f : words_of) (xs : list nat) (v : word) : result words_of :=
  match xs with
  | [] => Ok f
  | x :: xs' => if existsb (Nat.eqb x) (w_conf w) then set_words w (set_word f x v) xs' v else Err ValueError
  end.

(** ciscoconfparse.py:4326-4349 build_diff_obj_list, texts: assigning [text]
    runs the text setter, which makes a comment its own parent. *)
Definition normal_texts (w : world) : world :=
  fold_left (fun v x => set_text v x (spaces (indent_of v x) ++ join (lit " ") (words (strip (text_of v x))))) (w_conf w) w.

(** ciscoconfparse.py:4549-4641 find_in_before_obj_list; [ia] is the id list of
    the line [a] *)
Fixpoint find_before (wb wa : world) (a : nat) (ia : list Z) (bs : list nat) (fb fa : words_of) : result (words_of * words_of) :=
  match bs with
  | [] => Ok (fb, set_word fa a Add)
  | b :: bs' =>
      do ib <- diff_id_list wb b;
      let same := if list_eq_dec Z.eq_dec ib ia then true else false in
      match fb b with
      | Keep =>
          do g <- geneology wb b;
          do fb' <- set_words wb fb g Keep;
          if same then
            do ga <- geneology wa a;
            do fa' <- set_words wa fa ga Unchanged;
            Ok (fb', fa')
          else find_before wb wa a ia bs' fb' fa
      | Remove =>
          if same then
            do g <- geneology wb b;
            do fb' <- set_words wb fb g Keep;
            do ga <- geneology wa a;
            do fa' <- set_words wa (set_word fa a Unchanged) ga Unchanged;
            Ok (fb', fa')
          else find_before wb wa a ia bs' fb fa
      | _ => Err NotImplementedErr
      end
  end.

(** ciscoconfparse.py:4353-4371 build_ios_diffs, the loop over the later lines *)
Fixpoint mark_after (wb wa : world) (as_ : list nat) (fb fa : words_of) : result (words_of * words_of) :=
  match as_ with
  | [] => Ok (fb, fa)
  | a :: as' =>
      match fa a with
      | Unknown =>
          do ia <- diff_id_list wa a;
          do r <- find_before wb wa a ia (w_conf wb) fb fa;
          mark_after wb wa as' (fst r) (snd r)
      | _ => Err RequirementFailure
      end
  end.

(** ccp_abc.py:372-385 as_diff_dict; [d_before] is diff_side = "before" *)
Record ddict := mkD {
  d_linenum : Z; d_before : bool; d_word : word; d_indent : nat;
  d_parents : list str; d_text : str; d_ids : list Z }.
Definition as_diff_dict (w : world) (before : bool) (n : Z) (v : word) (x : nat) : result ddict :=
  do ps <- all_parents w x;
  do ids <- diff_id_list w x;
  Ok (mkD n before v (indent_of w x) (map (text_of w) ps) (text_of w x) ids).

(** ciscoconfparse.py:4511-4545 dict_diffs and 4645-4685 render_after_obj_diffs.
    [diff_rendered] is False at every visit, as no object occurs twice. *)
Fixpoint dicts_before (w : world) (f : words_of) (xs : list nat) : result (list ddict) :=
  match xs with
  | [] => Ok []
  | x :: xs' =>
      match f x with
      | Keep | Remove => do d <- as_diff_dict w true (-1) (f x) x; do r <- dicts_before w f xs'; Ok (d :: r)
      | _ => Err NotImplementedErr
      end
  end.
Fixpoint dicts_after (w : world) (f : words_of) (xs : list nat) : result (list ddict) :=
  match xs with
  | [] => Ok []
  | x :: xs' =>
      match f x with
      | Unchanged =>
          match children_of w x with
          | [] => dicts_after w f xs'
          | _ => do d <- as_diff_dict w false (linenum_of w x) Unchanged x; do r <- dicts_after w f xs'; Ok (d :: r)
          end
      | Add => do d <- as_diff_dict w false (linenum_of w x) Add x; do r <- dicts_after w f xs'; Ok (d :: r)
      | _ => Err RequirementFailure
      end
  end.

(** ciscoconfparse.py:4689-4864 compress_dict_diffs; [seen] are the keys of
    [lines].  The final [del line_dict["diff_id_list"]] is left out. *)
Definition csv (d : ddict) : str := join (lit ",") (map show_Z (d_ids d)).
Definition below (this line : ddict) : bool :=
  contains (csv this) (csv line) && (S (length (d_ids this)) =? length (d_ids line)).
Fixpoint place (line : ddict) (l : list ddict) : list ddict :=
  match l with
  | [] => [line]
  | this :: l' => if below this line then this :: line :: l' else this :: place line l'
  end.
Definition seen (ids : list Z) (keys : list (list Z)) : bool :=
  existsb (fun k => if list_eq_dec Z.eq_dec k ids then true else false) keys.
Fixpoint compress (out : list ddict) (keys : list (list Z)) (todo : list ddict) : result (list ddict) :=
  match todo with
  | [] => Ok out
  | d :: todo' =>
      if seen (d_ids d) keys then compress out keys todo'
      else
        match d_before d, d_word d with
        | true, Keep | true, Remove | false, Unchanged => compress (out ++ [d]) (d_ids d :: keys) todo'
        | false, Add => compress (place d out) (d_ids d :: keys) todo'
        | _, _ => Err ValueError
        end
  end.

(** ciscoconfparse.py:4353-4389 build_ios_diffs; 4262-4274: other syntaxes than
    ios and nxos produce nothing. *)
Definition diff_dicts (wb wa : world) : result (list ddict) :=
  do r <- mark_after wb wa (w_conf wa) (fun _ => Remove) (fun _ => Unknown);
  do db <- dicts_before wb (fst r) (w_conf wb);
  do da <- dicts_after wa (snd r) (w_conf wa);
  compress [] [] (db ++ da).

(** ciscoconfparse.py:4277-4295 parse_hdiff_configs for configurations given as
    lists of lines: default comment delimiter, no factory *)
Definition hdiff (sy : syntax) (ignore_blank : bool) (before after : list str) : result (list ddict) :=
  let o := mkOpts (lit "!") ignore_blank sy in
  let load := match sy with Junos => parse_junos o | _ => parse o end in
  do wb <- load before;
  do wa <- load after;
  match sy with
  | Ios | Nxos => diff_dicts (normal_texts wb) (normal_texts wa)
  | _ => Ok []
  end.
End Hash.

(** ciscoconfparse.py:4467-4484 unified_diffs_contents *)
Definition unified (l : list ddict) : list str :=
  map (fun d => match d_word d with Add => "+" | Remove => "-" | _ => " " end%char :: d_text d) l.
