(** ccp_util.py:543-692, the object that keeps a regular expression and its last search.  The
    functions of Python's re are parameters here: what [re.compile] makes of a text and flags
    ([None] when it raises re.error), what searching finds (the groups, and the named groups in
    the order of [groupdict]), and what the types in [groups] make of a captured text.  The
    warnings that [captured] writes to the log are left out, and so is the argument debug. *)
From Coq Require Import Ascii String Arith ZArith Bool List.
From Verif Require Import PyStr PyBase.
Import ListNotations.

(** An argument: a text or something else. *)
Inductive text_arg := TText (s : str) | TOther.
(** What a search finds (re.Match). *)
Record found := { f_groups : list (option str); f_named : list (str * option str) }.
(** A captured value: as captured, or as its type made it. *)
Inductive captured_value (V : Type) := Raw (o : option str) | Made (v : V).
Arguments Raw {V} o.
Arguments Made {V} v.

Section ReObj.
Context {P V : Type}.
Variable compile : str -> Z -> option P.
Variable search : P -> str -> option found.

(** A type in groups, called on what was captured. *)
Definition caster := option str -> result V.
(** The argument groups: not a dictionary, or what it holds for numbers and for names. *)
Inductive groups_arg := NoDict | Dict (num : nat -> option caster) (name : str -> option caster).

(** The object.  [o_target] is the argument target_str, which only [__repr__] reads. *)
Record re_obj := { o_regex : str; o_compiled : P; o_attempted : bool; o_target : text_arg; o_groups : groups_arg; o_result : option found }.

(** What a call answers. *)
Inductive reply :=
| RNothing | RRaise (e : pyerr)
| RGroups (l : list (option str)) | RWhole (s : str)
| RCaptured (l : list (captured_value V)) (d : list (str * captured_value V))
| RRegex (s : str).

(** ccp_util.py:575-599 __init__: the search of 593-594 is done (and may not raise, as nothing has
    been attempted), then 599 forgets its result. *)
Definition re_new (regex : text_arg) (target : text_arg) (g : groups_arg) (flags : Z) : result re_obj :=
  match regex with
  | TOther => Err ValueError
  | TText r => match compile r flags with
               | None => Err ReErr
               | Some p => Ok {| o_regex := r; o_compiled := p; o_attempted := match target with TText _ => true | TOther => false end;
                                 o_target := target; o_groups := g; o_result := None |}
               end
  end.

(** 616-622 the regex setter: the text is kept before it is compiled, without flags. *)
Definition re_assign (a : text_arg) (o : re_obj) : re_obj * reply :=
  match a with
  | TOther => (o, RRaise ValueError)
  | TText r => match compile r 0%Z with
               | None => ({| o_regex := r; o_compiled := o_compiled o; o_attempted := o_attempted o; o_target := o_target o; o_groups := o_groups o; o_result := o_result o |}, RRaise ReErr)
               | Some p => ({| o_regex := r; o_compiled := p; o_attempted := false; o_target := o_target o; o_groups := o_groups o; o_result := o_result o |}, RNothing)
               end
  end.

(** 625-641 s *)
Definition re_s (a : text_arg) (o : re_obj) : re_obj * reply :=
  if o_attempted o then (o, RRaise RequirementFailure)
  else match a with
       | TOther => (o, RRaise ValueError)
       | TText t =>
           let m := search (o_compiled o) t in
           ({| o_regex := o_regex o; o_compiled := o_compiled o; o_attempted := true; o_target := o_target o; o_groups := o_groups o; o_result := m |},
            match m with
            | Some f => match f_groups f with [] => RWhole t | l => RGroups l end
            | None => RNothing
            end)
       end.

(** 671-680: the groups by number, from 1 *)
Fixpoint cast_numbers (num : nat -> option caster) (i : nat) (l : list (option str)) : result (list (captured_value V)) :=
  match l with
  | [] => Ok []
  | x :: r => do v <- match num i with None => Ok (Raw x) | Some f => rmap Made (f x) end; do vs <- cast_numbers num (S i) r; Ok (v :: vs)
  end.
(** 682-686: the groups by name *)
Fixpoint cast_names (name : str -> option caster) (l : list (str * option str)) : result (list (str * captured_value V)) :=
  match l with
  | [] => Ok []
  | (k, x) :: r => do v <- match name k with None => Ok (Raw x) | Some f => rmap Made (f x) end; do vs <- cast_names name r; Ok ((k, v) :: vs)
  end.
Definition raw_numbers (l : list (option str)) : list (captured_value V) := map Raw l.
Definition raw_names (l : list (str * option str)) : list (str * captured_value V) := map (fun kx => (fst kx, Raw (snd kx))) l.

(** 650-692 captured *)
Definition re_captured (o : re_obj) : reply :=
  match o_attempted o, o_result o with
  | true, Some f =>
      match o_groups o with
      | NoDict => RCaptured (raw_numbers (f_groups f)) (raw_names (f_named f))
      | Dict num name =>
          match (do l <- cast_numbers num 1 (f_groups f); do d <- cast_names name (f_named f); Ok (l, d)) with
          | Ok (l, d) => RCaptured l d
          | Err e => RRaise e
          end
      end
  | _, _ => RCaptured [] []
  end.

(** The calls; 610-612 reads regex, 644-646 result. *)
Inductive call := Assign (a : text_arg) | Search (a : text_arg) | Captured | Regex | Result.
Definition re_call (c : call) (o : re_obj) : re_obj * reply :=
  match c with
  | Assign a => re_assign a o
  | Search a => re_s a o
  | Captured => (o, re_captured o)
  | Regex => (o, RRegex (o_regex o))
  | Result => (o, RRaise NotImplementedErr)
  end.
Definition re_calls (h : list call) (o : re_obj) : re_obj := fold_left (fun o c => fst (re_call c o)) h o.
End ReObj.
