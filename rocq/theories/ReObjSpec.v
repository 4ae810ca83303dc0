(** Specification side of the object that keeps a regular expression: what a history of calls
    has done, read off the history alone. *)
From Coq Require Import Ascii String Arith ZArith Bool List.
From Verif Require Import PyStr PyBase ReObjModel.
Import ListNotations.

Section Spec.
Context {P V : Type}.
Variable compile : str -> Z -> option P.
Variable search : P -> str -> option found.

(** This call assigns a regular expression that compiles. *)
Definition assigns (c : call) : Prop := exists r p, c = Assign (TText r) /\ compile r 0%Z = Some p.
(** This call searches a text. *)
Definition searches (c : call) : Prop := exists t, c = Search (TText t).
Definition none_of (Q : call -> Prop) (h : list call) : Prop := forall c, In c h -> ~ Q c.

(** [since r flags target h p fresh b]: after the history h of an object made from these, the
    compiled pattern is p and b are the calls since it was compiled; [fresh] says that no search
    had been tried when b began. *)
Inductive since (r : str) (flags : Z) (target : text_arg) (h : list call) : P -> bool -> list call -> Prop :=
| since_new p : compile r flags = Some p -> none_of assigns h -> since r flags target h p (match target with TText _ => false | TOther => true end) h
| since_assigned a r' p b : h = a ++ Assign (TText r') :: b -> compile r' 0%Z = Some p -> none_of assigns b -> since r flags target h p true b.

(** The first text searched in these calls. *)
Definition first_search (t : str) (b : list call) : Prop := exists b1 b2, b = b1 ++ Search (TText t) :: b2 /\ none_of searches b1.

(** [made num x v]: the value of the group x, given the type listed for it, if any. *)
Definition made (ty : option (@caster V)) (x : option str) (v : captured_value V) : Prop :=
  match ty with None => v = Raw x | Some f => exists y, f x = Ok y /\ v = Made y end.
(** The values of the numbered groups (counted from 1) and of the named ones. *)
Definition types_of (g : @groups_arg V) : (nat -> option caster) * (str -> option caster) :=
  match g with NoDict => (fun _ => None, fun _ => None) | Dict num name => (num, name) end.
Definition values (g : groups_arg) (f : found) (l : list (captured_value V)) (d : list (str * captured_value V)) : Prop :=
  length l = length (f_groups f) /\ map fst d = map fst (f_named f) /\
  (forall i x v, nth_error (f_groups f) i = Some x -> nth_error l i = Some v -> made (fst (types_of g) (S i)) x v) /\
  (forall i k x k' v, nth_error (f_named f) i = Some (k, x) -> nth_error d i = Some (k', v) -> made (snd (types_of g) k) x v).
(** Some type refuses what its group captured. *)
Definition refuses (g : groups_arg) (f : found) (e : pyerr) : Prop :=
  (exists i x c, nth_error (f_groups f) i = Some x /\ fst (types_of g) (S i) = Some c /\ c x = Err e) \/
  (exists k x c, In (k, x) (f_named f) /\ snd (types_of g) k = Some c /\ c x = Err e).
End Spec.
