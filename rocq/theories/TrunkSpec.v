(** Vocabulary of the trunk VLAN properties. *)
From Coq Require Import Ascii String ZArith Bool List.
From Verif Require Import PyStr RangeSpec.
Import ListNotations.
Local Open Scope Z_scope.

(** Statements of a switchport. *)
Inductive stmt :=
| SAllow (es : list entry)    (* switchport trunk allowed vlan <list> *)
| SAll                        (* ... vlan all *)
| SNone                       (* ... vlan none *)
| SAdd (es : list entry)      (* ... vlan add <list> *)
| SExcept (es : list entry)   (* ... vlan except <list> *)
| SRemove (es : list entry)   (* ... vlan remove <list> *)
| SOther.                     (* anything else *)

(** Words and a value, with whitespace before each of them. *)
Definition gap (g : str) : Prop := g <> [] /\ forallb is_space g = true.
Fixpoint phrase (kws gs : list str) (v : str) : str :=
  match kws, gs with
  | k :: kr, g :: gr => g ++ k ++ phrase kr gr v
  | [], g :: _ => g ++ v
  | _, [] => v
  end.
(** A VLAN list: numbers and intervals separated by commas, spaces allowed except at
    the very beginning. *)
Definition vlan_list (v : str) (es : list entry) : Prop :=
  exists ts, v = join (lit ",") ts /\ es <> [] /\ Forall2 denotes ts es /\
    exists c r, v = c :: r /\ is_digit c = true.

Definition trunk_words : list str := [lit "switchport"; lit "trunk"; lit "allowed"; lit "vlan"].
Inductive writes : str -> stmt -> Prop :=
| w_allow gs v es : Forall gap gs -> length gs = 5%nat -> vlan_list v es -> v <> lit "1-4094" ->
    writes (phrase trunk_words gs v) (SAllow es)
| w_all gs : Forall gap gs -> length gs = 5%nat -> writes (phrase trunk_words gs (lit "all")) SAll
| w_none gs : Forall gap gs -> length gs = 5%nat -> writes (phrase trunk_words gs (lit "none")) SNone
| w_add gs v es : Forall gap gs -> length gs = 6%nat -> vlan_list v es ->
    writes (phrase (trunk_words ++ [lit "add"]) gs v) (SAdd es)
| w_except gs v es : Forall gap gs -> length gs = 6%nat -> vlan_list v es ->
    writes (phrase (trunk_words ++ [lit "except"]) gs v) (SExcept es)
| w_remove gs v es : Forall gap gs -> length gs = 6%nat -> vlan_list v es ->
    writes (phrase (trunk_words ++ [lit "remove"]) gs v) (SRemove es)
| w_other t : words t <> [] -> firstn 4 (words t) <> trunk_words -> writes t SOther.

(** The children make the interface a switchport that is not in access mode. *)
Definition switchport (ts : list str) : Prop := exists t r, In t ts /\ words t = lit "switchport" :: r.
Definition access_mode (ts : list str) : Prop :=
  exists t, In t ts /\ firstn 3 (words t) = [lit "switchport"; lit "mode"; lit "access"].

Definition listed (es : list entry) (x : Z) : Prop := exists e, In e es /\ covers e x.

(** What the statements without add, except and remove come to: None is every VLAN. *)
Definition base_step (b : option (list entry)) (s : stmt) : option (list entry) :=
  match s with
  | SAllow es => Some (match b with None => es | Some old => old ++ es end)
  | SAll => None
  | SNone => Some []
  | _ => b
  end.
Definition base (ss : list stmt) : option (list entry) := fold_left base_step ss None.
Definition in_base (b : option (list entry)) (x : Z) : Prop :=
  match b with None => 1 <= x <= 4094 | Some es => listed es x end.

Definition added (ss : list stmt) (x : Z) : Prop := exists es, In (SAdd es) ss /\ listed es x.
Definition removed (ss : list stmt) (x : Z) : Prop :=
  exists es, (In (SExcept es) ss \/ In (SRemove es) ss) /\ listed es x.

(** What a switch makes of the statements, one after the other. *)
Definition device_step (cur : Z -> Prop) (s : stmt) : Z -> Prop :=
  match s with
  | SAllow es => listed es
  | SAll => fun x => 1 <= x <= 4094
  | SNone => fun _ => False
  | SAdd es => fun x => cur x \/ listed es x
  | SExcept es => fun x => 1 <= x <= 4094 /\ ~ listed es x
  | SRemove es => fun x => cur x /\ ~ listed es x
  | SOther => cur
  end.
Definition device (ss : list stmt) : Z -> Prop := fold_left device_step ss (fun x => 1 <= x <= 4094).
