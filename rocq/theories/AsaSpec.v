(** Specification side of ASA names, object groups and access lists: what the lines say, and the
    addresses a group stands for. *)
From Coq Require Import Ascii String ZArith Bool List.
From Verif Require Import PyStr PyBase CfgModel IntfSpec IosSpec.
Import ListNotations.
Local Open Scope char_scope.

(** The first words of the line. *)
Definition leads (ws : list str) : str -> Prop := line_of white word_ends ws.
(** "name ADDRESS NAME" *)
Definition name_line (t n a : str) : Prop := quad a /\ word n /\ leads [lit "name"; a; n] t.
(** "object-group network NAME" *)
Definition group_line (t g : str) : Prop := word g /\ leads [lit "object-group"; lit "network"; g] t.
(** "access-list NAME ..." *)
Definition acl_line (t g : str) : Prop := word g /\ leads [lit "access-list"; g] t.

(** The last element with the property. *)
Definition latest {T} (P : T -> Prop) (l : list T) (x : T) : Prop :=
  exists pre post, l = pre ++ x :: post /\ P x /\ forall y, In y post -> ~ P y.

(** Those elements with the property, in order. *)
Inductive picked {T} (P : T -> Prop) : list T -> list T -> Prop :=
| pk_nil : picked P [] []
| pk_take x l k : P x -> picked P l k -> picked P (x :: l) (x :: k)
| pk_skip x l k : ~ P x -> picked P l k -> picked P (x :: l) k.

Section Config.
  Variable w : world.
  (** The address the name [n] stands for: the last definition counts. *)
  Definition means (n a : str) : Prop := exists x, latest (fun x => exists a', name_line (text_of w x) n a') (w_conf w) x /\ name_line (text_of w x) n a.
  Definition resolved (n a : str) : Prop := means n a \/ (forall a', ~ means n a') /\ a = n.
  (** The group with the name [g]: the last one counts. *)
  Definition group_at (g : str) (x : nat) : Prop := latest (fun x => group_line (text_of w x) g) (w_conf w) x.

  (** A line of a group *)
  Inductive member :=
  | Host (h : str)
  | Net (n m : str)
  | Group (g : str)
  | Remark.
  Definition host_says (t h : str) : Prop := word h /\ leads [lit "network-object"; lit "host"; h] t.
  Definition net_says (t n m : str) : Prop :=
    word n /\ quad m /\ line_of white (no_more is_digit) [lit "network-object"; n; m] t.
  Definition group_says (t g : str) : Prop := word g /\ leads [lit "group-object"; g] t.
  Inductive member_line : str -> member -> Prop :=
  | ml_host t h : host_says t h -> member_line t (Host h)
  | ml_net t n m : net_says t n m -> n <> lit "host" -> member_line t (Net n m)
  | ml_group t g : group_says t g -> member_line t (Group g)
  | ml_remark t : (forall h, ~ host_says t h) -> (forall n m, ~ net_says t n m) -> (forall g, ~ group_says t g) ->
      (exists a b, t = a ++ lit "description " ++ b) -> member_line t Remark.

  (** The line of the group itself begins with "object-group network ", in any case. *)
  Definition group_head (t : str) : Prop := exists u r, t = u ++ r /\ lower u = lit "object-group network ".
  (** The name the group knows itself by: written in lower case and not indented, otherwise none. *)
  Definition own_line (t me : str) : Prop := word me /\ line_of (eq []) word_ends [lit "object-group"; lit "network"; me] t.
  Definition own_name (t me : str) : Prop := own_line t me \/ (forall n, ~ own_line t n) /\ me = [].

  (** The addresses a group stands for, in order, with those of the groups in it. *)
  Inductive expands : nat -> list str -> Prop :=
  | ex_group x me l : group_head (text_of w x) -> own_name (text_of w x) me ->
      lists me (map (text_of w) (children_of w x)) l -> expands x l
  with lists : str -> list str -> list str -> Prop :=
  | li_nil me : lists me [] []
  | li_host me t r h a l : member_line t (Host h) -> resolved h a -> lists me r l -> lists me (t :: r) (a :: l)
  | li_single me t r n a l : member_line t (Net n (lit "255.255.255.255")) -> resolved n a -> lists me r l -> lists me (t :: r) (a :: l)
  | li_net me t r n m a l : member_line t (Net n m) -> m <> lit "255.255.255.255" -> resolved n a -> lists me r l ->
      lists me (t :: r) ((a ++ "/" :: m) :: l)
  | li_group me t r g y l1 l : member_line t (Group g) -> g <> me -> group_at g y -> expands y l1 -> lists me r l ->
      lists me (t :: r) (l1 ++ l)
  | li_remark me t r l : member_line t Remark -> lists me r l -> lists me (t :: r) l.

  (** Why a group stands for nothing: the first line at fault. *)
  Inductive fails : nat -> pyerr -> Prop :=
  | fa_class x : ~ group_head (text_of w x) -> fails x AttributeErr
  | fa_line x me pre t post l e : group_head (text_of w x) -> own_name (text_of w x) me ->
      map (text_of w) (children_of w x) = pre ++ t :: post -> lists me pre l -> fault me t e -> fails x e
  with fault : str -> str -> pyerr -> Prop :=
  | fu_self me t : member_line t (Group me) -> fault me t ValueError
  | fu_unknown me t g : member_line t (Group g) -> (forall y, ~ group_at g y) -> fault me t ValueError
  | fu_inside me t g y e : member_line t (Group g) -> g <> me -> group_at g y -> fails y e -> fault me t e
  | fu_unreadable me t : (forall m, ~ member_line t m) -> fault me t NotImplementedErr.
End Config.
