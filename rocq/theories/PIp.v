(** Properties of IP address objects. *)
From Coq Require Import Ascii String Arith NArith ZArith Bool List Lia.
From Verif Require Import PyStr PyStrFacts PyBase PwModel IpModel IpSpec IpFacts.
Import ListNotations.
Local Open Scope char_scope.
Local Open Scope Z_scope.

(** ** Order *)

Definition order_bool W a p b q : bool :=
  if (first W a p =? first W b q) && (p =? q) then a <? b
  else if first W a p =? first W b q then p <? q
  else first W a p <? first W b q.

Lemma order_bool_spec W a p b q : order_bool W a p b q = true <-> before W a p b q.
Proof.
  unfold order_bool, before.
  destruct (Z.eqb_spec (first W a p) (first W b q)) as [E|E]; cbn [andb].
  - destruct (Z.eqb_spec p q) as [F|F]; [rewrite Z.ltb_lt|rewrite Z.ltb_lt]; lia.
  - rewrite Z.ltb_lt; lia.
Qed.

Lemma lt4_obj a p b q : valid 32 a p -> valid 32 b q ->
  lt4 (Some (obj 32 a p)) (Some (obj 32 b q)) = Ok (order_bool 32 a p b q).
Proof. intros H K. unfold lt4. rewrite !net4, !dec4 by assumption. reflexivity. Qed.
Lemma lt6_obj a p b q : valid 128 a p -> valid 128 b q ->
  lt6 (Some (obj 128 a p)) (Some (obj 128 b q)) = Ok (order_bool 128 a p b q).
Proof. intros H K. unfold lt6. rewrite !net6, !dec6 by assumption. reflexivity. Qed.

Lemma gt_flip W a p b q :
  (if (first W a p =? first W b q) && (p =? q) then b <? a
   else if first W a p =? first W b q then q <? p else first W b q <? first W a p) = order_bool W b q a p.
Proof. unfold order_bool. now rewrite (Z.eqb_sym (first W b q)), (Z.eqb_sym q). Qed.

Lemma gt4_obj a p b q : valid 32 a p -> valid 32 b q ->
  gt4 (Some (obj 32 a p)) (Some (obj 32 b q)) = Ok (order_bool 32 b q a p).
Proof. intros H K. unfold gt4. rewrite !net4, !dec4 by assumption. cbn [bind as_value_error ip_plen obj]. f_equal. apply gt_flip. Qed.
Lemma gt6_obj a p b q : valid 128 a p -> valid 128 b q ->
  gt6 (Some (obj 128 a p)) (Some (obj 128 b q)) = Ok (order_bool 128 b q a p).
Proof. intros H K. unfold gt6. rewrite !net6, !dec6 by assumption. cbn [bind as_value_error ip_plen obj]. f_equal. apply gt_flip. Qed.

Lemma eq4_obj a p b q : valid 32 a p -> valid 32 b q ->
  eq4 (Some (obj 32 a p)) (Some (obj 32 b q)) = Ok ((a =? b) && (p =? q)).
Proof. intros H K. unfold eq4. now rewrite !dec4. Qed.
Lemma eq6_obj a p b q : valid 128 a p -> valid 128 b q ->
  eq6 (Some (obj 128 a p)) (Some (obj 128 b q)) = Ok ((a =? b) && (p =? q)).
Proof. intros H K. unfold eq6. now rewrite !dec6. Qed.

(** [<] and [>] answer, by network, then prefix length, then address. *)
Theorem C29_order : forall a p b q, valid 32 a p -> valid 32 b q ->
  exists l g,
    lt4 (Some (obj 32 a p)) (Some (obj 32 b q)) = Ok l /\
    gt4 (Some (obj 32 a p)) (Some (obj 32 b q)) = Ok g /\
    (l = true <-> before 32 a p b q) /\ (g = true <-> before 32 b q a p).
Proof.
  intros a p b q H K. exists (order_bool 32 a p b q), (order_bool 32 b q a p).
  rewrite lt4_obj, gt4_obj by assumption. repeat split; try reflexivity; apply order_bool_spec.
Qed.
Print Assumptions C29_order.

Lemma trichotomy W a p b q :
  (before W a p b q /\ ~ (a = b /\ p = q) /\ ~ before W b q a p) \/
  (~ before W a p b q /\ (a = b /\ p = q) /\ ~ before W b q a p) \/
  (~ before W a p b q /\ ~ (a = b /\ p = q) /\ before W b q a p).
Proof.
  unfold before.
  destruct (Z.lt_trichotomy (first W a p) (first W b q)) as [H|[H|H]].
  - left. repeat split; [lia| |lia]. intros [-> ->]. lia.
  - destruct (Z.lt_trichotomy p q) as [G|[G|G]]; [left; lia| |right; right; lia].
    destruct (Z.lt_trichotomy a b) as [F|[F|F]]; [left; lia|right; left; lia|right; right; lia].
  - right; right. repeat split; [lia| |lia]. intros [-> ->]. lia.
Qed.

(** Exactly one of a<b, a==b, b<a. *)
Theorem C29_trichotomy : forall a p b q, valid 32 a p -> valid 32 b q ->
  exists l e g,
    lt4 (Some (obj 32 a p)) (Some (obj 32 b q)) = Ok l /\
    eq4 (Some (obj 32 a p)) (Some (obj 32 b q)) = Ok e /\
    lt4 (Some (obj 32 b q)) (Some (obj 32 a p)) = Ok g /\
    (e = true <-> obj 32 a p = obj 32 b q) /\
    ((l = true /\ e = false /\ g = false) \/ (l = false /\ e = true /\ g = false) \/
     (l = false /\ e = false /\ g = true)).
Proof.
  intros a p b q H K. do 3 eexists. rewrite !lt4_obj, eq4_obj by assumption. split; [reflexivity|]. split; [reflexivity|].
  split; [reflexivity|].
  assert (E : (a =? b) && (p =? q) = true <-> a = b /\ p = q) by (rewrite andb_true_iff, !Z.eqb_eq; tauto).
  split.
  { rewrite E. split; [now intros [-> ->]|]. unfold obj. intros X. injection X. auto. }
  pose proof (trichotomy 32 a p b q) as T. rewrite <- E, <- !order_bool_spec in T.
  destruct (order_bool 32 a p b q), ((a =? b) && (p =? q)), (order_bool 32 b q a p); intuition congruence.
Qed.
Print Assumptions C29_trichotomy.

Lemma before_trans W a p b q c r : before W a p b q -> before W b q c r -> before W a p c r.
Proof. unfold before. lia. Qed.

Theorem C29_transitive : forall a p b q c r, valid 32 a p -> valid 32 b q -> valid 32 c r ->
  lt4 (Some (obj 32 a p)) (Some (obj 32 b q)) = Ok true ->
  lt4 (Some (obj 32 b q)) (Some (obj 32 c r)) = Ok true ->
  lt4 (Some (obj 32 a p)) (Some (obj 32 c r)) = Ok true.
Proof.
  intros a p b q c r H K L. rewrite !lt4_obj by assumption. intros E F.
  injection E as E. injection F as F. f_equal. apply order_bool_spec in E, F. apply order_bool_spec. eapply before_trans; eassumption.
Qed.
Print Assumptions C29_transitive.

(** Equal objects hash equal, whatever the text hash; an empty object equals only
    another empty one, and cannot be ordered. *)
Theorem C29_eq_hash : forall h h0 a b,
  (forall o, a = Some o \/ b = Some o -> exists i p, o = obj 32 i p /\ valid 32 i p) ->
  eq4 a b = Ok true -> hash4 h h0 a = hash4 h h0 b.
Proof.
  intros h h0 [x|] [y|] V; cbn [eq4]; try discriminate; [|reflexivity].
  destruct (V x ltac:(auto)) as (a & p & -> & Ha), (V y ltac:(auto)) as (b & q & -> & Hb).
  rewrite !dec4 by assumption. cbn [bind ip_plen obj]. intros E. injection E as E. apply andb_true_iff in E as [E F].
  apply Z.eqb_eq in E, F. now subst.
Qed.
Print Assumptions C29_eq_hash.

Theorem C29_empty : forall o, eq4 None None = Ok true /\ eq4 None (Some o) = Ok false /\ eq4 (Some o) None = Ok false /\
  lt4 None (Some o) = Err ValueError /\ lt4 (Some o) None = Err ValueError /\ lt4 None None = Err ValueError.
Proof. intros o. repeat split; reflexivity. Qed.
Print Assumptions C29_empty.

Example C29_ex :
  lt4 (Some (obj 32 167772161 8)) (Some (obj 32 167772160 24)) = Ok true /\
  lt4 (Some (obj 32 167772165 24)) (Some (obj 32 167772161 24)) = Ok false /\
  eq4 (Some (obj 32 167772165 24)) (Some (obj 32 167772165 25)) = Ok false.
Proof. vm_compute. repeat split; reflexivity. Qed.

(** ** Containment *)

Lemma in_net_interval W ip p a : valid W ip p ->
  (in_net W ip p a <-> first W ip p <= a <= first W ip p + (2 ^ (W - p) - 1)).
Proof.
  intros [H1 H2]. unfold in_net. pose proof (first_range W ip p H2 H1) as R. pose proof (pow_pos W p H2) as K. split.
  - intros [_ E]. pose proof (first_bounds W a p H2) as B. unfold first in *. rewrite E in B. lia.
  - intros B. split; [lia|]. apply (block_unique W p); [assumption|]. unfold first in B. lia.
Qed.

(** If the prefix is longer, the network is strictly smaller. *)
Lemma longer_not_included W ip p jp q : valid W ip p -> valid W jp q -> q < p -> ~ included W jp q ip p.
Proof.
  intros H K L I. unfold included in I.
  assert (S : 2 ^ (W - q) = 2 ^ (W - p) * 2 ^ (p - q)) by (rewrite <- Z.pow_add_r by (destruct H, K; lia); f_equal; lia).
  assert (T : 2 <= 2 ^ (p - q)) by (replace (p - q) with (Z.succ (p - q - 1)) by lia; rewrite Z.pow_succ_r by lia;
    assert (0 < 2 ^ (p - q - 1)) by (apply Z.pow_pos_nonneg; lia); lia).
  pose proof (pow_pos W p (proj2 H)) as Kp.
  pose proof (I (first W jp q)) as I1. pose proof (I (first W jp q + (2 ^ (W - q) - 1))) as I2.
  rewrite !in_net_interval in I1, I2 by assumption. nia.
Qed.

Lemma included_iff W ip p jp q : valid W ip p -> valid W jp q -> p <= q ->
  (included W jp q ip p <-> first W ip p <= first W jp q /\ first W jp q + (2 ^ (W - q) - 1) <= first W ip p + (2 ^ (W - p) - 1)).
Proof.
  intros H K L. pose proof (pow_pos W q (proj2 K)). split.
  - intros I. pose proof (I (first W jp q)) as I1. pose proof (I (first W jp q + (2 ^ (W - q) - 1))) as I2.
    rewrite !in_net_interval in I1, I2 by assumption. lia.
  - intros B a. rewrite !in_net_interval by assumption. lia.
Qed.

Lemma included_all W ip jp q : 0 <= W -> valid W ip 0 -> included W jp q ip 0.
Proof.
  intros HW [H1 _] a [Ha _]. split; [assumption|]. rewrite Z.sub_0_r, !Z.div_small by lia. reflexivity.
Qed.

(** [v in s] answers whether every address of v's network is one of s's. *)
Theorem C30_containment : forall ip p jp q, valid 32 ip p -> valid 32 jp q ->
  exists r, contains4 (Some (obj 32 ip p)) (Some (obj 32 jp q)) = Ok r /\
    (r = true <-> included 32 jp q ip p).
Proof.
  intros ip p jp q H K. unfold contains4. cbn [ip_plen obj].
  destruct (Z.eqb_spec p 0) as [->|Hp].
  { exists true. split; [reflexivity|]. split; [|reflexivity]. intros _. apply included_all; [lia|assumption]. }
  destruct (Z.ltb_spec q p) as [L|L].
  { exists false. split; [reflexivity|]. split; [discriminate|]. intros I. exfalso. revert I. now apply longer_not_included. }
  rewrite !net4, !bcast4 by assumption. cbn [bind as_value_error]. eexists. split; [reflexivity|].
  rewrite included_iff by (assumption || lia). rewrite !andb_true_iff, !Z.leb_le. lia.
Qed.
Print Assumptions C30_containment.

Theorem C30_partial_order : forall ip p jp q kp r, valid 32 ip p -> valid 32 jp q -> valid 32 kp r ->
  contains4 (Some (obj 32 ip p)) (Some (obj 32 ip p)) = Ok true /\
  (contains4 (Some (obj 32 ip p)) (Some (obj 32 jp q)) = Ok true ->
   contains4 (Some (obj 32 jp q)) (Some (obj 32 kp r)) = Ok true ->
   contains4 (Some (obj 32 ip p)) (Some (obj 32 kp r)) = Ok true) /\
  (contains4 (Some (obj 32 ip p)) (Some (obj 32 jp q)) = Ok true ->
   contains4 (Some (obj 32 jp q)) (Some (obj 32 ip p)) = Ok true ->
   p = q /\ first 32 ip p = first 32 jp q).
Proof.
  intros ip p jp q kp r H K L.
  assert (G : forall ip p jp q, valid 32 ip p -> valid 32 jp q ->
    (contains4 (Some (obj 32 ip p)) (Some (obj 32 jp q)) = Ok true <-> included 32 jp q ip p)).
  { intros a b c d X Y. destruct (C30_containment a b c d X Y) as (z & -> & <-). split; [now intros [= ->]|now intros ->]. }
  rewrite !G by assumption. split; [|split].
  - intros a Ha. exact Ha.
  - intros A B a Ha. apply A, B, Ha.
  - intros A B.
    destruct (Z.lt_trichotomy p q) as [Q|[Q|Q]].
    + exfalso. revert B. now apply longer_not_included.
    + subst q. split; [reflexivity|]. apply included_iff in A; [|assumption|assumption|lia].
      apply included_iff in B; [|assumption|assumption|lia]. lia.
    + exfalso. revert A. now apply longer_not_included.
Qed.
Print Assumptions C30_partial_order.

Example C30_ex : valid 32 167772165 24 /\ valid 32 167772160 25 /\
  contains4 (Some (obj 32 167772165 24)) (Some (obj 32 167772160 25)) = Ok true /\
  contains4 (Some (obj 32 167772165 25)) (Some (obj 32 167772160 24)) = Ok false /\
  contains4 (Some (obj 32 167772165 25)) (Some (obj 32 167772415 32)) = Ok false.
Proof. unfold valid. repeat split; try lia; vm_compute; reflexivity. Qed.

(** ** Arithmetic *)

Lemma of_int4 n : 0 <= n < 2 ^ 32 -> ip4_of_int n = Ok (obj 32 n 32).
Proof.
  intros H. unfold ip4_of_int, obj, first. replace (0 <=? n) with true by lia. replace (n <=? 4294967295) with true by lia.
  cbn [andb]. change (2 ^ (32 - 32)) with 1. now rewrite Z.div_1_r, Z.mul_1_r.
Qed.

Theorem C31_add : forall ip p n, valid 32 ip p ->
  (0 <= ip + n < 2 ^ 32 -> add4 (obj 32 ip p) n = Ok (obj 32 (ip + n) p)) /\
  (~ 0 <= ip + n < 2 ^ 32 -> add4 (obj 32 ip p) n = Err RequirementFailure).
Proof.
  intros ip p n H. unfold add4. rewrite dec4 by assumption. cbn [bind]. split; intros R.
  - destruct (Z.ltb_spec 4294967295 (ip + n)); [lia|]. destruct (Z.ltb_spec (ip + n) 0); [lia|].
    rewrite of_int4 by lia. apply set_prefix_obj4; split; destruct H; lia.
  - destruct (Z.ltb_spec 4294967295 (ip + n)); [reflexivity|]. destruct (Z.ltb_spec (ip + n) 0); [reflexivity|lia].
Qed.
Print Assumptions C31_add.

(** Subtraction refuses the last address 255.255.255.255 as a result. *)
Theorem C31_sub : forall ip p n, valid 32 ip p ->
  (0 <= ip - n < 2 ^ 32 - 1 -> sub4 (obj 32 ip p) n = Ok (obj 32 (ip - n) p)) /\
  (~ 0 <= ip - n < 2 ^ 32 - 1 -> sub4 (obj 32 ip p) n = Err RequirementFailure).
Proof.
  intros ip p n H. unfold sub4. rewrite dec4 by assumption. cbn [bind]. split; intros R.
  - destruct (Z.leb_spec 4294967295 (ip - n)); [lia|]. destruct (Z.ltb_spec (ip - n) 0); [lia|].
    rewrite of_int4 by lia. apply set_prefix_obj4; split; destruct H; lia.
  - destruct (Z.leb_spec 4294967295 (ip - n)); [reflexivity|]. destruct (Z.ltb_spec (ip - n) 0); [reflexivity|lia].
Qed.
Print Assumptions C31_sub.

Theorem C31_inverse : forall ip p n o, valid 32 ip p -> ip <> 2 ^ 32 - 1 ->
  add4 (obj 32 ip p) n = Ok o -> sub4 o n = Ok (obj 32 ip p).
Proof.
  intros ip p n o H Hm E. destruct (C31_add ip p n H) as [A B].
  destruct (Z_lt_dec (ip + n) 0) as [X|X]; [rewrite B in E by lia; discriminate|].
  destruct (Z_lt_dec (ip + n) (2 ^ 32)) as [Y|Y]; [|rewrite B in E by lia; discriminate].
  rewrite A in E by lia. injection E as <-.
  destruct (C31_sub (ip + n) p n) as [C _]; [split; destruct H; lia|]. rewrite C by (destruct H; lia). do 2 f_equal. lia.
Qed.
Print Assumptions C31_inverse.

Theorem C31_inverse_sub : forall ip p n o, valid 32 ip p ->
  sub4 (obj 32 ip p) n = Ok o -> add4 o n = Ok (obj 32 ip p).
Proof.
  intros ip p n o H E. destruct (C31_sub ip p n H) as [A B].
  destruct (Z_lt_dec (ip - n) 0) as [X|X]; [rewrite B in E by lia; discriminate|].
  destruct (Z_lt_dec (ip - n) (2 ^ 32 - 1)) as [Y|Y]; [|rewrite B in E by lia; discriminate].
  rewrite A in E by lia. injection E as <-.
  destruct (C31_add (ip - n) p n) as [C _]; [split; destruct H; lia|]. rewrite C by (destruct H; lia). do 2 f_equal. lia.
Qed.
Print Assumptions C31_inverse_sub.

(** Subtracting nothing from 255.255.255.255, or a negative number up to it, fails. *)
Theorem C31_sub_max_refuted : exists ip p n, valid 32 ip p /\ 0 <= ip - n < 2 ^ 32 /\
  sub4 (obj 32 ip p) n = Err RequirementFailure.
Proof. exists 4294967295, 24, 0. split; [unfold valid; lia|]. split; [lia|reflexivity]. Qed.
Print Assumptions C31_sub_max_refuted.

Example C31_ex : add4 (obj 32 167772165 24) 1000 = Ok (obj 32 167773165 24) /\
  sub4 (obj 32 167773165 24) 1000 = Ok (obj 32 167772165 24).
Proof. vm_compute. split; reflexivity. Qed.

(** ** Offsets *)

Theorem C32_get : forall ip p, valid 32 ip p ->
  get_offset4 (obj 32 ip p) =
    (if (p <=? 30) && (ip =? first 32 ip p + 2 ^ (32 - p) - 1) then Err RequirementFailure
     else Ok (ip - first 32 ip p)).
Proof.
  intros ip p H. unfold get_offset4, numhosts4. rewrite dec4, net4 by assumption. cbn [bind ip_plen obj].
  destruct H as [H1 H2]. pose proof (first_bounds 32 ip p H2).
  destruct (Z.leb_spec p 30) as [L|L]; cbn [andb bind].
  - destruct (Z.eqb_spec ip (first 32 ip p + 2 ^ (32 - p) - 1)) as [E|E].
    + replace (2 ^ (32 - p) - 2 <? ip - first 32 ip p) with true by lia. reflexivity.
    + replace (2 ^ (32 - p) - 2 <? ip - first 32 ip p) with false by lia. reflexivity.
  - destruct (Z.eqb_spec p 31) as [->|N]; cbn [bind].
    + change (2 ^ (32 - 31)) with 2 in *. replace (2 <? ip - first 32 ip 31) with false by lia. reflexivity.
    + replace p with 32 in * by lia. change (32 =? 32) with true. cbn [bind]. change (2 ^ (32 - 32)) with 1 in *.
      replace (1 <? ip - first 32 ip 32) with false by lia. reflexivity.
Qed.
Print Assumptions C32_get.

Theorem C32_set : forall ip p n, valid 32 ip p ->
  (0 <= n < 2 ^ (32 - p) ->
    set_offset4 (obj 32 ip p) n = Ok (obj 32 (first 32 ip p + n) p) /\
    in_net 32 ip p (first 32 ip p + n)) /\
  (2 ^ (32 - p) <= n -> set_offset4 (obj 32 ip p) n = Err AddressErr).
Proof.
  intros ip p n H. unfold set_offset4. rewrite bcast4, net4 by assumption. cbn [bind].
  pose proof H as [H1 H2]. pose proof (first_range 32 ip p H2 H1). pose proof (pow_pos 32 p H2). split; intros R.
  - assert (I : in_net 32 ip p (first 32 ip p + n)) by (apply in_net_interval; [assumption|lia]).
    split; [|exact I]. replace (n <=? _) with true by lia.
    replace (0 <=? first 32 ip p + n) with true by lia. replace (first 32 ip p + n <=? 4294967295) with true by lia.
    cbn [andb]. f_equal. unfold obj. f_equal. cbn [ip_net]. destruct I as [_ I]. unfold first at 2. rewrite I. reflexivity.
  - replace (n <=? _) with false by lia. reflexivity.
Qed.
Print Assumptions C32_set.

(** Reading back what was written, except the broadcast address. *)
Theorem C32_set_get : forall ip p n o, valid 32 ip p -> 0 <= n -> (30 < p \/ n <> 2 ^ (32 - p) - 1) ->
  set_offset4 (obj 32 ip p) n = Ok o -> get_offset4 o = Ok n.
Proof.
  intros ip p n o H Hn Hb E. destruct (C32_set ip p n H) as [A B].
  destruct (Z_lt_dec n (2 ^ (32 - p))) as [L|L]; [|rewrite B in E by lia; discriminate].
  destruct (A ltac:(lia)) as [A1 [A2 A3]]. rewrite A1 in E. injection E as <-.
  assert (F : first 32 (first 32 ip p + n) p = first 32 ip p) by (unfold first at 1; now rewrite A3).
  rewrite C32_get by (split; [assumption|apply H]). rewrite F.
  destruct (Z.leb_spec p 30); cbn [andb]; [|f_equal; lia].
  destruct (Z.eqb_spec (first 32 ip p + n) (first 32 ip p + 2 ^ (32 - p) - 1)); [lia|f_equal; lia].
Qed.
Print Assumptions C32_set_get.

(** A negative offset leaves the network without an error, and leaves an object
    whose address is not in its own network. *)
Theorem C32_negative_refuted : exists ip p n o, valid 32 ip p /\ set_offset4 (obj 32 ip p) n = Ok o /\
  ~ in_net 32 ip p (ip_int o) /\ ip_net o <> first 32 (ip_int o) (ip_plen o) /\
  (* two such objects that are equal but ordered *)
  exists o', o' = obj 32 (ip_int o) p /\ eq4 (Some o) (Some o') = Ok true /\ lt4 (Some o') (Some o) = Ok true.
Proof.
  exists 167772417, 24, (-1), {| ip_int := 167772415; ip_net := 167772416; ip_plen := 24 |}.
  split; [unfold valid; lia|]. split; [vm_compute; reflexivity|]. split; [intros [_ H]; vm_compute in H; discriminate|].
  split; [vm_compute; discriminate|]. eexists. split; [reflexivity|]. vm_compute. split; reflexivity.
Qed.
Print Assumptions C32_negative_refuted.

Theorem C32_broadcast_refuted : exists ip p, valid 32 ip p /\ get_offset4 (obj 32 ip p) = Err RequirementFailure.
Proof. exists 167772415, 24. split; [unfold valid; lia|vm_compute; reflexivity]. Qed.
Print Assumptions C32_broadcast_refuted.

(** ** IPv6 *)

Theorem C48_order : forall a p b q, valid 128 a p -> valid 128 b q ->
  exists l e g,
    lt6 (Some (obj 128 a p)) (Some (obj 128 b q)) = Ok l /\
    eq6 (Some (obj 128 a p)) (Some (obj 128 b q)) = Ok e /\
    gt6 (Some (obj 128 a p)) (Some (obj 128 b q)) = Ok g /\
    (l = true <-> before 128 a p b q) /\ (g = true <-> before 128 b q a p) /\
    (e = true <-> obj 128 a p = obj 128 b q) /\
    ((l = true /\ e = false /\ g = false) \/ (l = false /\ e = true /\ g = false) \/
     (l = false /\ e = false /\ g = true)).
Proof.
  intros a p b q H K. do 3 eexists. rewrite lt6_obj, gt6_obj, eq6_obj by assumption. split; [reflexivity|]. split; [reflexivity|].
  split; [reflexivity|]. split; [apply order_bool_spec|]. split; [apply order_bool_spec|].
  assert (E : (a =? b) && (p =? q) = true <-> a = b /\ p = q) by (rewrite andb_true_iff, !Z.eqb_eq; tauto).
  split.
  { rewrite E. split; [now intros [-> ->]|]. unfold obj. intros X. injection X. auto. }
  pose proof (trichotomy 128 a p b q) as T. rewrite <- E, <- !order_bool_spec in T.
  destruct (order_bool 128 a p b q), ((a =? b) && (p =? q)), (order_bool 128 b q a p); intuition congruence.
Qed.
Print Assumptions C48_order.

Theorem C48_transitive : forall a p b q c r, valid 128 a p -> valid 128 b q -> valid 128 c r ->
  lt6 (Some (obj 128 a p)) (Some (obj 128 b q)) = Ok true ->
  lt6 (Some (obj 128 b q)) (Some (obj 128 c r)) = Ok true ->
  lt6 (Some (obj 128 a p)) (Some (obj 128 c r)) = Ok true.
Proof.
  intros a p b q c r H K L. rewrite !lt6_obj by assumption. intros E F.
  injection E as E. injection F as F. f_equal. apply order_bool_spec in E, F. apply order_bool_spec. eapply before_trans; eassumption.
Qed.
Print Assumptions C48_transitive.

Theorem C48_eq_hash : forall h text6 a p b q, valid 128 a p -> valid 128 b q ->
  eq6 (Some (obj 128 a p)) (Some (obj 128 b q)) = Ok true ->
  hash6 h text6 (Some (obj 128 a p)) = hash6 h text6 (Some (obj 128 b q)).
Proof.
  intros h t a p b q H K. rewrite eq6_obj by assumption. intros E. injection E as E. apply andb_true_iff in E as [E F].
  apply Z.eqb_eq in E, F. now subst.
Qed.
Print Assumptions C48_eq_hash.

(** Empty objects are equal, but have no hash. *)
Theorem C48_empty_hash_refuted : forall h t, eq6 None None = Ok true /\ hash6 h t None = Err AttributeErr.
Proof. split; reflexivity. Qed.
Print Assumptions C48_empty_hash_refuted.

Example C48_ex : lt6 (Some (obj 128 (2 ^ 127 + 5) 64)) (Some (obj 128 (2 ^ 127 + 7) 64)) = Ok true /\
  gt6 (Some (obj 128 (2 ^ 127 + 5) 64)) (Some (obj 128 (2 ^ 127 + 7) 32)) = Ok true.
Proof. vm_compute. split; reflexivity. Qed.

(** The exact outcome of [v in s]: inclusion, except that a /127 or /128 that
    reaches the last two addresses of a network of length at most 126 is refused. *)
Theorem C33_exact : forall ip p jp q, valid 128 ip p -> valid 128 jp q ->
  exists r, contains6 (Some (obj 128 ip p)) (Some (obj 128 jp q)) = Ok r /\
    (r = true <->
     included 128 jp q ip p /\
     ~ (0 < p <= 126 /\ 127 <= q /\ first 128 ip p + 2 ^ (128 - p) - 2 <= first 128 jp q)).
Proof.
  intros ip p jp q H K. unfold contains6. cbn [ip_plen obj].
  destruct (Z.eqb_spec p 0) as [->|Hp].
  { exists true. split; [reflexivity|]. split; [|reflexivity]. intros _. split; [|lia]. apply included_all; [lia|assumption]. }
  destruct (Z.ltb_spec q p) as [L|L].
  { exists false. split; [reflexivity|]. split; [discriminate|]. intros [I _]. exfalso. revert I. now apply longer_not_included. }
  rewrite !net6 by assumption. unfold numhosts6. cbn [bind ip_plen obj].
  setoid_rewrite (included_iff 128 ip p jp q H K L).
  pose proof H as [H1 H2]. pose proof K as [K1 K2].
  set (A := first 128 ip p). set (B := first 128 jp q).
  assert (Dj : forall r, r <= q -> 0 <= r -> B + 2 ^ (128 - q) <= first 128 jp r + 2 ^ (128 - r) /\ first 128 jp r <= B).
  { intros r Hr Hr0. assert (V : valid 128 jp r) by (split; [assumption|lia]).
    assert (I : included 128 jp q jp r).
    { intros a [Ha Ea]. split; [exact Ha|]. revert Ea. apply block_nested; lia. }
    apply included_iff in I; [|assumption|assumption|lia]. fold B in I. lia. }
  (* blocks of the same length are equal or apart *)
  assert (Ap : A <= B -> B < A + 2 ^ (128 - p) -> first 128 jp p = A).
  { intros X Y. unfold A, first. f_equal. destruct (Dj p L ltac:(lia)) as [D1 D2].
    pose proof (pow_pos 128 p H2). pose proof (pow_pos 128 q K2).
    assert (E : B / 2 ^ (128 - p) = ip / 2 ^ (128 - p)) by (apply block_unique; [lia|unfold A, first in *; lia]).
    assert (E2 : B / 2 ^ (128 - p) = jp / 2 ^ (128 - p)) by (apply block_unique; [lia|unfold first in D1, D2; lia]).
    congruence. }
  destruct (Dj p L ltac:(lia)) as [D1 D2].
  assert (Pq : 127 <= q -> 2 ^ (128 - q) = 129 - q).
  { intros Q. assert (q = 127 \/ q = 128) as [-> | ->] by lia; reflexivity. }
  destruct (Z.leb_spec p 126) as [P|P]; cbn [bind].
  - assert (P4 : 4 <= 2 ^ (128 - p)) by (change 4 with (2 ^ 2); apply Z.pow_le_mono_r; lia).
    destruct (Z.leb_spec q 126) as [Q|Q]; cbn [bind].
    + eexists. split; [reflexivity|]. rewrite andb_true_iff, !Z.leb_le. lia.
    + assert (q = 127 \/ q = 128) as [-> | ->] by lia;
        (change (127 =? 127) with true || (change (128 =? 127) with false; change (128 =? 128) with true)); cbn [bind];
        (eexists; split; [reflexivity|]); rewrite andb_true_iff, !Z.leb_le; specialize (Pq ltac:(lia)).
      * change (2 ^ (128 - 127)) with 2 in *.
        (* a /127 starts at an even address, and so does the network's last pair *)
        assert (M : exists k, B = 2 * k) by (exists (jp / 2); unfold B, first; change (2 ^ (128 - 127)) with 2; lia).
        assert (N : exists k, A = 2 * k /\ exists m, 2 ^ (128 - p) = 2 * m).
        { assert (E2 : 2 ^ (128 - p) = 2 * 2 ^ (127 - p)) by (rewrite <- Z.pow_succ_r by lia; f_equal; lia).
          assert (E3 : A = ip / 2 ^ (128 - p) * 2 ^ (128 - p)) by reflexivity. revert E3.
          generalize (ip / 2 ^ (128 - p)). intros m E3. exists (m * 2 ^ (127 - p)). split; [rewrite E3, E2; ring|].
          exists (2 ^ (127 - p)). exact E2. }
        destruct M as [k Ek], N as (m & Em & n & En). lia.
      * change (2 ^ (128 - 128)) with 1 in *. lia.
  - assert (Pp : 2 ^ (128 - p) = 129 - p).
    { assert (p = 127 \/ p = 128) as [-> | ->] by lia; reflexivity. }
    specialize (Pq ltac:(lia)).
    replace (q <=? 126) with false by lia.
    assert (X : (if p =? 127 then Ok 2 else if p =? 128 then Ok 1 else Err NotImplementedErr) = Ok (129 - p)).
    { assert (p = 127 \/ p = 128) as [-> | ->] by lia; reflexivity. }
    assert (Y : (if q =? 127 then Ok 2 else if q =? 128 then Ok 1 else Err NotImplementedErr) = Ok (129 - q)).
    { assert (q = 127 \/ q = 128) as [-> | ->] by lia; reflexivity. }
    rewrite X, Y. cbn [bind as_value_error]. eexists. split; [reflexivity|].
    rewrite andb_true_iff, !Z.leb_le. lia.
Qed.
Print Assumptions C33_exact.

(** The last address of a /64 is not found in it. *)
Theorem C33_last_refuted : exists ip p jp q, valid 128 ip p /\ valid 128 jp q /\ included 128 jp q ip p /\
  contains6 (Some (obj 128 ip p)) (Some (obj 128 jp q)) = Ok false.
Proof.
  exists 0, 64, (2 ^ 64 - 1), 128.
  assert (V : valid 128 0 64) by (unfold valid; lia). assert (V' : valid 128 (2 ^ 64 - 1) 128) by (unfold valid; lia).
  split; [exact V|]. split; [exact V'|]. split; [|vm_compute; reflexivity].
  apply included_iff; [exact V|exact V'|lia|]. vm_compute. split; discriminate.
Qed.
Print Assumptions C33_last_refuted.

Example C33_ex : contains6 (Some (obj 128 (2 ^ 100) 64)) (Some (obj 128 (2 ^ 100 + 77) 128)) = Ok true /\
  contains6 (Some (obj 128 (2 ^ 100) 64)) (Some (obj 128 (2 ^ 100 + 2 ^ 65) 128)) = Ok false.
Proof. vm_compute. split; reflexivity. Qed.

(** ** IPv6 arithmetic and offsets *)

Lemma of_int6 n : 0 <= n < 2 ^ 128 -> ip6_of_int n = Ok (obj 128 n 128).
Proof.
  intros H. unfold ip6_of_int, obj, first. replace (0 <=? n) with true by lia. replace (n <=? max6) with true by (unfold max6; lia).
  cbn [andb]. change (2 ^ (128 - 128)) with 1. now rewrite Z.div_1_r, Z.mul_1_r.
Qed.

Theorem C51_add : forall ip p n, valid 128 ip p ->
  (0 <= ip + n < 2 ^ 128 -> add6 (obj 128 ip p) n = Ok (obj 128 (ip + n) p)) /\
  (~ 0 <= ip + n < 2 ^ 128 -> add6 (obj 128 ip p) n = Err RequirementFailure).
Proof.
  intros ip p n H. unfold add6. rewrite dec6 by assumption. cbn [bind]. split; intros R.
  - destruct (Z.ltb_spec max6 (ip + n)); [unfold max6 in *; lia|]. destruct (Z.ltb_spec (ip + n) 0); [lia|].
    rewrite of_int6 by lia. apply set_prefix_obj6; split; destruct H; lia.
  - destruct (Z.ltb_spec max6 (ip + n)); [reflexivity|]. destruct (Z.ltb_spec (ip + n) 0); [reflexivity|unfold max6 in *; lia].
Qed.
Print Assumptions C51_add.

Theorem C51_sub : forall ip p n, valid 128 ip p ->
  (0 <= ip - n < 2 ^ 128 - 1 -> sub6 (obj 128 ip p) n = Ok (obj 128 (ip - n) p)) /\
  (~ 0 <= ip - n < 2 ^ 128 - 1 -> sub6 (obj 128 ip p) n = Err RequirementFailure).
Proof.
  intros ip p n H. unfold sub6. rewrite dec6 by assumption. cbn [bind]. split; intros R.
  - destruct (Z.leb_spec max6 (ip - n)); [unfold max6 in *; lia|]. destruct (Z.ltb_spec (ip - n) 0); [lia|].
    rewrite of_int6 by lia. apply set_prefix_obj6; split; destruct H; lia.
  - destruct (Z.leb_spec max6 (ip - n)); [reflexivity|]. destruct (Z.ltb_spec (ip - n) 0); [reflexivity|unfold max6 in *; lia].
Qed.
Print Assumptions C51_sub.

Theorem C51_inverse : forall ip p n o, valid 128 ip p ->
  (add6 (obj 128 ip p) n = Ok o -> ip <> 2 ^ 128 - 1 -> sub6 o n = Ok (obj 128 ip p)) /\
  (sub6 (obj 128 ip p) n = Ok o -> add6 o n = Ok (obj 128 ip p)).
Proof.
  intros ip p n o H. split.
  - intros E Hm. destruct (C51_add ip p n H) as [A B].
    destruct (Z_lt_dec (ip + n) 0) as [X|X]; [rewrite B in E by lia; discriminate|].
    destruct (Z_lt_dec (ip + n) (2 ^ 128)) as [Y|Y]; [|rewrite B in E by lia; discriminate].
    rewrite A in E by lia. injection E as <-.
    destruct (C51_sub (ip + n) p n) as [C _]; [split; destruct H; lia|]. rewrite C by (destruct H; lia). do 2 f_equal. lia.
  - intros E. destruct (C51_sub ip p n H) as [A B].
    destruct (Z_lt_dec (ip - n) 0) as [X|X]; [rewrite B in E by lia; discriminate|].
    destruct (Z_lt_dec (ip - n) (2 ^ 128 - 1)) as [Y|Y]; [|rewrite B in E by lia; discriminate].
    rewrite A in E by lia. injection E as <-.
    destruct (C51_add (ip - n) p n) as [C _]; [split; destruct H; lia|]. rewrite C by (destruct H; lia). do 2 f_equal. lia.
Qed.
Print Assumptions C51_inverse.

Theorem C51_set_offset : forall ip p n, valid 128 ip p ->
  (0 <= n < 2 ^ (128 - p) ->
    set_offset6 (obj 128 ip p) n = Ok (obj 128 (first 128 ip p + n) p) /\
    in_net 128 ip p (first 128 ip p + n)) /\
  (2 ^ (128 - p) <= n -> set_offset6 (obj 128 ip p) n = Err AddressErr).
Proof.
  intros ip p n H. unfold set_offset6. rewrite maxint6, net6 by assumption. cbn [bind].
  pose proof H as [H1 H2]. pose proof (first_range 128 ip p H2 H1). pose proof (pow_pos 128 p H2). split; intros R.
  - assert (I : in_net 128 ip p (first 128 ip p + n)) by (apply in_net_interval; [assumption|lia]).
    split; [|exact I]. replace (n <=? _) with true by lia.
    replace (0 <=? first 128 ip p + n) with true by lia. replace (first 128 ip p + n <=? max6) with true by (unfold max6; lia).
    cbn [andb]. f_equal. unfold obj. f_equal. cbn [ip_net]. destruct I as [_ I]. unfold first at 2. rewrite I. reflexivity.
  - replace (n <=? _) with false by lia. reflexivity.
Qed.
Print Assumptions C51_set_offset.

Theorem C51_get_offset : forall ip p, valid 128 ip p ->
  get_offset6 (obj 128 ip p) =
    (if (p <=? 126) && (ip =? first 128 ip p + 2 ^ (128 - p) - 1) then Err RequirementFailure
     else Ok (ip - first 128 ip p)).
Proof.
  intros ip p H. unfold get_offset6, numhosts6. rewrite dec6, net6 by assumption. cbn [bind ip_plen obj].
  destruct H as [H1 H2]. pose proof (first_bounds 128 ip p H2).
  destruct (Z.leb_spec p 126) as [L|L]; cbn [andb bind].
  - destruct (Z.eqb_spec ip (first 128 ip p + 2 ^ (128 - p) - 1)) as [E|E].
    + replace (2 ^ (128 - p) - 2 <? ip - first 128 ip p) with true by lia. reflexivity.
    + replace (2 ^ (128 - p) - 2 <? ip - first 128 ip p) with false by lia. reflexivity.
  - destruct (Z.eqb_spec p 127) as [->|N]; cbn [bind].
    + change (2 ^ (128 - 127)) with 2 in *. replace (2 <? ip - first 128 ip 127) with false by lia. reflexivity.
    + replace p with 128 in * by lia. change (128 =? 128) with true. cbn [bind]. change (2 ^ (128 - 128)) with 1 in *.
      replace (1 <? ip - first 128 ip 128) with false by lia. reflexivity.
Qed.
Print Assumptions C51_get_offset.

Example C51_ex : add6 (obj 128 (2 ^ 120) 64) (2 ^ 64) = Ok (obj 128 (2 ^ 120 + 2 ^ 64) 64) /\
  set_offset6 (obj 128 (2 ^ 120 + 9) 64) 77 = Ok (obj 128 (2 ^ 120 + 77) 64) /\
  sub6 (obj 128 (2 ^ 128 - 1) 64) 0 = Err RequirementFailure.
Proof. vm_compute. repeat split; reflexivity. Qed.
