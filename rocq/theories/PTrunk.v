(** Properties of switchport attributes. *)
From Coq Require Import Ascii String Arith NArith ZArith Bool List Lia.
From Verif Require Import PyStr PyStrFacts PyBase PyBaseFacts RangeModel RangeSpec RangeFacts TrunkModel TrunkSpec TrunkFacts.
Import ListNotations.
Local Open Scope char_scope.
Local Open Scope Z_scope.

Lemma set_order_parse f v es : set_order f -> vlan_list v es ->
  exists m, range_of_text f v = Ok m /\ NoDup m /\ forall x, In x m <-> listed es x.
Proof.
  intros S V. rewrite (vlan_list_parse f v es V). destruct (S (flat_map expand es)) as [S1 S2].
  eexists. split; [reflexivity|]. split; [exact S1|]. intros x. now rewrite S2, listed_expand.
Qed.

Lemma op_add f rv o es : set_order f -> NoDup rv -> rel_opt es o ->
  exists m, vlans_op f range_add rv o = Ok m /\ NoDup m /\ forall x, In x m <-> In x rv \/ listed es x.
Proof.
  intros S N R. destruct o as [v|]; cbn [rel_opt vlans_op] in *.
  - apply vlan_list_strip in R. destruct (strip v) as [|c r]; [now apply vlan_list_nonempty in R|].
    destruct (set_order_parse f (c :: r) es S R) as (m & -> & Nm & M). cbn [bind]. eexists. split; [reflexivity|].
    split; [apply ascending_nodup, sorted_set_ascending|]. intros x. unfold range_add. rewrite sorted_set_in, in_app_iff, M. reflexivity.
  - subst es. exists rv. split; [reflexivity|]. split; [exact N|]. intros x. split; [auto|]. intros [H|(e & [] & _)]. exact H.
Qed.
Lemma op_sub f rv o es : set_order f -> NoDup rv -> rel_opt es o ->
  exists m, vlans_op f range_sub rv o = Ok m /\ NoDup m /\ forall x, In x m <-> In x rv /\ ~ listed es x.
Proof.
  intros S N R. destruct o as [v|]; cbn [rel_opt vlans_op] in *.
  - apply vlan_list_strip in R. destruct (strip v) as [|c r]; [now apply vlan_list_nonempty in R|].
    destruct (set_order_parse f (c :: r) es S R) as (m & -> & Nm & M). cbn [bind]. eexists. split; [reflexivity|].
    destruct (range_sub_in m rv N) as [N2 I2]. split; [exact N2|]. intros x. now rewrite I2, M.
  - subst es. exists rv. split; [reflexivity|]. split; [exact N|]. intros x. split; [|tauto]. intros H. split; [exact H|]. intros (e & [] & _).
Qed.

Lemma all_vlans_list : vlan_list all_vlans [Run 1 4094].
Proof.
  exists [all_vlans]. split; [reflexivity|]. split; [discriminate|]. split.
  - constructor; [|constructor]. apply (d_run 0 0 0 0 1 4094); lia.
  - exists "1", (lit "-4094"). split; reflexivity.
Qed.
Lemma listed_all x : listed [Run 1 4094] x <-> 1 <= x <= 4094.
Proof. split; [intros (e & [<-|[]] & H); exact H|intros H; exists (Run 1 4094); split; [now left|exact H]]. Qed.

Lemma base_value f b v : set_order f -> rel_allowed b v ->
  exists m, (do retval <- (if str_eqb v all_vlans then range_of_text f all_vlans else range_of_text f v);
             match strip v with
             | [] => Ok retval
             | s => do o <- range_of_text f s; Ok (range_add [] o)
             end) = Ok m /\ NoDup m /\ forall x, In x m <-> in_base b x.
Proof.
  intros S R.
  assert (G : forall es, vlan_list v es ->
     exists m, (do retval <- range_of_text f v;
             match strip v with
             | [] => Ok retval
             | s => do o <- range_of_text f s; Ok (range_add [] o)
             end) = Ok m /\ NoDup m /\ forall x, In x m <-> listed es x).
  { intros es V. rewrite (vlan_list_parse f v es V). cbn [bind]. apply vlan_list_strip in V.
    destruct (strip v) as [|c r]; [now apply vlan_list_nonempty in V|].
    destruct (set_order_parse f (c :: r) es S V) as (m & -> & Nm & M). cbn [bind]. eexists. split; [reflexivity|].
    split; [apply ascending_nodup, sorted_set_ascending|]. intros x. unfold range_add. rewrite sorted_set_in, in_app_iff, M. cbn. tauto. }
  destruct b as [[|e es]|]; cbn [rel_allowed in_base] in *.
  - subst v. exists []. split; [reflexivity|]. split; [constructor|]. intros x. split; [intros []|intros (e & [] & _)].
  - destruct R as [V NV]. rewrite (proj2 (str_eqb_neq _ _) NV). now apply G.
  - subst v. rewrite str_eqb_refl. destruct (G _ all_vlans_list) as (m & E & Nm & M). exists m. split; [exact E|]. split; [exact Nm|].
    intros x. now rewrite M, listed_all.
Qed.

Lemma listed_flat (h : stmt -> list entry) ss x : listed (flat_map h ss) x <-> exists s, In s ss /\ listed (h s) x.
Proof.
  split.
  - intros (e & H & C). apply in_flat_map in H as (s & Hs & He). exists s. split; [exact Hs|]. now exists e.
  - intros (s & Hs & e & He & C). exists e. split; [apply in_flat_map; eauto|exact C].
Qed.
Lemma added_iff ss x : listed (flat_map adds_of ss) x <-> added ss x.
Proof.
  rewrite listed_flat. split.
  - intros ([ | | |es| | | ] & Hs & H); try (destruct H as (e & [] & _)). exists es. auto.
  - intros (es & Hs & H). exists (SAdd es). auto.
Qed.
Lemma removed_iff ss x : removed ss x <-> listed (flat_map excepts_of ss) x \/ listed (flat_map removes_of ss) x.
Proof.
  rewrite !listed_flat. split.
  - intros (es & [Hs|Hs] & H); [left; exists (SExcept es)|right; exists (SRemove es)]; auto.
  - intros [([ | | | |es| | ] & Hs & H)|([ | | | | |es| ] & Hs & H)]; try (destruct H as (e & [] & _)); exists es; auto.
Qed.

(** ** C39: allowed VLANs *)

(** On a trunk the result is the union of the base list and the "add" lists, minus
    the "except" and "remove" lists, however the statements are spelled and spread. *)
Theorem C39_allowed_set : forall set_list ts ss, set_order set_list -> Forall2 writes ts ss ->
  switchport ts -> ~ access_mode ts ->
  exists m, trunk_vlans_allowed set_list ts = Ok (Some m) /\ NoDup m /\
    forall x, In x m <-> (in_base (base ss) x \/ added ss x) /\ ~ removed ss x.
Proof.
  intros f ts ss S W SW A. unfold trunk_vlans_allowed.
  rewrite is_switchport_true; [|clear -W; induction W; constructor; eauto using writes_words|exact SW]. cbn [bind].
  destruct (has_manual_switch_access ts) eqn:EA; [apply manual_access_iff in EA; contradiction|]. cbn [andb negb].
  pose proof (fold_rel ts ss W None [] [] [] vdict0 rel0) as R. cbn [app] in R. fold (base ss) in R.
  set (d := fold_left vdict_step ts vdict0) in *. destruct R as [R1 R2 R3 R4].
  destruct (base_value f (base ss) (v_allowed d) S R1) as (m0 & E0 & N0 & M0).
  destruct (op_add f m0 _ _ S N0 R2) as (m1 & E1 & N1 & M1).
  destruct (op_sub f m1 _ _ S N1 R3) as (m2 & E2 & N2 & M2).
  destruct (op_sub f m2 _ _ S N2 R4) as (m3 & E3 & N3 & M3).
  exists m3. split.
  - destruct (if str_eqb (v_allowed d) all_vlans then range_of_text f all_vlans else range_of_text f (v_allowed d)) as [r0|]; cbn [bind] in *; [|discriminate].
    rewrite E0. cbn [bind]. rewrite E1. cbn [bind]. rewrite E2. cbn [bind]. rewrite E3. reflexivity.
  - split; [exact N3|]. intros x. rewrite M3, M2, M1, M0, removed_iff, added_iff. tauto.
Qed.
Print Assumptions C39_allowed_set.

(** An interface that is no switchport, or one in access mode, has no trunk VLANs. *)
Theorem C39_not_a_trunk : forall set_list ts, Forall (fun t => words t <> []) ts ->
  ~ switchport ts \/ access_mode ts -> trunk_vlans_allowed set_list ts = Ok None.
Proof.
  intros f ts F H. unfold trunk_vlans_allowed.
  destruct (is_switchport ts) as [[]|e] eqn:E; cbn [bind andb].
  - destruct H as [H|H]; [rewrite is_switchport_false in E by assumption; discriminate|].
    apply manual_access_iff in H. rewrite H. reflexivity.
  - reflexivity.
  - exfalso. clear H. induction F as [|t ts N F IH]; [discriminate|]. cbn [is_switchport] in E. rewrite words_strip in E.
    destruct (words t) as [|w ws]; [contradiction|]. destruct (str_eqb w (lit "switchport")); [discriminate|auto].
Qed.
Print Assumptions C39_not_a_trunk.

Definition other_or (P : stmt -> Prop) (s : stmt) : Prop := s = SOther \/ P s.

Lemma device_adds l : Forall (other_or (fun s => exists es, s = SAdd es)) l -> forall P x,
  fold_left device_step l P x <-> P x \/ added l x.
Proof.
  induction 1 as [|s l H F IH]; intros P x; cbn [fold_left].
  - split; [auto|intros [K|(es & [] & _)]; exact K].
  - rewrite IH. destruct H as [->|[es ->]]; cbn [device_step].
    + split; (intros [K|(fs & K & L)]; [now left|right; exists fs]); (split; [|exact L]); [now right|destruct K as [K|K]; [discriminate|exact K]].
    + split.
      * intros [[K|K]|(fs & K & L)]; [now left|right; exists es; split; [now left|exact K]|right; exists fs; split; [now right|exact L]].
      * intros [K|(fs & [K|K] & L)]; [now left; left|injection K as ->; left; now right|right; exists fs; auto].
Qed.
Lemma device_removes l : Forall (other_or (fun s => exists es, s = SRemove es)) l -> forall P x,
  fold_left device_step l P x <-> P x /\ ~ removed l x.
Proof.
  induction 1 as [|s l H F IH]; intros P x; cbn [fold_left].
  - split; [intros K; split; [exact K|intros (es & [[]|[]] & _)]|tauto].
  - rewrite IH. destruct H as [->|[es ->]]; cbn [device_step].
    + split; intros [K L]; (split; [exact K|]); intros (fs & M & Q); apply L; exists fs; (split; [|exact Q]).
      * destruct M as [[M|M]|[M|M]]; try discriminate; auto.
      * destruct M as [M|M]; [left|right]; now right.
    + split.
      * intros [[K K2] L]. split; [exact K|]. intros (fs & M & Q). destruct M as [[M|M]|[M|M]].
        -- discriminate.
        -- apply L. exists fs. auto.
        -- injection M as ->. contradiction.
        -- apply L. exists fs. auto.
      * intros [K L]. split; [split; [exact K|]|].
        -- intros Q. apply L. exists es. split; [right; now left|exact Q].
        -- intros (fs & M & Q). apply L. exists fs. split; [|exact Q]. destruct M as [M|M]; [left|right]; now right.
Qed.

Lemma base_other l b : Forall (other_or (fun s => exists es, s = SAdd es \/ s = SRemove es)) l -> fold_left base_step l b = b.
Proof.
  induction 1 as [|s l H F IH]; [reflexivity|]. cbn [fold_left]. destruct H as [->|[es [->| ->]]]; exact IH.
Qed.

Definition is_base (s : stmt) : Prop := (exists es, s = SAllow es) \/ s = SAll \/ s = SNone.

(** In the order in which a device writes its configuration (at most one statement
    that sets the list, then the additions, then the removals) the result is what
    the device makes of the statements one after the other. *)
Theorem C39_device_order : forall set_list ts before b adds removes, set_order set_list ->
  Forall2 writes ts (before ++ b ++ adds ++ removes) -> switchport ts -> ~ access_mode ts ->
  Forall (eq SOther) before -> (b = [] \/ exists s, b = [s] /\ is_base s) ->
  Forall (other_or (fun s => exists es, s = SAdd es)) adds ->
  Forall (other_or (fun s => exists es, s = SRemove es)) removes ->
  exists m, trunk_vlans_allowed set_list ts = Ok (Some m) /\ NoDup m /\
    forall x, In x m <-> device (before ++ b ++ adds ++ removes) x.
Proof.
  intros f ts o b ad rm S W SW A Ho Hb Ha Hr.
  destruct (C39_allowed_set f ts _ S W SW A) as (m & E & N & M). exists m. split; [exact E|]. split; [exact N|].
  intros x. rewrite M.
  assert (Bo : Forall (other_or (fun s => exists es, s = SAdd es \/ s = SRemove es)) o)
    by (eapply Forall_impl; [|exact Ho]; intros s <-; now left).
  assert (Ba : Forall (other_or (fun s => exists es, s = SAdd es \/ s = SRemove es)) ad)
    by (eapply Forall_impl; [|exact Ha]; intros s [->|[es ->]]; [now left|right; eauto]).
  assert (Br : Forall (other_or (fun s => exists es, s = SAdd es \/ s = SRemove es)) rm)
    by (eapply Forall_impl; [|exact Hr]; intros s [->|[es ->]]; [now left|right; eauto]).
  assert (NoAdd : forall es, In (SAdd es) (o ++ b ++ ad ++ rm) <-> In (SAdd es) ad).
  { intros es. rewrite !in_app_iff. split; [|tauto]. intros [H|[H|[H|H]]]; [|destruct Hb as [->|(s & -> & B)]; [destruct H|destruct H as [->|[]]; destruct B as [[fs B]|[B|B]]; discriminate]|exact H|].
    - rewrite Forall_forall in Ho. specialize (Ho _ H). discriminate.
    - rewrite Forall_forall in Hr. destruct (Hr _ H) as [C|[fs C]]; discriminate. }
  assert (NoRem : forall es, In (SExcept es) (o ++ b ++ ad ++ rm) \/ In (SRemove es) (o ++ b ++ ad ++ rm) <-> In (SExcept es) rm \/ In (SRemove es) rm).
  { intros es. rewrite !in_app_iff. split; [|tauto].
    assert (G : forall s, (exists fs, s = SExcept fs \/ s = SRemove fs) -> In s o \/ In s b \/ In s ad \/ In s rm -> In s rm).
    { intros s [fs Hs] [H|[H|[H|H]]]; [| | |exact H]; exfalso.
      - rewrite Forall_forall in Ho. specialize (Ho _ H). destruct Hs; congruence.
      - destruct Hb as [->|(t & -> & B)]; [destruct H|]. destruct H as [->|[]]. destruct Hs as [->| ->], B as [[gs B]|[B|B]]; discriminate.
      - rewrite Forall_forall in Ha. destruct (Ha _ H) as [C|[gs C]]; destruct Hs; congruence. }
    intros [H|H]; [left|right]; apply G; eauto. }
  assert (EA : added (o ++ b ++ ad ++ rm) x <-> added ad x).
  { split; intros (es & H & L); exists es; (split; [now apply NoAdd|exact L]). }
  assert (ER : removed (o ++ b ++ ad ++ rm) x <-> removed rm x).
  { split; intros (es & H & L); exists es; (split; [now apply NoRem|exact L]). }
  rewrite EA, ER. unfold device, base. rewrite !fold_left_app. rewrite device_removes, device_adds by assumption.
  rewrite (base_other rm), (base_other ad), (base_other o) by assumption.
  assert (Ed : forall P, fold_left device_step o P = P).
  { clear -Ho. induction Ho as [|s o <- _ IH]; [reflexivity|]. intros P. exact (IH P). }
  rewrite Ed. destruct Hb as [->|(s & -> & [[es ->]|[->| ->]])]; cbn [fold_left device_step base_step in_base]; try reflexivity.
  assert (L : ~ listed [] x) by (intros (e & [] & _)). tauto.
Qed.
Print Assumptions C39_device_order.

(** Finding: the order of the statements is lost, so adding back a removed VLAN has
    no effect. *)
Theorem C39_order_refuted : exists ts ss, Forall2 writes ts ss /\ switchport ts /\ ~ access_mode ts /\
  device ss 5 /\
  forall set_list, set_order set_list -> exists m, trunk_vlans_allowed set_list ts = Ok (Some m) /\ ~ In 5 m.
Proof.
  set (t1 := lit " switchport trunk allowed vlan remove 5"). set (t2 := lit " switchport trunk allowed vlan add 5").
  assert (V : vlan_list (lit "5") [One 5]).
  { exists [lit "5"]. split; [reflexivity|]. split; [discriminate|]. split; [constructor; [apply (d_one 0 0 5); lia|constructor]|].
    exists "5", []. split; reflexivity. }
  assert (G : Forall gap (repeat [" "] 6)) by (repeat constructor; discriminate).
  assert (W : Forall2 writes [t1; t2] [SRemove [One 5]; SAdd [One 5]]).
  { constructor; [|constructor; [|constructor]].
    - exact (w_remove (repeat [" "] 6) (lit "5") [One 5] G eq_refl V).
    - exact (w_add (repeat [" "] 6) (lit "5") [One 5] G eq_refl V). }
  assert (SW : switchport [t1; t2]) by (exists t1, (tl (words t1)); split; [now left|vm_compute; reflexivity]).
  assert (A : ~ access_mode [t1; t2]) by (intros (t & [<-|[<-|[]]] & H); vm_compute in H; discriminate).
  exists [t1; t2], [SRemove [One 5]; SAdd [One 5]]. split; [exact W|]. split; [exact SW|]. split; [exact A|]. split.
  - right. exists (One 5). split; [now left|reflexivity].
  - intros f S. destruct (C39_allowed_set f _ _ S W SW A) as (m & E & _ & M). exists m. split; [exact E|].
    rewrite M. intros [_ H]. apply H. exists [One 5]. split; [right; now left|]. exists (One 5). split; [now left|reflexivity].
Qed.
Print Assumptions C39_order_refuted.

(** Finding: a second list is joined to the first instead of replacing it. *)
Theorem C39_second_list_refuted : exists ts ss, Forall2 writes ts ss /\ switchport ts /\ ~ access_mode ts /\
  ~ device ss 5 /\
  forall set_list, set_order set_list -> exists m, trunk_vlans_allowed set_list ts = Ok (Some m) /\ In 5 m.
Proof.
  set (t1 := lit " switchport trunk allowed vlan 5"). set (t2 := lit " switchport trunk allowed vlan 6").
  assert (V : forall z, 0 <= z < 10 -> forall c, show_Z z = [c] -> is_digit c = true -> vlan_list [c] [One z]).
  { intros z Hz c Ec Hc. exists [[c]]. split; [reflexivity|]. split; [discriminate|]. split; [|eauto].
    constructor; [|constructor]. pose proof (d_one 0 0 z ltac:(lia)) as D. rewrite Ec in D. exact D. }
  assert (G : Forall gap (repeat [" "] 5)) by (repeat constructor; discriminate).
  assert (W : Forall2 writes [t1; t2] [SAllow [One 5]; SAllow [One 6]]).
  { constructor; [|constructor; [|constructor]].
    - exact (w_allow (repeat [" "] 5) (lit "5") [One 5] G eq_refl (V 5 ltac:(lia) "5" eq_refl eq_refl) ltac:(discriminate)).
    - exact (w_allow (repeat [" "] 5) (lit "6") [One 6] G eq_refl (V 6 ltac:(lia) "6" eq_refl eq_refl) ltac:(discriminate)). }
  assert (SW : switchport [t1; t2]) by (exists t1, (tl (words t1)); split; [now left|vm_compute; reflexivity]).
  assert (A : ~ access_mode [t1; t2]) by (intros (t & [<-|[<-|[]]] & H); vm_compute in H; discriminate).
  exists [t1; t2], [SAllow [One 5]; SAllow [One 6]]. split; [exact W|]. split; [exact SW|]. split; [exact A|]. split.
  - intros (e & [<-|[]] & H). discriminate.
  - intros f S. destruct (C39_allowed_set f _ _ S W SW A) as (m & E & _ & M). exists m. split; [exact E|].
    rewrite M. split; [left; exists (One 5); split; [now left|reflexivity]|]. intros (es & [[H|[H|[]]]|[H|[H|[]]]] & _); discriminate.
Qed.
Print Assumptions C39_second_list_refuted.

Example C39_ex :
  trunk_vlans_allowed (nodup Z.eq_dec)
    [lit " switchport mode trunk"; lit " switchport trunk allowed vlan 2-4,9"; lit " switchport  trunk allowed vlan add 20, 7";
     lit " switchport trunk allowed vlan remove 3"] = Ok (Some [2; 4; 7; 9; 20]).
Proof. reflexivity. Qed.
Example C39_ex_access : trunk_vlans_allowed (nodup Z.eq_dec) [lit " switchport mode access"] = Ok None /\
  access_mode [lit " switchport mode access"].
Proof. split; [reflexivity|]. eexists. split; [now left|reflexivity]. Qed.

(** ** C52: access and native VLAN *)

(** The first "switchport access vlan n" gives the access VLAN; without one it is 1 on
    a switchport and 0 elsewhere. *)
Theorem C52_access_vlan : forall ts, Forall (fun t => words t <> []) ts ->
  (forall pre t post n rest, ts = pre ++ t :: post -> 0 <= n ->
     words t = [lit "switchport"; lit "access"; lit "vlan"; show_Z n] ++ rest ->
     Forall (fun u => firstn 3 (words u) <> [lit "switchport"; lit "access"; lit "vlan"]) pre ->
     access_vlan ts = Ok n) /\
  (Forall (fun u => firstn 3 (words u) <> [lit "switchport"; lit "access"; lit "vlan"]) ts ->
     (switchport ts -> access_vlan ts = Ok 1) /\ (~ switchport ts -> access_vlan ts = Ok 0)).
Proof.
  intros ts F.
  assert (SWok : exists b, is_switchport ts = Ok b).
  { clear -F. induction F as [|t ts N F IH]; [eexists; reflexivity|]. cbn [is_switchport]. rewrite words_strip.
    destruct (words t); [contradiction|]. destruct (str_eqb _ _); [eexists; reflexivity|exact IH]. }
  assert (NF : forall l, Forall (fun u => firstn 3 (words u) <> [lit "switchport"; lit "access"; lit "vlan"]) l ->
     find (fun t => begins_with kw_access_vlan (strip t)) l = None).
  { induction 1 as [|u l N _ IH]; [reflexivity|]. cbn [find].
    destruct (begins_with kw_access_vlan (strip u)) eqn:E; [|exact IH]. apply begins_with_iff in E. rewrite words_strip in E. contradiction. }
  assert (FA : forall pre l, Forall (fun u => firstn 3 (words u) <> [lit "switchport"; lit "access"; lit "vlan"]) pre ->
     find (fun t => begins_with kw_access_vlan (strip t)) (pre ++ l) = find (fun t => begins_with kw_access_vlan (strip t)) l).
  { intros pre l. induction 1 as [|u pre N _ IH]; [reflexivity|]. cbn [find app].
    destruct (begins_with kw_access_vlan (strip u)) eqn:E; [|exact IH]. apply begins_with_iff in E. rewrite words_strip in E. contradiction. }
  split.
  - intros pre t post n rest -> Hn Hw Hpre. unfold access_vlan. destruct SWok as [b ->]. cbn [bind]. rewrite FA by exact Hpre. cbn [find].
    assert (E : begins_with kw_access_vlan (strip t) = true) by (apply begins_with_iff; rewrite words_strip, Hw; reflexivity).
    rewrite E, words_strip, Hw. cbn [app nth_error]. unfold int_or_err. now rewrite py_int_show_Z.
  - intros N. unfold access_vlan. rewrite NF by exact N. split; intros H.
    + now rewrite is_switchport_true.
    + now rewrite is_switchport_false.
Qed.
Print Assumptions C52_access_vlan.

(** The same for "switchport trunk native vlan n", which must have nothing after n. *)
Theorem C52_native_vlan : forall ts, Forall (fun t => words t <> []) ts ->
  let is_native u := exists w, words u = [lit "switchport"; lit "trunk"; lit "native"; lit "vlan"; w] in
  (forall pre t post n, ts = pre ++ t :: post -> 0 <= n ->
     words t = [lit "switchport"; lit "trunk"; lit "native"; lit "vlan"; show_Z n] ->
     Forall (fun u => ~ is_native u) pre -> native_vlan ts = Ok n) /\
  (Forall (fun u => ~ is_native u) ts ->
     (switchport ts -> native_vlan ts = Ok 1) /\ (~ switchport ts -> native_vlan ts = Ok 0)).
Proof.
  intros ts F is_native.
  assert (SWok : exists b, is_switchport ts = Ok b).
  { clear -F. induction F as [|t ts N F IH]; [eexists; reflexivity|]. cbn [is_switchport]. rewrite words_strip.
    destruct (words t); [contradiction|]. destruct (str_eqb _ _); [eexists; reflexivity|exact IH]. }
  set (test := fun t => (length (words (strip t)) =? 5)%nat && begins_with kw_native_vlan (strip t)).
  assert (T : forall u, test u = true -> is_native u).
  { intros u E. unfold test in E. apply andb_true_iff in E as [E1 E2]. apply Nat.eqb_eq in E1. apply begins_with_iff in E2.
    rewrite words_strip in E1, E2. unfold is_native. destruct (words u) as [|a [|b [|c [|d [|e [|g l]]]]]]; try discriminate.
    cbn [length firstn kw_native_vlan] in E2. exists e. injection E2 as -> -> -> ->. reflexivity. }
  assert (FA : forall pre l, Forall (fun u => ~ is_native u) pre -> find test (pre ++ l) = find test l).
  { intros pre l. induction 1 as [|u pre N _ IH]; [reflexivity|]. cbn [find app].
    destruct (test u) eqn:E; [apply T in E; contradiction|exact IH]. }
  split.
  - intros pre t post n -> Hn Hw Hpre. unfold native_vlan. destruct SWok as [b ->]. cbn [bind]. fold test. rewrite FA by exact Hpre. cbn [find].
    assert (E : test t = true).
    { unfold test. rewrite words_strip, Hw. unfold begins_with. rewrite words_strip, Hw. reflexivity. }
    rewrite E, words_strip, Hw. cbn [nth_error]. unfold int_or_err. now rewrite py_int_show_Z.
  - intros N. unfold native_vlan. fold test. specialize (FA ts [] N). rewrite app_nil_r in FA. rewrite FA. split; intros H.
    + now rewrite is_switchport_true.
    + now rewrite is_switchport_false.
Qed.
Print Assumptions C52_native_vlan.

Example C52_ex : access_vlan [lit " description x"; lit " switchport access vlan 12"; lit " switchport access vlan 13"] = Ok 12 /\
  native_vlan [lit " switchport mode trunk"; lit " switchport trunk native vlan 7"] = Ok 7 /\
  access_vlan [lit " switchport mode trunk"] = Ok 1 /\ native_vlan [lit " no switchport"] = Ok 0.
Proof. repeat split. Qed.
