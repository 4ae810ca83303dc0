(** Properties of interface ranges (CiscoRange with interface members). *)
From Coq Require Import Ascii String Arith NArith ZArith Bool List Lia Sorted Permutation.
From Verif Require Import PyStr PyStrFacts PyBase PyBaseFacts RangeModel RangeFacts IntfModel IntfSpec IntfFacts PIntf IRangeModel IRangeSpec IRangeFacts.
Import ListNotations.
Local Open Scope char_scope.
Local Open Scope Z_scope.

(** [list(set(..))] has some order; this is one. *)
Fixpoint dedup (l : list intf) : list intf :=
  match l with [] => [] | x :: r => if imem x (dedup r) then dedup r else x :: dedup r end.
Lemma imem_in x l : imem x l = true <-> exists y, In y l /\ intf_eq y x = true.
Proof. unfold imem. apply existsb_exists. Qed.
Lemma intf_eq_refl x : intf_eq x x = true.
Proof. now apply intf_eq_same. Qed.
Lemma some_member_order : member_order dedup.
Proof.
  intros l. induction l as [|x l (A & B & C)]; cbn [dedup].
  - repeat split; [tauto| |constructor]. intros x [].
  - destruct (imem x (dedup l)) eqn:E.
    + split; [intros y Hy; right; now apply A|]. split; [|assumption].
      intros y [<-|Hy]; [|now apply B]. apply imem_in in E as (z & Hz & E). exists z. split; [assumption|]. now rewrite intf_eq_sym.
    + split; [|split].
      * intros y [<-|Hy]; [now left|right; now apply A].
      * intros y [<-|Hy]; [exists x; split; [now left|apply intf_eq_refl]|]. destruct (B y Hy) as (z & Hz & Z). exists z. split; [now right|assumption].
      * constructor; [|assumption]. apply Forall_forall. intros y Hy. apply not_true_iff_false. intros K.
        assert (imem x (dedup l) = true) by (apply imem_in; exists y; split; [assumption|now rewrite intf_eq_sym]). congruence.
Qed.

Lemma fop_perm {A} (R : A -> A -> Prop) l m : (forall x y, R x y -> R y x) -> Permutation l m -> ForallOrdPairs R l -> ForallOrdPairs R m.
Proof.
  intros Sy P. induction P as [|x l m P IH|x y l|l m k P IH Q IH']; intros H; auto.
  - inversion H; subst. constructor; [|auto]. eapply Permutation_Forall; eassumption.
  - inversion H as [|? ? F G]; subst. inversion G; subst. inversion F; subst. constructor; [constructor; auto|]. now constructor.
Qed.
Lemma fop_neq_sym x y : intf_eq x y = false -> intf_eq y x = false.
Proof. now rewrite intf_eq_sym. Qed.
Lemma strict_sorted m p : StronglySorted upto m -> ForallOrdPairs (fun x y => intf_eq x y = false) m -> (forall x, In x m -> i_prefix x = p) ->
  StronglySorted before m.
Proof.
  induction m as [|x m IH]; intros S F P; constructor; inversion S; inversion F; subst.
  - apply IH; auto. intros y Hy. apply P. now right.
  - apply Forall_forall. intros y Hy.
    assert (U : upto x y) by now apply (proj1 (Forall_forall _ _) H2). destruct U as [U|U]; [|assumption].
    assert (N : intf_eq x y = false) by now apply (proj1 (Forall_forall _ _) H5). exfalso.
    apply not_true_iff_false in N. apply N, intf_eq_same. split; [|assumption]. rewrite (P x), (P y); auto; [now right|now left].
Qed.

(** ** C56: expansion *)

Lemma begin_obj_spec a text p i v e cl : writes_part a p i v e -> range_class text i cl ->
  exists b, begin_obj text p = Ok b /\ b = {| i_prefix := i_prefix i; i_sep := i_sep i; i_slot := i_slot i; i_card := i_card i;
                                              i_port := i_port i; i_sub := i_sub i; i_chan := i_chan i; i_class := cl |}.
Proof.
  intros W C. pose proof (part_head _ _ _ _ _ W) as H. unfold begin_obj. rewrite H. cbn [bind]. rewrite (C36_copy _ _ H). cbn [bind].
  inversion C as [w L N|w c L I N]; subst; destruct (last_word_words _ _ L) as (ws & ->).
  - replace (existsb str_isdigit w) with false.
    + rewrite (set_class_ok w _ _ H). eexists. split; reflexivity.
    + symmetry. apply not_true_iff_false. intros K. apply existsb_exists in K as (c & Ic & K).
      apply N in Ic. apply no_digit_isdigit in Ic. congruence.
  - replace (existsb str_isdigit w) with true.
    + eexists. split; [reflexivity|]. now destruct i.
    + symmetry. apply existsb_exists. exists c. split; [assumption|]. destruct (str_isdigit c) eqn:K; [reflexivity|].
      now apply no_digit_isdigit in K.
Qed.

(** A text of comma separated parts, each a name or a name, a dash and a number, gives
    exactly the interfaces of the first part with each number the parts list, in
    ascending order and each once.  If no number is listed, it is refused. *)
Theorem C56_expansion : forall set_list a p ps i0 v0 e0 vs cl,
  member_order set_list -> runs_over i0 a -> writes_part a p i0 v0 e0 ->
  Forall2 (fun t ve => exists i, writes_part a t i (fst ve) (snd ve)) ps vs ->
  range_class (join [","] (p :: ps)) i0 cl ->
  ((exists v e, In (v, e) ((v0, e0) :: vs) /\ v <= e) ->
   exists l, irange_of_text set_list (join [","] (p :: ps)) = Ok l /\ StronglySorted before l /\
     forall j, In j l <-> exists v e n, In (v, e) ((v0, e0) :: vs) /\ v <= n <= e /\ j = renumbered a n cl i0) /\
  ((forall v e, In (v, e) ((v0, e0) :: vs) -> e < v) ->
   irange_of_text set_list (join [","] (p :: ps)) = Err ValueError).
Proof.
  intros f a p ps i0 v0 e0 vs cl MO R W F C.
  assert (CH : Forall (fun w => has_char "," w = false) (p :: ps) /\ ~ In [] ps).
  { destruct (part_chars _ _ _ _ _ W) as [A _]. clear - A F. split.
    - constructor; [assumption|]. clear A. induction F as [|t ve ps vs (i & W) _ IH]; constructor; [now apply part_chars in W|assumption].
    - clear A. induction F as [|t ve ps vs (i & W) _ IH]; [tauto|]. intros [E|I]; [|auto]. apply part_chars in W as [_ N]. congruence. }
  destruct CH as [CH NN].
  assert (SP : split_on "," (join [","] (p :: ps)) = p :: ps) by (now apply split_on_join).
  assert (NE : join [","] (p :: ps) <> []).
  { intros E. pose proof (part_chars _ _ _ _ _ W) as [_ N]. destruct ps; cbn in E; [congruence|]. apply app_eq_nil in E as [E _]. congruence. }
  assert (CC : contains (lit ",,") (join [","] (p :: ps)) = false).
  { apply not_true_iff_false. intros K. apply double_comma in K. rewrite SP in K. now cbn [tl] in K. }
  destruct (begin_obj_spec _ _ _ _ _ _ _ W C) as (b & EB & Eb).
  assert (RB : iter_attr b = a) by (apply iter_runs; rewrite Eb; inversion R; subst; [eapply ro_channel|eapply ro_subinterface|eapply ro_port]; cbn; eassumption).
  assert (NB : number_of a b = Some v0) by (rewrite <- (part_number _ _ _ _ _ W), Eb; now destruct a).
  destruct (expand_part_spec a p i0 v0 e0 b W NB) as (l1 & E1 & L1).
  destruct (later_parts_spec a b ps vs F) as (l2 & E2 & L2); [congruence|].
  assert (RN : forall n, renumbered a n (i_class b) b = renumbered a n cl i0) by (intros n; rewrite Eb; now destruct a).
  assert (EX : expand_intfs (join [","] (p :: ps)) = Ok (l1 ++ l2)).
  { unfold expand_intfs. rewrite SP, EB. cbn [bind]. rewrite RB, E1. cbn [bind]. now rewrite E2. }
  assert (LL : forall j, In j (l1 ++ l2) <-> exists v e n, In (v, e) ((v0, e0) :: vs) /\ v <= n <= e /\ j = renumbered a n cl i0).
  { intros j. rewrite in_app_iff, L1, L2. split.
    - intros [(n & H & ->)|(v & e & n & I & H & ->)]; [exists v0, e0, n|exists v, e, n]; rewrite RN; cbn [In]; auto.
    - intros (v & e & n & [Q|I] & K & ->); [left; injection Q as -> ->; exists n|right; exists v, e, n]; now rewrite RN. }
  assert (RT : irange_of_text f (join [","] (p :: ps)) = attribute_sort (f (l1 ++ l2))).
  { unfold irange_of_text. rewrite CC, EX. cbn [bind]. destruct (join [","] (p :: ps)); [congruence|reflexivity]. }
  rewrite RT. destruct (MO (l1 ++ l2)) as (M1 & M2 & M3). clear RT EX E1 E2. set (l := l1 ++ l2) in *. split.
  - intros (v & e & I & LE).
    assert (IN : In (renumbered a v cl i0) l) by (apply LL; exists v, e, v; repeat split; auto; lia).
    rewrite attribute_sort_cons by (intros E; destruct (M2 _ IN) as (y & Y & _); rewrite E in Y; exact Y).
    destruct (sort_intfs_ok (f l)) as (m & Em).
    { intros x y Hx Hy. apply M1, LL in Hx as (vx & ex & nx & _ & _ & ->). apply M1, LL in Hy as (vy & ey & ny & _ & _ & ->).
      destruct (Z.lt_total nx ny) as [K|[-> |K]]; [|now left|apply can_compare_sym]; apply upto_compare; right; now apply renumbered_before. }
    exists m. split; [assumption|]. destruct (sort_intfs_inv _ _ Em) as (P & S & _).
    assert (MM : forall j, In j m <-> In j l).
    { intros j. split; intros Hj.
      - apply M1. now apply (Permutation_in j (Permutation_sym P)).
      - destruct (M2 j Hj) as (y & Hy & E). apply (Permutation_in j P). pose proof (M1 y Hy) as Ly.
        apply LL in Hj as (vx & ex & nx & _ & _ & ->). apply LL in Ly as (vy & ey & ny & _ & _ & ->).
        apply intf_eq_same, renumbered_inj in E as ->. assumption. }
    split.
    + apply (strict_sorted m (i_prefix i0)); [assumption| |].
      * eapply fop_perm; [exact fop_neq_sym|exact P|exact M3].
      * intros x Hx. apply MM, LL in Hx as (vx & ex & nx & _ & _ & ->). reflexivity.
    + intros j. rewrite MM. apply LL.
  - intros H. assert (E : f l = []).
    { destruct (f l) as [|x r] eqn:E; [reflexivity|]. assert (X : In x l) by (apply M1; now left). apply LL in X as (v & e & n & I & K & _).
      apply H in I. lia. }
    now rewrite E.
Qed.
Print Assumptions C56_expansion.

(** The documented examples: "Eth2/1-3,5,9-10", a class at the end, subinterfaces. *)
Example C56_example :
  rmap (map render) (irange_of_text dedup (lit "Eth2/1-3,5,9-10,2")) =
    Ok (map (fun s => Ok (lit s)) ["Eth2/1"; "Eth2/2"; "Eth2/3"; "Eth2/5"; "Eth2/9"; "Eth2/10"]%string) /\
  rmap (map render) (irange_of_text dedup (lit "Serial 1/0-1,4 multipoint")) =
    Ok (map (fun s => Ok (lit s)) ["Serial1/0 multipoint"; "Serial1/1 multipoint"; "Serial1/4 multipoint"]%string) /\
  rmap (map render) (irange_of_text dedup (lit "Eth1.8-9,1.3")) =
    Ok (map (fun s => Ok (lit s)) ["Eth1.3"; "Eth1.8"; "Eth1.9"]%string) /\
  irange_of_text dedup (lit "Eth1/5-3") = Err ValueError.
Proof. repeat split; vm_compute; reflexivity. Qed.
(** The hypotheses of [C56_expansion] hold of "Eth2/1-3,5-6 multipoint". *)
Example C56_case :
  let i := interface (lit "Eth") (SlotPort 2 1) None None None in
  runs_over i APort /\ writes_part APort (lit "Eth2/1-3") i 1 3 /\
  Forall2 (fun t ve => exists i, writes_part APort t i (fst ve) (snd ve)) [lit "5-6 multipoint"] [(5, 6)] /\
  range_class (join [","] [lit "Eth2/1-3"; lit "5-6 multipoint"]) i (Some (lit "multipoint")).
Proof.
  cbn zeta. split; [now constructor|]. split; [|split].
  - apply (wp_range APort (lit "Eth2/1") (interface (lit "Eth") (SlotPort 2 1) None None None) 1 [] (lit "3") 3 []); try reflexivity.
    + intros H. repeat (destruct H as [H|H]; [discriminate|]). destruct H.
    + split; [lia|]. now exists 0%nat.
    + intros c [].
  - constructor; [|constructor]. exists (interface [] (Port 5) None None None). cbn [fst snd].
    apply (wp_range APort (lit "5") (interface [] (Port 5) None None None) 5 [] (lit "6") 6 (lit " multipoint")); try reflexivity.
    + intros H. repeat (destruct H as [H|H]; [discriminate|]). destruct H.
    + split; [lia|]. now exists 0%nat.
    + intros c H. repeat (destruct H as [<-|H]; [repeat split; try discriminate; cbn; intuition discriminate|]). destruct H.
  - apply rc_word.
    + split; [discriminate|]. split; [intros c H; repeat (destruct H as [<-|H]; [reflexivity|]); destruct H|].
      exists (lit "Eth2/1-3,5-6 "), []. split; [reflexivity|]. split; [reflexivity|]. right. exists (lit "Eth2/1-3,5-6"), " ". now split.
    + intros c H. repeat (destruct H as [<-|H]; [split; [reflexivity|cbn; intuition discriminate]|]). destruct H.
Qed.

(** A prefix with a dash, such as Port-channel, is never accepted: the text is cut at
    the dash first. *)
Theorem C56_dash_in_prefix_refuted : forall set_list q r, q <> [] -> forallb is_alpha q = true ->
  ~ (exists l, irange_of_text set_list (q ++ "-" :: r) = Ok l).
Proof.
  intros f q r NE A (l & H).
  assert (NA : forall c, In c q -> is_alpha c = true) by (now apply forallb_forall).
  assert (ND : has_char "-" q = false) by (apply has_char_false; intros I; apply NA in I; discriminate).
  assert (NC : has_char "," q = false) by (apply has_char_false; intros I; apply NA in I; discriminate).
  assert (NI : forall i, intf_of_name q <> Ok i).
  { intros i E. destruct (C36_rejects _ _ E) as [_ X]. apply Exists_exists in X as (c & I & D). apply NA in I. assert (K : forall c, is_alpha c = true -> is_digit c = false) by by_chars. rewrite (K c I) in D. discriminate. }
  unfold irange_of_text in H. destruct (q ++ "-" :: r) as [|c s] eqn:E; [destruct q; discriminate|]. rewrite <- E in H.
  destruct (contains (lit ",,") (q ++ "-" :: r)); [discriminate|].
  unfold expand_intfs in H. destruct (split_on "," (q ++ "-" :: r)) as [|p ps] eqn:S; [now apply split_on_nonnil in S|].
  assert (HP : head_of p = q).
  { assert (exists u, p = q ++ "-" :: u) as [u ->].
    { clear - NC S. revert p S. induction q as [|x q IH]; intros p S.
      - cbn [app split_on] in S. change (Ascii.eqb "-" ",") with false in S. cbv iota in S. destruct (split_on "," r); injection S as <- _; now eexists.
      - cbn [app split_on] in S. cbn [has_char existsb] in NC. apply orb_false_iff in NC as [N1 N2]. rewrite Ascii.eqb_sym in N1. rewrite N1 in S.
        destruct (split_on "," (q ++ "-" :: r)) as [|p' ps'] eqn:S'; [now apply split_on_nonnil in S'|].
        injection S as <- E. destruct (IH N2 p') as [u ->]; [now rewrite E|]. now exists u. }
    unfold head_of. now rewrite split_on_app. }
  unfold begin_obj in H. rewrite HP in H. destruct (intf_of_name q) as [i|e] eqn:I; [now apply (NI i)|]. discriminate.
Qed.
Print Assumptions C56_dash_in_prefix_refuted.

(** A later part is read for its number only: "Eth2/3" after "Eth1/1" stands for Eth1/3.
    And the number alone is not enough for a subinterface or a channel. *)
Theorem C56_later_name_refuted :
  rmap (map render) (irange_of_text dedup (lit "Eth1/1,Eth2/3")) = Ok [Ok (lit "Eth1/1"); Ok (lit "Eth1/3")] /\
  (forall set_list, member_order set_list -> irange_of_text set_list (lit "Eth1.1,3") = Err TypeErr).
Proof.
  split; [vm_compute; reflexivity|]. intros f MO. unfold irange_of_text.
  change (lit "Eth1.1,3") with ("E" :: lit "th1.1,3"). cbv iota.
  change (contains (lit ",,") ("E" :: lit "th1.1,3")) with false. cbv iota.
  set (x := interface (lit "Eth") (Port 1) (Some 1) None None). set (y := interface (lit "Eth") (Port 1) None None None).
  assert (E : expand_intfs ("E" :: lit "th1.1,3") = Ok [x; y]) by (vm_compute; reflexivity). rewrite E. cbn [bind].
  destruct (MO [x; y]) as (A & B & _).
  assert (X : In x (f [x; y])).
  { destruct (B x) as (z & Hz & Ez); [now left|]. destruct (A z Hz) as [<-|[<-|[]]]; [assumption|discriminate Ez]. }
  assert (Y : In y (f [x; y])).
  { destruct (B y) as (z & Hz & Ez); [right; now left|]. destruct (A z Hz) as [<-|[<-|[]]]; [discriminate Ez|assumption]. }
  rewrite attribute_sort_cons by (intros K; rewrite K in X; exact X).
  apply (sort_intfs_fails _ x y X Y). rewrite can_compare_ok. intros [b K]. discriminate K.
Qed.
Print Assumptions C56_later_name_refuted.

(** ** C57: operations *)

Lemma same_compare x x' y y' : same x x' -> same y y' -> can_compare x y -> can_compare x' y'.
Proof. intros [_ A] [_ B]. unfold can_compare. now rewrite A, B. Qed.
Lemma same_sym x y : same x y -> same y x. Proof. intros [A B]. now split. Qed.
Lemma compare_all l : (forall x y, In x l -> In y l -> can_compare x y) \/ (exists x y, In x l /\ In y l /\ ~ can_compare x y).
Proof.
  destruct (sort_intfs l) as [m|e] eqn:E; [left; now apply sort_intfs_inv in E|].
  assert (D : forall k, (forall x y, In x k -> In y l -> can_compare x y) \/ (exists x y, In x k /\ In y l /\ ~ can_compare x y)).
  { assert (D1 : forall x k, (forall y, In y k -> can_compare x y) \/ (exists y, In y k /\ ~ can_compare x y)).
    { intros x k. induction k as [|z k [IH|(y & A & B)]]; [left; intros y []| |right; exists y; split; [now right|assumption]].
      destruct (compare_dec x z) as [H|H]; [left; intros y [<-|K]; auto|right; exists z; split; [now left|assumption]]. }
    intros k. induction k as [|z k [IH|(x & y & A & B)]]; [left; intros x y []| |right; exists x, y; split; [now right|assumption]].
    destruct (D1 z l) as [H|(y & A & B)]; [left; intros x y [<-|K]; auto|right; exists z, y; split; [now left|now split]]. }
  apply D.
Qed.

(** The union is in ascending order, has one member for each interface of either range
    and nothing else.  It fails exactly if two interfaces cannot be compared. *)
Theorem C57_union : forall set_list self other, member_order set_list ->
  ((forall x y, In x (self ++ other) -> In y (self ++ other) -> can_compare x y) ->
   exists l, irange_add set_list self other = Ok l /\ ascending l /\
     (forall x, In x l -> In x self \/ In x other) /\
     (forall x, In x self \/ In x other -> exists y, In y l /\ same x y) /\
     ForallOrdPairs (fun x y => ~ same x y) l) /\
  ((exists x y, In x (self ++ other) /\ In y (self ++ other) /\ ~ can_compare x y) ->
   irange_add set_list self other = Err TypeErr).
Proof.
  intros f self other MO. unfold irange_add. destruct (MO (self ++ other)) as (A & B & C). split.
  - intros H. destruct (sort_intfs_ok (f (self ++ other))) as (l & E).
    { intros x y Hx Hy. apply H; now apply A. }
    exists l. destruct (sort_intfs_inv _ _ E) as (P & S & _). split; [assumption|]. split; [exact S|]. split; [|split].
    + intros x Hx. apply in_app_iff, A. now apply (Permutation_in x (Permutation_sym P)).
    + intros x Hx. apply in_app_iff in Hx. destruct (B x Hx) as (y & Hy & K). exists y. split; [now apply (Permutation_in y P)|now apply intf_eq_same].
    + assert (Q : ForallOrdPairs (fun x y => intf_eq x y = false) l) by (eapply fop_perm; [exact fop_neq_sym|exact P|exact C]).
      clear - Q. induction Q as [|x l Fx Q IH]; constructor; [|assumption]. eapply Forall_impl; [|exact Fx]. cbv beta.
      intros y N K. apply intf_eq_same in K. congruence.
  - intros (x & y & Hx & Hy & N). destruct (B x Hx) as (x' & Hx' & Ex). destruct (B y Hy) as (y' & Hy' & Ey).
    apply intf_eq_same in Ex, Ey. apply (sort_intfs_fails _ x' y' Hx' Hy'). intros K. apply N. apply (same_compare x' x y' y); auto using same_sym.
Qed.
Print Assumptions C57_union.

Lemma remove_in x l z : ForallOrdPairs (fun x y => ~ same x y) l -> (In z (remove_intf x l) <-> In z l /\ ~ same z x).
Proof.
  induction l as [|y l IH]; intros F; cbn [remove_intf]; [cbn; tauto|]. inversion F as [|? ? Fy Fl]; subst.
  destruct (intf_eq y x) eqn:E.
  - apply intf_eq_same in E. split.
    + intros H. split; [now right|]. intros K. apply (proj1 (Forall_forall _ _) Fy z H). destruct E, K. split; congruence.
    + intros [[<-|H] N]; [tauto|assumption].
  - cbn [In]. rewrite (IH Fl). assert (N : ~ same y x) by (rewrite <- intf_eq_same; congruence). split; [|tauto]. intros [<-|[H K]]; auto.
Qed.
Lemma remove_fop (R : intf -> intf -> Prop) x l : ForallOrdPairs R l -> ForallOrdPairs R (remove_intf x l).
Proof.
  induction 1 as [|y l Fy Fl IH]; cbn [remove_intf]; [constructor|]. destruct (intf_eq y x); [assumption|]. constructor; [|assumption].
  apply Forall_forall. intros z Hz. apply (proj1 (Forall_forall _ _) Fy). clear - Hz. induction l as [|w l IH]; [exact Hz|]. cbn [remove_intf] in Hz.
  destruct (intf_eq w x); [now right|]. destruct Hz as [<-|Hz]; [now left|right; auto].
Qed.
Lemma sorted_fop (R : intf -> intf -> Prop) l : StronglySorted R l <-> ForallOrdPairs R l.
Proof. split; induction 1; constructor; assumption. Qed.

(** The difference keeps the members the other range does not have, in order. *)
Theorem C57_difference : forall self other, ForallOrdPairs (fun x y => ~ same x y) self ->
  (forall x, In x (irange_sub self other) <-> In x self /\ forall y, In y other -> ~ same x y) /\
  (ascending self -> ascending (irange_sub self other)).
Proof.
  intros self other F. unfold irange_sub. split.
  - revert self F. induction other as [|y other IH]; intros self F x; cbn [fold_left].
    + split; [intros H; split; [assumption|intros y []]|tauto].
    + rewrite IH by now apply remove_fop. rewrite remove_in by assumption. split.
      * intros [[H K] M]. split; [assumption|]. intros z [<-|Hz]; auto.
      * intros [H K]. split; [split; [assumption|apply K; now left]|]. intros z Hz. apply K. now right.
  - unfold ascending. rewrite !sorted_fop. clear F. revert self. induction other as [|y other IH]; intros self F; cbn [fold_left]; [assumption|].
    now apply IH, remove_fop.
Qed.
Print Assumptions C57_difference.

(** Appending an interface puts it in its place; one that is there already is refused. *)
Theorem C57_append : forall l p n sub chan cl, let v := interface p n sub chan cl in
  ((exists x, In x l /\ same x v) -> irange_append l v = Err DuplicateMember) /\
  (~ (exists x, In x l /\ same x v) ->
   (forall x y, In x (v :: l) -> In y (v :: l) -> can_compare x y) ->
   exists l', irange_append l v = Ok l' /\ Permutation (v :: l) l' /\ ascending l').
Proof.
  intros l p n sub chan cl v. unfold irange_append. split.
  - intros (x & Hx & S). replace (imem v l) with true; [reflexivity|]. symmetry. apply imem_in. exists x. split; [assumption|now apply intf_eq_same].
  - intros N C. replace (imem v l) with false.
    2:{ symmetry. apply not_true_iff_false. intros K. apply N. apply imem_in in K as (x & Hx & K). exists x. split; [assumption|now apply intf_eq_same]. }
    assert (D : intf_of_dict v = Ok v) by (unfold v; now destruct n).
    replace (match l with [] => Ok v | _ :: _ => intf_of_dict v end) with (@Ok intf v) by (rewrite D; now destruct l). cbn [bind].
    rewrite attribute_sort_cons by now destruct l.
    destruct (sort_intfs_ok (l ++ [v])) as (m & E).
    { intros x y Hx Hy. apply in_app_iff in Hx, Hy. apply C; cbn [In] in *; tauto. }
    rewrite E. exists m. destruct (sort_intfs_inv _ _ E) as (P & S & _). split; [reflexivity|]. split; [|exact S].
    rewrite <- P. apply Permutation_cons_append.
Qed.
Print Assumptions C57_append.

(** An interface that cannot be compared with some member is dropped without an error:
    the range is as before. *)
Theorem C57_append_refuted : forall l p n sub chan cl x, let v := interface p n sub chan cl in
  ~ (exists y, In y l /\ same y v) -> In x l -> ~ can_compare x v -> irange_append l v = Ok l.
Proof.
  intros l p n sub chan cl x v NS Hx N. unfold irange_append. replace (imem v l) with false.
  2:{ symmetry. apply not_true_iff_false. intros K. apply imem_in in K as (y & Hy & K). apply NS. exists y. split; [assumption|now apply intf_eq_same]. }
  destruct l as [|y l]; [destruct Hx|]. assert (D : intf_of_dict v = Ok v) by (unfold v; now destruct n). rewrite D. cbn [bind].
  rewrite attribute_sort_cons by now destruct l.
  rewrite (sort_intfs_fails _ x v); [reflexivity| | |assumption]; apply in_app_iff; [now left|right; now left].
Qed.
Print Assumptions C57_append_refuted.

Lemma copy_all_whole l : Forall whole l -> copy_all l = Ok l.
Proof.
  induction 1 as [|x l (p & n & sub & chan & cl & ->) _ IH]; cbn [copy_all]; [reflexivity|].
  replace (intf_of_dict (interface p n sub chan cl)) with (Ok (interface p n sub chan cl)) by now destruct n. cbn [bind]. now rewrite IH.
Qed.
Lemma fop_nodup l : ForallOrdPairs (fun x y => ~ same x y) l -> NoDup l.
Proof.
  induction 1 as [|x l F _ IH]; constructor; [|assumption]. intros I. apply (proj1 (Forall_forall _ _) F x I). now split.
Qed.

(** [as_list] gives the members in order, each once.  It also changes the range: every
    member is then stored twice. *)
Theorem C57_as_list : forall set_list l, member_order set_list -> Forall whole l ->
  ForallOrdPairs (fun x y => ~ same x y) l -> (forall x y, In x l -> In y l -> can_compare x y) ->
  (exists r, fst (irange_as_list set_list false l) = Ok r /\ Permutation l r /\ ascending r /\
             fst (irange_as_list set_list true l) = Ok (rev r)).
Proof.
  intros f l MO W F C. unfold irange_as_list. cbn [fst]. destruct (MO (l ++ l)) as (A & B & D).
  assert (A' : forall x, In x (f (l ++ l)) -> In x l) by (intros x Hx; apply A, in_app_iff in Hx; tauto).
  destruct (sort_intfs_ok (f (l ++ l))) as (r & E); [intros x y Hx Hy; apply C; now apply A'|].
  rewrite E. cbn [bind]. destruct (sort_intfs_inv _ _ E) as (P & S & _).
  rewrite copy_all_whole.
  2:{ apply Forall_forall. intros x Hx. apply (proj1 (Forall_forall _ _) W), A'. now apply (Permutation_in x (Permutation_sym P)). }
  exists r. split; [reflexivity|]. split; [|split; [exact S|reflexivity]].
  rewrite <- P. apply NoDup_Permutation.
  - now apply fop_nodup.
  - apply fop_nodup. clear - D. induction D as [|x m Fx _ IH]; constructor; [|assumption]. eapply Forall_impl; [|exact Fx].
    cbv beta. intros y N K. apply intf_eq_same in K. congruence.
  - intros x. split; [|apply A']. intros Hx. destruct (B x) as (y & Hy & K); [apply in_app_iff; now left|].
    apply intf_eq_same in K. assert (x = y) as ->; [|assumption]. apply A' in Hy. clear - F Hx Hy K.
    induction F as [|z m Fz _ IH]; [destruct Hx|]. rewrite Forall_forall in Fz. destruct Hx as [<-|Hx], Hy as [<-|Hy]; auto.
    + now apply Fz in Hy.
    + apply Fz in Hx. now apply same_sym in K.
Qed.
Print Assumptions C57_as_list.

Theorem C57_as_list_state_refuted : forall set_list reverse l, l <> [] -> snd (irange_as_list set_list reverse l) <> l.
Proof. intros f b l N H. cbn in H. apply (f_equal (@length _)) in H. rewrite app_length in H. destruct l; [congruence|cbn in H; lia]. Qed.
Print Assumptions C57_as_list_state_refuted.

(** [remove] of a member and [as_compressed_str] of a range that is not empty always
    fail. *)
Theorem C57_remove_refuted : forall l v x ignore_errors, In x l -> same x v -> exists e, irange_remove l v ignore_errors = Err e.
Proof.
  intros l v x b H S. unfold irange_remove. replace (imem v l) with true; [now eexists|].
  symmetry. apply imem_in. exists x. split; [assumption|now apply intf_eq_same].
Qed.
Print Assumptions C57_remove_refuted.
Theorem C57_compressed_refuted : forall l, l <> [] -> exists e, irange_compressed l = Err e.
Proof. intros [|x l] N; [congruence|]. now eexists. Qed.
Print Assumptions C57_compressed_refuted.

Definition eth (p : Z) : intf := interface (lit "Eth") (SlotPort 1 p) None None None.
Example C57_example :
  irange_add dedup [eth 1; eth 3] [eth 2; eth 3] = Ok [eth 1; eth 2; eth 3] /\
  irange_add dedup [eth 1] [interface (lit "Vlan") (Port 3) None None None] = Err TypeErr /\
  irange_sub [eth 1; eth 2; eth 3] [eth 3; eth 7] = [eth 1; eth 2] /\
  irange_append [eth 1; eth 5] (eth 4) = Ok [eth 1; eth 4; eth 5] /\
  irange_append [eth 1; eth 5] (eth 5) = Err DuplicateMember /\
  irange_append [eth 1; eth 5] (interface (lit "Vlan") (Port 3) None None None) = Ok [eth 1; eth 5] /\
  irange_as_list dedup true [eth 1; eth 5] = (Ok [eth 5; eth 1], [eth 1; eth 5; eth 1; eth 5]).
Proof. repeat split; vm_compute; reflexivity. Qed.
Example C57_case : (forall x y, In x [eth 1; eth 3; eth 2] -> In y [eth 1; eth 3; eth 2] -> can_compare x y) /\
  ForallOrdPairs (fun x y => ~ same x y) [eth 1; eth 3; eth 2] /\ Forall whole [eth 1; eth 3; eth 2].
Proof.
  split; [|split].
  - intros x y Hx Hy. apply can_compare_ok. cbn [In] in *.
    repeat (destruct Hx as [<-|Hx]; [repeat (destruct Hy as [<-|Hy]; [eexists; vm_compute; reflexivity|]); destruct Hy|]). destruct Hx.
  - repeat constructor; intros [_ H]; discriminate H.
  - repeat constructor; repeat eexists.
Qed.
