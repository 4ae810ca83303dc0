(** Sequences of deletions, insertions, and loaded configurations. *)
From Coq Require Import Ascii String Arith NArith ZArith Bool List Lia Sorting.Sorted.
From Verif Require Import PyStr PyStrFacts PyBase PyBaseFacts CfgModel TreeSpec BraceSpec WorldSpec
  TreeProofs TreePost TreeRel TreeWorld TreeBanner TreeFull CommitProofs CommitMain TreeMain FamilyProofs
  SearchModel SearchSpec SearchProofs MutModel MutSpec MutProofs.
Import ListNotations.
Local Open Scope nat_scope.

Lemma without_filter {A} (P : A -> Prop) f (l : list A) :
  (forall y, In y l -> (f y = false <-> P y)) -> without P l (filter f l).
Proof.
  induction l as [|x l IH]; intros H; cbn [filter]; [constructor|].
  destruct (f x) eqn:E.
  - apply wo_keep; [|apply IH; intros; apply H; now right].
    intros HP. apply (H x) in HP; [congruence|now left].
  - apply wo_drop; [apply (H x); [now left|exact E]|]. apply IH. intros; apply H; now right.
Qed.

Lemma without_comp {A} (P Q : A -> Prop) l l1 l2 :
  without P l l1 -> without Q l1 l2 -> without (fun x => P x \/ Q x) l l2.
Proof.
  intros H. revert l2. induction H as [|x l l1 HP H IH|x l l1 HP H IH]; intros l2 H2.
  - inversion H2. constructor.
  - apply wo_drop; auto.
  - inversion H2 as [|? ? ? HQ H3|? ? ? HQ H3]; subst; [apply wo_drop|apply wo_keep]; auto. tauto.
Qed.

Lemma without_iff {A} (P Q : A -> Prop) l l' :
  (forall x, In x l -> (P x <-> Q x)) -> without P l l' -> without Q l l'.
Proof.
  intros H W. induction W as [|x l l' HP W IH|x l l' HP W IH]; [constructor|apply wo_drop|apply wo_keep];
    try (apply (H x); [now left|exact HP]); try (apply IH; intros; apply H; now right).
  intros HQ. apply HP. apply (H x); [now left|exact HQ].
Qed.

Lemma without_in {A} (P : A -> Prop) l l' : without P l l' -> forall y, In y l' <-> In y l /\ ~ P y.
Proof.
  induction 1 as [|x l l' HP W IH|x l l' HP W IH]; intros y; cbn [In].
  - tauto.
  - rewrite IH. split; [tauto|]. intros [[<-|H] H']; tauto.
  - rewrite IH. split; [|tauto]. intros [<-|H]; tauto.
Qed.

Lemma without_map {A B} (P : A -> Prop) (Q : B -> Prop) (g : A -> B) l l' :
  (forall x, In x l -> (P x <-> Q (g x))) -> without P l l' -> without Q (map g l) (map g l').
Proof.
  intros H W. induction W as [|x l l' HP W IH|x l l' HP W IH]; cbn [map]; [constructor|apply wo_drop|apply wo_keep];
    try (apply (H x); [now left|exact HP]); try (apply IH; intros; apply H; now right).
  intros HQ. apply HP. apply (H x); [now left|exact HQ].
Qed.

(** ** States that allow deletion *)

Lemma filter_editable w f : editable w ->
  editable (reassign_linenums (set_conf (filter f (w_conf w)) w)).
Proof.
  intros (HN & HD & HC). split; [|split].
  - apply reassign_numbered.
    + cbn [set_conf w_conf]. apply NoDup_filter. now apply numbered_nodup.
    + cbn [set_conf w_conf]. intros x Hx. apply filter_In in Hx as [Hx _].
      destruct (numbered_obj w x HN Hx) as (l & E). exists l. exact E.
  - intros x Hx. rewrite reassign_text. cbn in Hx. apply filter_In in Hx as [Hx _].
    exact (HD x Hx).
  - intros x c Hx. rewrite reassign_children. cbn in Hx. apply filter_In in Hx as [Hx _].
    intros Hc. unfold reassign_linenums, set_heap. cbn [w_heap]. rewrite renumber_length. cbn.
    exact (HC x c Hx Hc).
Qed.

Lemma filter_kept w f : objects_kept w (reassign_linenums (set_conf (filter f (w_conf w)) w)).
Proof.
  eapply objects_kept_trans; [|apply reassign_kept]. split; [reflexivity|].
  intros x l H. exists l. split; [exact H|apply same_line_refl].
Qed.

Lemma filter_children w f x :
  children_of (reassign_linenums (set_conf (filter f (w_conf w)) w)) x = children_of w x.
Proof. now rewrite reassign_children. Qed.

Lemma descendant_ext (k1 k2 : nat -> list nat) : (forall x, k1 x = k2 x) ->
  forall x y, descendant k1 x y -> descendant k2 x y.
Proof.
  intros E x y H. induction H as [x y H|x y z H _ IH].
  - constructor. now rewrite <- E.
  - eapply desc_step; [rewrite <- E; exact H|exact IH].
Qed.

Theorem delete_each_spec xs : forall w, editable w ->
  (forall x, In x xs -> In x (w_conf w) /\ owned w x = true /\
     forall y, descendant (children_of w) x y -> In y (w_conf w)) ->
  ForallOrdPairs (fun x y => forall z, in_family w x z -> ~ in_family w y z) xs ->
  exists w', delete_each w xs = Ok w' /\ editable w' /\ objects_kept w w' /\
    without (fun y => exists x, In x xs /\ in_family w x y) (w_conf w) (w_conf w').
Proof.
  induction xs as [|x xs IH]; intros w HE Hx HP; cbn [delete_each].
  - exists w. split; [reflexivity|]. split; [exact HE|]. split; [apply objects_kept_refl|].
    clear. induction (w_conf w); [constructor|]. apply wo_keep; [intros (x & [] & _)|assumption].
  - inversion HP as [|? ? HP1 HP2]; subst. rewrite Forall_forall in HP1.
    pose proof HE as (HN & HD & HC). destruct (Hx x (or_introl eq_refl)) as (H1 & H2 & H3).
    destruct (delete_family w HN HD HC x H1 H2 H3) as (f & E & Hf). rewrite E. cbn [bind].
    set (w1 := reassign_linenums (set_conf (filter f (w_conf w)) w)) in *.
    assert (Ech : forall y, children_of w1 y = children_of w y) by (intros; apply filter_children).
    assert (Efam : forall a y, in_family w1 a y <-> in_family w a y).
    { intros a y. unfold in_family. split; intros [H|H]; auto; right; eapply descendant_ext; try exact H; auto. }
    destruct (IH w1) as (w' & E' & HE' & HK & HW).
    + now apply filter_editable.
    + intros y Hy. destruct (Hx y (or_intror Hy)) as (I1 & I2 & I3).
      assert (L : forall z, in_family w y z -> In z (w_conf w) -> In z (w_conf w1)).
      { intros z Hz Hz'. unfold w1. cbn. apply filter_In. split; [exact Hz'|].
        destruct (f z) eqn:Ef; [reflexivity|]. apply Hf in Ef. exfalso. exact (HP1 y Hy z Ef Hz). }
      split; [apply L; [now left|exact I1]|]. split.
      * unfold w1. rewrite reassign_owned. exact I2.
      * intros z Hz. assert (Hz' : descendant (children_of w) y z) by (eapply descendant_ext; [|exact Hz]; auto).
        apply L; [now right|auto].
    + clear - HP2 Efam. induction HP2 as [|a l Ha Hl IHl]; constructor; auto.
      eapply Forall_impl; [|exact Ha]. intros y Hy z. rewrite !Efam. apply Hy.
    + exists w'. split; [exact E'|]. split; [exact HE'|]. split.
      { eapply objects_kept_trans; [apply filter_kept|exact HK]. }
      eapply without_iff; [|eapply without_comp; [apply (without_filter (in_family w x) f)|exact HW]].
      * intros y _. cbn beta. split.
        -- intros [H|(a & Ha & H)]; [exists x; split; [now left|exact H]|].
           exists a. split; [now right|]. now apply Efam.
        -- intros (a & [<-|Ha] & H); [now left|]. right. exists a. split; [exact Ha|]. now apply Efam.
      * intros y _. apply Hf.
Qed.

(** ** Loaded configurations *)

Section LoadedEdit.
  Variables (w : world) (b : nat) (lines : list str).
  Hypothesis HL : loaded w b lines.
  Hypothesis Hk : forall j, j < length lines -> line_kept (w_opts w) lines j.
  Hypothesis Hd : Forall (fun l => no_digit_start l = true) lines.

  Lemma loaded_in_conf x : In x (w_conf w) <-> inr b (length lines) x.
  Proof.
    split; [now apply loaded_conf_inr|]. intros [H1 H2].
    destruct (loaded_all w b lines HL Hk) as [C _]. rewrite C. apply in_map_iff.
    exists (x - b). split; [lia|]. apply in_seq. lia.
  Qed.

  Lemma loaded_owned x : inr b (length lines) x -> owned w x = true.
  Proof.
    intros [H1 H2]. destruct (loaded_boot w b lines HL) as (objs & B & Ob & _ & _ & Hlen & _).
    specialize (Ob (x - b)). replace (b + (x - b)) with x in Ob by lia.
    destruct (nth_error_lt_some objs (x - b)) as (l & Hl); [lia|]. rewrite Hl in Ob. cbn [option_map] in Ob.
    unfold owned. rewrite Ob. destruct (bootstrap_static _ _ _ _ _ _ B Hl) as (line & _ & _ & _ & _ & _ & O). exact O.
  Qed.

  Lemma loaded_editable : editable w.
  Proof.
    pose proof (loaded_region w b lines HL Hd) as R. split; [|split].
    - intros i x Hx. destruct (loaded_all w b lines HL Hk) as [C _].
      rewrite C, nth_error_map_iff, nth_error_seq in Hx. destruct (i <? length lines) eqn:E; [|discriminate].
      injection Hx as <-. apply Nat.ltb_lt in E. destruct (nth_error_lt_some lines i E) as (l & Hl).
      destruct (loaded_obj w b lines HL i l Hl) as (o & Ho & _ & Hn & _). eauto.
    - intros x Hx. apply loaded_in_conf in Hx. destruct (inr_obj w b _ R x Hx) as (l & E & _ & _ & _ & D).
      unfold text_of. now rewrite E.
    - intros x c Hx Hc. apply loaded_in_conf in Hx. apply (children_inr w b _ R) in Hc; [|exact Hx].
      pose proof (loaded_heap w b lines HL). lia.
  Qed.

  Lemma loaded_desc_in x y : In x (w_conf w) -> descendant (children_of w) x y -> In y (w_conf w).
  Proof.
    rewrite !loaded_in_conf. intros Hx H. apply (descendant_gt w b _ (loaded_region w b lines HL Hd)) in H; [|exact Hx].
    destruct Hx. unfold inr. lia.
  Qed.
End LoadedEdit.

(** In plain configurations two families are nested or disjoint. *)
Lemma plain_families w b lines x y z :
  loaded w b lines -> Forall (fun l => plain_line l = true) lines -> Forall (fun l => no_digit_start l = true) lines ->
  inr b (length lines) x -> inr b (length lines) y ->
  in_family w x z -> in_family w y z -> in_family w x y \/ in_family w y x.
Proof.
  intros HL Hp Hd Hx Hy Fx Fy.
  pose proof (loaded_region w b lines HL Hd) as R. pose proof (loaded_heap w b lines HL) as Hh.
  assert (LA : links_agree w b (length lines)) by apply (plain_agree w b lines HL Hp).
  assert (Iz : inr b (length lines) z).
  { destruct Fx as [->|F]; [exact Hx|]. apply (descendant_gt w b _ R) in F; auto. destruct Hx. unfold inr. lia. }
  unfold in_family in *.
  destruct Fx as [->|Fx]; [right; exact Fy|]. destruct Fy as [->|Fy]; [left; now right|].
  apply (duality w b _ R Hh x z LA Hx Iz) in Fx. apply (duality w b _ R Hh y z LA Hy Iz) in Fy.
  assert (G : forall z, ancestor (parent_rel w) x z -> inr b (length lines) z -> ancestor (parent_rel w) y z ->
    x = y \/ ancestor (parent_rel w) x y \/ ancestor (parent_rel w) y x).
  { clear z Fx Fy Iz. intros z Fx. induction Fx as [x z H1 H2|x z' z H1 H2 H3 IH]; intros Iz Fy.
    - inversion Fy as [? ? G1 G2|? z'' ? G1 G2 G3]; subst.
      + left. congruence.
      + right. right. unfold parent_rel in H1, G1. congruence.
    - inversion Fy as [? ? G1 G2|? z'' ? G1 G2 G3]; subst.
      + right. left. unfold parent_rel in H1, G1. congruence.
      + assert (z'' = z') by (unfold parent_rel in H1, G1; congruence). subst z''.
        apply IH; auto. pose proof (parent_inr w b _ R z Iz). unfold parent_rel in H1. destruct Iz. unfold inr. lia. }
  destruct (G z Fx Iz Fy) as [->|[H|H]].
  - left. now left.
  - left. right. now apply (duality w b _ R Hh x y LA Hx Hy).
  - right. right. now apply (duality w b _ R Hh y x LA Hy Hx).
Qed.

(** ** Insertion *)

Definition valid (w : world) : Prop := forall x, In x (w_conf w) -> x < length (w_heap w).

Definition place (d x y : nat) : list nat := match d with 0 => [x; y] | _ => [y; x] end.

Lemma insert_place d x pre y rest : d <= 1 ->
  insert_at (length pre + d) x (pre ++ y :: rest) = pre ++ place d x y ++ rest.
Proof.
  intros Hd. destruct d as [|[|d]]; [| |lia].
  - rewrite Nat.add_0_r. cbn [place app]. apply insert_at_app.
  - cbn [place app]. replace (length pre + 1) with (length (pre ++ [y])) by (rewrite app_length; cbn; lia).
    rewrite <- (app_assoc pre [y] (x :: rest)) || idtac.
    replace (pre ++ y :: rest) with ((pre ++ [y]) ++ rest) by now rewrite <- app_assoc.
    rewrite insert_at_app. now rewrite <- app_assoc.
Qed.

Lemma insert_all_spec d f x l pre : d <= 1 ->
  insert_all d (positions f (length pre) l) x (pre ++ l)
  = pre ++ flat_map (fun y => if f y then place d x y else [y]) l.
Proof.
  intros Hd. unfold insert_all. revert pre; induction l as [|y l IH]; intros pre; cbn [positions flat_map].
  - reflexivity.
  - specialize (IH (pre ++ [y])). rewrite app_length in IH. cbn [length] in IH.
    replace (length pre + 1) with (S (length pre)) in IH by lia. rewrite <- !app_assoc in IH. cbn [app] in IH.
    destruct (f y).
    + cbn [rev]. rewrite fold_left_app. rewrite IH. cbn [fold_left].
      now rewrite insert_place.
    + rewrite IH. reflexivity.
Qed.

Lemma renumber_last i conf h k x l :
  nth_error conf k = Some x -> (forall j, k < j -> nth_error conf j <> Some x) -> nth_error h x = Some l ->
  nth_error (renumber i conf h) x = Some (set_linenum (Z.of_nat (i + k)) l).
Proof.
  revert i h k l; induction conf as [|y c IH]; intros i h k l Hk Hl Hx; [destruct k; discriminate|].
  cbn [renumber]. destruct k as [|k]; cbn [nth_error] in Hk.
  - injection Hk as ->. rewrite renumber_other.
    + rewrite upd_nth_same, Hx, Nat.add_0_r. reflexivity.
    + intros H. apply In_nth_error in H as (j & Hj). apply (Hl (S j)); [lia|exact Hj].
  - replace (i + S k) with (S i + k) by lia.
    destruct (Nat.eq_dec y x) as [->|Hne].
    + rewrite (IH (S i) _ k (set_linenum (Z.of_nat i) l) Hk); [reflexivity| |].
      * intros j Hj. apply (Hl (S j)). lia.
      * rewrite upd_nth_same, Hx. reflexivity.
    + apply IH; auto.
      * intros j Hj. apply (Hl (S j)). lia.
      * rewrite upd_nth_other; auto.
Qed.

(** Each line that does not occur again later has its position as line number. *)
Definition numbered_last (w : world) : Prop :=
  forall i x, nth_error (w_conf w) i = Some x -> (forall j, i < j -> nth_error (w_conf w) j <> Some x) ->
    linenum_of w x = Z.of_nat i.

Lemma reassign_numbered_last w : valid w -> numbered_last (reassign_linenums w).
Proof.
  intros Hv i x Hi Hl. unfold linenum_of, obj, reassign_linenums, set_heap in *. cbn [w_conf w_heap] in *.
  destruct (nth_error_lt_some (w_heap w) x) as (l & E); [apply Hv; eapply nth_error_In; eauto|].
  rewrite (renumber_last 0 _ _ i x l Hi Hl E). reflexivity.
Qed.

Definition ins_lines (d : nat) (r : regex) (v : str) (ts : list str) : list str :=
  flat_map (fun t => if hits r t then match d with 0 => [v; t] | _ => [t; v] end else [t]) ts.

Lemma alloc_old w v x : x < length (w_heap w) -> obj (fst (alloc w v)) x = obj w x.
Proof. intros H. unfold alloc, obj, set_heap. cbn [fst w_heap]. now apply nth_error_app1. Qed.
Lemma alloc_new w v :
  obj (fst (alloc w v)) (snd (alloc w v))
  = Some (new_line (o_comment (w_opts w)) (length (w_heap w)) (-1) false v).
Proof.
  unfold alloc, obj, set_heap. cbn [fst snd w_heap]. rewrite nth_error_app2 by lia. now rewrite Nat.sub_diag.
Qed.

Theorem conf_insert_spec d w from_obj r v :
  d <= 1 -> valid w ->
  blank_text v && o_ignore_blank (w_opts w) = false ->
  from_obj = true \/ rx_src r <> [] ->
  exists w', conf_insert d w from_obj r v false = Ok w' /\
    ioscfg w' = ins_lines d r (rstrip v) (ioscfg w) /\
    w_conf w' = flat_map (fun y => if hits r (text_of w y) then place d (length (w_heap w)) y else [y]) (w_conf w) /\
    objects_kept w w' /\ valid w' /\ numbered_last w' /\
    (exists l, obj w' (length (w_heap w)) = Some l /\ cl_text l = rstrip v /\ cl_indent l = text_indent v /\
       cl_comment l = text_is_comment (o_comment (w_opts w)) (rstrip v) /\
       cl_parent l = length (w_heap w) /\ cl_children l = [] /\ cl_owned l = false) /\
    length (w_heap w') = S (length (w_heap w)).
Proof.
  intros Hd Hv Hb Hs. unfold conf_insert. rewrite Hb.
  replace (negb from_obj && negb (nonempty (rx_src r))) with false.
  2:{ destruct Hs as [->|Hs]; [reflexivity|]. destruct (rx_src r); [contradiction|]. now rewrite andb_false_r. }
  destruct (alloc w v) as [w1 x] eqn:Ea.
  assert (E1 : w1 = fst (alloc w v)) by now rewrite Ea. assert (Ex : x = snd (alloc w v)) by now rewrite Ea.
  assert (Hx : x = length (w_heap w)) by (rewrite Ex; reflexivity).
  assert (Hc1 : w_conf w1 = w_conf w) by (rewrite E1; reflexivity).
  assert (Ho1 : w_opts w1 = w_opts w) by (rewrite E1; reflexivity).
  assert (Hh1 : length (w_heap w1) = S (length (w_heap w))).
  { rewrite E1. cbn. rewrite app_length. cbn. lia. }
  eexists. split; [reflexivity|].
  set (c2 := insert_all d (positions (fun y => hits r (text_of w y)) 0 (w_conf w)) x (w_conf w1)).
  assert (Hc2 : c2 = flat_map (fun y => if hits r (text_of w y) then place d x y else [y]) (w_conf w)).
  { unfold c2. rewrite Hc1. exact (insert_all_spec d _ x (w_conf w) [] Hd). }
  set (w2 := set_conf c2 w1).
  assert (Hold : forall y, y < length (w_heap w) -> obj w2 y = obj w y).
  { intros y Hy. unfold w2, obj. cbn [set_conf w_heap]. rewrite E1. now apply alloc_old. }
  assert (Hnew : obj w2 x = Some (new_line (o_comment (w_opts w)) (length (w_heap w)) (-1) false v)).
  { unfold w2, obj. cbn [set_conf w_heap]. rewrite E1, Ex. apply alloc_new. }
  assert (Hv2 : valid w2).
  { intros y Hy. unfold w2 in *. cbn [set_conf w_conf w_heap] in *. rewrite Hc2 in Hy.
    apply in_flat_map in Hy as (z & Hz & Hy). specialize (Hv z Hz). rewrite Hh1.
    destruct (hits r (text_of w z)); [destruct d|]; cbn in Hy; intuition lia. }
  split.
  { unfold ioscfg. cbn [reassign_linenums set_heap w_conf]. rewrite (map_ext _ (text_of w2)) by (intros; apply reassign_text).
    cbn [w2 set_conf w_conf]. rewrite Hc2. unfold ins_lines.
    assert (Tx : text_of w2 x = rstrip v) by (unfold text_of; rewrite Hnew; reflexivity).
    assert (G : forall l, (forall y, In y l -> y < length (w_heap w)) ->
      map (text_of w2) (flat_map (fun y => if hits r (text_of w y) then place d x y else [y]) l)
      = flat_map (fun t => if hits r t then match d with 0 => [rstrip v; t] | _ => [t; rstrip v] end else [t])
          (map (text_of w) l)).
    { clear - Hold Tx. induction l as [|y l IH]; intros Hl; cbn [flat_map map]; [reflexivity|].
      rewrite map_app, IH by (intros; apply Hl; now right). f_equal.
      assert (Ty : text_of w2 y = text_of w y) by (unfold text_of; rewrite Hold; [reflexivity|apply Hl; now left]).
      destruct (hits r (text_of w y)); [destruct d|]; cbn [place map]; now rewrite ?Tx, ?Ty. }
    exact (G _ Hv). }
  split; [cbn [reassign_linenums set_heap w_conf w2 set_conf]; rewrite Hc2, Hx; reflexivity|].
  split.
  { eapply objects_kept_trans; [|apply reassign_kept]. split.
    - cbn [w2 set_conf w_opts]. exact Ho1.
    - intros y l Hl. exists l. split; [|apply same_line_refl]. rewrite Hold; [exact Hl|].
      eapply nth_error_length_lt; exact Hl. }
  split.
  { intros y Hy. cbn [reassign_linenums set_heap w_conf w_heap] in *. rewrite renumber_length. apply Hv2. exact Hy. }
  split; [now apply reassign_numbered_last|]. split.
  - rewrite Hx in Hnew. destruct (proj2 (reassign_kept w2) _ _ Hnew) as (l & El & S).
    exists l. split; [exact El|]. destruct S as (S1 & S2 & S3 & S4 & S5 & _ & _ & S8).
    rewrite S1, S2, S3, S4, S5, S8. cbn. auto 7.
  - cbn [reassign_linenums set_heap w_heap]. rewrite renumber_length. cbn [w2 set_conf w_heap]. exact Hh1.
Qed.

Lemma kept_text w w' x l : objects_kept w w' -> obj w x = Some l -> text_of w' x = text_of w x.
Proof.
  intros [_ K] H. destruct (K x l H) as (l' & E & S). unfold text_of. rewrite H, E. apply S.
Qed.
Lemma kept_indent w w' x l : objects_kept w w' -> obj w x = Some l -> indent_of w' x = indent_of w x.
Proof.
  intros [_ K] H. destruct (K x l H) as (l' & E & S). unfold indent_of. rewrite H, E. apply S.
Qed.

Lemma iter_S {A} n (f : A -> A) x : Nat.iter (S n) f x = f (Nat.iter n f x).
Proof. reflexivity. Qed.
Lemma iter_succ_r {A} n (f : A -> A) x : Nat.iter (S n) f x = Nat.iter n f (f x).
Proof.
  induction n as [|n IH]; [reflexivity|]. rewrite iter_S, IH. reflexivity.
Qed.

Theorem insert_loop_spec d r v objs : d <= 1 -> rx_src r <> [] -> forall w,
  valid w -> blank_text v && o_ignore_blank (w_opts w) = false ->
  (forall x, In x objs -> x < length (w_heap w) /\ text_lead (text_of w x) = indent_of w x) ->
  exists w', insert_loop d w r v objs = Ok w' /\ objects_kept w w' /\ valid w' /\
    ioscfg w' = Nat.iter (length objs) (ins_lines d r (rstrip v)) (ioscfg w).
Proof.
  intros Hd Hr. induction objs as [|x objs IH]; intros w Hv Hb Ho; cbn [insert_loop].
  - exists w. split; [reflexivity|]. split; [apply objects_kept_refl|]. split; [exact Hv|reflexivity].
  - destruct (Ho x (or_introl eq_refl)) as [Hx1 Hx2]. rewrite Hx2, Nat.eqb_refl.
    destruct (conf_insert_spec d w false r v Hd Hv Hb (or_intror Hr)) as (w1 & E1 & T1 & C1 & K1 & V1 & N1 & O1 & H1).
    rewrite E1. cbn [bind]. destruct (IH w1) as (w' & E' & K' & V' & T').
    + exact V1.
    + now rewrite (proj1 K1).
    + intros y Hy. destruct (Ho y (or_intror Hy)) as [Hy1 Hy2]. split; [lia|].
      destruct (nth_error_lt_some (w_heap w) y Hy1) as (l & Hl).
      rewrite (kept_text w w1 y l K1 Hl), (kept_indent w w1 y l K1 Hl). exact Hy2.
    + exists w'. split; [exact E'|]. split; [eapply objects_kept_trans; eauto|]. split; [exact V'|].
      rewrite T', T1. cbn [length]. symmetry. apply iter_succ_r.
Qed.

Lemma iter_ins_before r v n ts : hits r v = false ->
  Nat.iter n (ins_lines 0 r v) ts = flat_map (fun t => if hits r t then repeat v n ++ [t] else [t]) ts.
Proof.
  intros Hv. induction n as [|n IH].
  - cbn [repeat app]. induction ts as [|t ts IHt]; [reflexivity|]. cbn [flat_map]. rewrite <- IHt. now destruct (hits r t).
  - rewrite iter_S, IH. clear IH. unfold ins_lines.
    induction ts as [|t ts IHt]; [reflexivity|]. cbn [flat_map]. rewrite flat_map_app, IHt. f_equal.
    destruct (hits r t) eqn:E.
    + rewrite flat_map_app. cbn [flat_map]. rewrite E, app_nil_r.
      assert (F : flat_map (fun t0 => if hits r t0 then [v; t0] else [t0]) (repeat v n) = repeat v n).
      { clear - Hv. induction n as [|n IH]; [reflexivity|]. cbn [repeat flat_map]. rewrite Hv, IH. reflexivity. }
      rewrite F. change (repeat v n ++ [v] ++ [t] = v :: (repeat v n ++ [t])).
      rewrite app_assoc, repeat_snoc. reflexivity.
    + cbn [flat_map]. now rewrite E.
Qed.

Lemma iter_ins_after r v n ts : hits r v = false ->
  Nat.iter n (ins_lines 1 r v) ts = flat_map (fun t => if hits r t then t :: repeat v n else [t]) ts.
Proof.
  intros Hv. induction n as [|n IH].
  - cbn [repeat app]. induction ts as [|t ts IHt]; [reflexivity|]. cbn [flat_map]. rewrite <- IHt. now destruct (hits r t).
  - rewrite iter_S, IH. clear IH. unfold ins_lines.
    induction ts as [|t ts IHt]; [reflexivity|]. cbn [flat_map]. rewrite flat_map_app, IHt. f_equal.
    destruct (hits r t) eqn:E.
    + cbn [flat_map]. rewrite E. cbn [app].
      assert (F : flat_map (fun t0 => if hits r t0 then [t0; v] else [t0]) (repeat v n) = repeat v n).
      { clear - Hv. induction n as [|n IH]; [reflexivity|]. cbn [repeat flat_map]. rewrite Hv, IH. reflexivity. }
      rewrite F. reflexivity.
    + cbn [flat_map]. now rewrite E.
Qed.

Lemma flat_before {A} (P : A -> Prop) (f : A -> bool) v l :
  (forall x, f x = true <-> P x) ->
  inserted_before P v l (flat_map (fun t => if f t then v ++ [t] else [t]) l).
Proof.
  intros H. induction l as [|x l IH]; cbn [flat_map]; [constructor|].
  destruct (f x) eqn:E.
  - rewrite <- app_assoc. cbn [app]. apply ib_hit; [now apply H|exact IH].
  - cbn [app]. apply ib_miss; [|exact IH]. rewrite <- H. congruence.
Qed.
Lemma flat_after {A} (P : A -> Prop) (f : A -> bool) v l :
  (forall x, f x = true <-> P x) ->
  inserted_after P v l (flat_map (fun t => if f t then t :: v else [t]) l).
Proof.
  intros H. induction l as [|x l IH]; cbn [flat_map]; [constructor|].
  destruct (f x) eqn:E.
  - cbn [app]. apply ia_hit; [now apply H|exact IH].
  - cbn [app]. apply ia_miss; [|exact IH]. rewrite <- H. congruence.
Qed.

Lemma loaded_valid w b lines : loaded w b lines -> valid w.
Proof.
  intros HL x Hx. apply (loaded_conf_inr w b lines HL) in Hx. pose proof (loaded_heap w b lines HL). destruct Hx. lia.
Qed.
