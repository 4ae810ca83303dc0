(** Empty lines before and after a configuration change nothing but the line
    numbers. *)
From Coq Require Import Ascii String Arith NArith ZArith Bool List Lia Sorting.Sorted.
From Verif Require Import PyStr PyStrFacts PyBase PyBaseFacts CfgModel TreeSpec BraceSpec WorldSpec
  TreeProofs TreePost TreeRel TreeWorld TreeBanner TreeFull CommitProofs CommitMain TreeMain FamilyProofs.
Import ListNotations.
Local Open Scope nat_scope.

Section Pad.
  Variables (s t : nat) (F : list str).
  Let G : list str := repeat [] s ++ F ++ repeat [] t.
  Let n := length F.
  Lemma pad_length : length G = s + n + t.
  Proof. unfold G. rewrite !app_length, !repeat_length. unfold n. lia. Qed.
  Lemma pad_in i : i < n -> nth_error G (s + i) = nth_error F i.
  Proof.
    intros H. unfold G. rewrite nth_error_app2; rewrite repeat_length; [|lia]. replace (s + i - s) with i by lia. now rewrite nth_error_app1.
  Qed.
  Lemma pad_out j : j < s \/ s + n <= j < s + n + t -> nth_error G j = Some [].
  Proof.
    intros H. assert (R : forall k m, k < m -> nth_error (repeat (@nil ascii) m) k = Some []) by (intros k m; revert k; induction m as [|m IH]; intros [|k] L; try lia; cbn [repeat nth_error]; [reflexivity|apply IH; lia]).
    unfold G. destruct H as [H|H].
    - rewrite nth_error_app1 by (rewrite repeat_length; lia). now apply R.
    - rewrite nth_error_app2; rewrite repeat_length; [|lia]. rewrite nth_error_app2 by (unfold n in H; lia). apply R. unfold n in H. lia.
  Qed.
  Lemma pad_nth j l : nth_error G j = Some l -> (exists i, j = s + i /\ i < n /\ nth_error F i = Some l) \/ (l = [] /\ (j < s \/ s + n <= j < s + n + t)).
  Proof.
    intros H. assert (L : j < length G) by (apply nth_error_Some; congruence). rewrite pad_length in L.
    destruct (Nat.lt_ge_cases j s) as [A|A]; [right; rewrite pad_out in H by auto; injection H as <-; auto|].
    destruct (Nat.lt_ge_cases j (s + n)) as [B|B].
    - left. exists (j - s). split; [lia|]. split; [lia|]. rewrite <- (pad_in (j - s)) by lia. now replace (s + (j - s)) with j by lia.
    - right. rewrite pad_out in H by lia. injection H as <-. split; [reflexivity|lia].
  Qed.
  Lemma pad_at i l : nth_error G (s + i) = Some l -> i < n -> nth_error F i = Some l.
  Proof. intros H L. now rewrite <- pad_in. Qed.
  Lemma pad_to i l : nth_error F i = Some l -> nth_error G (s + i) = Some l.
  Proof. intros H. rewrite pad_in; [exact H|]. apply nth_error_Some. congruence. Qed.
  Lemma nth_lt (i : nat) (l : str) : nth_error F i = Some l -> i < n.
  Proof. intros H. apply nth_error_Some. congruence. Qed.

  Lemma pad_depth k : k <= n -> depth G (s + k) = depth F k.
  Proof.
    intros H. assert (P : forall m X q, depth (repeat [] m ++ X) (m + q) = depth X q).
    { induction m as [|m IH]; intros X q; [reflexivity|]. cbn [repeat app plus depth]. rewrite IH. reflexivity. }
    unfold G. rewrite P. unfold n in H. clear P. revert k H. induction F as [|l F' IH]; intros k H; cbn [length] in H.
    - assert (k = 0) by lia. subst k. cbn [app]. now destruct (repeat [] t).
    - destruct k as [|k]; [reflexivity|]. cbn [app depth]. rewrite IH; [reflexivity|lia].
  Qed.
  Lemma depth_nil k m : depth (repeat [] m) k = 0%Z.
  Proof. revert k. induction m as [|m IH]; intros [|k]; try reflexivity. cbn [repeat depth]. rewrite IH. reflexivity. Qed.
  Lemma pad_depth_all k : exists k', depth G k = depth F k' .
  Proof.
    destruct (Nat.lt_ge_cases k s) as [A|A].
    - exists 0. assert (E : depth F 0 = 0%Z) by (destruct F; reflexivity). rewrite E. unfold G. clear -A. revert k A. induction s as [|m IH]; intros [|k] A; try lia; try reflexivity. cbn [repeat app depth]. rewrite IH by lia. reflexivity.
    - destruct (Nat.le_gt_cases k (s + n)) as [B|B]; [exists (k - s); rewrite <- pad_depth by lia; f_equal; lia|].
      exists n. rewrite <- pad_depth by lia. unfold G. replace k with (s + (n + (k - s - n))) by lia.
      assert (P : forall m X q, depth (repeat [] m ++ X) (m + q) = depth X q).
      { induction m as [|m IH]; intros X q; [reflexivity|]. cbn [repeat app plus depth]. rewrite IH. reflexivity. }
      rewrite !P. generalize (k - s - n). intros q. unfold n. clear. induction F as [|l F' IH]; cbn [app length plus].
      + rewrite !depth_nil. reflexivity.
      + cbn [depth]. now rewrite IH.
  Qed.
  Lemma pad_braces : braces_ok G <-> braces_ok F.
  Proof.
    split; intros H k.
    - destruct (Nat.le_gt_cases k n) as [A|A]; [rewrite <- pad_depth by exact A; apply H|].
      assert (E : depth F k = depth F n). { unfold n in *. clear H G. revert k A. induction F as [|l F' IH]; intros [|k] A; try reflexivity; cbn [length] in *; [lia|]. cbn [depth]. now rewrite IH by lia. }
      rewrite E, <- pad_depth by lia. apply H.
    - destruct (pad_depth_all k) as (k' & ->). apply H.
  Qed.
  Lemma pad_macros : macros_ok G <-> macros_ok F.
  Proof.
    split; intros H p l Hp Sp.
    - destruct (H (s + p) l (pad_to _ _ Hp) Sp) as (j & lj & Hj & Hn & E). apply pad_nth in Hn as [(i & -> & L & Hn)|[-> _]]; [|discriminate E]. exists i, lj. split; [lia|now split].
    - apply pad_nth in Hp as [(i & -> & L & Hp)|[-> _]]; [|discriminate Sp]. destruct (H i l Hp Sp) as (j & lj & Hj & Hn & E). exists (s + j), lj. split; [lia|]. split; [now apply pad_to|exact E].
  Qed.

  Lemma pad_banner p i d : i <= n -> (banner_open G p (s + i) d <-> exists p', p = s + p' /\ banner_open F p' i d).
  Proof.
    intros L. split.
    - intros (H1 & (l & H2 & H3 & H4) & H5). apply pad_nth in H2 as [(p' & -> & Lp & H2)|[-> _]]; [|discriminate H3]. exists p'. split; [reflexivity|].
      split; [lia|]. split; [exists l; now split|]. intros k lk Hk Hn. apply (H5 (s + k) lk); [lia|now apply pad_to].
    - intros (p' & -> & H1 & (l & H2 & H3) & H5). split; [lia|]. split; [exists l; split; [now apply pad_to|exact H3]|]. intros k lk Hk Hn.
      apply pad_nth in Hn as [(k' & -> & Lk & Hn)|[-> [A|A]]]; [apply (H5 k' lk); [lia|exact Hn]|lia|lia].
  Qed.
  Lemma pad_macro p i : i <= n -> (in_macro G p (s + i) <-> exists p', p = s + p' /\ in_macro F p' i).
  Proof.
    intros L. split.
    - intros (H1 & (l & H2 & H3) & H5). apply pad_nth in H2 as [(p' & -> & Lp & H2)|[-> _]]; [|discriminate H3]. exists p'. split; [reflexivity|].
      split; [lia|]. split; [exists l; now split|]. intros k lk Hk Hn. apply (H5 (s + k) lk); [lia|now apply pad_to].
    - intros (p' & -> & H1 & (l & H2 & H3) & H5). split; [lia|]. split; [exists l; split; [now apply pad_to|exact H3]|]. intros k lk Hk Hn.
      apply pad_nth in Hn as [(k' & -> & Lk & Hn)|[-> [A|A]]]; [apply (H5 k' lk); [lia|exact Hn]|lia|lia].
  Qed.
  Lemma pad_near d j p : (exists i, j = s + i /\ exists p', p = s + p' /\ nearest_shallower d F i p') <-> nearest_shallower d G j p.
  Proof.
    split.
    - intros (i & -> & p' & -> & li & lj & H1 & H2 & H3 & H4 & H5 & H6). exists li, lj. split; [now apply pad_to|]. split; [now apply pad_to|]. split; [lia|]. split; [exact H4|]. split; [exact H5|].
      intros k lk Hk Hn. apply pad_nth in Hn as [(k' & -> & Lk & Hn)|[-> _]]; [apply (H6 k'); [lia|exact Hn]|discriminate].
    - intros (li & lj & H1 & H2 & H3 & H4 & H5 & H6). apply pad_nth in H1 as [(i & -> & L1 & H1)|[-> _]]; [|cbn in H5; lia]. apply pad_nth in H2 as [(p' & -> & L2 & H2)|[-> _]]; [|discriminate H4].
      exists i. split; [reflexivity|]. exists p'. split; [reflexivity|]. exists li, lj. split; [exact H1|]. split; [exact H2|]. split; [lia|]. split; [exact H4|]. split; [exact H5|].
      intros k lk Hk Hn. apply (H6 (s + k)); [lia|now apply pad_to].
  Qed.
  Lemma pad_below d i : i < n -> (comment_below_deeper d G (s + i) <-> comment_below_deeper d F i).
  Proof.
    intros L. split.
    - intros (li & lp & H1 & H2 & H3 & H4 & H5). apply pad_at in H1; [|exact L]. destruct i as [|i].
      + exfalso. assert (0 < s) by lia. rewrite (pad_out (s + 0 - 1)) in H2 by lia. injection H2 as <-. cbn in H5. lia.
      + replace (s + S i - 1) with (s + i) in H2 by lia. apply pad_at in H2; [|lia]. exists li, lp. replace (S i - 1) with i by lia. repeat split; auto. lia.
    - intros (li & lp & H1 & H2 & H3 & H4 & H5). exists li, lp. split; [now apply pad_to|]. split; [|split; [lia|now split]]. replace (s + i - 1) with (s + (i - 1)) by lia. now apply pad_to.
  Qed.
  Lemma pad_tree d i p : i < n -> (tree_parent d G (s + i) p <-> exists p', p = s + p' /\ tree_parent d F i p').
  Proof.
    intros L. unfold tree_parent. rewrite (pad_below d i L). split.
    - intros [[A B]|(-> & A & B)].
      + apply pad_near in A as (i' & E & p' & -> & A). assert (i' = i) by lia. subst i'. exists p'. split; [reflexivity|]. now left.
      + exists i. split; [reflexivity|]. right. split; [reflexivity|]. split; [exact L|]. destruct B as [B|B]; [left|now right]. intros j Hj. apply (B (s + j)). apply pad_near. eauto.
    - intros (p' & -> & [[A B]|(-> & A & B)]).
      + left. split; [|exact B]. apply pad_near. eauto.
      + right. split; [reflexivity|]. split; [rewrite pad_length; lia|]. destruct B as [B|B]; [left|now right]. intros j Hj. apply pad_near in Hj as (i' & E & p' & -> & Hj). assert (i' = i) by lia. subst i'. now apply (B p').
  Qed.
  Lemma pad_closer i : i < n -> (closer G (s + i) <-> closer F i).
  Proof. intros L. unfold closer. split; intros (l & H & R); exists l; (split; [|exact R]); [now apply pad_at|now apply pad_to]. Qed.
  Lemma pad_closes i p : i < n -> (closes_block G p (s + i) <-> exists p', p = s + p' /\ closes_block F p' i).
  Proof.
    intros L. unfold closes_block. rewrite pad_closer by exact L. split.
    - intros (H1 & (l & H2 & H3) & H4 & H5 & H6). apply pad_nth in H2 as [(p' & -> & Lp & H2)|[-> _]]; [|discriminate H3]. exists p'. split; [reflexivity|].
      split; [lia|]. split; [eauto|]. split; [exact H4|]. replace (S (s + p')) with (s + S p') in * by lia. rewrite !pad_depth in H5 by lia. split; [exact H5|].
      intros k Hk. rewrite <- !pad_depth by lia. apply H6. lia.
    - intros (p' & -> & H1 & (l & H2 & H3) & H4 & H5 & H6). split; [lia|]. split; [exists l; split; [now apply pad_to|exact H3]|]. split; [exact H4|].
      replace (S (s + p')) with (s + S p') in * by lia. rewrite !pad_depth by lia. split; [exact H5|]. intros k Hk. replace k with (s + (k - s)) by lia. rewrite !pad_depth by lia. apply H6. lia.
  Qed.
  Lemma pad_last (R S : nat -> nat -> Prop) i p : (forall q, R q (s + i) <-> exists q', q = s + q' /\ S q' i) ->
    (last_cover R (s + i) p <-> exists p', p = s + p' /\ last_cover S i p').
  Proof.
    intros E. unfold last_cover. split.
    - intros [H1 H2]. apply E in H1 as (p' & -> & H1). exists p'. split; [reflexivity|]. split; [exact H1|]. intros q Hq HS. apply (H2 (s + q)); [lia|]. apply E. eauto.
    - intros (p' & -> & H1 & H2). split; [apply E; eauto|]. intros q Hq HR. apply E in HR as (q' & -> & HS). apply (H2 q'); [lia|exact HS].
  Qed.
  Lemma pad_no (R S : nat -> nat -> Prop) i : (forall q, R q (s + i) <-> exists q', q = s + q' /\ S q' i) -> (no_cover R (s + i) <-> no_cover S i).
  Proof.
    intros E. unfold no_cover. split; intros H q Hq.
    - apply (H (s + q)). apply E. eauto.
    - apply E in Hq as (q' & -> & Hq). now apply (H q').
  Qed.
  Lemma pad_in_banner i q : i <= n -> (in_banner G q (s + i) <-> exists q', q = s + q' /\ in_banner F q' i).
  Proof.
    intros L. unfold in_banner. split; [intros (d & H); apply pad_banner in H as (q' & -> & H); eauto|]. intros (q' & -> & d & H). exists d. apply pad_banner; eauto.
  Qed.
  Lemma pad_parent o i p : i < n -> (full_parent o G (s + i) p <-> exists p', p = s + p' /\ full_parent o F i p').
  Proof.
    intros L. unfold full_parent.
    assert (EM : forall q, (o_syntax o = Ios /\ in_macro G q (s + i)) <-> exists q', q = s + q' /\ (o_syntax o = Ios /\ in_macro F q' i)).
    { intros q. split; [intros [A B]; apply pad_macro in B as (q' & -> & B); [eauto|lia]|]. intros (q' & -> & A & B). split; [exact A|]. apply pad_macro; [lia|eauto]. }
    assert (EB : forall q, (o_syntax o <> Junos /\ in_banner G q (s + i)) <-> exists q', q = s + q' /\ (o_syntax o <> Junos /\ in_banner F q' i)).
    { intros q. split; [intros [A B]; apply pad_in_banner in B as (q' & -> & B); [eauto|lia]|]. intros (q' & -> & A & B). split; [exact A|]. apply pad_in_banner; [lia|eauto]. }
    pose proof (pad_last (fun q j => o_syntax o = Ios /\ in_macro G q j) (fun q j => o_syntax o = Ios /\ in_macro F q j) i p EM) as P1.
    pose proof (pad_no (fun q j => o_syntax o = Ios /\ in_macro G q j) (fun q j => o_syntax o = Ios /\ in_macro F q j) i EM) as P2.
    pose proof (pad_last (fun q j => o_syntax o <> Junos /\ in_banner G q j) (fun q j => o_syntax o <> Junos /\ in_banner F q j) i p EB) as P3.
    pose proof (pad_no (fun q j => o_syntax o <> Junos /\ in_banner G q j) (fun q j => o_syntax o <> Junos /\ in_banner F q j) i EB) as P4.
    cbv zeta. rewrite P1, P2, P3, P4, (pad_closes i p L), (pad_closer i L), (pad_tree _ i p L). clear P1 P2 P3 P4.
    split.
    - intros [(p' & -> & H)|[N [(p' & -> & H)|[N2 [(p' & -> & H)|[N3 (p' & -> & H)]]]]]]; exists p'; (split; [reflexivity|]); auto 8.
    - intros (p' & -> & [H|[N [H|[N2 [H|[N3 H]]]]]]); [left|right; split; [exact N|left]|right; split; [exact N|right; split; [exact N2|left]]|right; split; [exact N|right; split; [exact N2|right; split; [exact N3|]]]]; eauto.
  Qed.
  Hypothesis HB : 0 < t -> forall p, ~ in_banner F p n.
  (** A banner or macro does not reach the empty lines. *)
  Lemma pad_banner_at p j : j < s + n + t -> in_banner G p j -> exists i, j = s + i /\ i < n.
  Proof.
    intros L (d & H). destruct (Nat.lt_ge_cases j s) as [A|A].
    - exfalso. destruct H as (H1 & (l & H2 & H3 & _) & _). apply pad_nth in H2 as [(p' & -> & _)|[-> _]]; [lia|discriminate H3].
    - destruct (Nat.lt_ge_cases j (s + n)) as [B|B]; [exists (j - s); lia|]. exfalso.
      assert (P : p < s + n) by (destruct H as (_ & (l & H2 & H3 & _) & _); apply pad_nth in H2 as [(p' & -> & ? & _)|[-> _]]; [lia|discriminate H3]).
      assert (E : banner_open G p (s + n) d) by (destruct H as (H1 & H2 & H3); split; [lia|]; split; [exact H2|]; intros k lk Hk; apply H3; lia).
      apply pad_banner in E as (p' & -> & E); [|lia]. apply (HB ltac:(lia) p'). now exists d.
  Qed.
  Lemma pad_macro_at p j : macros_ok F -> j < s + n + t -> in_macro G p j -> exists i, j = s + i /\ i < n.
  Proof.
    intros M L H. destruct (Nat.lt_ge_cases j s) as [A|A].
    - exfalso. destruct H as (H1 & (l & H2 & H3) & _). apply pad_nth in H2 as [(p' & -> & _)|[-> _]]; [lia|discriminate H3].
    - destruct (Nat.lt_ge_cases j (s + n)) as [B|B]; [exists (j - s); lia|]. exfalso.
      destruct H as (_ & (l & H2 & H3) & H4). apply pad_nth in H2 as [(p' & -> & Lp & H2)|[-> _]]; [|discriminate H3].
      destruct (M p' l H2 H3) as (k & lk & Hk & Hn & E). apply (H4 (s + k) lk); [apply nth_lt in Hn; lia|now apply pad_to|exact E].
  Qed.

  Lemma pad_kept o j : o_ignore_blank o = true -> (o_syntax o = Ios -> macros_ok F) -> (line_kept o G j <-> exists i, j = s + i /\ line_kept o F i).
  Proof.
    intros Ib M. split.
    - intros (l & Hl & K). assert (Lj : j < s + n + t) by (rewrite <- pad_length; apply nth_error_Some; congruence).
      assert (X : exists i, j = s + i /\ i < n).
      { destruct K as [K|[K|[[_ (p & K)]|[Hs (p & K)]]]]; [congruence| |eapply pad_banner_at; eauto|eapply pad_macro_at; eauto].
        apply pad_nth in Hl as [(i & -> & Li & _)|[-> _]]; [eauto|discriminate]. }
      destruct X as (i & -> & Li). exists i. split; [reflexivity|]. exists l. split; [now apply pad_at|]. destruct K as [K|[K|[[Hs (p & K)]|[Hs (p & K)]]]]; auto.
      + apply pad_in_banner in K as (p' & -> & K); [|lia]. right. right. left. eauto.
      + apply pad_macro in K as (p' & -> & K); [|lia]. right. right. right. eauto.
    - intros (i & -> & l & Hl & K). pose proof (nth_lt _ _ Hl) as Li. exists l. split; [now apply pad_to|]. destruct K as [K|[K|[[Hs (p & K)]|[Hs (p & K)]]]]; auto.
      + right. right. left. split; [exact Hs|]. exists (s + p). apply pad_in_banner; [lia|eauto].
      + right. right. right. split; [exact Hs|]. exists (s + p). apply pad_macro; [lia|eauto].
  Qed.
End Pad.

Definition padded (s t : nat) (F : list str) : list str := repeat [] s ++ F ++ repeat [] t.
Theorem pad_load s t F w b w' b' : loaded w b F -> loaded w' b' (padded s t F) -> w_opts w' = w_opts w -> o_ignore_blank (w_opts w) = true ->
  (0 < t -> forall p, ~ in_banner F p (length F)) -> ioscfg w' = ioscfg w /\ same_tree w w'.
Proof.
  intros HL HL' Eo Ib HB. set (o := w_opts w) in *.
  assert (OK : braces_ok F /\ (o_syntax o = Ios -> macros_ok F)).
  { destruct (loaded_boot w b F HL) as (objs & B & _). pose proof (bootstrap_full o F) as Q. unfold o in Q. rewrite B in Q. destruct Q as (Q1 & Q2 & _). now split. }
  destruct OK as [_ M].
  destruct (loaded_text w b F HL) as (ks & S1 & K1 & C1 & I1). destruct (loaded_text w' b' _ HL') as (ks' & S2 & K2 & C2 & I2). rewrite Eo in K2. fold o in K1.
  assert (Ek : ks' = map (Nat.add s) ks).
  { apply lt_sorted_unique; [exact S2| |].
    - clear -S1. induction S1 as [|x l S IH Fx]; cbn [map]; constructor; auto. apply Forall_map. eapply Forall_impl; [|exact Fx]. cbn beta. intros; lia.
    - intros j. rewrite K2, (pad_kept s t F HB o j Ib M), in_map_iff. split; [intros (i & -> & H); exists i; split; [reflexivity|now apply K1]|intros (i & <- & H); exists i; split; [reflexivity|now apply K1]]. }
  assert (Kin : forall i, In i ks -> i < length F) by (intros i Hi; apply K1 in Hi as (l & Hl & _); apply nth_error_Some; congruence).
  split.
  { rewrite I1, I2, Ek, map_map. apply map_ext_in. intros i Hi. f_equal. destruct (nth_error_lt_some F i (Kin i Hi)) as (l & Hl).
    rewrite (nth_error_nth _ _ _ Hl). apply nth_error_nth. now apply (pad_to s t F). }
  exists (fun x => b' + (s + (x - b))). split.
  { rewrite C1, C2, Ek, !map_map. apply map_ext. intros i. lia. }
  split.
  { rewrite C2. apply FinFun.Injective_map_NoDup; [intros x y; lia|]. clear -S2. induction S2 as [|x l S IH Fx]; constructor; auto. intros K. rewrite Forall_forall in Fx. specialize (Fx x K). lia. }
  intros x Hx. rewrite C1 in Hx. apply in_map_iff in Hx as (i & <- & Hi). destruct (nth_error_lt_some F i (Kin i Hi)) as (l & Hl). pose proof (Kin i Hi) as Li.
  destruct (loaded_obj w b F HL i l Hl) as (o1 & O1 & T1 & _ & T2 & T3 & (p & P1 & P2) & Ch & _). fold o in P2, T3, Ch.
  destruct (loaded_obj w' b' _ HL' (s + i) l (pad_to s t F _ _ Hl)) as (o2 & O2 & U1 & _ & U2 & U3 & (p2 & R1 & R2) & Ch2 & _). rewrite Eo in R2, U3, Ch2.
  replace (b + i - b) with i by lia. exists o1, o2. split; [exact O1|]. split; [exact O2|]. split; [congruence|]. split; [congruence|]. split; [congruence|].
  assert (InC : forall j, line_kept o F j -> In (b + j) (w_conf w)) by (intros j Hj; rewrite C1; apply in_map, K1, Hj).
  apply (pad_parent s t F o i p2 Li) in R2 as (p' & -> & R2).
  assert (Ep : p' = p) by (eapply full_parent_unique; eauto). subst p'.
  split; [rewrite R1, P1; lia|]. split; [rewrite P1; apply InC; eapply full_parent_kept; eauto; now apply K1|].
  assert (CK : forall j, j < length F -> ((tree_parent (o_comment o) F j i /\ j <> i) \/ (o_syntax o <> Junos /\ in_banner F i j) \/ (o_syntax o = Ios /\ in_macro F i j)) -> line_kept o F j).
  { intros j Lj [[A B]|[[A B]|[A B]]]; [eapply tree_child_kept; eauto| |]; destruct (nth_error_lt_some F j Lj) as (lj & Hlj); exists lj; (split; [exact Hlj|]); eauto 8. }
  split.
  { intros c Hc. apply Ch in Hc as (j & -> & Lj & H). apply InC, CK; auto. }
  intros c. rewrite Ch2. split.
  - intros (j & -> & Lj & H). unfold padded in Lj. rewrite pad_length in Lj.
    assert (X : exists j', j = s + j' /\ j' < length F).
    { destruct H as [[[[A _]|(A & _)] B]|[[_ A]|[Hs A]]]; [|congruence|exact (pad_banner_at s t F HB _ _ Lj A)|exact (pad_macro_at s t F HB _ _ (M Hs) Lj A)].
      apply (pad_near s t F) in A as (j' & -> & p' & _ & A). exists j'. split; [reflexivity|]. destruct A as (? & ? & A & _). apply nth_error_Some. congruence. }
    destruct X as (j' & -> & Lj'). exists (b + j'). split; [|lia]. apply Ch. exists j'. split; [reflexivity|]. split; [exact Lj'|].
    destruct H as [[A B]|[[Hs A]|[Hs A]]].
    + apply pad_tree in A as (p' & E & A); [|exact Lj']. assert (p' = i) by lia. subst p'. left. split; [exact A|lia].
    + apply pad_in_banner in A as (p' & E & A); [|lia]. assert (p' = i) by lia. subst p'. auto.
    + apply pad_macro in A as (p' & E & A); [|lia]. assert (p' = i) by lia. subst p'. auto.
  - intros (c0 & Hc & ->). apply Ch in Hc as (j & -> & Lj & H). exists (s + j). split; [lia|]. split; [unfold padded; rewrite pad_length; lia|].
    destruct H as [[A B]|[[Hs A]|[Hs A]]].
    + left. split; [apply pad_tree; eauto|lia].
    + right. left. split; [exact Hs|]. apply pad_in_banner; [lia|eauto].
    + right. right. split; [exact Hs|]. apply pad_macro; [lia|eauto].
Qed.
Lemma pad_reboot s t F o : match reboot (mkW o [] []) (padded s t F), reboot (mkW o [] []) F with
  | Ok _, Ok _ => True | Err e, Err e' => e = e' | _, _ => False end.
Proof.
  unfold reboot. cbn [w_opts w_heap]. pose proof (bootstrap_full o F) as B. pose proof (bootstrap_full o (padded s t F)) as B'.
  pose proof (pad_braces s t F) as Q1. pose proof (pad_macros s t F) as Q2. fold (padded s t F) in Q1, Q2.
  destruct (bootstrap o F) as [[? ?]|e], (bootstrap o (padded s t F)) as [[? ?]|e']; cbn [bind]; auto.
  - destruct B as (B1 & B2 & _), B' as [[_ N]|(_ & _ & Hs & N)]; [apply N, Q1, B1|apply N, Q2, B2, Hs].
  - destruct B' as (B1 & B2 & _), B as [[_ N]|(_ & _ & Hs & N)]; [apply N, Q1, B1|apply N, Q2, B2, Hs].
  - destruct B as [[-> N]|(-> & N1 & _)], B' as [[-> N']|(-> & N1' & _)]; auto; exfalso; [apply N, Q1, N1'|apply N', Q1, N1].
Qed.
