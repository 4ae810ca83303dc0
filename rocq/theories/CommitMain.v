(** commit() keeps the text and the tree; commit() is a fresh parse of the text. *)
From Coq Require Import Ascii String Arith NArith ZArith Bool List Lia Sorting.Sorted.
From Verif Require Import PyStr PyStrFacts PyBase PyBaseFacts CfgModel TreeSpec BraceSpec WorldSpec
  TreeProofs TreePost TreeRel TreeWorld TreeBanner TreeFull CommitProofs.
Import ListNotations.
Local Open Scope nat_scope.

Lemma last_cover_unique R j p q : last_cover R j p -> last_cover R j q -> p = q.
Proof.
  intros [H1 H2] [H3 H4]. destruct (Nat.lt_trichotomy p q) as [H|[H|H]]; [|exact H|].
  - exfalso. exact (H2 q H H3).
  - exfalso. exact (H4 p H H1).
Qed.

Theorem full_parent_unique o lines j p q :
  full_parent o lines j p -> full_parent o lines j q -> p = q.
Proof.
  unfold full_parent. cbv zeta.
  intros [A|[A [B|[B [C|[C D]]]]]] [A'|[A' [B'|[B' [C'|[C' D']]]]]];
    try (eapply last_cover_unique; eassumption);
    try (exfalso; first [eapply A'; apply A | eapply A; apply A' | eapply B'; apply B | eapply B; apply B']).
  - eapply closes_block_unique; eassumption.
  - exfalso. apply C'. apply C.
  - exfalso. apply C. apply C'.
  - eapply tree_parent_unique; eassumption.
Qed.

Lemma near_nonblank d lines i j l :
  nearest_shallower d lines i j -> nth_error lines i = Some l -> blank l = false.
Proof.
  intros (li & lj & Hi & _ & _ & _ & Hind & _) Hl. rewrite Hl in Hi. injection Hi as <-.
  unfold line_indent in Hind. destruct (blank l); [lia|reflexivity].
Qed.

Lemma kept_nonblank_line o lines i l :
  nth_error lines i = Some l -> blank l = false -> line_kept o lines i.
Proof. intros H1 H2. exists l. tauto. Qed.

Lemma opening_nonblank l : opening_line l = true -> blank l = false.
Proof.
  intros H. destruct (blank l) eqn:E; [|reflexivity]. apply blank_rstrip in E.
  rewrite <- opening_line_rstrip, E in H. discriminate.
Qed.

Lemma banner_start_kept o lines p j : in_banner lines p j -> line_kept o lines p.
Proof.
  intros (c & _ & (l & Hl & Hb & _) & _). apply (kept_nonblank_line o lines p l Hl).
  destruct (blank l) eqn:E; [|reflexivity]. rewrite (blank_not_banner l E) in Hb. discriminate.
Qed.

Lemma macro_start_kept o lines p j : in_macro lines p j -> line_kept o lines p.
Proof.
  intros (_ & (l & Hl & Hb) & _). apply (kept_nonblank_line o lines p l Hl).
  destruct (blank l) eqn:E; [|reflexivity]. rewrite (blank_not_macro l E) in Hb. discriminate.
Qed.

Lemma tree_parent_kept o d lines i p : tree_parent d lines i p -> line_kept o lines i -> line_kept o lines p.
Proof.
  intros [[(li & lj & Hi & Hj & _ & Hc & _) _]|(-> & _)] Hk; [|exact Hk].
  apply (kept_nonblank_line o lines p lj Hj). unfold config_line in Hc.
  destruct (blank lj); [discriminate|reflexivity].
Qed.

(** The parent of a line of the configuration is in the configuration. *)
Theorem full_parent_kept o lines i p :
  full_parent o lines i p -> line_kept o lines i -> line_kept o lines p.
Proof.
  intros [A|[_ [B|[_ [C|[_ D]]]]]] Hk.
  - eapply macro_start_kept. apply A.
  - eapply banner_start_kept. apply B.
  - destruct C as (_ & (l & Hl & Ho) & _). eapply kept_nonblank_line; eauto. now apply opening_nonblank.
  - eapply tree_parent_kept; eauto.
Qed.

Lemma tree_child_kept o d lines c j : tree_parent d lines c j -> c <> j -> line_kept o lines c.
Proof.
  intros [[H _]|(-> & _)] Hne; [|congruence].
  assert (exists l, nth_error lines c = Some l) as (l & Hl) by (destruct H as (l & ? & ? & _); eauto).
  eapply kept_nonblank_line; eauto. eapply near_nonblank; eauto.
Qed.

Lemma nth_true_map {A} (f : A -> bool) l i :
  nth_error (map f l) i = Some true <-> exists x, nth_error l i = Some x /\ f x = true.
Proof.
  rewrite nth_error_map_iff. destruct (nth_error l i) as [x|]; cbn.
  - split; [intros E; injection E as E; eauto|]. intros (y & E & H). injection E as E. rewrite E. now rewrite H.
  - split; [discriminate|]. intros (y & E & _). discriminate.
Qed.

Lemma positions_in {A} (f : A -> bool) l x :
  In x (positions f 0 l) <-> exists y, nth_error l x = Some y /\ f y = true.
Proof.
  rewrite positions_spec. rewrite Nat.sub_0_r. split.
  - intros (y & H1 & H2 & _). eauto.
  - intros (y & H1 & H2). exists y. repeat split; auto. lia.
Qed.

Lemma bootstrap_ok o lines :
  braces_ok lines -> (o_syntax o = Ios -> macros_ok lines) ->
  exists objs kept, bootstrap o lines = Ok (objs, kept).
Proof.
  intros H1 H2. pose proof (bootstrap_full o lines) as B.
  destruct (bootstrap o lines) as [[objs kept]|e]; [eauto|].
  destruct B as [[_ B]|(_ & _ & Hs & B)]; [tauto|]. exfalso. auto.
Qed.

Lemma positions_all {A} (f : A -> bool) l b :
  (forall x, In x l -> f x = true) -> positions f b l = seq b (length l).
Proof.
  revert b; induction l as [|x l IH]; intros b H; cbn; [reflexivity|].
  rewrite (H x) by now left. f_equal. apply IH. intros y Hy. apply H. now right.
Qed.

Lemma positions_rank {A} (f : A -> bool) l pre :
  map (rank (map f (pre ++ l))) (positions f (length pre) l)
  = seq (rank (map f (pre ++ l)) (length pre)) (length (filter f l)).
Proof.
  revert pre; induction l as [|x l IH]; intros pre; [reflexivity|].
  specialize (IH (pre ++ [x])). rewrite <- app_assoc in IH. cbn [app] in IH.
  rewrite app_length in IH. cbn [length] in IH. rewrite Nat.add_1_r in IH.
  cbn [positions filter].
  assert (E : rank (map f (pre ++ x :: l)) (S (length pre))
              = (if f x then 1 else 0) + rank (map f (pre ++ x :: l)) (length pre)).
  { clear. induction pre as [|y pre IH].
    - cbn [app map length]. rewrite rank_0. cbn [rank]. rewrite rank_0. reflexivity.
    - cbn [app map length].
      change (rank (f y :: map f (pre ++ x :: l)) (S (S (length pre))))
        with ((if f y then 1 else 0) + rank (map f (pre ++ x :: l)) (S (length pre))).
      rewrite IH. cbn [rank]. lia. }
  destruct (f x) eqn:Ef.
  - cbn [map length seq]. f_equal. rewrite IH, E. reflexivity.
  - rewrite IH, E. reflexivity.
Qed.

Lemma filter_all {A} (f : A -> bool) l : (forall x, In x l -> f x = true) -> filter f l = l.
Proof.
  induction l as [|x l IH]; intros H; cbn; [reflexivity|]. rewrite (H x) by now left.
  f_equal. apply IH. intros y Hy. apply H. now right.
Qed.

Section Commit.
  Variables (w0 w : world) (L : list str).
  Let o := w_opts w0.
  Hypothesis HR : reboot w0 L = Ok w.
  Hypothesis HM : no_bare_macro o L.

  Theorem commit_text : exists w', commit w = Ok w' /\ ioscfg w' = ioscfg w /\
    (no_comment_after_dropped o L -> same_tree w w').
  Proof.
    destruct (reboot_conf _ _ _ HR) as (objs & B & Hconf). fold o in B, Hconf.
    pose proof (bootstrap_full o L) as F. rewrite B in F. destruct F as (F1 & F2 & F3).
    pose proof (bootstrap_length _ _ _ _ B) as Hlen.
    set (bs := map (stays o) objs).
    assert (Hbl : length bs = length L) by (unfold bs; now rewrite map_length).
    assert (Hkept : forall i, kept_at bs i <-> line_kept o L i).
    { intros i. unfold kept_at, bs. rewrite nth_true_map. split.
      - intros (l & Hl & Hs). now apply (F3 i l Hl).
      - intros Hk. assert (i < length objs).
        { destruct Hk as (l & Hl & _). apply nth_error_length_lt in Hl. lia. }
        destruct (nth_error_lt_some objs i H) as (l & Hl). exists l. split; [exact Hl|].
        now apply (F3 i l Hl). }
    assert (Hdrop : forall i l, nth_error bs i = Some false -> nth_error L i = Some l -> blank l = true).
    { intros i l Hb Hl. destruct (blank l) eqn:E; [reflexivity|].
      assert (K : kept_at bs i) by (apply Hkept; eapply kept_nonblank_line; eauto).
      unfold kept_at in K. congruence. }
    assert (HK : ioscfg w = sel bs (map rstrip L)).
    { rewrite (reboot_ioscfg _ _ _ _ _ B HR). fold o. rewrite <- sel_filter, <- sel_map. fold bs. f_equal.
      apply nth_error_ext. intros i. rewrite !nth_error_map_iff.
      destruct (nth_error objs i) as [l|] eqn:El.
      - destruct (bootstrap_static _ _ _ _ _ _ B El) as (line & Hline & E & _). cbn [option_map]. now rewrite Hline, E.
      - apply nth_error_None in El. cbn. rewrite (proj2 (nth_error_None L i)) by lia. reflexivity. }
    set (K := sel bs (map rstrip L)) in *.
    assert (HMs : o_syntax o = Ios -> Forall macro_stable L).
    { intros Hs. apply Forall_forall. intros l Hl. apply macro_stable_iff. now apply HM. }
    destruct (bootstrap_ok o K) as (objs' & kept' & B').
    { now apply (braces_ok_embed L bs Hbl Hdrop). }
    { intros Hs. apply (macros_ok_embed L bs Hbl Hdrop); auto. }
    pose proof (bootstrap_full o K) as F'. rewrite B' in F'. destruct F' as (_ & _ & F').
    pose proof (bootstrap_length _ _ _ _ B') as Hlen'.
    assert (Hwo : w_opts w = o).
    { destruct (reboot_inv _ _ _ HR) as (? & ? & _ & ->). reflexivity. }
    destruct (commit w) as [w'|] eqn:C; cycle 1.
    { exfalso. unfold commit, reboot in C. rewrite HK, Hwo, B' in C. discriminate C. }
    exists w'. split; [reflexivity|].
    assert (HR' : reboot w K = Ok w') by (rewrite <- HK; exact C).
    (* every line of K is kept *)
    assert (HallK : forall a, a < length K -> line_kept o K a).
    { intros a Ha. destruct (nth_error_lt_some K a Ha) as (t & Ht).
      destruct (K_inv L bs _ _ Ht) as (i & l & Ki & Hl & -> & <-).
      apply Hkept in Ki as Ki'. destruct Ki' as (l' & Hl' & Hc). rewrite Hl in Hl'. injection Hl' as <-.
      exists (rstrip l). split; [exact Ht|]. rewrite blank_rstrip_eq.
      destruct Hc as [Hc|[Hc|[[Hs (p & Hp)]|[Hs (p & Hp)]]]]; auto.
      - right; right; left. split; [exact Hs|].
        destruct (banner_embed L bs Hbl Hdrop p i Ki Hp) as [_ Hp']. eauto.
      - right; right; right. split; [exact Hs|].
        destruct (macro_embed L bs Hbl Hdrop (HMs Hs) p i Ki Hp) as [_ Hp']. eauto. }
    assert (Hst' : forall l', In l' objs' -> stays o l' = true).
    { intros l' Hl'. apply In_nth_error in Hl' as (a & Ha). apply (F' a l' Ha). apply HallK.
      apply nth_error_length_lt in Ha. lia. }
    assert (Hio : ioscfg w' = K).
    { assert (B'' : bootstrap (w_opts w) K = Ok (objs', kept')) by now rewrite Hwo.
      rewrite (reboot_ioscfg _ _ _ _ _ B'' HR'), Hwo.
      rewrite (filter_all _ _ Hst').
      apply nth_error_ext. intros a. rewrite nth_error_map_iff.
      destruct (nth_error objs' a) as [l'|] eqn:El.
      - destruct (bootstrap_static _ _ _ _ _ _ B' El) as (t & Ht & E & _). cbn [option_map]. rewrite Ht, E.
        destruct (K_inv L bs _ _ Ht) as (i & l & _ & _ & -> & _). cbn. now rewrite rstrip_idem.
      - apply nth_error_None in El. cbn. rewrite (proj2 (nth_error_None K a)) by lia. reflexivity. }
    split; [now rewrite Hio|].
    intros HA.
    assert (CA : comments_anchored L bs (o_comment o)).
    { intros i l Hl Hc. apply Hkept. eapply HA; eauto. }
    set (b := length (w_heap w0)). set (b' := length (w_heap w)).
    exists (fun x => b' + rank bs (x - b)).
    destruct (reboot_conf _ _ _ HR') as (objs'' & B'' & Hconf').
    rewrite Hwo, B' in B''. injection B'' as <- Ek. subst kept'. rewrite Hwo in Hconf'. fold b b' in Hconf, Hconf'.
    assert (HlenK : length K = length (filter (stays o) objs)).
    { unfold K, bs. rewrite <- (sel_filter (stays o) objs).
      assert (G : forall (g : list bool) (x : list str) (y : list cfgline), length x = length y -> length (sel g x) = length (sel g y)).
      { induction g as [|c g IHg]; intros [|x1 x] [|y1 y] Hxy; try discriminate; try reflexivity.
        cbn in *. destruct c; cbn; auto. }
      apply G. rewrite map_length. lia. }
    split.
    { rewrite Hconf, Hconf', map_map.
      rewrite (positions_all _ _ _ Hst'), Hlen', HlenK.
      pose proof (positions_rank (stays o) objs []) as PR. cbn [app length] in PR. rewrite rank_0 in PR.
      rewrite <- PR, map_map. apply map_ext. intros i. fold bs. now replace (b + i - b) with i by lia. }
    split.
    { rewrite Hconf'. apply FinFun.Injective_map_NoDup; [intros x y; lia|].
      rewrite (positions_all _ _ _ Hst'). apply seq_NoDup. }
    assert (Hinc : forall i, line_kept o L i -> In (b + i) (w_conf w)).
    { intros i Hi. rewrite Hconf. apply in_map. apply positions_in.
      apply Hkept in Hi. unfold kept_at, bs in Hi. now apply nth_true_map in Hi. }
    intros x Hx. rewrite Hconf in Hx. apply in_map_iff in Hx as (i & <- & Hi).
    apply positions_in in Hi as (l & Hl & Hstay).
    assert (Ki : kept_at bs i) by (unfold kept_at, bs; apply nth_true_map; eauto).
    pose proof (reboot_obj _ _ _ _ _ B HR i) as Ob. rewrite Hl in Ob. cbn [option_map] in Ob. fold b in Ob.
    destruct (bootstrap_static _ _ _ _ _ _ B Hl) as (line & Hline & T1 & _ & T3 & T4 & _).
    pose proof (K_nth L bs i line Ki Hline) as HKn. fold K in HKn.
    destruct (nth_error_lt_some objs' (rank bs i)) as (l' & Hl').
    { rewrite Hlen'. eapply nth_error_length_lt; eauto. }
    assert (B'' : bootstrap (w_opts w) K = Ok (objs', positions (stays o) 0 objs')) by now rewrite Hwo.
    pose proof (reboot_obj _ _ _ _ _ B'' HR' (rank bs i)) as Ob'. rewrite Hl' in Ob'. cbn [option_map] in Ob'. fold b' in Ob'.
    destruct (bootstrap_static _ _ _ _ _ _ B' Hl') as (t & Ht & T1' & _ & T3' & T4' & _).
    rewrite HKn in Ht. injection Ht as <-.
    exists (relocate b l), (relocate b' l'). split; [exact Ob|].
    replace (b + i - b) with i by lia. split; [exact Ob'|].
    unfold relocate; cbn [cl_text cl_indent cl_comment cl_parent cl_children].
    rewrite T1, T1', T3, T3', T4, T4', rstrip_idem, line_indent_rstrip, comment_line_rstrip.
    split; [reflexivity|]. split; [reflexivity|]. split; [reflexivity|].
    destruct (F3 i l Hl) as (P1 & C1 & _). destruct (F' _ l' Hl') as (P2 & C2 & _).
    assert (KP : kept_at bs (cl_parent l)).
    { apply Hkept. eapply full_parent_kept; eauto. now apply Hkept. }
    assert (TP : forall c j, kept_at bs c -> kept_at bs j ->
       (tree_parent (o_comment o) K (rank bs c) (rank bs j) <-> tree_parent (o_comment o) L c j)).
    { intros c j Kc Kj. split.
      - intros H. assert (Hc : c < length L) by (apply Hkept in Kc; destruct Kc as (? & E & _); eapply nth_error_length_lt; eauto).
        pose proof (par_spec (o_comment o) L c Hc) as Hp.
        destruct (tree_parent_embed L bs (o_comment o) Hbl Hdrop c _ CA Kc Hp) as [Kp Hp'].
        pose proof (tree_parent_unique _ _ _ _ _ H Hp') as E. apply rank_inj in E; auto. now rewrite E.
      - intros H. now apply (tree_parent_embed L bs (o_comment o) Hbl Hdrop c j CA Kc H). }
    split.
    { replace (b + cl_parent l - b) with (cl_parent l) by lia. f_equal.
      eapply full_parent_unique; [exact P2|]. clear P2 C1 C2.
      assert (MB : forall q, kept_at bs q -> (o_syntax o = Ios /\ in_macro L q i) -> (o_syntax o = Ios /\ in_macro K (rank bs q) (rank bs i))).
      { intros q _ [Hs H]. split; [exact Hs|]. now apply (macro_embed L bs Hbl Hdrop (HMs Hs)). }
      destruct P1 as [[[Hs A] A2]|[A [[[Hs Bn] B2]|[Bn [Cb|[Cb D]]]]]].
      - left. split; [split; [exact Hs|]; now apply (macro_embed L bs Hbl Hdrop (HMs Hs))|].
        intros q Hq [_ H]. destruct (macro_embed_inv L bs Hbl Hdrop (HMs Hs) q i Ki H) as (q' & Kq & <- & Hq').
        apply (A2 q'); [now apply (rank_lt_inv bs)|]. auto.
      - right. split.
        + intros q [Hs' H]. destruct (macro_embed_inv L bs Hbl Hdrop (HMs Hs') q i Ki H) as (q' & Kq & <- & Hq').
          apply (A q'). auto.
        + left. split; [split; [exact Hs|]; now apply (banner_embed L bs Hbl Hdrop)|].
          intros q Hq [_ H]. destruct (banner_embed_inv L bs Hbl Hdrop q i Ki H) as (q' & Kq & <- & Hq').
          apply (B2 q'); [now apply (rank_lt_inv bs)|]. auto.
      - right. split.
        + intros q [Hs' H]. destruct (macro_embed_inv L bs Hbl Hdrop (HMs Hs') q i Ki H) as (q' & Kq & <- & Hq').
          apply (A q'). auto.
        + right. split.
          * intros q [Hs' H]. destruct (banner_embed_inv L bs Hbl Hdrop q i Ki H) as (q' & Kq & <- & Hq').
            apply (Bn q'). auto.
          * left. now apply (closes_embed L bs Hbl Hdrop).
      - right. split.
        + intros q [Hs' H]. destruct (macro_embed_inv L bs Hbl Hdrop (HMs Hs') q i Ki H) as (q' & Kq & <- & Hq').
          apply (A q'). auto.
        + right. split.
          * intros q [Hs' H]. destruct (banner_embed_inv L bs Hbl Hdrop q i Ki H) as (q' & Kq & <- & Hq').
            apply (Bn q'). auto.
          * right. split; [|now apply TP]. intros H. apply Cb. now apply (closer_embed L bs) in H. }
    split.
    { apply Hinc. now apply Hkept. }
    assert (CK : forall c, In c (cl_children l) -> line_kept o L c).
    { intros c Hc. apply C1 in Hc as (Hc & [[H1 H2]|[[Hs H]|[Hs H]]]).
      - eapply tree_child_kept; eauto.
      - destruct (nth_error_lt_some L c Hc) as (lc & Hlc). exists lc. split; [exact Hlc|]. eauto 8.
      - destruct (nth_error_lt_some L c Hc) as (lc & Hlc). exists lc. split; [exact Hlc|]. eauto 8. }
    split.
    { intros c Hc. apply in_map_iff in Hc as (c0 & <- & Hc0). apply Hinc. now apply CK. }
    intros c. rewrite in_map_iff. split.
    - intros (a & <- & Ha). apply C2 in Ha as (Ha & Hr).
      destruct (nth_error_lt_some K a Ha) as (ta & Hta).
      destruct (K_inv L bs _ _ Hta) as (c0 & lc & Kc & Hlc & -> & <-).
      exists (b + c0). replace (b + c0 - b) with c0 by lia. split; [|reflexivity].
      apply in_map. apply C1. split; [eapply nth_error_length_lt; eauto|].
      destruct Hr as [[H1 H2]|[[Hs H]|[Hs H]]].
      + left. split; [now apply TP|]. congruence.
      + right; left. split; [exact Hs|].
        destruct (banner_embed_inv L bs Hbl Hdrop _ c0 Kc H) as (p & Kp & E & Hp). apply rank_inj in E; auto. now subst p.
      + right; right. split; [exact Hs|].
        destruct (macro_embed_inv L bs Hbl Hdrop (HMs Hs) _ c0 Kc H) as (p & Kp & E & Hp). apply rank_inj in E; auto. now subst p.
    - intros (c1 & Hc1 & ->). apply in_map_iff in Hc1 as (c0 & <- & Hc0).
      exists (rank bs c0). replace (b + c0 - b) with c0 by lia. split; [reflexivity|].
      pose proof (CK c0 Hc0) as Kc. apply Hkept in Kc. apply C1 in Hc0 as (Hc & Hr).
      apply C2. split.
      + destruct (nth_error_lt_some L c0 Hc) as (lc & Hlc).
        eapply nth_error_length_lt. apply (K_nth L bs c0 lc Kc Hlc).
      + destruct Hr as [[H1 H2]|[[Hs H]|[Hs H]]].
        * left. split; [now apply TP|]. intros E. apply rank_inj in E; auto.
        * right; left. split; [exact Hs|]. now apply (banner_embed L bs Hbl Hdrop).
        * right; right. split; [exact Hs|]. now apply (macro_embed L bs Hbl Hdrop (HMs Hs)).
  Qed.
End Commit.
