(** C22, C55: files. *)
From Coq Require Import Ascii String Arith NArith ZArith Bool List Lia Sorting.Sorted.
From Verif Require Import PyStr PyStrFacts PyBase PyBaseFacts CfgModel TreeSpec BraceSpec WorldSpec
  TreeProofs TreePost TreeRel TreeWorld TreeBanner TreeFull CommitProofs CommitMain TreeMain FamilyProofs JunosModel FileModel FileSpec FileFacts FilePad PTree.
Import ListNotations.
Local Open Scope nat_scope.

(** ** Two ways of loading the same configuration *)
Lemma map_inv_list (p h F : nat -> nat) : forall A B, map p A = map h B -> NoDup (map h B) -> (forall x, In x A -> In (F x) B /\ h (F x) = p x) -> map F A = B.
Proof.
  intros A B E N H. assert (Inj : forall x y, In x B -> In y B -> h x = h y -> x = y).
  { clear -N. induction B as [|z B IH]; intros x y Hx Hy Exy; [destruct Hx|]. cbn [map] in N. inversion N as [|? ? N1 N2]; subst.
    destruct Hx as [->|Hx], Hy as [->|Hy]; auto; exfalso; apply N1; [rewrite Exy|rewrite <- Exy]; now apply in_map. }
  assert (G : forall A' B', map p A' = map h B' -> (forall x, In x A' -> In x A) -> (forall x, In x B' -> In x B) -> map F A' = B').
  { induction A' as [|a A' IH]; intros [|b B'] E' SA SB; try discriminate; [reflexivity|]. cbn [map] in *. injection E' as E1 E2. f_equal.
    - destruct (H a (SA a (or_introl eq_refl))) as [H1 H2]. apply Inj; auto; [apply SB; now left|congruence].
    - apply IH; auto; intros x Hx; [apply SA|apply SB]; now right. }
  apply G; auto.
Qed.
Lemma same_tree_join w w1 w1' w' : same_tree w w1 -> same_objects w1 w1' -> same_tree w' w1' -> same_tree w w'.
Proof.
  intros (f & F1 & F2 & F3) (g & G1 & G2 & G3) (h & H1 & H2 & H3).
  set (k := fun x => match find (fun y => h y =? g (f x)) (w_conf w') with Some y => y | None => 0 end).
  assert (E : map (fun x => g (f x)) (w_conf w) = map h (w_conf w')) by (rewrite <- H1, G1, F1, map_map; reflexivity).
  assert (K : forall x, In x (w_conf w) -> In (k x) (w_conf w') /\ h (k x) = g (f x)).
  { intros x Hx. assert (I : In (g (f x)) (map h (w_conf w'))) by (rewrite <- E; apply (in_map (fun x => g (f x))), Hx). apply in_map_iff in I as (y & Ey & Hy). unfold k.
    destruct (find (fun y => h y =? g (f x)) (w_conf w')) as [z|] eqn:Q.
    - apply find_some in Q as [Q1 Q2]. apply Nat.eqb_eq in Q2. now split.
    - exfalso. apply (find_none _ _ Q) in Hy. apply Nat.eqb_neq in Hy. congruence. }
  assert (N : NoDup (map h (w_conf w'))) by now rewrite <- H1.
  assert (Inj : forall x y, In x (w_conf w') -> In y (w_conf w') -> h x = h y -> x = y).
  { clear -N. induction (w_conf w') as [|z B IH]; intros x y Hx Hy Exy; [destruct Hx|]. cbn [map] in N. inversion N as [|? ? N1 N2]; subst.
    destruct Hx as [->|Hx], Hy as [->|Hy]; auto; exfalso; apply N1; [rewrite Exy|rewrite <- Exy]; now apply in_map. }
  exists k. split; [symmetry; now apply (map_inv_list (fun x => g (f x)) h)|]. split; [now apply (NoDup_map_inv h)|].
  intros x Hx. destruct (F3 x Hx) as (l & l1 & O1 & O2 & A1 & A2 & A3 & A4 & A5 & A6 & A7).
  assert (Hfx : In (f x) (w_conf w1)) by (rewrite F1; now apply in_map). destruct (G3 (f x) Hfx) as (l1' & l2 & O3 & O4 & B1 & B2 & B3 & _ & B4 & B5). rewrite O2 in O3. injection O3 as <-.
  destruct (K x Hx) as [Hk Ek]. destruct (H3 (k x) Hk) as (l' & l2' & O5 & O6 & C1 & C2 & C3 & C4 & C5 & C6 & C7). rewrite Ek, O4 in O6. injection O6 as <-.
  exists l, l'. split; [exact O1|]. split; [exact O5|]. split; [congruence|]. split; [congruence|]. split; [congruence|]. split.
  { destruct (K _ A5) as [K1 K2]. apply Inj; auto. congruence. }
  split; [exact A5|]. split; [exact A6|]. intros c. split.
  - intros Hc. assert (I : In (h c) (cl_children l2)) by (apply C7; eauto). rewrite B5 in I. apply in_map_iff in I as (c1 & E1 & I1). apply A7 in I1 as (c0 & I0 & ->).
    exists c0. split; [exact I0|]. destruct (K c0 (A6 c0 I0)) as [K1 K2]. apply Inj; auto. congruence.
  - intros (c0 & I0 & ->). destruct (K c0 (A6 c0 I0)) as [K1 K2]. assert (I : In (h (k c0)) (cl_children l2)) by (rewrite K2, B5; apply in_map, A7; eauto).
    apply C7 in I as (c1 & I1 & E1). rewrite (Inj (k c0) c1); auto.
Qed.
Lemma two_loads w b L w' b' L' : loaded w b L -> loaded w' b' L' -> w_opts w = w_opts w' -> ioscfg w = ioscfg w' ->
  no_bare_macro (w_opts w) L -> no_bare_macro (w_opts w) L' -> no_comment_after_dropped (w_opts w) L -> no_comment_after_dropped (w_opts w) L' -> same_tree w w'.
Proof.
  intros (w0 & _ & O & R) (w0' & _ & O' & R') Eo Ei M M' N N'.
  destruct (commit_text w0 w L R) as (w1 & C1 & _ & T1); [now rewrite O|]. destruct (commit_text w0' w' L' R') as (w1' & C1' & _ & T1'); [now rewrite O', <- Eo|].
  apply (same_tree_join w w1 w1' w'); [apply T1; now rewrite O| |apply T1'; now rewrite O', <- Eo].
  pose proof (reboot_same w w' (ioscfg w) Eo) as Q. unfold commit in C1, C1'. rewrite C1, Ei, C1' in Q. exact Q.
Qed.

(** ** An empty line at the end or at the start *)
Lemma sorted_ext l l' : StronglySorted lt l -> StronglySorted lt l' -> (forall x, In x l <-> In x l') -> l = l'.
Proof.
  intros H. revert l'. induction H as [|x l S IH F]; intros l' S' E.
  - destruct l' as [|y l']; [reflexivity|]. exfalso. apply (E y). now left.
  - destruct S' as [|y l' S' F']; [exfalso; apply (E x); now left|]. rewrite Forall_forall in F, F'.
    assert (x = y).
    { assert (Hx : In x (y :: l')) by (apply E; now left). assert (Hy : In y (x :: l)) by (apply E; now left).
      destruct Hx as [->|Hx]; [reflexivity|]. destruct Hy as [->|Hy]; [reflexivity|]. specialize (F y Hy). specialize (F' x Hx). lia. }
    subst y. f_equal. apply IH; [exact S'|]. intros z. split; intros Hz.
    + assert (I : In z (x :: l')) by (apply E; now right). destruct I as [<-|I]; [specialize (F x Hz); lia|exact I].
    + assert (I : In z (x :: l)) by (apply E; now right). destruct I as [<-|I]; [specialize (F' x Hz); lia|exact I].
Qed.
Section Ends.
  Variable F : list str.
  Lemma nth_end i l : nth_error (F ++ [[]]) i = Some l <-> nth_error F i = Some l \/ i = length F /\ l = [].
  Proof.
    destruct (Nat.lt_ge_cases i (length F)) as [L|L].
    - rewrite nth_error_app1 by exact L. split; [now left|]. intros [H|[-> _]]; [exact H|lia].
    - rewrite nth_error_app2 by exact L. rewrite (proj2 (nth_error_None F i)) by exact L. destruct (i - length F) as [|[|k]] eqn:D; cbn [nth_error].
      + split; [intros [= <-]; right; split; [lia|reflexivity]|]. intros [H|[_ ->]]; [discriminate|reflexivity].
      + split; [discriminate|]. intros [H|[-> _]]; [discriminate|lia].
      + split; [discriminate|]. intros [H|[-> _]]; [discriminate|lia].
  Qed.
  Lemma banner_end p j d : j <= length F -> (banner_open (F ++ [[]]) p j d <-> banner_open F p j d).
  Proof.
    intros L. unfold banner_open. split; intros (H1 & (l & H2 & H3) & H4); (split; [exact H1|]); split.
    - exists l. split; [|exact H3]. apply nth_end in H2 as [H2|[-> _]]; [exact H2|lia].
    - intros k lk Hk Hn. apply (H4 k lk Hk). apply nth_end. now left.
    - exists l. split; [apply nth_end; now left|exact H3].
    - intros k lk Hk Hn. apply nth_end in Hn as [Hn|[-> _]]; [now apply (H4 k lk)|lia].
  Qed.
  Lemma macro_end p j : j <= length F -> (in_macro (F ++ [[]]) p j <-> in_macro F p j).
  Proof.
    intros L. unfold in_macro. split; intros (H1 & (l & H2 & H3) & H4); (split; [exact H1|]); split.
    - exists l. split; [|exact H3]. apply nth_end in H2 as [H2|[-> _]]; [exact H2|lia].
    - intros k lk Hk Hn. apply (H4 k lk Hk). apply nth_end. now left.
    - exists l. split; [apply nth_end; now left|exact H3].
    - intros k lk Hk Hn. apply nth_end in Hn as [Hn|[-> _]]; [now apply (H4 k lk)|lia].
  Qed.
  Lemma kept_end o i : i < length F -> (line_kept o (F ++ [[]]) i <-> line_kept o F i).
  Proof.
    intros L. unfold line_kept, in_banner. split; intros (l & Hl & K); exists l.
    - split; [apply nth_end in Hl as [Hl|[-> _]]; [exact Hl|lia]|]. destruct K as [K|[K|[[Hs (p & d & K)]|[Hs (p & K)]]]]; auto.
      + right. right. left. split; [exact Hs|]. exists p, d. now apply banner_end; [lia|].
      + right. right. right. split; [exact Hs|]. exists p. now apply macro_end; [lia|].
    - split; [apply nth_end; now left|]. destruct K as [K|[K|[[Hs (p & d & K)]|[Hs (p & K)]]]]; auto.
      + right. right. left. split; [exact Hs|]. exists p, d. now apply banner_end; [lia|].
      + right. right. right. split; [exact Hs|]. exists p. now apply macro_end; [lia|].
  Qed.
  Lemma last_end o : o_ignore_blank o = true -> (o_syntax o = Ios -> macros_ok F) -> (forall p d, ~ banner_open F p (length F) d) -> ~ line_kept o (F ++ [[]]) (length F).
  Proof.
    intros Ib M B (l & Hl & K). apply nth_end in Hl as [Hl|[_ ->]]; [assert (length F < length F) by (apply nth_error_Some; congruence); lia|].
    destruct K as [K|[K|[[_ (p & d & K)]|[Hs (p & K)]]]]; [congruence|discriminate K|apply banner_end in K; [now apply B in K|lia]|].
    apply macro_end in K; [|lia]. destruct K as (_ & (lp & Hp & Sp) & Hn). destruct (M Hs p lp Hp Sp) as (j & lj & Hj & Hlj & Ej). apply (Hn j lj); auto. split; [exact Hj|]. apply nth_error_Some. congruence.
  Qed.
  Lemma depth_end k : depth (F ++ [[]]) k = depth F k.
  Proof.
    revert k. induction F as [|l F' IH]; intros k; cbn [app].
    - destruct k as [|[|k]]; reflexivity.
    - destruct k as [|k]; cbn [depth]; [reflexivity|]. now rewrite IH.
  Qed.
  Lemma ok_end : (braces_ok F -> braces_ok (F ++ [[]])) /\ (macros_ok F -> macros_ok (F ++ [[]])).
  Proof.
    split; [intros H k; rewrite depth_end; apply H|]. intros H p l Hp Sp. apply nth_end in Hp as [Hp|[-> ->]]; [|discriminate Sp].
    destruct (H p l Hp Sp) as (j & lj & Hj & Hn & E). exists j, lj. split; [exact Hj|]. split; [apply nth_end; now left|exact E].
  Qed.

  Lemma banner_start p j d : banner_open ([] :: F) p (S j) d <-> exists p', p = S p' /\ banner_open F p' j d.
  Proof.
    split.
    - intros (H1 & (l & H2 & H3 & H4) & H5). destruct p as [|p]; [cbn in H2; injection H2 as <-; discriminate H3|]. exists p. split; [reflexivity|].
      split; [lia|]. split; [exists l; now split|]. intros k lk Hk Hn. apply (H5 (S k) lk); [lia|exact Hn].
    - intros (p' & -> & H1 & (l & H2 & H3) & H5). split; [lia|]. split; [exists l; now split|]. intros [|k] lk Hk Hn; [lia|]. apply (H5 k lk); [lia|exact Hn].
  Qed.
  Lemma macro_start p j : in_macro ([] :: F) p (S j) <-> exists p', p = S p' /\ in_macro F p' j.
  Proof.
    split.
    - intros (H1 & (l & H2 & H3) & H5). destruct p as [|p]; [cbn in H2; injection H2 as <-; discriminate H3|]. exists p. split; [reflexivity|].
      split; [lia|]. split; [exists l; now split|]. intros k lk Hk Hn. apply (H5 (S k) lk); [lia|exact Hn].
    - intros (p' & -> & H1 & (l & H2 & H3) & H5). split; [lia|]. split; [exists l; now split|]. intros [|k] lk Hk Hn; [lia|]. apply (H5 k lk); [lia|exact Hn].
  Qed.
  Lemma kept_start o i : line_kept o ([] :: F) (S i) <-> line_kept o F i.
  Proof.
    unfold line_kept, in_banner. split; intros (l & Hl & K); exists l; (split; [exact Hl|]).
    - destruct K as [K|[K|[[Hs (p & d & K)]|[Hs (p & K)]]]]; auto.
      + apply banner_start in K as (p' & _ & K). right. right. left. eauto.
      + apply macro_start in K as (p' & _ & K). right. right. right. eauto.
    - destruct K as [K|[K|[[Hs (p & d & K)]|[Hs (p & K)]]]]; auto.
      + right. right. left. split; [exact Hs|]. exists (S p), d. apply banner_start. eauto.
      + right. right. right. split; [exact Hs|]. exists (S p). apply macro_start. eauto.
  Qed.
  Lemma first_start o : o_ignore_blank o = true -> ~ line_kept o ([] :: F) 0.
  Proof.
    intros Ib (l & Hl & K). cbn in Hl. injection Hl as <-. destruct K as [K|[K|[[_ (p & d & K & _)]|[_ (p & K & _)]]]]; [congruence|discriminate K|lia|lia].
  Qed.
  Lemma ok_start : (braces_ok F <-> braces_ok ([] :: F)) /\ (macros_ok F <-> macros_ok ([] :: F)).
  Proof.
    split; split.
    - intros H [|k]; [apply Z.le_refl|]. cbn [depth]. change (brace_step []) with 0%Z. apply H.
    - intros H k. specialize (H (S k)). cbn [depth] in H. exact H.
    - intros H [|p] l Hp Sp; [cbn in Hp; injection Hp as <-; discriminate Sp|]. destruct (H p l Hp Sp) as (j & lj & Hj & Hn & E). exists (S j), lj. split; [lia|]. now split.
    - intros H p l Hp Sp. destruct (H (S p) l Hp Sp) as ([|j] & lj & Hj & Hn & E); [lia|]. exists j, lj. split; [lia|]. now split.
  Qed.
End Ends.

(** ** C22 Saving and reading back *)
Lemma lines_saved ls : Forall one_line ls -> lines_of (flat_map (fun line => line ++ [LF]) ls) (ls ++ [[]]).
Proof.
  induction 1 as [|l ls H F IH]; cbn [flat_map app]; [constructor; split; intros []|]. rewrite <- app_assoc. apply (lo_line l [LF]); auto; [now left|discriminate].
Qed.
Lemma inner_saved ls : ~ In [] ls -> inner (ls ++ [[]]) = ls ++ [[]].
Proof.
  induction ls as [|l ls IH]; intros H; [reflexivity|]. cbn [app]. destruct (ls ++ [[]]) as [|l' r] eqn:E; [now destruct ls|]. rewrite inner_cons.
  destruct l; [exfalso; apply H; now left|]. f_equal. apply IH. intros K. apply H. now right.
Qed.
Lemma read_saved w : Forall one_line (ioscfg w) -> (o_ignore_blank (w_opts w) = true -> ~ In [] (ioscfg w)) ->
  read_config_file (w_opts w) (save_as w) = ioscfg w ++ [[]].
Proof.
  intros O B. rewrite (read_spec _ _ _ (lines_saved _ O)). destruct (o_ignore_blank (w_opts w)); [|reflexivity]. specialize (B eq_refl).
  destruct (ioscfg w) as [|l K]; [reflexivity|]. cbn [app]. destruct (K ++ [[]]) as [|l' r] eqn:E; [now destruct K|]. rewrite <- E, inner_saved; [reflexivity|]. intros Q. apply B. now right.
Qed.
Lemma seq_end b K : map (fun i => rstrip (nth i (K ++ [[]]) [])) (seq b (length K - b)) = map rstrip (skipn b K).
Proof.
  revert b. induction K as [|l K IH]; intros b; [cbn; now destruct b|]. destruct b as [|b].
  - cbn [length Nat.sub skipn map seq]. f_equal. rewrite <- seq_shift, map_map. specialize (IH 0). rewrite Nat.sub_0_r in IH. exact IH.
  - cbn [length Nat.sub skipn]. rewrite <- seq_shift, map_map. apply IH.
Qed.

Section Back.
  Variables (w : world) (b : nat) (lines : list str).
  Hypothesis HL : loaded w b lines.
  Hypothesis HM : no_bare_macro (w_opts w) lines.
  Let o := w_opts w.
  Let K := ioscfg w.
  Lemma back_facts : braces_ok K /\ (o_syntax o = Ios -> macros_ok K) /\ no_bare_macro o K /\ map rstrip K = K /\ forall i, i < length K -> line_kept o K i.
  Proof.
    destruct (loaded_text w b lines HL) as (ks & _ & Hk & _ & EK). fold K in EK.
    destruct HL as (w0 & _ & O & R). destruct (commit_text w0 w lines R) as (w1 & C & I & _); [now rewrite O|].
    assert (L1 : loaded w1 (length (w_heap w)) K) by (exists w; split; [reflexivity|]; destruct (reboot_inv _ _ _ C) as (? & ? & _ & ->); now split).
    assert (E1 : w_opts w1 = o) by (destruct (reboot_inv _ _ _ C) as (? & ? & _ & ->); reflexivity).
    pose proof (bootstrap_full o K) as B. assert (OK : exists p, bootstrap o K = Ok p). { unfold commit, reboot, bind in C. fold o K in C. destruct (bootstrap o K); [eauto|discriminate]. }
    destruct OK as ([objs kept] & E). rewrite E in B. destruct B as (B1 & B2 & _). split; [exact B1|]. split; [exact B2|].
    assert (Rs : map rstrip K = K) by (rewrite EK, map_map; apply map_ext; intros i; apply rstrip_idem). split; [|split; [exact Rs|]].
    - intros Hs l Hl. rewrite EK in Hl. apply in_map_iff in Hl as (i & <- & Hi). rewrite rstrip_idem. apply Hk in Hi as (l & Hl & _). rewrite (nth_error_nth _ _ _ Hl).
      apply HM; [exact Hs|]. now apply nth_error_In in Hl.
    - destruct (loaded_text w1 _ K L1) as (ks1 & S1 & Hk1 & _ & E2). rewrite I in E2. fold K in E2. rewrite E1 in Hk1.
      assert (Le : length ks1 = length K) by (rewrite E2 at 1; now rewrite map_length).
      intros i Hi. apply Hk1.
      assert (Bd : forall x, In x ks1 -> x < length K) by (intros x Hx; apply Hk1 in Hx as (l & Hl & _); apply nth_error_Some; congruence).
      apply (NoDup_length_incl (l := ks1) (l' := seq 0 (length K))).
      + clear -S1. induction S1 as [|x l S IH F]; constructor; auto. intros K. rewrite Forall_forall in F. specialize (F x K). lia.
      + rewrite seq_length. lia.
      + intros x Hx. apply in_seq. specialize (Bd x Hx). lia.
      + apply in_seq. lia.
  Qed.

  Hypothesis HS : o_syntax o <> Junos.
  Hypothesis HO : Forall one_line K.
  Lemma back_blank : (o_ignore_blank o = true -> ~ In [] K) -> exists w', parse_file o (save_as w) = Ok w' /\ loaded w' 0 (K ++ [[]]) /\ w_opts w' = o.
  Proof.
    intros B. destruct back_facts as (B1 & B2 & _). destruct (ok_end K) as [E1 E2].
    destruct (bootstrap_ok o (K ++ [[]])) as (objs & kept & E); [auto|intros Hs; auto|].
    assert (R : exists w', reboot (mkW o [] []) (K ++ [[]]) = Ok w' /\ w_opts w' = o) by (unfold reboot; cbn [w_opts]; rewrite E; cbn [bind]; eauto).
    destruct R as (w' & R & Eo). exists w'. split; [|split; [exists (mkW o [] []); now repeat split|exact Eo]].
    unfold parse_file, o. rewrite (read_saved w HO B). fold o K. destruct (o_syntax o); try congruence; exact R.
  Qed.
End Back.

(** Saving a configuration and reading the file gives the same lines, and the same
    tree unless a comment follows a blank line that was dropped. *)
Theorem C22_read_back : forall w b lines, loaded w b lines -> no_bare_macro (w_opts w) lines ->
  o_syntax (w_opts w) <> Junos -> o_ignore_blank (w_opts w) = true ->
  Forall one_line (ioscfg w) -> ~ In [] (ioscfg w) ->
  (forall p d, ~ banner_open (ioscfg w) p (length (ioscfg w)) d) ->
  exists w', parse_file (w_opts w) (save_as w) = Ok w' /\ ioscfg w' = ioscfg w /\
    (no_comment_after_dropped (w_opts w) lines -> same_tree w w').
Proof.
  intros w b lines HL HM HS IB HO NB OB. destruct (back_facts w b lines HL HM) as (B1 & B2 & B3 & B4 & B5). set (K := ioscfg w) in *.
  destruct (back_blank w b lines HL HM HS HO) as (w' & R & L' & E'); [auto|]. fold K in L'. exists w'. split; [exact R|].
  destruct (loaded_text w' 0 _ L') as (ks & Sk & Hk & _ & EI). rewrite E' in Hk.
  assert (Eks : ks = seq 0 (length K)).
  { apply sorted_ext; [exact Sk|apply seq_sorted|]. intros i. rewrite Hk, in_seq. split.
    - intros H. split; [lia|]. destruct (Nat.eq_dec i (length K)) as [->|Ne]; [exfalso; revert H; apply last_end; auto|].
      destruct H as (l & Hl & _). assert (i < length (K ++ [[]])) by (apply nth_error_Some; congruence). rewrite app_length in H. cbn [length] in H. lia.
    - intros [_ H]. apply kept_end; [lia|]. apply B5. lia. }
  assert (EK : ioscfg w' = K).
  { rewrite EI, Eks. pose proof (seq_end 0 K) as Q. rewrite Nat.sub_0_r in Q. cbn [skipn] in Q. etransitivity; [exact Q|exact B4]. }
  split; [exact EK|]. intros NC. apply (two_loads w b lines w' 0 (K ++ [[]]) HL L'); auto.
  - intros Hs l Hl. apply in_app_iff in Hl as [Hl|[<-|[]]]; [now apply B3|discriminate].
  - intros i l Hl Hc. assert (S i < length (K ++ [[]])) by (apply nth_error_Some; congruence). rewrite app_length in H. cbn [length] in H. apply kept_end; [lia|]. apply B5. lia.
Qed.
Print Assumptions C22_read_back.

(** With [ignore_blank_lines=False] the file read back has one line more, an empty
    one at the end. *)
Theorem C22_extra_line_refuted : forall w b lines, loaded w b lines -> no_bare_macro (w_opts w) lines ->
  o_syntax (w_opts w) <> Junos -> o_ignore_blank (w_opts w) = false -> Forall one_line (ioscfg w) ->
  exists w', parse_file (w_opts w) (save_as w) = Ok w' /\ ioscfg w' = ioscfg w ++ [[]].
Proof.
  intros w b lines HL HM HS IB HO. destruct (back_facts w b lines HL HM) as (B1 & B2 & B3 & B4 & B5). set (K := ioscfg w) in *.
  destruct (back_blank w b lines HL HM HS HO) as (w' & R & L' & E'); [congruence|]. fold K in L'. exists w'. split; [exact R|].
  destruct (loaded_text w' 0 _ L') as (ks & Sk & Hk & _ & EI). rewrite E' in Hk.
  assert (Eks : ks = seq 0 (length K) ++ [length K]).
  { rewrite <- seq_S. apply sorted_ext; [exact Sk|apply seq_sorted|]. intros i. rewrite Hk, in_seq. split.
    - intros (l & Hl & _). assert (H : i < length (K ++ [[]])) by (apply nth_error_Some; congruence). rewrite app_length in H. cbn [length] in H. lia.
    - intros [_ H]. destruct (nth_error_lt_some (K ++ [[]]) i) as (l & Hl); [rewrite app_length; cbn [length]; lia|]. exists l. split; [exact Hl|now left]. }
  rewrite EI, Eks, map_app. f_equal.
  - pose proof (seq_end 0 K) as Q. rewrite Nat.sub_0_r in Q. cbn [skipn] in Q. etransitivity; [exact Q|exact B4].
  - cbn [map]. rewrite app_nth2, Nat.sub_diag by lia. reflexivity.
Qed.
Print Assumptions C22_extra_line_refuted.

Example C22_case : let w := get w_none (parse oT cfg_clean) in
  loaded w 0 (input_lines oT cfg_clean) /\ no_bare_macro (w_opts w) (input_lines oT cfg_clean) /\ Forall one_line (ioscfg w) /\ ~ In [] (ioscfg w) /\
  (forall p d, ~ banner_open (ioscfg w) p (length (ioscfg w)) d) /\
  match parse_file oT (save_as w) with Ok w' => ioscfg w' = cfg_clean | Err _ => False end.
Proof.
  cbv zeta. split; [exists (mkW oT [] []); split; [vm_compute; reflexivity|split; vm_compute; reflexivity]|]. split; [intros _ l Hl E; vm_compute in Hl; repeat (destruct Hl as [<-|Hl]; [discriminate E|]); destruct Hl|].
  assert (E : ioscfg (get w_none (parse oT cfg_clean)) = cfg_clean) by (vm_compute; reflexivity). rewrite E.
  split; [apply Forall_forall; intros l Hl; vm_compute in Hl; repeat (destruct Hl as [<-|Hl]; [split; intros H; repeat (destruct H as [H|H]; [discriminate H|]); destruct H|]); destruct Hl|].
  split; [vm_compute; intros H; repeat (destruct H as [H|H]; [discriminate H|]); destruct H|]. split; [|vm_compute; reflexivity].
  intros p d (_ & (l & Hl & B & _) & _). apply nth_error_In in Hl. vm_compute in Hl. repeat (destruct Hl as [<-|Hl]; [vm_compute in B; discriminate B|]). destruct Hl.
Qed.

(** A banner that is not closed gains a line. *)
Theorem C22_open_banner_refuted : exists lines w, parse oT lines = Ok w /\ Forall one_line (ioscfg w) /\
  match parse_file oT (save_as w) with Ok w' => ioscfg w' = ioscfg w ++ [[]] | Err _ => False end.
Proof.
  exists (map lit ["banner motd ^C"; "hello"]%string). eexists. split; [vm_compute; reflexivity|]. split; [|vm_compute; reflexivity].
  match goal with |- Forall _ ?l => let v := eval vm_compute in l in assert (E : l = v) by (vm_compute; reflexivity); rewrite E end.
  apply Forall_forall; intros l Hl; vm_compute in Hl; repeat (destruct Hl as [<-|Hl]; [split; intros H; repeat (destruct H as [H|H]; [discriminate H|]); destruct H|]); destruct Hl.
Qed.
(** A brace configuration is saved as the indented text and loses its tree. *)
Theorem C22_junos_refuted : let o := mkOpts (lit "#") true Junos in
  let w := get w_none (parse_junos o (map lit ["system {"; "    host-name r1;"; "}"]%string)) in
  ioscfg w = map lit ["system"; "    host-name r1"]%string /\ parent_of w 1 = 0 /\
  match parse_file o (save_as w) with Ok w' => ioscfg w' = map lit ["system"; "host-name r1"]%string /\ parent_of w' 1 = 1 | Err _ => False end.
Proof. vm_compute. repeat split; reflexivity. Qed.

(** ** C55 A file is its lines *)
Lemma inner_filter ls : ls <> [] -> exists t, inner ls = filter (fun l => match l with [] => false | _ => true end) ls ++ repeat [] t /\ (0 < t -> last ls [] = []).
Proof.
  induction ls as [|l ls IH]; intros Ne; [congruence|]. destruct ls as [|l' ls].
  - cbn [inner filter last]. destruct l; [exists 1|exists 0]; cbn; split; auto. lia.
  - destruct (IH ltac:(discriminate)) as (t & E & H). exists t. rewrite inner_cons, E. split; [|exact H]. destruct l; reflexivity.
Qed.
Lemma read_padded ls : ls <> [] -> exists s t,
  match ls with [] => [] | [l] => [l] | l :: ls' => l :: inner ls' end = padded s t (filter (fun l => match l with [] => false | _ => true end) ls) /\ (0 < t -> last ls [] = []).
Proof.
  intros Ne. destruct ls as [|l [|l' ls]]; [congruence| |].
  - destruct l as [|c l]; [exists 1, 0|exists 0, 0]; split; try reflexivity; lia.
  - destruct (inner_filter (l' :: ls)) as (t & E & H); [discriminate|]. exists (match l with [] => 1 | _ => 0 end), t. rewrite E. split; [|exact H]. destruct l; reflexivity.
Qed.
Theorem C55_file_lines : forall o text ls, lines_of text ls -> o_syntax o <> Junos ->
  (o_ignore_blank o = false -> parse_file o text = parse o ls) /\
  (o_ignore_blank o = true ->
   (last ls [] = [] -> forall p, ~ in_banner (input_lines o ls) p (length (input_lines o ls))) ->
   match parse o ls, parse_file o text with
   | Ok w, Ok w' => ioscfg w' = ioscfg w /\ same_tree w w'
   | Err e, Err e' => e = e'
   | _, _ => False
   end).
Proof.
  intros o text ls L HS. assert (P : parse_file o text = reboot (mkW o [] []) (read_config_file o text)) by (unfold parse_file; destruct (o_syntax o); try congruence; reflexivity).
  rewrite P, (read_spec o _ _ L). unfold parse, input_lines. split; intros Ib; rewrite Ib; [reflexivity|]. intros HB.
  destruct (lines_one _ _ L) as [Ne _]. destruct (read_padded ls Ne) as (s & t & E & Ht). rewrite E. set (F := filter (fun l : list ascii => match l with [] => false | _ => true end) ls) in *.
  pose proof (pad_reboot s t F o) as Q. destruct (reboot (mkW o [] []) F) as [w|e] eqn:R1, (reboot (mkW o [] []) (padded s t F)) as [w'|e'] eqn:R2; auto.
  assert (E1 : w_opts w = o) by (destruct (reboot_inv _ _ _ R1) as (? & ? & _ & ->); reflexivity).
  assert (E2 : w_opts w' = o) by (destruct (reboot_inv _ _ _ R2) as (? & ? & _ & ->); reflexivity).
  apply (pad_load s t F w 0 w' 0); [exists (mkW o [] []); now rewrite E1|exists (mkW o [] []); now rewrite E2|congruence|congruence|].
  intros T. apply HB, Ht, T.
Qed.
Print Assumptions C55_file_lines.

(** Every text has exactly one list of lines, and the line ends do not matter. *)
Theorem C55_lines_unique : forall text, exists ls, lines_of text ls /\ forall ls', lines_of text ls' -> ls' = ls.
Proof.
  intros text. destruct (lines_exist text) as (ls & L). exists ls. split; [exact L|]. intros ls' L'.
  pose proof (read_spec (mkOpts [] false Ios) _ _ L) as E. rewrite (read_spec _ _ _ L') in E. exact E.
Qed.
Print Assumptions C55_lines_unique.
Theorem C55_line_ends : forall o text text' ls, lines_of text ls -> lines_of text' ls -> parse_file o text = parse_file o text'.
Proof. intros o text text' ls L L'. unfold parse_file. now rewrite (read_spec o _ _ L), (read_spec o _ _ L'). Qed.
Print Assumptions C55_line_ends.
Example C55_case : let text := lit "a" ++ [CR; LF] ++ lit " b" ++ [LF; LF] ++ lit "c" ++ [CR] in
  let ls := [lit "a"; lit " b"; []; lit "c"; []] in
  lines_of text ls /\ (forall p, ~ in_banner (input_lines oT ls) p (length (input_lines oT ls))) /\
  match parse_file oT text with Ok w => ioscfg w = map lit ["a"; " b"; "c"]%string /\ parent_of w 1 = 0 | Err _ => False end.
Proof.
  cbv zeta. assert (O : forall l, forallb (fun c => negb (Ascii.eqb c LF || Ascii.eqb c CR)) l = true -> one_line l).
  { intros l H. rewrite forallb_forall in H. split; intros K; specialize (H _ K); discriminate H. }
  split; [|split].
  - apply (lo_line (lit "a") [CR; LF]); [apply O; reflexivity|right; now left|discriminate|]. apply (lo_line (lit " b") [LF]); [apply O; reflexivity|now left|discriminate|].
    apply (lo_line [] [LF]); [apply O; reflexivity|now left|discriminate|]. apply (lo_line (lit "c") [CR] []); [apply O; reflexivity|right; now right|discriminate|]. constructor. apply O. reflexivity.
  - intros p (d & _ & (l & Hl & B & _) & _). apply nth_error_In in Hl. vm_compute in Hl. repeat (destruct Hl as [<-|Hl]; [vm_compute in B; discriminate B|]). destruct Hl.
  - vm_compute. split; reflexivity.
Qed.
(** A file that starts with an empty line: its first configuration line has line
    number 1, and deleting a line removes the next one. *)
Theorem C55_numbers_refuted : let w := get w_none (parse_file oT ([LF] ++ lit "a" ++ [LF] ++ lit "b")) in
  ioscfg w = map lit ["a"; "b"]%string /\ map (fun x => option_map cl_linenum (obj w x)) (w_conf w) = [Some 1%Z; Some 2%Z].
Proof. vm_compute. split; reflexivity. Qed.
