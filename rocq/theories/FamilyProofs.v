(** Families are contiguous; re-parsing the same lines gives the same objects. *)
From Coq Require Import Ascii String Arith NArith ZArith Bool List Lia Sorting.Sorted.
From Verif Require Import PyStr PyStrFacts PyBase PyBaseFacts CfgModel TreeSpec BraceSpec WorldSpec
  TreeProofs TreePost TreeRel TreeWorld TreeBanner TreeFull CommitProofs CommitMain TreeMain.
Import ListNotations.
Local Open Scope nat_scope.

(** ** C05 *)
Section Family.
  Variables (d : str) (lines : list str).
  Hypothesis Hcfg : Forall (fun l => config_line d l = true) lines.

  Definition ind (i : nat) : nat := line_indent (nth i lines []).

  Lemma ind_nth i l : nth_error lines i = Some l -> line_indent l = ind i.
  Proof. intros H. unfold ind. now rewrite (nth_error_nth lines i [] H). Qed.

  Lemma cfg_no_comment i : ~ comment_below_deeper d lines i.
  Proof.
    intros (li & lp & Hi & _ & _ & Hc & _). rewrite Forall_forall in Hcfg.
    specialize (Hcfg _ (nth_error_In _ _ Hi)). unfold config_line in Hcfg. rewrite Hc, andb_false_r in Hcfg.
    discriminate.
  Qed.

  (** the parent of [j] *)
  Lemma cfg_parent j : j < length lines ->
    (par d lines j = j /\ (forall k, k < j -> ind j <= ind k)) \/
    (par d lines j < j /\ ind (par d lines j) < ind j /\
     forall k, par d lines j < k < j -> ind j <= ind k).
  Proof.
    intros Hj. pose proof (par_spec d lines j Hj) as [[Hn _]|(E & _ & [Hn|Hn])].
    - right. destruct Hn as (lj & lp & H1 & H2 & H3 & _ & H5 & H6).
      rewrite <- (ind_nth _ _ H1), <- (ind_nth _ _ H2). repeat split; auto.
      intros k Hk. destruct (nth_error_lt_some lines k) as (lk & Hlk); [lia|].
      rewrite <- (ind_nth _ _ Hlk). apply (H6 k); auto. rewrite Forall_forall in Hcfg.
      apply Hcfg. eapply nth_error_In; eauto.
    - left. split; [exact E|]. intros k Hk.
      destruct (Nat.le_gt_cases (ind j) (ind k)) as [G|G]; [exact G|]. exfalso.
      (* some line before j is shallower: take the last one *)
      assert (X : forall m, m <= j -> (forall q, m <= q < j -> ind j <= ind q) \/ exists q, q < j /\ ind q < ind j /\ forall r, q < r < j -> ind j <= ind r).
      { intros m Hm. remember (j - m) as t eqn:Et. revert m Hm Et. induction t as [|t IHt]; intros m Hm Et.
        - left. intros q Hq. lia.
        - destruct (IHt (S m) ltac:(lia) ltac:(lia)) as [H|H]; [|now right].
          destruct (Nat.le_gt_cases (ind j) (ind m)) as [Gm|Gm].
          + left. intros q Hq. destruct (Nat.eq_dec q m) as [->|]; [exact Gm|]. apply H. lia.
          + right. exists m. split; [lia|]. split; [exact Gm|]. intros r Hr. apply H. lia. }
      destruct (X 0 ltac:(lia)) as [H|(q & H1 & H2 & H3)]; [specialize (H k ltac:(lia)); lia|].
      apply (Hn q). destruct (nth_error_lt_some lines j Hj) as (lj & Hlj).
      destruct (nth_error_lt_some lines q) as (lq & Hlq); [lia|].
      exists lj, lq. rewrite (ind_nth _ _ Hlj), (ind_nth _ _ Hlq). repeat split; auto.
      + rewrite Forall_forall in Hcfg. apply Hcfg. eapply nth_error_In; eauto.
      + intros r lr Hr Hlr _. rewrite (ind_nth _ _ Hlr). now apply H3.
    - now apply cfg_no_comment in Hn.
  Qed.

  Definition prel (y x : nat) : Prop := par d lines y = x.

  Lemma ancestor_run i j :
    j < length lines ->
    (ancestor prel i j <-> i < j /\ forall k, i < k <= j -> ind i < ind k).
  Proof.
    revert i. induction j as [j IH] using lt_wf_ind. intros i Hj.
    destruct (cfg_parent j Hj) as [[E H]|(P1 & P2 & P3)].
    - split.
      + intros A. exfalso. inversion A as [? ? A1 A2|? y ? A1 A2 A3]; subst; unfold prel in *; congruence.
      + intros [H1 H2]. exfalso. specialize (H i H1). specialize (H2 j ltac:(lia)). lia.
    - set (p := par d lines j) in *. split.
      + intros A. assert (Hip : i = p \/ ancestor prel i p).
        { inversion A as [? ? A1 A2|? y ? A1 A2 A3]; subst; unfold prel in *; fold p in A1; subst; auto. }
        assert (Hile : i <= p /\ (forall k, i < k <= p -> ind i < ind k) /\ ind i <= ind p).
        { destruct Hip as [->|Hip]; [repeat split; auto; intros; lia|].
          apply IH in Hip as [A1 A2]; [|lia|lia]. split; [lia|]. split; [exact A2|].
          specialize (A2 p ltac:(lia)). lia. }
        destruct Hile as (Q1 & Q2 & Q3). split; [lia|]. intros k Hk.
        destruct (Nat.le_gt_cases k p) as [G|G]; [apply Q2; lia|].
        destruct (Nat.eq_dec k j) as [->|Hkj]; [lia|]. specialize (P3 k ltac:(lia)). lia.
      + intros [H1 H2]. pose proof (H2 j ltac:(lia)) as Hij.
        destruct (Nat.lt_trichotomy p i) as [G|[G|G]].
        * specialize (P3 i ltac:(lia)). lia.
        * subst i. constructor; [reflexivity|lia].
        * apply anc_step with p; [reflexivity|lia|]. apply IH; [lia|lia|].
          split; [exact G|]. intros k Hk. apply H2. lia.
  Qed.

  Fixpoint run (n : nat) (ls : list str) : nat :=
    match ls with
    | l :: ls' => if n <? line_indent l then S (run n ls') else 0
    | [] => 0
    end.

  Lemma run_spec n ls :
    run n ls <= length ls /\
    (forall k, k < run n ls -> n < line_indent (nth k ls [])) /\
    (run n ls = length ls \/ line_indent (nth (run n ls) ls []) <= n).
  Proof.
    induction ls as [|l ls (IH1 & IH2 & IH3)]; cbn [run length]; [repeat split; auto; intros; lia|].
    destruct (n <? line_indent l) eqn:E.
    - apply Nat.ltb_lt in E. split; [lia|]. split.
      + intros [|k] Hk; [exact E|]. apply IH2. lia.
      + destruct IH3 as [IH3|IH3]; [left; lia|right; exact IH3].
    - apply Nat.ltb_ge in E. split; [lia|]. split; [intros; lia|]. right. exact E.
  Qed.
End Family.

Lemma nth_skipn_add (lines : list str) i k : nth k (skipn i lines) [] = nth (i + k) lines [].
Proof.
  revert lines; induction i as [|i IH]; intros lines; [reflexivity|].
  destruct lines as [|l lines]; [destruct k; reflexivity|]. cbn. apply IH.
Qed.

Theorem family_run w b lines i :
  loaded w b lines ->
  Forall (fun l => plain_line l = true) lines ->
  Forall (fun l => config_line (o_comment (w_opts w)) l = true) lines ->
  Forall (fun l => no_digit_start l = true) lines ->
  i < length lines ->
  exists k,
    all_children w (b + i) = Ok (map (Nat.add b) (seq (S i) k)) /\
    family_endpoint w (b + i) = Ok (Z.of_nat (i + k)) /\
    i + k < length lines /\
    (forall j, i < j <= i + k -> line_indent (nth i lines []) < line_indent (nth j lines [])) /\
    (S (i + k) = length lines \/
     line_indent (nth (S (i + k)) lines []) <= line_indent (nth i lines [])).
Proof.
  intros HL Hp Hc Hd Hi. set (d := o_comment (w_opts w)) in *.
  pose proof (loaded_region w b lines HL Hd) as R. pose proof (loaded_heap w b lines HL) as Hh.
  set (k := run (line_indent (nth i lines [])) (skipn (S i) lines)).
  destruct (run_spec (line_indent (nth i lines [])) (skipn (S i) lines)) as (K1 & K2 & K3).
  fold k in K1, K2, K3. rewrite skipn_length in K1, K3.
  assert (K2' : forall j, i < j <= i + k -> line_indent (nth i lines []) < line_indent (nth j lines [])).
  { intros j Hj. specialize (K2 (j - S i) ltac:(lia)). rewrite nth_skipn_add in K2.
    now replace (S i + (j - S i)) with j in K2 by lia. }
  assert (Hx : inr b (length lines) (b + i)) by (unfold inr; lia).
  destruct (all_children_region w b _ R Hh (b + i) Hx) as (l & E & Ssrt & M).
  assert (El : l = map (Nat.add b) (seq (S i) k)).
  { apply lt_sorted_unique; [exact Ssrt| |].
    - pose proof (seq_sorted (b + S i) k) as Q.
      replace (map (Nat.add b) (seq (Datatypes.S i) k)) with (seq (b + Datatypes.S i) k); [exact Q|].
      clear. generalize (Datatypes.S i). induction k as [|k IH]; intros a; [reflexivity|].
      cbn [seq map]. f_equal. rewrite <- IH. f_equal. lia.
    - intros y. rewrite M. rewrite in_map_iff.
      assert (D : forall j, j < length lines -> (descendant (children_of w) (b + i) (b + j) <-> ancestor (prel d lines) i j)).
      { intros j Hj. rewrite (duality w b (length lines) R Hh); [|apply (plain_agree w b lines HL Hp)|exact Hx|unfold inr; lia].
        clear - HL Hp Hj. revert i. induction j as [j IH] using lt_wf_ind. intros i.
        pose proof (plain_parent w b lines HL Hp j Hj) as Pj. fold d in Pj.
        pose proof (par_le d lines j) as Hle.
        split; intros A.
        - inversion A as [? ? A1 A2|? z ? A1 A2 A3]; subst; unfold parent_rel in A1; rewrite Pj in A1.
          + constructor; [unfold prel; lia|lia].
          + subst z. apply anc_step with (par d lines j); [reflexivity|lia|].
            apply IH; [lia|lia|exact A3].
        - inversion A as [? ? A1 A2|? z ? A1 A2 A3]; subst; unfold prel in A1.
          + constructor; [unfold parent_rel; lia|lia].
          + subst z. apply anc_step with (b + par d lines j); [exact Pj|lia|].
            apply IH; [lia|lia|exact A3]. }
      split.
      + intros Hd'. pose proof (descendant_gt w b _ R _ _ Hd' Hx) as Hr.
        exists (y - b). split; [lia|]. replace y with (b + (y - b)) in Hd' by lia.
        apply D in Hd'; [|lia]. apply (ancestor_run d lines Hc) in Hd' as [H1 H2]; [|lia].
        apply in_seq. destruct (Nat.lt_ge_cases (y - b) (Datatypes.S i + k)) as [G|G]; [lia|]. exfalso.
        destruct K3 as [K3|K3]; [lia|]. specialize (H2 (Datatypes.S (i + k)) ltac:(lia)).
        rewrite nth_skipn_add in K3. unfold ind in H2. replace (Datatypes.S i + k) with (Datatypes.S (i + k)) in K3 by lia. lia.
      + intros (j & <- & Hj). apply in_seq in Hj. apply D; [lia|]. apply (ancestor_run d lines Hc); [lia|].
        split; [lia|]. intros q Hq. apply K2'. lia. }
  subst l. exists k. split; [exact E|]. split.
  - unfold family_endpoint. rewrite E. cbn [bind]. f_equal.
    destruct k as [|k'] eqn:Ek.
    + cbn. rewrite (region_linenum w b _ R) by assumption. f_equal. lia.
    + rewrite seq_S, map_app, rev_app_distr. cbn [map rev app].
      rewrite (region_linenum w b _ R) by (unfold inr; lia). f_equal. lia.
  - split; [lia|]. split; [exact K2'|]. destruct K3 as [K3|K3]; [left; lia|right].
    rewrite nth_skipn_add in K3. now replace (Datatypes.S i + k) with (Datatypes.S (i + k)) in K3 by lia.
Qed.

(** ** Parsing the same lines on another heap *)

Theorem reboot_same w1 w2 lines :
  w_opts w1 = w_opts w2 ->
  match reboot w1 lines, reboot w2 lines with
  | Ok v1, Ok v2 => same_objects v1 v2
  | Err e1, Err e2 => e1 = e2
  | _, _ => False
  end.
Proof.
  intros Ho. destruct (reboot w1 lines) as [v1|e1] eqn:E1.
  - destruct (reboot_conf _ _ _ E1) as (objs & B & C).
    destruct (reboot w2 lines) as [v2|e2] eqn:E2; cycle 1.
    { unfold reboot, bind in E2. rewrite <- Ho, B in E2. discriminate. }
    destruct (reboot_conf _ _ _ E2) as (objs' & B' & C').
    rewrite <- Ho in B', C'. rewrite B in B'. injection B' as <-.
    set (b1 := length (w_heap w1)) in *. set (b2 := length (w_heap w2)) in *.
    exists (fun x => b2 + (x - b1)).
    assert (G : forall l, map (fun x => b2 + (x - b1)) (map (Nat.add b1) l) = map (Nat.add b2) l).
    { intros l. rewrite map_map. apply map_ext. intros a. lia. }
    split; [rewrite C, C', G; reflexivity|]. split.
    { rewrite C'. apply FinFun.Injective_map_NoDup; [intros x y; lia|].
      apply ssorted_nodup. apply positions_sorted. }
    intros x Hx. rewrite C in Hx. apply in_map_iff in Hx as (i & <- & Hi).
    apply positions_in in Hi as (l & Hl & _).
    pose proof (reboot_obj _ _ _ _ _ B E1 i) as O1.
    pose proof (reboot_obj w2 lines v2 objs (positions (stays (w_opts w1)) 0 objs)) as O2.
    rewrite <- Ho in O2. specialize (O2 B E2 i). rewrite Hl in O1, O2. cbn [option_map] in O1, O2.
    fold b1 in O1. fold b2 in O2. exists (relocate b1 l), (relocate b2 l).
    split; [exact O1|]. replace (b2 + (b1 + i - b1)) with (b2 + i) by lia. split; [exact O2|].
    unfold relocate; cbn [cl_text cl_linenum cl_indent cl_comment cl_parent cl_children].
    repeat split; [f_equal; lia|]. now rewrite G.
  - unfold reboot, bind in E1 |- *. rewrite <- Ho.
    destruct (bootstrap (w_opts w1) lines) as [[objs kept]|e]; [discriminate|]. now injection E1.
Qed.

Theorem commit_is_parse w :
  (o_ignore_blank (w_opts w) = false \/ ~ In [] (ioscfg w)) ->
  match commit w, parse (w_opts w) (ioscfg w) with
  | Ok v1, Ok v2 => same_objects v1 v2
  | Err e1, Err e2 => e1 = e2
  | _, _ => False
  end.
Proof.
  intros H. unfold commit, parse. replace (input_lines (w_opts w) (ioscfg w)) with (ioscfg w).
  - apply reboot_same. reflexivity.
  - unfold input_lines. destruct (o_ignore_blank (w_opts w)); [|reflexivity].
    destruct H as [H|H]; [discriminate|]. symmetry. apply filter_all. intros x Hx.
    destruct x; [contradiction|reflexivity].
Qed.

Theorem commit_twice w b lines :
  loaded w b lines -> no_bare_macro (w_opts w) lines ->
  exists w1 w2, commit w = Ok w1 /\ commit w1 = Ok w2 /\
    ioscfg w1 = ioscfg w /\ ioscfg w2 = ioscfg w /\ same_objects w1 w2 /\
    (no_comment_after_dropped (w_opts w) lines -> same_tree w w1).
Proof.
  intros (w0 & Hb & Ho & HR) HM. rewrite <- Ho in HM |- *.
  destruct (commit_text w0 w lines HR HM) as (w1 & C1 & I1 & S1).
  pose proof (reboot_same w w1 (ioscfg w)) as Q.
  assert (Hwo : w_opts w = w_opts w1).
  { destruct (reboot_inv _ _ _ C1) as (? & ? & _ & ->). reflexivity. }
  specialize (Q Hwo). unfold commit in C1. rewrite C1 in Q.
  destruct (reboot w1 (ioscfg w)) as [w2|] eqn:E2; [|contradiction].
  exists w1, w2. split; [exact C1|]. split; [unfold commit; now rewrite I1|].
  split; [exact I1|]. split; [|split; [exact Q|exact S1]].
  destruct Q as (f & Q1 & _ & Q3). rewrite <- I1. unfold ioscfg. rewrite Q1, map_map.
  apply map_ext_in. intros x Hx. destruct (Q3 x Hx) as (l & l' & O1 & O2 & T & _).
  unfold text_of. now rewrite O1, O2.
Qed.

(** ** Order of children *)
Lemma filter_sorted (f : nat -> bool) l : StronglySorted lt l -> StronglySorted lt (filter f l).
Proof.
  induction 1 as [|x l Hs IH Hf]; cbn; [constructor|].
  destruct (f x); [|exact IH]. constructor; [exact IH|].
  rewrite Forall_forall in *. intros y Hy. apply filter_In in Hy as [Hy _]. auto.
Qed.

Lemma map_add_sorted b l : StronglySorted lt l -> StronglySorted lt (map (Nat.add b) l).
Proof.
  induction 1 as [|x l Hs IH Hf]; cbn; constructor; [exact IH|].
  rewrite Forall_forall in *. intros y Hy. apply in_map_iff in Hy as (z & <- & Hz).
  specialize (Hf z Hz). lia.
Qed.

Lemma plain_children_sorted w b lines i :
  loaded w b lines -> Forall (fun l => plain_line l = true) lines -> i < length lines ->
  StronglySorted lt (children_of w (b + i)).
Proof.
  intros (w0 & Hb & Ho & HR) Hp Hi. rewrite (reboot_plain w0 lines Hp) in HR. injection HR as <-.
  unfold children_of, obj. cbn [w_heap]. subst b. rewrite nth_error_app2 by lia.
  rewrite nth_error_map_iff, exp_objs_nth.
  replace (length (w_heap w0) + i - length (w_heap w0)) with i by lia.
  replace (i <? length lines) with true by (symmetry; now apply Nat.ltb_lt).
  cbn [option_map relocate cl_children exp_line]. apply map_add_sorted.
  unfold kids. apply filter_sorted. apply seq_sorted.
Qed.

(** Parent links reach a root. *)
Lemma root_reached w b n :
  region w b n -> b + n <= length (w_heap w) -> forall x, inr b n x ->
  exists l, root_path w l x.
Proof.
  intros R Hh x Hx. destruct (region_root_path w b n R Hh x Hx) as (l & _ & H). eauto.
Qed.

Lemma loaded_root w b lines : loaded w b lines -> forall i, i < length lines ->
  exists l, root_path w l (b + i).
Proof.
  intros HL i. induction i as [i IH] using lt_wf_ind. intros Hi.
  destruct (loaded_boot w b lines HL) as (objs & B & Ob & _ & _ & Hlen & _).
  destruct (nth_error_lt_some objs i) as (l & Hl); [lia|].
  specialize (Ob i). rewrite Hl in Ob. cbn [option_map] in Ob.
  destruct (bootstrap_facts _ _ _ _ B) as (_ & L & _). destruct (L i l Hl) as (_ & L2 & _).
  assert (P : parent_of w (b + i) = b + cl_parent l) by (unfold parent_of; now rewrite Ob).
  destruct (Nat.eq_dec (cl_parent l) i) as [E|E].
  - exists [b + i]. constructor. lia.
  - destruct (IH (cl_parent l)) as (p & Hp); [lia|lia|]. exists (p ++ [b + i]).
    constructor; [lia|]. now rewrite P.
Qed.
