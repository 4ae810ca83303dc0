(** The tree theorems for loaded configurations. *)
From Coq Require Import Ascii String Arith NArith ZArith Bool List Lia Sorting.Sorted.
From Verif Require Import PyStr PyStrFacts PyBase PyBaseFacts CfgModel TreeSpec BraceSpec WorldSpec
  TreeProofs TreePost TreeRel TreeWorld TreeBanner TreeFull CommitProofs CommitMain.
Import ListNotations.
Local Open Scope nat_scope.

Lemma parse_loaded o lines w : parse o lines = Ok w -> w_opts w = o /\ loaded w 0 (input_lines o lines).
Proof.
  intros H. destruct (reboot_inv _ _ _ H) as (objs & kept & B & E).
  assert (w_opts w = o) by (rewrite E; reflexivity). split; [assumption|].
  exists (mkW o [] []). repeat split; auto.
Qed.

Lemma commit_loaded w w' :
  commit w = Ok w' -> w_opts w' = w_opts w /\ loaded w' (length (w_heap w)) (ioscfg w).
Proof.
  intros H. destruct (reboot_inv _ _ _ H) as (objs & kept & B & E).
  assert (w_opts w' = w_opts w) by (rewrite E; reflexivity). split; [assumption|].
  exists w. auto.
Qed.

Lemma seq_sorted a n : StronglySorted lt (seq a n).
Proof.
  revert a; induction n as [|n IH]; intros a; cbn; constructor; [apply IH|].
  apply Forall_forall. intros y Hy. apply in_seq in Hy. lia.
Qed.

Section Loaded.
  Variables (w : world) (b : nat) (lines : list str).
  Hypothesis HL : loaded w b lines.
  Let o := w_opts w.

  Lemma loaded_boot : exists objs,
    bootstrap o lines = Ok (objs, positions (stays o) 0 objs) /\
    (forall i, obj w (b + i) = option_map (relocate b) (nth_error objs i)) /\
    w_conf w = map (Nat.add b) (positions (stays o) 0 objs) /\
    ioscfg w = map cl_text (filter (stays o) objs) /\
    length objs = length lines /\
    length (w_heap w) = b + length lines.
  Proof.
    destruct HL as (w0 & Hb & Ho & HR). destruct (reboot_conf _ _ _ HR) as (objs & B & C).
    unfold o. rewrite <- Ho. exists objs. split; [exact B|]. subst b. split.
    - intros i. apply (reboot_obj _ _ _ _ _ B HR).
    - split; [exact C|]. split; [eapply reboot_ioscfg; eauto|].
      split; [eapply bootstrap_length; eauto|]. eapply reboot_heap; eauto.
  Qed.

  Lemma loaded_region :
    Forall (fun l => no_digit_start l = true) lines -> region w b (length lines).
  Proof.
    intros H. destruct HL as (w0 & Hb & Ho & HR). subst b. eapply reboot_region; eauto.
  Qed.

  Lemma loaded_heap : b + length lines <= length (w_heap w).
  Proof. destruct loaded_boot as (objs & _ & _ & _ & _ & _ & H). lia. Qed.

  (** Every line has its object. *)
  Theorem loaded_obj i line :
    nth_error lines i = Some line ->
    exists l, obj w (b + i) = Some l /\
      cl_text l = rstrip line /\ cl_linenum l = Z.of_nat i /\ cl_indent l = line_indent line /\
      cl_comment l = comment_line (o_comment o) line /\
      (exists p, cl_parent l = b + p /\ full_parent o lines i p) /\
      (forall c, In c (cl_children l) <-> exists j, c = b + j /\ j < length lines /\
         ((tree_parent (o_comment o) lines j i /\ j <> i) \/
          (o_syntax o <> Junos /\ in_banner lines i j) \/
          (o_syntax o = Ios /\ in_macro lines i j))) /\
      (In (b + i) (w_conf w) <-> line_kept o lines i).
  Proof.
    intros Hline. destruct loaded_boot as (objs & B & Ob & C & _ & Hlen & _).
    destruct (nth_error_lt_some objs i) as (l & Hl).
    { rewrite Hlen. eapply nth_error_length_lt; eauto. }
    specialize (Ob i). rewrite Hl in Ob. cbn [option_map] in Ob. exists (relocate b l). split; [exact Ob|].
    destruct (bootstrap_static _ _ _ _ _ _ B Hl) as (line' & Hline' & T1 & T2 & T3 & T4 & _).
    rewrite Hline in Hline'. injection Hline' as <-.
    pose proof (bootstrap_full o lines) as F. rewrite B in F. destruct F as (_ & _ & F).
    destruct (F i l Hl) as (P & K & S).
    unfold relocate. cbn [cl_text cl_linenum cl_indent cl_comment cl_parent cl_children].
    repeat (split; [first [assumption | now exists (cl_parent l)]|]). split.
    - intros c. rewrite in_map_iff. split.
      + intros (j & <- & Hj). exists j. split; [reflexivity|]. now apply K.
      + intros (j & -> & Hj). exists j. split; [reflexivity|]. now apply K.
    - rewrite C, <- S. rewrite in_map_iff. split.
      + intros (j & E & Hj). apply positions_in in Hj as (y & Hy & Hs).
        assert (j = i) by lia. subst j. congruence.
      + intros Hs. exists i. split; [reflexivity|]. apply positions_in. eauto.
  Qed.

  Lemma conf_in x :
    In x (w_conf w) -> exists i line, x = b + i /\ nth_error lines i = Some line /\ line_kept o lines i.
  Proof.
    intros Hx. destruct loaded_boot as (objs & B & Ob & C & _ & Hlen & _).
    rewrite C in Hx. apply in_map_iff in Hx as (i & <- & Hi).
    assert (Hil : i < length lines).
    { apply positions_in in Hi as (y & Hy & _). apply nth_error_length_lt in Hy. lia. }
    destruct (nth_error_lt_some lines i Hil) as (line & Hline).
    exists i, line. split; [reflexivity|]. split; [exact Hline|].
    destruct (loaded_obj i line Hline) as (l & _ & _ & _ & _ & _ & _ & _ & HK).
    apply HK. rewrite C. now apply in_map.
  Qed.

  (** C01 *)
  Theorem loaded_text :
    exists ks, StronglySorted lt ks /\ (forall i, In i ks <-> line_kept o lines i) /\
      w_conf w = map (Nat.add b) ks /\ ioscfg w = map (fun i => rstrip (nth i lines [])) ks.
  Proof.
    destruct loaded_boot as (objs & B & Ob & C & I & Hlen & _).
    exists (positions (stays o) 0 objs). split; [apply positions_sorted|].
    assert (Hk : forall i, In i (positions (stays o) 0 objs) <-> line_kept o lines i).
    { intros i. pose proof (bootstrap_full o lines) as F. rewrite B in F. destruct F as (_ & _ & F).
      rewrite positions_in. split.
      - intros (y & Hy & Hs). now apply (F i y Hy).
      - intros K. assert (i < length objs).
        { destruct K as (l & Hl & _). apply nth_error_length_lt in Hl. lia. }
        destruct (nth_error_lt_some objs i H) as (l & Hl). exists l. split; [exact Hl|]. now apply (F i l Hl). }
    split; [exact Hk|]. split; [exact C|].
    unfold ioscfg. rewrite C, map_map. apply map_ext_in. intros i Hi.
    apply Hk in Hi as (line & Hline & _).
    destruct (loaded_obj i line Hline) as (l & Hl & T & _).
    unfold text_of. rewrite Hl, T. f_equal. symmetry. exact (nth_error_nth lines i [] Hline).
  Qed.

  Lemma nonblank_kept_filter ks :
    StronglySorted lt ks -> (forall i, In i ks <-> line_kept o lines i) ->
    filter (fun l => negb (blank l)) (map (fun i => rstrip (nth i lines [])) ks)
    = map rstrip (filter (fun l => negb (blank l)) lines).
  Proof.
    intros Hs Hk. rewrite filter_map_comm.
    rewrite (filter_ext _ (fun i => negb (blank (nth i lines []))))
      by (intros i; now rewrite blank_rstrip_eq).
    assert (E : filter (fun i => negb (blank (nth i lines []))) ks
                = filter (fun i => negb (blank (nth i lines []))) (seq 0 (length lines))).
    { apply lt_sorted_unique.
      - clear Hk. induction Hs as [|x l Hs IH Hf]; cbn; [constructor|].
        destruct (negb _); [|exact IH]. constructor; [exact IH|].
        rewrite Forall_forall in *. intros y Hy. apply filter_In in Hy as [Hy _]. auto.
      - assert (Hsq : StronglySorted lt (seq 0 (length lines))).
        { apply seq_sorted. }
        induction Hsq as [|x l Hs' IH Hf]; cbn; [constructor|].
        destruct (negb _); [|exact IH]. constructor; [exact IH|].
        rewrite Forall_forall in *. intros y Hy. apply filter_In in Hy as [Hy _]. auto.
      - intros i. rewrite !filter_In, Hk, in_seq. split.
        + intros [(l & Hl & _) H]. split; [|exact H]. apply nth_error_length_lt in Hl. lia.
        + intros [Hi H]. split; [|exact H]. destruct (nth_error_lt_some lines i) as (l & Hl); [lia|].
          eapply kept_nonblank_line; eauto. rewrite (nth_error_nth lines i [] Hl) in H.
          now apply negb_true_iff in H. }
    rewrite E. rewrite <- (map_map (fun i => nth i lines []) rstrip). f_equal.
    rewrite <- (filter_map_comm (fun i => nth i lines []) (fun l => negb (blank l))). f_equal.
    apply nth_error_ext. intros i. rewrite nth_error_map_iff, nth_error_seq.
    destruct (i <? length lines) eqn:Ei.
    - apply Nat.ltb_lt in Ei. destruct (nth_error_lt_some lines i Ei) as (l & Hl). rewrite Hl.
      cbn. now rewrite (nth_error_nth lines i [] Hl).
    - apply Nat.ltb_ge in Ei. now rewrite (proj2 (nth_error_None lines i) Ei).
  Qed.

  Theorem loaded_nonblank :
    filter (fun l => negb (blank l)) (ioscfg w) = map rstrip (filter (fun l => negb (blank l)) lines).
  Proof. destruct loaded_text as (ks & H1 & H2 & _ & ->). now apply nonblank_kept_filter. Qed.

  Theorem loaded_all :
    (forall i, i < length lines -> line_kept o lines i) -> 
    w_conf w = map (Nat.add b) (seq 0 (length lines)) /\ ioscfg w = map rstrip lines.
  Proof.
    intros H. destruct loaded_text as (ks & H1 & H2 & H3 & H4).
    assert (E : ks = seq 0 (length lines)).
    { apply lt_sorted_unique; [exact H1| |].
      - apply seq_sorted.
      - intros i. rewrite H2, in_seq. split.
        + intros (l & Hl & _). apply nth_error_length_lt in Hl. lia.
        + intros Hi. apply H. lia. }
    subst ks. split; [exact H3|]. rewrite H4. rewrite <- (map_map (fun i => nth i lines []) rstrip). f_equal.
    apply nth_error_ext. intros i. rewrite nth_error_map_iff, nth_error_seq.
    destruct (i <? length lines) eqn:Ei.
    - apply Nat.ltb_lt in Ei. destruct (nth_error_lt_some lines i Ei) as (l & Hl). rewrite Hl.
      cbn. now rewrite (nth_error_nth lines i [] Hl).
    - apply Nat.ltb_ge in Ei. now rewrite (proj2 (nth_error_None lines i) Ei).
  Qed.

  (** Plain configurations: only indentation matters. *)
  Hypothesis Hplain : Forall (fun l => plain_line l = true) lines.

  Lemma plain_no_banner p j : ~ in_banner lines p j.
  Proof.
    intros (c & _ & (l & Hl & Hb & _) & _). apply banner_contains in Hb.
    rewrite Forall_forall in Hplain. specialize (Hplain l (nth_error_In _ _ Hl)).
    unfold plain_line in Hplain. rewrite !andb_true_iff, !negb_true_iff in Hplain.
    destruct Hplain as ((((_ & _) & H1) & H2) & _).
    destruct Hb as [Hb|Hb]; apply contains_rstrip in Hb; congruence.
  Qed.

  Lemma plain_no_macro p j : ~ in_macro lines p j.
  Proof.
    intros (_ & (l & Hl & Hb) & _).
    rewrite Forall_forall in Hplain. specialize (Hplain l (nth_error_In _ _ Hl)).
    unfold plain_line in Hplain. rewrite !andb_true_iff, !negb_true_iff in Hplain.
    destruct Hplain as (_ & H1). congruence.
  Qed.

  Lemma plain_no_closer j : ~ closer lines j.
  Proof.
    intros (l & Hl & _ & H).
    rewrite Forall_forall in Hplain. specialize (Hplain l (nth_error_In _ _ Hl)).
    unfold plain_line in Hplain. rewrite !andb_true_iff, !negb_true_iff in Hplain.
    destruct Hplain as ((((_ & H2) & _) & _) & _). congruence.
  Qed.

  Lemma plain_full_parent i p : full_parent o lines i p <-> tree_parent (o_comment o) lines i p.
  Proof.
    split.
    - intros [A|[_ [B|[_ [C|[_ D]]]]]]; [| | |exact D].
      + destruct A as [[_ A] _]. now apply plain_no_macro in A.
      + destruct B as [[_ B] _]. now apply plain_no_banner in B.
      + destruct C as (_ & _ & C & _). now apply plain_no_closer in C.
    - intros H. right. split; [intros q [_ A]; now apply plain_no_macro in A|].
      right. split; [intros q [_ A]; now apply plain_no_banner in A|]. right.
      split; [apply plain_no_closer|exact H].
  Qed.

  Lemma plain_parent i : i < length lines -> parent_of w (b + i) = b + par (o_comment o) lines i.
  Proof.
    intros Hi. destruct (nth_error_lt_some lines i Hi) as (line & Hline).
    destruct (loaded_obj i line Hline) as (l & Hl & _ & _ & _ & _ & (p & Hp & Hf) & _).
    unfold parent_of. rewrite Hl, Hp. f_equal. apply plain_full_parent in Hf.
    symmetry. now apply par_iff.
  Qed.

  Lemma plain_children i c :
    i < length lines ->
    (In c (children_of w (b + i)) <->
     exists j, c = b + j /\ j < length lines /\ par (o_comment o) lines j = i /\ j <> i).
  Proof.
    intros Hi. destruct (nth_error_lt_some lines i Hi) as (line & Hline).
    destruct (loaded_obj i line Hline) as (l & Hl & _ & _ & _ & _ & _ & Hc & _).
    unfold children_of. rewrite Hl, Hc. split; intros (j & -> & Hj & H); exists j; (split; [reflexivity|]); (split; [exact Hj|]).
    - destruct H as [[H1 H2]|[[_ H]|[_ H]]].
      + split; [now apply par_iff|exact H2].
      + now apply plain_no_banner in H.
      + now apply plain_no_macro in H.
    - left. split; [now apply par_iff|]. apply H.
  Qed.

  Lemma plain_agree : links_agree w b (length lines).
  Proof.
    intros x y Hx Hy. unfold inr in *. replace x with (b + (x - b)) by lia.
    replace y with (b + (y - b)) by lia. rewrite plain_children by lia. rewrite plain_parent by lia.
    split.
    - intros (j & E & Hj & Hp & Hne). assert (j = y - b) by lia. subst j. lia.
    - intros [H1 H2]. exists (y - b). repeat split; lia.
  Qed.
End Loaded.

(** ** Paths *)
Lemma region_root_path w b n :
  region w b n -> b + n <= length (w_heap w) ->
  forall x, inr b n x -> exists l, geneology w x = Ok l /\ root_path w l x.
Proof.
  intros R Hh x. induction x as [x IH] using lt_wf_ind. intros Hx.
  destruct (geneology_region w b n R Hh x Hx) as (l & E & S & M & _).
  exists l. split; [exact E|]. pose proof (parent_inr w b n R x Hx) as Hp.
  destruct (Nat.eq_dec (parent_of w x) x) as [Hr|Hr].
  - assert (El : l = [x]).
    { apply lt_sorted_unique; [exact S|repeat constructor|]. intros y. rewrite M. cbn. split.
      - intros [->|H]; [now left|]. exfalso.
        inversion H as [? ? H1 H2|? ? ? H1 H2 H3]; subst; unfold parent_rel in *; congruence.
      - intros [<-|[]]. now left. }
    subst l. now constructor.
  - assert (Hpx : inr b n (parent_of w x)) by (destruct Hx; unfold inr; lia).
    destruct (IH (parent_of w x) ltac:(lia) Hpx) as (l' & E' & P').
    destruct (geneology_region w b n R Hh _ Hpx) as (l'' & E'' & S'' & M'' & _).
    rewrite E' in E''. injection E'' as <-.
    assert (El : l = l' ++ [x]).
    { apply lt_sorted_unique; [exact S| |].
      - apply ssorted_app; [exact S''|repeat constructor|]. intros u v Hu [<-|[]].
        apply M'' in Hu as [->|Hu]; [lia|]. apply (ancestor_lt w b n R Hh) in Hu; [lia|exact Hpx].
      - intros y. rewrite M, in_app_iff, M''. cbn. split.
        + intros [->|H]; [now right; left|]. left.
          inversion H as [? ? H1 H2|? y' ? H1 H2 H3]; subst; unfold parent_rel in *; subst; auto.
        + intros [[->|H]|[<-|[]]]; [|right; econstructor 2; try exact H; unfold parent_rel; auto|now left].
          right. constructor; [reflexivity|exact Hr]. }
    subst l. now constructor.
Qed.
