(** The complete parser against the specification of BraceSpec.v. *)
From Coq Require Import Ascii String Arith NArith ZArith Bool List Lia Sorting.Sorted.
From Verif Require Import PyStr PyStrFacts PyBase PyBaseFacts CfgModel TreeSpec BraceSpec
  TreeProofs TreePost TreeRel TreeWorld TreeBanner.
Import ListNotations.
Local Open Scope nat_scope.

Lemma split_on_count c s : length (split_on c s) = S (count_occ ascii_dec s c).
Proof.
  induction s as [|x s IH]; cbn; [reflexivity|].
  destruct (Ascii.eqb x c) eqn:E.
  - apply Ascii.eqb_eq in E. subst. destruct (ascii_dec c c) as [_|H]; [|congruence]. cbn. lia.
  - apply Ascii.eqb_neq in E. destruct (ascii_dec x c) as [H|_]; [congruence|].
    destruct (split_on c s); cbn in *; lia.
Qed.

Lemma lstrip_hd_nonspace s c : hd_error (lstrip s) = Some c -> is_space c = false.
Proof.
  induction s as [|x s IH]; cbn; [discriminate|].
  destruct (is_space x) eqn:E; [exact IH|]. cbn. intros H; injection H as <-. exact E.
Qed.

Lemma banner_delim_nonspace t d : banner_delim t = Some d -> is_space d = false.
Proof.
  unfold banner_delim. destruct (starts_with _ _); [|discriminate].
  destruct (skipn 6 _) as [|c r1]; [discriminate|]. destruct (is_space c); [|discriminate].
  destruct (take_while is_word r1); [discriminate|].
  destruct (skipn _ r1) as [|c2 r2]; [discriminate|].
  destruct (is_space c2); [|discriminate]. apply lstrip_hd_nonspace.
Qed.

Lemma has_char_spaces d p : is_space d = false -> forallb is_space p = true -> has_char d p = false.
Proof.
  intros Hd Hp. apply has_char_false. intros H. rewrite forallb_forall in Hp.
  specialize (Hp _ H). congruence.
Qed.

Lemma has_char_strip d l : is_space d = false -> has_char d (strip (rstrip l)) = has_char d l.
Proof.
  intros Hd. rewrite strip_rstrip. unfold strip.
  destruct (lstrip_suffix (rstrip l)) as (p & Ep & Hp).
  destruct (rstrip_prefix l) as (q & Eq & Hq).
  rewrite Eq at 2. rewrite has_char_app, (has_char_spaces d q Hd Hq), orb_false_r.
  rewrite Ep at 2. rewrite has_char_app, (has_char_spaces d p Hd Hp). reflexivity.
Qed.

Lemma covb_spec lines p j :
  j < length lines ->
  (In p (positions is_banner_line 0 (map rstrip lines)) /\
   covb (map rstrip lines) p j = true) <-> in_banner lines p j.
Proof.
  intros Hj. rewrite positions_spec, Nat.sub_0_r. unfold covb, brange, in_banner, banner_open.
  rewrite nth_error_map_iff. rewrite andb_true_iff, Nat.leb_le, Nat.ltb_lt.
  split.
  - intros ((t & Ht & Hb & _) & Hp & Hr).
    destruct (nth_error lines p) as [l|] eqn:El; [|discriminate]. cbn [option_map] in Ht, Hr. injection Ht as <-.
    destruct (banner_delim (rstrip l)) as [d|] eqn:Ed; [|lia].
    destruct (2 <? length (split_on d (rstrip l))) eqn:Ec; [lia|].
    apply Nat.ltb_ge in Ec. rewrite split_on_count in Ec.
    assert (Hr' : j - S p < upto (fun t => has_char d (strip t)) (skipn (S p) (map rstrip lines))) by lia.
    apply upto_lt in Hr' as [_ Hr'].
    exists d. split; [lia|]. split; [exists l; split; [reflexivity|]; split; [exact Hb|]; split; [exact Ed|lia]|].
    intros k lk Hk Hlk. specialize (Hr' (k - S p) (rstrip lk) ltac:(lia)).
    rewrite nth_error_skipn in Hr'. replace (S p + (k - S p)) with k in Hr' by lia.
    rewrite nth_error_map_iff, Hlk in Hr'. specialize (Hr' eq_refl).
    rewrite has_char_strip in Hr' by (eapply banner_delim_nonspace; eauto). exact Hr'.
  - intros (d & Hp & (l & El & Hb & Ed & Hc) & Hall). rewrite El. cbn [option_map].
    split; [exists (rstrip l); repeat split; auto; lia|]. split; [lia|].
    rewrite Ed. replace (2 <? length (split_on d (rstrip l))) with false
      by (symmetry; apply Nat.ltb_ge; rewrite split_on_count; lia).
    assert (H : j - S p < upto (fun t => has_char d (strip t)) (skipn (S p) (map rstrip lines))).
    { apply upto_lt. split; [rewrite skipn_length, map_length; lia|].
      intros m t Hm Ht. rewrite nth_error_skipn, nth_error_map_iff in Ht.
      destruct (nth_error lines (S p + m)) as [lk|] eqn:Ek; [|discriminate]. injection Ht as <-.
      rewrite has_char_strip by (eapply banner_delim_nonspace; eauto).
      apply (Hall (S p + m)); [lia|exact Ek]. }
    lia.
Qed.

Lemma mcovb_spec o lines p j :
  j < length lines ->
  (In p (positions (is_macro_start o) 0 lines) /\ mcovb (map rstrip lines) p j = true)
  <-> o_syntax o = Ios /\ in_macro lines p j.
Proof.
  intros Hj. rewrite positions_spec, Nat.sub_0_r. unfold mcovb, mrange, in_macro, is_macro_start.
  rewrite andb_true_iff, Nat.leb_le, Nat.ltb_lt. split.
  - intros ((l & Hl & Hm & _) & Hp & Hr).
    destruct (o_syntax o); try discriminate. split; [reflexivity|].
    assert (Hr' : j - S p < upto at_line (skipn (S p) (map rstrip lines))) by lia.
    apply upto_lt in Hr' as [_ Hr']. split; [lia|]. split; [eauto|].
    intros k lk Hk Hlk. specialize (Hr' (k - S p) (rstrip lk) ltac:(lia)).
    rewrite nth_error_skipn in Hr'. replace (S p + (k - S p)) with k in Hr' by lia.
    rewrite nth_error_map_iff, Hlk in Hr'. specialize (Hr' eq_refl).
    unfold at_line in Hr'. rewrite rstrip_idem in Hr'. now apply str_eqb_neq in Hr'.
  - intros (-> & Hp & (l & Hl & Hm) & Hall). split; [exists l; repeat split; auto; lia|]. split; [lia|].
    assert (H : j - S p < upto at_line (skipn (S p) (map rstrip lines))).
    { apply upto_lt. split; [rewrite skipn_length, map_length; lia|].
      intros m t Hmm Ht. rewrite nth_error_skipn, nth_error_map_iff in Ht.
      destruct (nth_error lines (S p + m)) as [lk|] eqn:Ek; [|discriminate]. injection Ht as <-.
      unfold at_line. rewrite rstrip_idem. apply str_eqb_neq. apply (Hall (S p + m)); [lia|exact Ek]. }
    lia.
Qed.

Lemma macros_ok_spec lines :
  (forall p, In p (positions (starts_with (lit "macro name ")) 0 lines) ->
     existsb at_line (skipn (S p) (map rstrip lines)) = true) <-> macros_ok lines.
Proof.
  unfold macros_ok. split.
  - intros H p l Hl Hs. specialize (H p). rewrite positions_spec, Nat.sub_0_r in H.
    specialize (H (ex_intro _ l (conj Hl (conj Hs (Nat.le_0_l p))))).
    apply existsb_exists in H as (t & Ht & Ha). apply In_nth_error in Ht as (k & Hk).
    rewrite nth_error_skipn, nth_error_map_iff in Hk.
    destruct (nth_error lines (S p + k)) as [lj|] eqn:E; [|discriminate]. injection Hk as <-.
    exists (S p + k), lj. split; [lia|]. split; [exact E|].
    unfold at_line in Ha. rewrite rstrip_idem in Ha. now apply str_eqb_eq in Ha.
  - intros H p Hp. rewrite positions_spec, Nat.sub_0_r in Hp. destruct Hp as (l & Hl & Hs & _).
    destruct (H p l Hl Hs) as (j & lj & Hj & Hlj & Ha). apply existsb_exists.
    exists (rstrip lj). split.
    + apply (nth_error_In _ (j - S p)). rewrite nth_error_skipn.
      replace (S p + (j - S p)) with j by lia. rewrite nth_error_map_iff, Hlj. reflexivity.
    + unfold at_line. rewrite rstrip_idem. now apply str_eqb_eq.
Qed.

Lemma positions_sorted {A} (f : A -> bool) l b : StronglySorted lt (positions f b l) /\ Forall (le b) (positions f b l).
Proof.
  revert b; induction l as [|x l IH]; intros b; cbn [positions]; [split; constructor|].
  destruct (IH (S b)) as [H1 H2].
  assert (H3 : Forall (le b) (positions f (S b) l)) by (eapply Forall_impl; [|exact H2]; cbn; intros; lia).
  destruct (f x); [|split; auto]. split; constructor; auto.
Qed.

Lemma lastf_spec f ps d :
  StronglySorted lt ps ->
  (exists p, In p ps /\ f p = true /\ (forall q, In q ps -> f q = true -> q <= p) /\ lastf f ps d = p) \/
  ((forall q, In q ps -> f q = false) /\ lastf f ps d = d).
Proof.
  intros H. revert d. induction H as [|p ps Hs IH Hf]; intros d.
  - right. split; [intros q []|reflexivity].
  - unfold lastf. cbn [fold_left]. fold (lastf f ps (if f p then p else d)).
    destruct (IH (if f p then p else d)) as [(q & H1 & H2 & H3 & H4)|[H1 H2]].
    + left. exists q. split; [now right|]. split; [exact H2|]. split; [|exact H4].
      intros r [<-|Hr] Hfr; [|auto]. rewrite Forall_forall in Hf. specialize (Hf _ H1). lia.
    + destruct (f p) eqn:E.
      * left. exists p. split; [now left|]. split; [exact E|]. split; [|exact H2].
        intros q [<-|Hq] Hfq; [lia|]. rewrite H1 in Hfq by assumption. discriminate.
      * right. split; [|exact H2]. intros q [<-|Hq]; auto.
Qed.

Lemma lastf_cover (R : nat -> nat -> Prop) f ps d j :
  StronglySorted lt ps -> (forall p, In p ps /\ f p = true <-> R p j) ->
  (last_cover R j (lastf f ps d)) \/ (no_cover R j /\ lastf f ps d = d).
Proof.
  intros Hs HR. destruct (lastf_spec f ps d Hs) as [(p & H1 & H2 & H3 & H4)|[H1 H2]].
  - left. rewrite H4. split; [apply HR; auto|]. intros q Hq Hr. apply HR in Hr as [Hr1 Hr2].
    specialize (H3 q Hr1 Hr2). lia.
  - right. split; [|exact H2]. intros q Hr. apply HR in Hr as [Hr1 Hr2].
    rewrite H1 in Hr2 by assumption. discriminate.
Qed.

Lemma lastf_none f ps d : (forall p, In p ps -> f p = false) -> lastf f ps d = d.
Proof.
  revert d; induction ps as [|p ps IH]; intros d H; [reflexivity|].
  unfold lastf. cbn [fold_left]. rewrite (H p) by now left. apply IH. intros; apply H; now right.
Qed.

(** What the parser produces for line [j]. *)
Definition obj_spec (o : opts) (lines : list str) (j : nat) (l : cfgline) : Prop :=
  full_parent o lines j (cl_parent l) /\
  (forall c, In c (cl_children l) <->
     c < length lines /\
     ((tree_parent (o_comment o) lines c j /\ c <> j) \/
      (o_syntax o <> Junos /\ in_banner lines j c) \/
      (o_syntax o = Ios /\ in_macro lines j c))) /\
  (stays o l = true <-> line_kept o lines j).

Lemma existsb_eqb j ps : existsb (Nat.eqb j) ps = true <-> In j ps.
Proof.
  rewrite existsb_exists. split.
  - intros (x & Hx & E). apply Nat.eqb_eq in E. now subst.
  - intros H. exists j. split; [exact H|apply Nat.eqb_refl].
Qed.

Lemma strip_blank l : match strip l with [] => false | _ => true end = negb (blank l).
Proof.
  unfold blank. pose proof (strip_nil_iff l) as H. destruct (strip l).
  - now rewrite (proj1 H eq_refl).
  - destruct (forallb is_space l); [|reflexivity]. specialize (proj2 H eq_refl). discriminate.
Qed.

Lemma closer_dec lines j : closer lines j \/ ~ closer lines j.
Proof.
  unfold closer. destruct (nth_error lines j) as [l|].
  - destruct (opening_line l) eqn:E1, (closing_line l) eqn:E2;
    try (right; intros (l' & H & H1 & H2); injection H as <-; congruence). left; eauto.
  - right. intros (l & H & _). discriminate.
Qed.

Lemma blank_not_banner l : blank l = true -> is_banner_line (rstrip l) = false.
Proof. intros H. apply blank_rstrip in H. rewrite H. reflexivity. Qed.

Lemma blank_not_macro l : blank l = true -> starts_with (lit "macro name ") l = false.
Proof.
  intros H. destruct (starts_with (lit "macro name ") l) eqn:E; [|reflexivity]. exfalso.
  apply starts_with_spec in E as (r & ->). discriminate H.
Qed.

Lemma seq_in_range a m c : In c (seq a m) <-> (a <=? c) && (c <? a + m) = true.
Proof. rewrite in_seq, andb_true_iff, Nat.leb_le, Nat.ltb_lt. tauto. Qed.

Lemma brange_le ts p : p < length ts -> S p + brange ts p <= length ts.
Proof.
  intros Hp. unfold brange. destruct (nth_error ts p); [|lia]. destruct (banner_delim s) as [d|]; [|lia].
  destruct (_ <? _); [lia|]. pose proof (upto_le (fun t => has_char d (strip t)) (skipn (S p) ts)) as H.
  rewrite skipn_length in H. lia.
Qed.

Lemma mrange_le ts p : p < length ts -> S p + mrange ts p <= length ts.
Proof.
  intros Hp. unfold mrange. pose proof (upto_le at_line (skipn (S p) ts)) as H.
  rewrite skipn_length in H. lia.
Qed.

Lemma blank_has_char d l : is_space d = false -> blank l = true -> has_char d (strip l) = false.
Proof. intros Hd Hb. rewrite <- strip_rstrip, has_char_strip by assumption. now apply has_char_spaces. Qed.

Lemma brange_bdelim_nonspace ts p : 0 < brange ts p -> is_space (bdelim ts p) = false.
Proof.
  unfold brange, bdelim. destruct (nth_error ts p); [|lia].
  destruct (banner_delim s) as [d|] eqn:E; [|lia]. intros _. eapply banner_delim_nonspace; eauto.
Qed.

Theorem bootstrap_full o lines :
  match bootstrap o lines with
  | Ok (objs, kept) =>
      braces_ok lines /\ (o_syntax o = Ios -> macros_ok lines) /\
      forall j l, nth_error objs j = Some l -> obj_spec o lines j l
  | Err e =>
      (e = ValueError /\ ~ braces_ok lines) \/
      (e = IndexError /\ braces_ok lines /\ o_syntax o = Ios /\ ~ macros_ok lines)
  end.
Proof.
  unfold bootstrap, bind. rewrite (boot_loop_exp (o_comment o)) by reflexivity.
  rewrite exp_texts, boot_macros.
  pose proof (close_braces_full lines (exp_objs (o_comment o) lines) (exp_objs_length _ _)) as B.
  destruct (close_braces _ _ _ _) as [objs1|e] eqn:Ecb; [|left; exact B].
  destruct B as [B1 B2].
  pose proof (close_braces_static _ _ _ _ _ Ecb) as St1.
  assert (Ht1 : map cl_text objs1 = map rstrip lines).
  { rewrite <- (exp_texts (o_comment o)).
    apply (f_equal (map (fun x => fst (fst (fst (fst x)))))) in St1.
    rewrite !map_map in St1. exact St1. }
  assert (Hlen1 : length objs1 = length lines)
    by (rewrite (map_static_length _ _ St1); apply exp_objs_length).
  (* objects after the brace pass *)
  assert (H1 : forall j l, nth_error objs1 j = Some l ->
     j < length lines /\ cl_text l = rstrip (nth j lines []) /\
     (forall c, In c (cl_children l) <-> c < length lines /\ tree_parent (o_comment o) lines c j /\ c <> j) /\
     cl_keep l = false /\
     (closes_block lines (cl_parent l) j \/ ~ closer lines j /\ tree_parent (o_comment o) lines j (cl_parent l))).
  { intros j l Hl. pose proof (nth_error_length_lt _ _ _ Hl) as Hj. rewrite Hlen1 in Hj.
    specialize (B2 j (exp_line (o_comment o) lines j)).
    rewrite exp_objs_nth in B2. replace (j <? length lines) with true in B2 by (symmetry; now apply Nat.ltb_lt).
    destruct (B2 eq_refl) as [B3 B4].
    assert (Hk : forall c, In c (kids (o_comment o) lines j) <->
       c < length lines /\ tree_parent (o_comment o) lines c j /\ c <> j).
    { intros c. rewrite kids_in. split.
      - intros (Hc & Hp & Hne). split; [exact Hc|]. split; [now apply par_iff|exact Hne].
      - intros (Hc & Hp & Hne). split; [exact Hc|]. split; [now apply par_iff|exact Hne]. }
    split; [exact Hj|]. destruct (closer_dec lines j) as [Hc|Hc].
    - destruct (B3 Hc) as (p & Hp & E). rewrite Hl in E. injection E as ->.
      cbn. repeat split; auto; apply Hk; auto.
    - rewrite (B4 Hc) in Hl. injection Hl as <-. cbn.
      repeat split; auto; try (apply Hk; auto). right. split; [exact Hc|]. now apply par_iff. }
  destruct (o_syntax o) eqn:Es; cycle 4.
  { (* Junos *)
    split; [exact B1|]. split; [discriminate|]. intros j l Hl.
    destruct (H1 j l Hl) as (Hj & T & C & K & P).
    destruct (nth_error_lt_some lines j Hj) as (line & Hline).
    rewrite (nth_error_nth lines j [] Hline) in T.
    split; [|split].
    - unfold full_parent. cbv zeta. rewrite Es. right. split; [intros q [? _]; congruence|].
      right. split; [intros q [? _]; congruence|]. exact P.
    - intros c. rewrite C, Es. split.
      + intros (? & ? & ?). split; auto.
      + intros (? & [[? ?]|[[? _]|[? _]]]); auto; congruence.
    - unfold stays, line_kept. rewrite T, strip_rstrip, strip_blank, K, orb_false_r, Es.
      rewrite orb_true_iff, !negb_true_iff. split.
      + intros H. exists line. split; [exact Hline|]. tauto.
      + intros (line' & Hline' & H). rewrite Hline in Hline'. injection Hline' as <-.
        destruct H as [H|[H|[[H _]|[H _]]]]; auto; congruence. }
  all: set (bps := positions is_banner_line 0 (map rstrip lines));
       set (mps := positions (is_macro_start o) 0 lines).
  all: assert (Hbps : positions (fun o0 => is_banner_line (cl_text o0)) 0 objs1 = bps)
         by (unfold bps; apply positions_ext; rewrite <- Ht1, map_map; reflexivity).
  all: pose proof (proj1 (positions_sorted is_banner_line (map rstrip lines) 0)) as Sb; fold bps in Sb.
  all: pose proof (proj1 (positions_sorted (is_macro_start o) lines 0)) as Sm; fold mps in Sm.
  all: pose proof (mark_macros_fold mps (mark_banners objs1) (ssorted_nodup _ Sm)) as M.
  all: assert (Ht2 : map cl_text (mark_banners objs1) = map rstrip lines)
         by (rewrite <- Ht1; pose proof (mark_banners_static objs1) as St2;
             apply (f_equal (map (fun x => fst (fst (fst (fst x)))))) in St2;
             rewrite !map_map in St2; exact St2).
  all: rewrite Ht2 in M.
  all: assert (Hmb : forall j, nth_error (mark_banners objs1) j = _)
         by (intros j; unfold mark_banners; rewrite Hbps; apply mark_banners_fold; now apply ssorted_nodup).
  all: rewrite Ht1 in Hmb.
  all: assert (Hmok : (o_syntax o = Ios -> macros_ok lines) <->
            (forall p, In p mps -> existsb at_line (skipn (S p) (map rstrip lines)) = true)).
  1,3,5,7: unfold mps, is_macro_start; rewrite Es.
  1: { rewrite macros_ok_spec. tauto. }
  1,2,3: rewrite positions_none by auto; split; [intros _ p []|congruence].
  all: destruct (mark_macros mps (mark_banners objs1)) as [objs2|e].
  all: match goal with |- _ \/ _ => idtac | _ => idtac end.
  2,4,6,8: destruct M as (-> & p & Hp & Hfalse);
     assert (Hnot : ~ (o_syntax o = Ios -> macros_ok lines))
       by (intros Hall; rewrite Hmok in Hall; specialize (Hall p Hp); congruence).
  2: { right. repeat split; auto. }
  2,3,4: exfalso; apply Hnot; congruence.
  all: cbv zeta in M; destruct M as [M1 M2].
  all: split; [exact B1|]; split; [intros Hios; try discriminate Hios; exact (proj2 Hmok M1 Es)|].
  all: clear Hmok M1.
  all: intros j l Hl; rewrite M2, Hmb in Hl.
  all: destruct (nth_error objs1 j) as [l1|] eqn:El1; [|discriminate]; cbn [option_map] in Hl;
       injection Hl as <-; destruct (H1 j l1 El1) as (Hj & T & C & K & P).
  all: destruct (nth_error_lt_some lines j Hj) as (line & Hline);
       rewrite (nth_error_nth lines j [] Hline) in T.
  all: assert (NJ : o_syntax o <> Junos) by (rewrite Es; discriminate).
  all: assert (HB : forall c, c < length lines -> forall p,
            In p bps /\ covb (map rstrip lines) p c = true <-> o_syntax o <> Junos /\ in_banner lines p c)
         by (intros c Hc p; unfold bps; rewrite covb_spec by assumption; tauto).
  all: assert (HM : forall c, c < length lines -> forall p,
            In p mps /\ mcovb (map rstrip lines) p c = true <-> o_syntax o = Ios /\ in_macro lines p c)
         by (intros c Hc p; unfold mps; now apply mcovb_spec).
  all: clear Es.
  all: refine (conj _ (conj _ _)).
  (* parent *)
  1,4,7,10: unfold full_parent; cbv zeta; cbn [cl_parent];
    destruct (lastf_cover (fun q j => o_syntax o = Ios /\ in_macro lines q j)
      (fun p => mcovb (map rstrip lines) p j) mps
      (lastf (fun p => covb (map rstrip lines) p j) bps (cl_parent l1)) j Sm (HM j Hj)) as [G|[G1 G2]];
    [left; exact G|]; rewrite G2; right; split; [exact G1|];
    destruct (lastf_cover (fun q j => o_syntax o <> Junos /\ in_banner lines q j)
      (fun p => covb (map rstrip lines) p j) bps (cl_parent l1) j Sb (HB j Hj)) as [G|[G3 G4]];
    [left; exact G|]; rewrite G4; right; split; [exact G3|exact P].
  (* children *)
  1,3,5,7: intros c; cbn [cl_children]; rewrite !in_app_iff, C;
    (assert (G1 : In c (if existsb (Nat.eqb j) bps then seq (S j) (brange (map rstrip lines) j) else []) <->
               c < length lines /\ o_syntax o <> Junos /\ in_banner lines j c);
     [ destruct (existsb (Nat.eqb j) bps) eqn:E;
       [ apply existsb_eqb in E; rewrite seq_in_range; fold (covb (map rstrip lines) j c); split;
         [ intros H; assert (Hc : c < length lines)
             by (unfold covb in H; apply andb_prop in H as [_ H]; apply Nat.ltb_lt in H;
                 pose proof (brange_le (map rstrip lines) j) as Hr; rewrite map_length in Hr; specialize (Hr Hj); lia);
           split; [exact Hc|]; apply HB; auto
         | intros (Hc & H); now apply (HB c Hc) in H ]
       | split; [intros []|]; intros (Hc & H); apply (HB c Hc) in H as [H _];
         apply existsb_eqb in H; congruence ]
     | ];
     assert (G2 : In c (if existsb (Nat.eqb j) mps then seq (S j) (mrange (map rstrip lines) j) else []) <->
               c < length lines /\ o_syntax o = Ios /\ in_macro lines j c);
     [ destruct (existsb (Nat.eqb j) mps) eqn:E;
       [ apply existsb_eqb in E; rewrite seq_in_range; fold (mcovb (map rstrip lines) j c); split;
         [ intros H; assert (Hc : c < length lines)
             by (unfold mcovb in H; apply andb_prop in H as [_ H]; apply Nat.ltb_lt in H;
                 pose proof (mrange_le (map rstrip lines) j) as Hr; rewrite map_length in Hr; specialize (Hr Hj); lia);
           split; [exact Hc|]; apply HM; auto
         | intros (Hc & H); now apply (HM c Hc) in H ]
       | split; [intros []|]; intros (Hc & H); apply (HM c Hc) in H as [H _];
         apply existsb_eqb in H; congruence ]
     | ]);
    rewrite G1, G2; tauto.
  (* kept *)
  all: unfold stays, line_kept; cbn [cl_text cl_keep]; rewrite T, strip_rstrip, strip_blank, K, orb_false_l.
  all: rewrite !orb_true_iff, !negb_true_iff.
  all: split.
  1,3,5,7: intros [[H|H]|[[[H|H]|H]|H]]; exists line; (split; [exact Hline|]); auto.
  all: try (apply existsb_eqb in H; right; left; destruct (blank line) eqn:Eb; [|reflexivity]; exfalso;
       first
       [ apply positions_spec in H as (t & Ht & Hb & _); rewrite Nat.sub_0_r, nth_error_map_iff, Hline in Ht;
         injection Ht as <-; rewrite (blank_not_banner line Eb) in Hb; discriminate
       | apply positions_spec in H as (t & Ht & Hb & _); rewrite Nat.sub_0_r, Hline in Ht;
         injection Ht as <-; unfold is_macro_start in Hb; rewrite (blank_not_macro line Eb) in Hb;
         destruct (o_syntax o); discriminate ]).
  all: try (apply existsb_exists in H as (p & Hp & Hc); apply andb_prop in Hc as [Hc _];
       right; right; left; split; [exact NJ|]; exists p;
       exact (proj2 (proj1 (HB j Hj p) (conj Hp Hc)))).
  all: try (apply existsb_exists in H as (p & Hp & Hc);
       right; right; right; destruct (proj1 (HM j Hj p) (conj Hp Hc)) as [G1 G2]; split; [exact G1|]; eauto).
  all: intros (line' & Hline' & H); rewrite Hline in Hline'; injection Hline' as <-.
  all: destruct H as [H|[H|[[H1' (p & H2')]|[H1' (p & H2')]]]]; auto.
  all: destruct (blank line) eqn:Eb; [|auto].
  1,3,5,7: right; left; left; right; apply existsb_exists; exists p;
     destruct (proj2 (HB j Hj p) (conj H1' H2')) as [Hp Hc]; (split; [exact Hp|]); rewrite Hc; cbn [andb];
     apply negb_true_iff; rewrite blank_has_char; auto; apply brange_bdelim_nonspace;
     unfold covb in Hc; apply andb_prop in Hc as [Hc1 Hc2]; apply Nat.leb_le in Hc1; apply Nat.ltb_lt in Hc2; lia.
  all: right; right; apply existsb_exists; exists p; destruct (proj2 (HM j Hj p) (conj H1' H2')); auto.
Qed.
