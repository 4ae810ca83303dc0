(** Closing braces, banners and macros: what each pass does to each object. *)
From Coq Require Import Ascii String Arith NArith ZArith Bool List Lia.
From Verif Require Import PyStr PyStrFacts PyBase PyBaseFacts CfgModel TreeSpec BraceSpec
  TreeProofs TreePost TreeRel TreeWorld.
Import ListNotations.
Local Open Scope nat_scope.

(** ** Braces *)

Lemma depth_S lines i l :
  nth_error lines i = Some l -> depth lines (S i) = (depth lines i + brace_step l)%Z.
Proof.
  revert i; induction lines as [|x lines IH]; intros [|i] H; try discriminate.
  - injection H as ->. cbn. destruct lines; cbn; lia.
  - cbn [nth_error] in H. specialize (IH _ H).
    change (depth (x :: lines) (S (S i))) with (brace_step x + depth lines (S i))%Z.
    change (depth (x :: lines) (S i)) with (brace_step x + depth lines i)%Z. lia.
Qed.

Lemma depth_0 lines : depth lines 0 = 0%Z.
Proof. now destruct lines. Qed.

Lemma depth_past lines k : length lines <= k -> depth lines k = depth lines (length lines).
Proof.
  revert k; induction lines as [|x lines IH]; intros [|k] H; cbn in *; try lia; try reflexivity.
  rewrite IH by lia. reflexivity.
Qed.

Definition stack_ok (lines : list str) (i : nat) (stack : list nat) : Prop :=
  Z.of_nat (length stack) = depth lines i /\
  forall m p, nth_error stack m = Some p ->
    p < i /\ (exists l, nth_error lines p = Some l /\ opening_line l = true) /\
    (depth lines (S p) + Z.of_nat m = depth lines i)%Z /\
    forall k, p < k <= i -> (depth lines (S p) <= depth lines k)%Z.

Lemma close_braces_spec lines todo i stack objs :
  lines = firstn i lines ++ todo -> i + length todo = length lines -> length objs = length lines ->
  stack_ok lines i stack -> (forall k, k <= i -> (0 <= depth lines k)%Z) ->
  match close_braces (map rstrip todo) i stack objs with
  | Ok objs' => braces_ok lines /\
      (forall j, j < i -> nth_error objs' j = nth_error objs j) /\
      forall j l, i <= j -> nth_error objs j = Some l ->
        (closer lines j -> exists p, closes_block lines p j /\ nth_error objs' j = Some (set_parent p l)) /\
        (~ closer lines j -> nth_error objs' j = Some l)
  | Err e => e = ValueError /\ ~ braces_ok lines
  end.
Proof.
  revert i stack objs. induction todo as [|t todo IH]; intros i stack objs Hl Hlen Hobj Hst Hd.
  - cbn [map close_braces]. cbn in Hlen. split.
    + intros k. destruct (Nat.le_gt_cases k i) as [Hk|Hk]; [auto|].
      rewrite depth_past by lia. apply Hd. lia.
    + split; [auto|]. intros j l Hj Hjl. apply nth_error_length_lt in Hjl. lia.
  - cbn [map close_braces]. cbn in Hlen. rewrite opens_spec, closes_spec.
    assert (Hi : nth_error lines i = Some t).
    { rewrite Hl. rewrite nth_error_app2; rewrite firstn_length; [|lia].
      replace (i - Nat.min i (length lines)) with 0 by lia. reflexivity. }
    assert (Hl' : lines = firstn (S i) lines ++ todo).
    { assert (E : firstn (S i) lines = firstn i lines ++ [t]).
      { rewrite Hl at 1. rewrite firstn_app, firstn_length.
        rewrite firstn_all2 by (rewrite firstn_length; lia).
        replace (S i - Nat.min i (length lines)) with 1 by lia. reflexivity. }
      rewrite E, <- app_assoc. exact Hl. }
    pose proof (depth_S _ _ _ Hi) as Hs. unfold brace_step in Hs.
    destruct Hst as [Hst1 Hst2].
    assert (Hmono : forall m p, nth_error stack m = Some p ->
              (depth lines (S p) <= depth lines (S i))%Z ->
              forall k, p < k <= S i -> (depth lines (S p) <= depth lines k)%Z).
    { intros m p Hp Hge k Hk. destruct (Nat.eq_dec k (S i)) as [->|Hne]; [exact Hge|].
      destruct (Hst2 m p Hp) as (_ & _ & _ & H). apply H. lia. }
    destruct (opening_line t) eqn:Eo.
    + specialize (IH (S i) (i :: stack) objs Hl' ltac:(lia) Hobj).
      assert (Hst' : stack_ok lines (S i) (i :: stack)).
      { split; [cbn [length]; lia|]. intros [|m] p Hp; cbn in Hp.
        - injection Hp as <-. split; [lia|]. split; [eauto|]. split; [lia|].
          intros k Hk. replace k with (S i) by lia. lia.
        - destruct (Hst2 m p Hp) as (H1 & H2 & H3 & H4). split; [lia|]. split; [exact H2|].
          split; [lia|]. eapply Hmono; eauto. lia. }
      specialize (IH Hst'). destruct (close_braces _ _ _ _) as [objs'|e].
      * destruct IH as (I1 & I2 & I3).
        { intros k Hk. destruct (Nat.eq_dec k (S i)) as [->|]; [specialize (Hd i); lia|apply Hd; lia]. }
        split; [exact I1|]. split; [intros; apply I2; lia|].
        intros j l Hj Hjl. destruct (Nat.eq_dec j i) as [->|Hne]; [|apply I3; auto; lia].
        split.
        -- intros (l' & Hl1 & Hl2 & _). rewrite Hi in Hl1. injection Hl1 as <-. congruence.
        -- intros _. rewrite I2 by lia. exact Hjl.
      * apply IH. intros k Hk. destruct (Nat.eq_dec k (S i)) as [->|]; [specialize (Hd i); lia|apply Hd; lia].
    + destruct (closing_line t) eqn:Ec.
      * assert (Hclo : closer lines i) by (exists t; auto).
        destruct stack as [|p stack].
        -- split; [reflexivity|]. intros H. specialize (H (S i)). cbn [length] in Hst1. lia.
        -- destruct (Hst2 0 p eq_refl) as (H1 & H2 & H3 & H4).
           assert (Hblk : closes_block lines p i).
           { split; [exact H1|]. split; [exact H2|]. split; [exact Hclo|]. split; [lia|exact H4]. }
           assert (Hst' : stack_ok lines (S i) stack).
           { split; [cbn [length] in Hst1; lia|]. intros m q Hq.
             destruct (Hst2 (S m) q Hq) as (G1 & G2 & G3 & G4). split; [lia|]. split; [exact G2|].
             split; [lia|]. apply (Hmono (S m)); auto. lia. }
           specialize (IH (S i) stack (upd objs i (set_parent p)) Hl' ltac:(lia)).
           rewrite upd_length in IH. specialize (IH Hobj Hst').
           assert (Hd' : forall k, k <= S i -> (0 <= depth lines k)%Z).
           { intros k Hk. destruct (Nat.eq_dec k (S i)) as [->|]; [cbn [length] in Hst1; lia|apply Hd; lia]. }
           specialize (IH Hd'). destruct (close_braces _ _ _ _) as [objs'|e]; [|exact IH].
           destruct IH as (I1 & I2 & I3). split; [exact I1|]. split.
           ++ intros j Hj. rewrite I2 by lia. apply upd_nth_other. lia.
           ++ intros j l Hj Hjl. destruct (Nat.eq_dec j i) as [->|Hne].
              ** split; [|tauto]. intros _. exists p. split; [exact Hblk|].
                 rewrite I2 by lia. rewrite upd_nth_same, Hjl. reflexivity.
              ** apply I3; [lia|]. rewrite upd_nth_other by lia. exact Hjl.
      * specialize (IH (S i) stack objs Hl' ltac:(lia) Hobj).
        assert (Hst' : stack_ok lines (S i) stack).
        { split; [lia|]. intros m q Hq.
          destruct (Hst2 m q Hq) as (G1 & G2 & G3 & G4). split; [lia|]. split; [exact G2|].
          split; [lia|]. apply (Hmono m); auto. lia. }
        assert (Hd' : forall k, k <= S i -> (0 <= depth lines k)%Z).
        { intros k Hk. destruct (Nat.eq_dec k (S i)) as [->|]; [specialize (Hd i); lia|apply Hd; lia]. }
        specialize (IH Hst' Hd'). destruct (close_braces _ _ _ _) as [objs'|e]; [|exact IH].
        destruct IH as (I1 & I2 & I3). split; [exact I1|]. split; [intros; apply I2; lia|].
        intros j l Hj Hjl. destruct (Nat.eq_dec j i) as [->|Hne]; [|apply I3; auto; lia].
        split.
        -- intros (l' & Hl1 & _ & Hl2). rewrite Hi in Hl1. injection Hl1 as <-. congruence.
        -- intros _. rewrite I2 by lia. exact Hjl.
Qed.

Theorem close_braces_full lines objs :
  length objs = length lines ->
  match close_braces (map rstrip lines) 0 [] objs with
  | Ok objs' => braces_ok lines /\
      forall j l, nth_error objs j = Some l ->
        (closer lines j -> exists p, closes_block lines p j /\ nth_error objs' j = Some (set_parent p l)) /\
        (~ closer lines j -> nth_error objs' j = Some l)
  | Err e => e = ValueError /\ ~ braces_ok lines
  end.
Proof.
  intros H. pose proof (close_braces_spec lines lines 0 [] objs) as S.
  specialize (S eq_refl eq_refl H).
  assert (St : stack_ok lines 0 []).
  { split; [now rewrite depth_0|]. intros [|m] p Hp; discriminate. }
  specialize (S St). destruct (close_braces _ _ _ _) as [objs'|e].
  - destruct S as (S1 & _ & S3); [intros k Hk; replace k with 0 by lia; rewrite depth_0; lia|].
    split; [exact S1|]. intros j l Hj. apply S3; [lia|exact Hj].
  - apply S. intros k Hk. replace k with 0 by lia. rewrite depth_0; lia.
Qed.

Lemma closes_block_unique lines p q i :
  closes_block lines p i -> closes_block lines q i -> p = q.
Proof.
  assert (G : forall p q, p < q -> closes_block lines p i -> closes_block lines q i -> False).
  { clear p q. intros p q Hpq (P1 & _ & _ & P4 & P5) (Q1 & (l & Hl & Ho) & _ & Q4 & _).
    specialize (P5 q ltac:(lia)). pose proof (depth_S _ _ _ Hl) as E. unfold brace_step in E.
    rewrite Ho in E. lia. }
  intros Hp Hq. destruct (Nat.lt_trichotomy p q) as [H|[H|H]]; [|exact H|]; exfalso; eauto.
Qed.

(** ** Ranges covered by banners and macros *)

(** Number of lines up to and including the first that satisfies [stop]. *)
Fixpoint upto (stop : str -> bool) (ts : list str) : nat :=
  match ts with
  | [] => 0
  | t :: ts' => if stop t then 1 else S (upto stop ts')
  end.

Lemma upto_le stop ts : upto stop ts <= length ts.
Proof. induction ts as [|t ts IH]; cbn; [lia|]. destruct (stop t); lia. Qed.

Lemma upto_lt stop ts k :
  k < upto stop ts <->
  k < length ts /\ forall m t, m < k -> nth_error ts m = Some t -> stop t = false.
Proof.
  revert k; induction ts as [|t ts IH]; intros k; cbn [upto length].
  - split; [lia|]. intros [H _]; lia.
  - destruct (stop t) eqn:E.
    + split.
      * intros H. split; [lia|]. intros m t' Hm. lia.
      * intros [H1 H2]. destruct k as [|k]; [lia|]. specialize (H2 0 t ltac:(lia) eq_refl). congruence.
    + destruct k as [|k].
      * split; [|lia]. intros _. split; [lia|]. intros; lia.
      * rewrite <- Nat.succ_lt_mono, IH. split.
        -- intros [H1 H2]. split; [lia|]. intros [|m] t' Hm Ht; [cbn in Ht; congruence|].
           apply (H2 m); [lia|exact Ht].
        -- intros [H1 H2]. split; [lia|]. intros m t' Hm Ht. apply (H2 (S m)); [lia|exact Ht].
Qed.

Definition bset (p idx m : nat) (d : ascii) (j : nat) (l : cfgline) : cfgline :=
  let cov := (idx <=? j) && (j <? idx + m) in
  mkLine (cl_text l) (cl_linenum l) (cl_indent l) (cl_comment l)
    (if cov then p else cl_parent l)
    (if j =? p then cl_children l ++ seq idx m else cl_children l)
    (if (j =? p) && (0 <? m) then 0 else cl_child_indent l)
    (cl_keep l || cov && negb (has_char d (strip (cl_text l)))) (cl_owned l).

Lemma nth_error_skipn {A} (l : list A) i k : nth_error (skipn i l) k = nth_error l (i + k).
Proof. revert l; induction i as [|i IH]; intros [|x l]; cbn; auto. now destruct k. Qed.

Lemma skipn_cons_nth {A} (l : list A) i x : nth_error l i = Some x -> skipn i l = x :: skipn (S i) l.
Proof.
  revert i; induction l as [|y l IH]; intros [|i] H; try discriminate.
  - cbn in *. congruence.
  - cbn in H |- *. now apply IH.
Qed.

Lemma skipn_end {A} (l : list A) i : nth_error l i = None -> skipn i l = [].
Proof. intros H. apply nth_error_None in H. now apply skipn_all2. Qed.

Lemma adopt_nth p c objs j :
  p < c ->
  nth_error (adopt p c objs) j =
  option_map (fun l =>
    if j =? c then set_parent p l else if j =? p then push_child c 0 l else l) (nth_error objs j).
Proof.
  intros H. unfold adopt. rewrite !upd_nth.
  destruct (j =? c) eqn:E1, (j =? p) eqn:E2; destruct (nth_error objs j); try reflexivity.
  apply Nat.eqb_eq in E1, E2. lia.
Qed.

Lemma option_map_id {A} (f : A -> A) (x : option A) : (forall a, f a = a) -> option_map f x = x.
Proof. destruct x; cbn; intros H; [now rewrite H|reflexivity]. Qed.

Lemma option_map_ext2 {A B} (f g : A -> B) (x : option A) :
  (forall a, x = Some a -> f a = g a) -> option_map f x = option_map g x.
Proof. destruct x; cbn; intros H; [now rewrite H|reflexivity]. Qed.

Lemma bset_0 p idx d j l : bset p idx 0 d j l = l.
Proof.
  unfold bset. replace ((idx <=? j) && (j <? idx + 0)) with false.
  - cbn [andb seq]. rewrite app_nil_r, orb_false_r, andb_false_r. destruct l; cbn. now destruct (j =? p).
  - symmetry. apply andb_false_iff. rewrite Nat.leb_gt, Nat.ltb_ge. lia.
Qed.

Lemma banner_body_nth n p d idx objs j :
  p < idx -> length objs <= idx + n ->
  nth_error (banner_body n p d idx objs) j =
  option_map (bset p idx (upto (fun t => has_char d (strip t)) (skipn idx (map cl_text objs))) d j)
    (nth_error objs j).
Proof.
  revert idx objs. induction n as [|n IH]; intros idx objs Hp Hn; cbn [banner_body].
  - rewrite skipn_all2 by (rewrite map_length; lia). cbn [upto].
    symmetry. apply option_map_id. apply bset_0.
  - destruct (nth_error objs idx) as [o|] eqn:E.
    + assert (Et : nth_error (map cl_text objs) idx = Some (cl_text o))
        by (rewrite nth_error_map_iff, E; reflexivity).
      rewrite (skipn_cons_nth _ _ _ Et). cbn [upto].
      destruct (has_char d (strip (cl_text o))) eqn:Ed.
      * rewrite adopt_nth by assumption. apply option_map_ext2. intros l Hl. unfold bset.
        destruct (j =? idx) eqn:E1.
        -- apply Nat.eqb_eq in E1. subst j. rewrite E in Hl. injection Hl as <-.
           replace ((idx <=? idx) && (idx <? idx + 1)) with true
             by (symmetry; apply andb_true_iff; rewrite Nat.leb_le, Nat.ltb_lt; lia).
           replace (idx =? p) with false by (symmetry; apply Nat.eqb_neq; lia).
           rewrite Ed. cbn. rewrite orb_false_r. reflexivity.
        -- apply Nat.eqb_neq in E1.
           replace ((idx <=? j) && (j <? idx + 1)) with false
             by (symmetry; apply andb_false_iff; rewrite Nat.leb_gt, Nat.ltb_ge; lia).
           destruct (j =? p); cbn; rewrite orb_false_r; [reflexivity|now destruct l].
      * set (objs1 := upd (adopt p idx objs) idx set_keep).
        assert (Et1 : map cl_text objs1 = map cl_text objs).
        { unfold objs1, adopt. rewrite !map_upd; reflexivity. }
        assert (El1 : length objs1 = length objs).
        { unfold objs1. now rewrite upd_length, adopt_length. }
        rewrite IH by lia. rewrite Et1.
        assert (E1 : nth_error objs1 j = option_map (fun l =>
           if j =? idx then set_keep (set_parent p l) else if j =? p then push_child idx 0 l else l)
           (nth_error objs j)).
        { unfold objs1. rewrite upd_nth, adopt_nth by assumption.
          destruct (j =? idx); [|reflexivity]. now destruct (nth_error objs j). }
        rewrite E1. generalize (upto (fun t => has_char d (strip t)) (skipn (S idx) (map cl_text objs))) as m.
        intros m. destruct (nth_error objs j) as [l|] eqn:El; [|reflexivity]. cbn [option_map]. f_equal.
        unfold bset.
        destruct (j =? idx) eqn:E2.
        -- apply Nat.eqb_eq in E2. subst j. rewrite E in El. injection El as <-.
           replace ((S idx <=? idx) && (idx <? S idx + m)) with false
             by (symmetry; apply andb_false_iff; rewrite Nat.leb_gt; lia).
           replace ((idx <=? idx) && (idx <? idx + S m)) with true
             by (symmetry; apply andb_true_iff; rewrite Nat.leb_le, Nat.ltb_lt; lia).
           replace (idx =? p) with false by (symmetry; apply Nat.eqb_neq; lia).
           cbn. rewrite Ed. cbn. now rewrite orb_true_r.
        -- apply Nat.eqb_neq in E2.
           replace ((idx <=? j) && (j <? idx + S m)) with ((S idx <=? j) && (j <? S idx + m)).
           2:{ apply eq_true_iff_eq. rewrite !andb_true_iff, !Nat.leb_le, !Nat.ltb_lt. lia. }
           destruct (j =? p) eqn:E3; [|reflexivity].
           apply Nat.eqb_eq in E3. subst j.
           replace ((S idx <=? p) && (p <? S idx + m)) with false
             by (symmetry; apply andb_false_iff; rewrite Nat.leb_gt; lia).
           cbn [push_child cl_text cl_linenum cl_indent cl_comment cl_parent cl_children cl_child_indent cl_keep cl_owned].
           rewrite <- app_assoc. cbn [app seq andb].
           destruct m; reflexivity.
    + rewrite skipn_end by (rewrite nth_error_map_iff, E; reflexivity). cbn [upto].
      symmetry. apply option_map_id. apply bset_0.
Qed.

(** Number of lines taken by the banner that starts at [p]. *)
Definition brange (ts : list str) (p : nat) : nat :=
  match nth_error ts p with
  | Some t =>
      match banner_delim t with
      | Some d => if 2 <? length (split_on d t) then 0
                  else upto (fun t => has_char d (strip t)) (skipn (S p) ts)
      | None => 0
      end
  | None => 0
  end.

Definition bdelim (ts : list str) (p : nat) : ascii :=
  match nth_error ts p with
  | Some t => match banner_delim t with Some d => d | None => " "%char end
  | None => " "%char
  end.

Lemma mark_banner_nth objs p j :
  nth_error (mark_banner objs p) j =
  option_map (fun l => bset p (S p) (brange (map cl_text objs) p) (bdelim (map cl_text objs) p) j
                        (if j =? p then set_keep l else l)) (nth_error objs j).
Proof.
  unfold mark_banner, brange, bdelim. rewrite !nth_error_map_iff.
  assert (Ek : nth_error (upd objs p set_keep) j =
               option_map (fun l => if j =? p then set_keep l else l) (nth_error objs j)).
  { rewrite upd_nth. destruct (j =? p); [reflexivity|]. symmetry. now apply option_map_id. }
  assert (E0 : forall d, nth_error (upd objs p set_keep) j =
            option_map (fun l => bset p (S p) 0 d j (if j =? p then set_keep l else l)) (nth_error objs j)).
  { intros d. rewrite Ek. apply option_map_ext2. intros l _. now rewrite bset_0. }
  destruct (nth_error objs p) as [o|] eqn:E; cbn [option_map]; [|apply E0].
  destruct (banner_delim (cl_text o)) as [d|]; [|apply E0].
  destruct (2 <? length (split_on d (cl_text o))); [apply E0|].
  rewrite banner_body_nth by (rewrite ?upd_length; lia).
  rewrite Ek, map_upd by reflexivity.
  destruct (nth_error objs j); reflexivity.
Qed.

Definition covb (ts : list str) (p j : nat) : bool := (S p <=? j) && (j <? S p + brange ts p).

(** The last element of [ps] satisfying [f], else [d]. *)
Definition lastf (f : nat -> bool) (ps : list nat) (d : nat) : nat :=
  fold_left (fun a p => if f p then p else a) ps d.

Lemma mark_banners_fold ps objs j :
  NoDup ps ->
  nth_error (fold_left mark_banner ps objs) j =
  option_map (fun l =>
    let ts := map cl_text objs in
    mkLine (cl_text l) (cl_linenum l) (cl_indent l) (cl_comment l)
      (lastf (fun p => covb ts p j) ps (cl_parent l))
      (cl_children l ++ if existsb (Nat.eqb j) ps then seq (S j) (brange ts j) else [])
      (if existsb (Nat.eqb j) ps && (0 <? brange ts j) then 0 else cl_child_indent l)
      (cl_keep l || existsb (Nat.eqb j) ps ||
       existsb (fun p => covb ts p j && negb (has_char (bdelim ts p) (strip (cl_text l)))) ps)
      (cl_owned l)) (nth_error objs j).
Proof.
  revert objs; induction ps as [|p ps IH]; intros objs Hn; cbn [fold_left].
  - symmetry. apply option_map_id. intros l. cbn. rewrite app_nil_r, !orb_false_r. now destruct l.
  - inversion Hn as [|? ? Hnin Hn']; subst. rewrite IH by assumption.
    assert (Et : map cl_text (mark_banner objs p) = map cl_text objs).
    { pose proof (mark_banner_static objs p) as S.
      apply (f_equal (map (fun x => fst (fst (fst (fst x)))))) in S.
      rewrite !map_map in S. exact S. }
    rewrite Et, mark_banner_nth.
    destruct (nth_error objs j) as [l|]; [|reflexivity]. cbn [option_map]. f_equal.
    cbv zeta. set (ts := map cl_text objs).
    unfold bset. cbn [existsb lastf fold_left].
    fold (covb ts p j).
    assert (Ec : forall m, (if j =? p then seq (S p) m else []) = (if j =? p then seq (S j) m else [])).
    { intros m. destruct (j =? p) eqn:E; [|reflexivity]. apply Nat.eqb_eq in E. now subst. }
    destruct (j =? p) eqn:Ej.
    + apply Nat.eqb_eq in Ej. subst j.
      assert (Enot : existsb (Nat.eqb p) ps = false).
      { destruct (existsb (Nat.eqb p) ps) eqn:E; [|reflexivity]. exfalso.
        apply existsb_exists in E as (q & Hq & Eq). apply Nat.eqb_eq in Eq. subst. contradiction. }
      rewrite Enot. cbn [set_keep cl_text cl_linenum cl_indent cl_comment cl_parent cl_children cl_child_indent cl_keep cl_owned orb andb].
      rewrite app_nil_r. f_equal. now rewrite !orb_true_r.
    + cbn [cl_text cl_linenum cl_indent cl_comment cl_parent cl_children cl_child_indent cl_keep cl_owned orb andb].
      f_equal. 
      destruct (cl_keep l), (covb ts p j && negb (has_char (bdelim ts p) (strip (cl_text l)))), (existsb (Nat.eqb j) ps); reflexivity.
Qed.

(** ** Macros *)

Definition at_line (t : str) : bool := str_eqb (rstrip t) (lit "@").

Definition mset (p idx m : nat) (j : nat) (l : cfgline) : cfgline :=
  let cov := (idx <=? j) && (j <? idx + m) in
  mkLine (cl_text l) (cl_linenum l) (cl_indent l) (cl_comment l)
    (if cov then p else cl_parent l)
    (if j =? p then cl_children l ++ seq idx m else cl_children l)
    (cl_child_indent l) (cl_keep l || cov) (cl_owned l).

Lemma macro_body_nth n p idx objs :
  p < idx -> length objs <= idx + n ->
  match macro_body n p idx objs with
  | Ok objs' =>
      existsb at_line (skipn idx (map cl_text objs)) = true /\
      forall j, nth_error objs' j =
        option_map (mset p idx (upto at_line (skipn idx (map cl_text objs))) j) (nth_error objs j)
  | Err e => e = IndexError /\ existsb at_line (skipn idx (map cl_text objs)) = false
  end.
Proof.
  revert idx objs. induction n as [|n IH]; intros idx objs Hp Hn; cbn [macro_body].
  - rewrite skipn_all2 by (rewrite map_length; lia). auto.
  - destruct (nth_error objs idx) as [o|] eqn:E.
    + assert (Et : nth_error (map cl_text objs) idx = Some (cl_text o))
        by (rewrite nth_error_map_iff, E; reflexivity).
      rewrite (skipn_cons_nth _ _ _ Et). cbn [upto existsb].
      change (str_eqb (rstrip (cl_text o)) (lit "@")) with (at_line (cl_text o)).
      set (objs1 := upd (upd (upd objs idx set_keep) idx (set_parent p)) p
                (fun q => push_child idx (cl_child_indent q) q)).
      assert (E1 : forall j, nth_error objs1 j = option_map (fun l =>
           if j =? idx then set_parent p (set_keep l)
           else if j =? p then push_child idx (cl_child_indent l) l else l)
           (nth_error objs j)).
      { intros j. unfold objs1. rewrite !upd_nth.
        destruct (j =? idx) eqn:Ea, (j =? p) eqn:Eb; destruct (nth_error objs j); try reflexivity.
        apply Nat.eqb_eq in Ea, Eb. lia. }
      assert (Et1 : map cl_text objs1 = map cl_text objs) by (unfold objs1; rewrite !map_upd; reflexivity).
      assert (El1 : length objs1 = length objs) by (unfold objs1; now rewrite !upd_length).
      destruct (at_line (cl_text o)) eqn:Ea.
      * split; [reflexivity|]. intros j. rewrite E1. apply option_map_ext2. intros l Hl. unfold mset.
        destruct (j =? idx) eqn:E2.
        -- apply Nat.eqb_eq in E2. subst j.
           replace ((idx <=? idx) && (idx <? idx + 1)) with true
             by (symmetry; apply andb_true_iff; rewrite Nat.leb_le, Nat.ltb_lt; lia).
           replace (idx =? p) with false by (symmetry; apply Nat.eqb_neq; lia).
           rewrite orb_true_r. reflexivity.
        -- apply Nat.eqb_neq in E2.
           replace ((idx <=? j) && (j <? idx + 1)) with false
             by (symmetry; apply andb_false_iff; rewrite Nat.leb_gt, Nat.ltb_ge; lia).
           rewrite orb_false_r. destruct (j =? p); [reflexivity|now destruct l].
      * specialize (IH (S idx) objs1 ltac:(lia) ltac:(lia)). rewrite Et1 in IH.
        fold objs1. destruct (macro_body n p (S idx) objs1) as [objs'|e]; [|exact IH].
        destruct IH as [I1 I2]. split; [exact I1|]. intros j. rewrite I2, E1.
        generalize (upto at_line (skipn (S idx) (map cl_text objs))) as m. intros m.
        destruct (nth_error objs j) as [l|] eqn:El; [|reflexivity]. cbn [option_map]. f_equal.
        unfold mset. destruct (j =? idx) eqn:E2.
        -- apply Nat.eqb_eq in E2. subst j.
           replace ((S idx <=? idx) && (idx <? S idx + m)) with false
             by (symmetry; apply andb_false_iff; rewrite Nat.leb_gt; lia).
           replace ((idx <=? idx) && (idx <? idx + S m)) with true
             by (symmetry; apply andb_true_iff; rewrite Nat.leb_le, Nat.ltb_lt; lia).
           replace (idx =? p) with false by (symmetry; apply Nat.eqb_neq; lia).
           cbn. now rewrite orb_true_r.
        -- apply Nat.eqb_neq in E2.
           replace ((idx <=? j) && (j <? idx + S m)) with ((S idx <=? j) && (j <? S idx + m)).
           2:{ apply eq_true_iff_eq. rewrite !andb_true_iff, !Nat.leb_le, !Nat.ltb_lt. lia. }
           destruct (j =? p) eqn:E3; [|reflexivity].
           cbn [push_child cl_text cl_linenum cl_indent cl_comment cl_parent cl_children cl_child_indent cl_keep cl_owned].
           rewrite <- app_assoc. reflexivity.
    + rewrite skipn_end by (rewrite nth_error_map_iff, E; reflexivity). auto.
Qed.

Definition mrange (ts : list str) (p : nat) : nat := upto at_line (skipn (S p) ts).
Definition mcovb (ts : list str) (p j : nat) : bool := (S p <=? j) && (j <? S p + mrange ts p).

Lemma mark_macros_fold ms objs :
  NoDup ms ->
  match mark_macros ms objs with
  | Ok objs' =>
    let ts := map cl_text objs in
    (forall p, In p ms -> existsb at_line (skipn (S p) ts) = true) /\
    forall j, nth_error objs' j =
      option_map (fun l =>
        mkLine (cl_text l) (cl_linenum l) (cl_indent l) (cl_comment l)
          (lastf (fun p => mcovb ts p j) ms (cl_parent l))
          (cl_children l ++ if existsb (Nat.eqb j) ms then seq (S j) (mrange ts j) else [])
          (if existsb (Nat.eqb j) ms then 0 else cl_child_indent l)
          (cl_keep l || existsb (Nat.eqb j) ms || existsb (fun p => mcovb ts p j) ms)
          (cl_owned l)) (nth_error objs j)
  | Err e => e = IndexError /\
      exists p, In p ms /\ existsb at_line (skipn (S p) (map cl_text objs)) = false
  end.
Proof.
  revert objs; induction ms as [|p ms IH]; intros objs Hn; cbn [mark_macros].
  - split; [intros p []|]. intros j. symmetry. apply option_map_id. intros l. cbn.
    rewrite app_nil_r, !orb_false_r. now destruct l.
  - inversion Hn as [|? ? Hnin Hn']; subst.
    set (objs0 := upd (upd objs p set_keep) p (set_child_indent 0)).
    assert (Et0 : map cl_text objs0 = map cl_text objs) by (unfold objs0; rewrite !map_upd; reflexivity).
    assert (El0 : length objs0 = length objs) by (unfold objs0; now rewrite !upd_length).
    assert (E0 : forall j, nth_error objs0 j = option_map (fun l =>
               if j =? p then set_child_indent 0 (set_keep l) else l) (nth_error objs j)).
    { intros j. unfold objs0. rewrite !upd_nth. destruct (j =? p); destruct (nth_error objs j); reflexivity. }
    pose proof (macro_body_nth (length objs) p (S p) objs0 ltac:(lia) ltac:(lia)) as B.
    rewrite Et0 in B. unfold bind.
    destruct (macro_body (length objs) p (S p) objs0) as [objs1|e].
    + destruct B as [B1 B2].
      assert (Et1 : map cl_text objs1 = map cl_text objs).
      { apply nth_error_ext. intros j. rewrite !nth_error_map_iff, B2, E0.
        destruct (nth_error objs j); [|reflexivity]. cbn. now destruct (j =? p). }
      specialize (IH objs1 Hn'). rewrite Et1 in IH.
      destruct (mark_macros ms objs1) as [objs'|e].
      * cbv zeta in *. destruct IH as [I1 I2]. split.
        { intros q [<-|Hq]; auto. }
        intros j. rewrite I2, B2, E0.
        destruct (nth_error objs j) as [l|]; [|reflexivity]. cbn [option_map]. f_equal.
        set (ts := map cl_text objs). unfold mset. cbn [existsb lastf fold_left].
        change (upto at_line (skipn (S p) ts)) with (mrange ts p). fold (mcovb ts p j).
        destruct (j =? p) eqn:Ej.
        -- apply Nat.eqb_eq in Ej. subst j.
           assert (Enot : existsb (Nat.eqb p) ms = false).
           { destruct (existsb (Nat.eqb p) ms) eqn:E; [|reflexivity]. exfalso.
             apply existsb_exists in E as (q & Hq & Eq). apply Nat.eqb_eq in Eq. subst. contradiction. }
           rewrite Enot.
           cbn [set_child_indent set_keep cl_text cl_linenum cl_indent cl_comment cl_parent cl_children cl_child_indent cl_keep cl_owned orb andb].
           rewrite app_nil_r. f_equal. now rewrite !orb_true_r.
        -- cbn [cl_text cl_linenum cl_indent cl_comment cl_parent cl_children cl_child_indent cl_keep cl_owned orb andb].
           f_equal. destruct (cl_keep l), (mcovb ts p j), (existsb (Nat.eqb j) ms); reflexivity.
      * destruct IH as (-> & q & Hq & Hb). split; [reflexivity|]. exists q. split; [now right|exact Hb].
    + destruct B as [-> B]. split; [reflexivity|]. exists p. split; [now left|exact B].
Qed.
