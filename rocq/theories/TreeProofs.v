(** The parser loop computes the specified tree. *)
From Coq Require Import Ascii String Arith NArith ZArith Bool List Lia.
From Verif Require Import PyStr PyStrFacts PyBase PyBaseFacts CfgModel TreeSpec.
Import ListNotations.
Local Open Scope nat_scope.

(** ** Raw-line observations agree with the object attributes *)

Lemma leading_lstrip l : length l = leading l + length (lstrip l).
Proof.
  induction l as [|c l IH]; cbn; [reflexivity|].
  destruct (is_space c); cbn; lia.
Qed.

Lemma leading_app_nonblank a b : blank a = false -> leading (a ++ b) = leading a.
Proof.
  unfold blank. induction a as [|c a IH]; cbn; [discriminate|].
  destruct (is_space c); cbn; [|reflexivity]. intros H. now rewrite IH.
Qed.

Lemma blank_rstrip l : blank l = true <-> rstrip l = [].
Proof. symmetry. apply rstrip_nil_iff. Qed.

Lemma blank_rstrip_eq l : blank (rstrip l) = blank l.
Proof.
  apply eq_true_iff_eq. rewrite !blank_rstrip, rstrip_idem. tauto.
Qed.

Lemma text_indent_spec l : text_indent l = line_indent l.
Proof.
  unfold text_indent, line_indent. destruct (blank l) eqn:E.
  - apply blank_rstrip in E. now rewrite E.
  - pose proof (leading_lstrip (rstrip l)) as H.
    destruct (rstrip_prefix l) as (p & Ep & Hp).
    assert (leading l = leading (rstrip l)).
    { rewrite Ep at 1. apply leading_app_nonblank. rewrite blank_rstrip_eq. exact E. }
    lia.
Qed.

Lemma find_lstrip l :
  find (fun c => negb (is_space c)) l = hd_error (lstrip l).
Proof. induction l as [|c l IH]; cbn; [reflexivity|]. now destruct (is_space c). Qed.

Lemma hd_error_lstrip_rstrip l : hd_error (lstrip (rstrip l)) = hd_error (lstrip l).
Proof.
  destruct (rstrip_prefix l) as (p & Ep & Hp).
  rewrite <- !find_lstrip. rewrite Ep at 2.
  generalize (rstrip l) as t. clear Ep.
  induction t as [|c t IH]; cbn.
  - induction p as [|c p IHp]; cbn in *; [reflexivity|].
    apply andb_prop in Hp as [H1 H2]. rewrite H1. cbn. auto.
  - now destruct (is_space c).
Qed.

Lemma text_is_comment_spec d l : text_is_comment d (rstrip l) = comment_line d l.
Proof.
  unfold text_is_comment, comment_line. rewrite find_lstrip.
  pose proof (hd_error_lstrip_rstrip l) as H.
  destruct (lstrip (rstrip l)), (lstrip l); cbn in *; try congruence.
Qed.

Lemma is_config_line_spec d id n b l :
  is_config_line (new_line d id n b l) = config_line d l.
Proof.
  unfold is_config_line, config_line, new_line. cbn [cl_text cl_comment].
  rewrite text_is_comment_spec, strip_rstrip.
  pose proof (strip_nil_iff l) as H. unfold blank.
  destruct (strip l).
  - now rewrite (proj1 H eq_refl).
  - destruct (forallb is_space l); [|reflexivity]. specialize (proj2 H eq_refl). discriminate.
Qed.

(** ** Nearest shallower line, computed *)

Lemma filter_none {A} (f : A -> bool) l : (forall x, In x l -> f x = false) -> filter f l = [].
Proof.
  induction l as [|x l IH]; cbn; intros H; [reflexivity|].
  rewrite (H x) by auto. apply IH. auto.
Qed.

Section Near.
  Variable d : str.   (* comment delimiters *)

  (** Walk backwards over a list of lines given in reverse order; [n] is the
      number of lines left. *)
  Fixpoint near_rev (k : nat) (rl : list str) : option nat :=
    match rl with
    | [] => None
    | l :: rl' => if (line_indent l <? k) && config_line d l then Some (length rl')
                  else near_rev k rl'
    end.
  Definition near (k : nat) (lines : list str) : option nat := near_rev k (rev lines).

  Lemma near_snoc k lines l :
    near k (lines ++ [l]) =
    if (line_indent l <? k) && config_line d l then Some (length lines) else near k lines.
  Proof.
    unfold near. rewrite rev_app_distr. cbn. now rewrite rev_length.
  Qed.

  Lemma near_some k lines j :
    near k lines = Some j <->
    exists lj, nth_error lines j = Some lj /\ config_line d lj = true /\ line_indent lj < k /\
      forall m lm, j < m -> nth_error lines m = Some lm -> config_line d lm = true ->
        k <= line_indent lm.
  Proof.
    revert j. induction lines as [|l lines IH] using rev_ind; intros j.
    - split; [discriminate|]. intros (lj & H & _). now rewrite nth_error_nil in H || destruct j.
    - rewrite near_snoc. destruct ((line_indent l <? k) && config_line d l) eqn:E.
      + apply andb_prop in E as [E1 E2]. apply Nat.ltb_lt in E1. split.
        * intros H; injection H as <-. exists l.
          rewrite nth_error_app2, Nat.sub_diag by lia. repeat split; auto.
          intros m lm Hm Hl _. apply nth_error_length_lt in Hl.
          rewrite app_length in Hl; cbn in Hl; lia.
        * intros (lj & Hj & _ & _ & Hall). f_equal.
          pose proof (nth_error_length_lt _ _ _ Hj) as Hlt. rewrite app_length in Hlt; cbn in Hlt.
          destruct (Nat.eq_dec j (length lines)) as [->|Hne]; [reflexivity|].
          specialize (Hall (length lines) l). rewrite nth_error_app2, Nat.sub_diag in Hall by lia.
          specialize (Hall ltac:(lia) eq_refl E2). lia.
      + rewrite IH. split; intros (lj & Hj & Hc & Hi & Hall).
        * exists lj. pose proof (nth_error_length_lt _ _ _ Hj) as Hlt.
          rewrite nth_error_app1 by assumption. repeat split; auto.
          intros m lm Hm Hl Hcm.
          destruct (Nat.lt_ge_cases m (length lines)) as [Hml|Hml].
          -- rewrite nth_error_app1 in Hl by assumption. eauto.
          -- rewrite nth_error_app2 in Hl by assumption.
             destruct (m - length lines) as [|q]; cbn in Hl; [|destruct q; discriminate].
             injection Hl as <-. rewrite Hcm, andb_true_r in E. apply Nat.ltb_ge in E. exact E.
        * pose proof (nth_error_length_lt _ _ _ Hj) as Hlt. rewrite app_length in Hlt; cbn in Hlt.
          destruct (Nat.eq_dec j (length lines)) as [->|Hne].
          -- rewrite nth_error_app2, Nat.sub_diag in Hj by lia. cbn in Hj. injection Hj as <-.
             rewrite Hc, andb_true_r in E. apply Nat.ltb_ge in E. lia.
          -- rewrite nth_error_app1 in Hj by lia. exists lj. repeat split; auto.
             intros m lm Hm Hl Hcm. apply (Hall m lm); auto.
             rewrite nth_error_app1; auto. eapply nth_error_length_lt; eauto.
  Qed.

  Lemma near_lt k lines j : near k lines = Some j -> j < length lines.
  Proof. rewrite near_some. intros (lj & H & _). eapply nth_error_length_lt; eauto. Qed.

  Lemma near_0 lines : near 0 lines = None.
  Proof.
    destruct (near 0 lines) as [j|] eqn:E; [|reflexivity].
    apply near_some in E as (? & _ & _ & H & _). lia.
  Qed.

  (** The indent of the line before position [length lines]. *)
  Definition last_indent (lines : list str) : nat :=
    match rev lines with l :: _ => line_indent l | [] => 0 end.

  (** Parent of a line [l] that follows [lines]. *)
  Definition next_parent (lines : list str) (l : str) : nat :=
    match near (line_indent l) lines with
    | None => length lines
    | Some p => if comment_line d l && (line_indent l <? last_indent lines)
                then length lines else p
    end.

  Lemma next_parent_le lines l : next_parent lines l <= length lines.
  Proof.
    unfold next_parent. destruct (near _ lines) as [p|] eqn:E; [|lia].
    apply near_lt in E. destruct (_ && _); lia.
  Qed.

  Definition par (lines : list str) (i : nat) : nat :=
    match nth_error lines i with
    | Some l => next_parent (firstn i lines) l
    | None => i
    end.

  Lemma par_app lines more i : i < length lines -> par (lines ++ more) i = par lines i.
  Proof.
    intros H. unfold par. rewrite nth_error_app1 by assumption.
    destruct (nth_error lines i); [|reflexivity].
    rewrite firstn_app. replace (i - length lines) with 0 by lia.
    cbn. now rewrite app_nil_r.
  Qed.

  Lemma par_last lines l : par (lines ++ [l]) (length lines) = next_parent lines l.
  Proof.
    unfold par. rewrite nth_error_app2, Nat.sub_diag by lia. cbn.
    rewrite firstn_app, firstn_all, Nat.sub_diag. cbn. now rewrite app_nil_r.
  Qed.

  Lemma par_le lines i : par lines i <= i.
  Proof.
    unfold par. destruct (nth_error lines i) eqn:E; [|lia].
    pose proof (next_parent_le (firstn i lines) s) as H.
    rewrite firstn_length in H. lia.
  Qed.

  (** Children of [i] among the first [n] lines. *)
  Definition kids (lines : list str) (i : nat) : list nat :=
    filter (fun j => (par lines j =? i) && negb (j =? i)) (seq 0 (length lines)).

  Lemma kids_snoc lines l i :
    i <= length lines ->
    kids (lines ++ [l]) i =
    kids lines i ++ (if (next_parent lines l =? i) && negb (length lines =? i)
                     then [length lines] else []).
  Proof.
    intros Hi. unfold kids. rewrite app_length. cbn [length].
    rewrite seq_app, filter_app. cbn [seq filter plus]. rewrite par_last.
    destruct (_ && _) eqn:E; f_equal;
    apply filter_ext_in; intros j Hj; apply in_seq in Hj; rewrite par_app by lia; reflexivity.
  Qed.

  (** Expected object for line [i]. *)
  Definition exp_line (lines : list str) (i : nat) : cfgline :=
    let l := nth i lines [] in
    mkLine (rstrip l) (Z.of_nat i) (line_indent l) (comment_line d l)
           (par lines i) (kids lines i)
           (match rev (kids lines i) with
            | c :: _ => line_indent (nth c lines [])
            | [] => 0
            end)
           false true.
  Definition exp_objs (lines : list str) : list cfgline :=
    map (exp_line lines) (seq 0 (length lines)).

  Lemma exp_objs_length lines : length (exp_objs lines) = length lines.
  Proof. unfold exp_objs. now rewrite map_length, seq_length. Qed.

  Lemma exp_objs_nth lines i :
    nth_error (exp_objs lines) i = if i <? length lines then Some (exp_line lines i) else None.
  Proof.
    unfold exp_objs. rewrite nth_error_map_iff, nth_error_seq.
    destruct (i <? length lines); reflexivity.
  Qed.

  Lemma exp_is_config lines i :
    is_config_line (exp_line lines i) = config_line d (nth i lines []).
  Proof.
    pose proof (is_config_line_spec d 0 0%Z true (nth i lines [])) as H.
    unfold is_config_line, new_line in *. cbn [cl_text cl_comment exp_line] in *.
    rewrite text_is_comment_spec in H. exact H.
  Qed.

  Lemma walk_back_near lines k n :
    n <= length lines ->
    walk_back (exp_objs lines) k n = near k (firstn n lines).
  Proof.
    induction n as [|n IH]; intros Hn; [reflexivity|].
    cbn [walk_back]. rewrite exp_objs_nth.
    replace (n <? length lines) with true by (symmetry; apply Nat.ltb_lt; lia).
    rewrite exp_is_config. cbn [cl_indent exp_line].
    assert (E : firstn (S n) lines = firstn n lines ++ [nth n lines []]).
    { destruct (nth_error_lt_some lines n) as (x & Hx); [lia|].
      rewrite (nth_error_nth lines n [] Hx).
      clear - Hx. revert n Hx. induction lines as [|y lines IHl]; intros [|n] Hx; try discriminate.
      - cbn in *. congruence.
      - cbn in *. f_equal. now apply IHl. }
    rewrite E, near_snoc, firstn_length, Nat.min_l by lia.
    destruct (_ && _); [reflexivity|]. apply IH. lia.
  Qed.

  Lemma last_exp lines k :
    match nth_error (exp_objs lines) (length (exp_objs lines) - 1) with
    | Some q => k <? cl_indent q
    | None => false
    end = (k <? last_indent lines).
  Proof.
    rewrite exp_objs_length, exp_objs_nth. unfold last_indent.
    destruct lines as [|l lines _] using rev_ind; [now cbn|].
    rewrite rev_app_distr. cbn [rev app]. rewrite app_length. cbn [length].
    replace (length lines + 1 - 1) with (length lines) by lia.
    replace (length lines <? length lines + 1) with true by (symmetry; apply Nat.ltb_lt; lia).
    cbn [cl_indent exp_line]. rewrite app_nth2, Nat.sub_diag by lia. reflexivity.
  Qed.

  (** One more line: the list of expected objects. *)
  Lemma exp_line_snoc lines l i :
    i < length lines ->
    exp_line (lines ++ [l]) i =
    if (next_parent lines l =? i)
    then push_child (length lines) (line_indent l) (exp_line lines i)
    else exp_line lines i.
  Proof.
    intros Hi. unfold exp_line.
    rewrite app_nth1 by assumption. rewrite par_app by assumption.
    rewrite kids_snoc by lia.
    replace (length lines =? i) with false by (symmetry; apply Nat.eqb_neq; lia).
    rewrite andb_true_r.
    destruct (next_parent lines l =? i) eqn:E; unfold push_child; cbn [cl_text cl_linenum cl_indent cl_comment cl_parent cl_children cl_child_indent cl_keep cl_owned].
    - rewrite rev_app_distr. cbn [rev app].
      rewrite app_nth2, Nat.sub_diag by lia. reflexivity.
    - rewrite app_nil_r. f_equal.
      destruct (rev (kids lines i)) as [|c t] eqn:Er; [reflexivity|].
      assert (Hc : In c (kids lines i)) by (apply in_rev; rewrite Er; now left).
      unfold kids in Hc. apply filter_In in Hc as [Hc _]. apply in_seq in Hc.
      rewrite app_nth1 by lia. reflexivity.
  Qed.

  Lemma exp_line_last lines l :
    exp_line (lines ++ [l]) (length lines) =
    set_parent (next_parent lines l) (new_line d (length lines) (Z.of_nat (length lines)) true l).
  Proof.
    unfold exp_line. rewrite app_nth2, Nat.sub_diag by lia. cbn [nth].
    rewrite par_last. unfold set_parent, new_line. cbn.
    assert (K : kids (lines ++ [l]) (length lines) = []).
    { rewrite kids_snoc by lia. rewrite Nat.eqb_refl. cbn. rewrite andb_false_r, app_nil_r.
      unfold kids. apply filter_none. intros j Hj. apply in_seq in Hj.
      pose proof (par_le lines j) as Hp.
      replace (par lines j =? length lines) with false by (symmetry; apply Nat.eqb_neq; lia).
      reflexivity. }
    rewrite K. rewrite text_indent_spec, text_is_comment_spec. reflexivity.
  Qed.

  Lemma exp_objs_snoc lines l :
    exp_objs (lines ++ [l]) =
    (if next_parent lines l =? length lines then exp_objs lines
     else upd (exp_objs lines) (next_parent lines l) (push_child (length lines) (line_indent l)))
    ++ [set_parent (next_parent lines l) (new_line d (length lines) (Z.of_nat (length lines)) true l)].
  Proof.
    unfold exp_objs at 1. rewrite app_length. cbn [length].
    rewrite seq_app, map_app. cbn [seq map plus]. rewrite exp_line_last. f_equal.
    apply nth_error_ext. intros i.
    rewrite nth_error_map_iff, nth_error_seq.
    pose proof (next_parent_le lines l) as Hp.
    destruct (i <? length lines) eqn:Ei.
    - apply Nat.ltb_lt in Ei. cbn [option_map plus]. rewrite exp_line_snoc by assumption.
      destruct (next_parent lines l =? length lines) eqn:E.
      + apply Nat.eqb_eq in E. rewrite E, exp_objs_nth.
        replace (i <? length lines) with true by (symmetry; now apply Nat.ltb_lt).
        replace (length lines =? i) with false by (symmetry; apply Nat.eqb_neq; lia). reflexivity.
      + rewrite upd_nth, exp_objs_nth.
        replace (i <? length lines) with true by (symmetry; now apply Nat.ltb_lt).
        rewrite Nat.eqb_sym. destruct (i =? next_parent lines l); reflexivity.
    - cbn. symmetry. apply nth_error_None. apply Nat.ltb_ge in Ei.
      destruct (_ =? _); rewrite ?upd_length, exp_objs_length; lia.
  Qed.

  (** ** The loop invariant *)

  Definition cache_ok (cache : list (nat * nat)) (mx : nat) (lines : list str) : Prop :=
    forall k p, In (k, p) cache -> 0 < k /\ k <= mx /\ near k lines = Some p.

  Lemma cache_get_in k cache p : cache_get k cache = Some p -> In (k, p) cache.
  Proof.
    induction cache as [|[k' v] cache IH]; cbn; [discriminate|].
    destruct (k =? k') eqn:E; [|auto]. apply Nat.eqb_eq in E. intros H; injection H as ->.
    subst. now left.
  Qed.

  Lemma add_child_exp lines l :
    add_child (exp_objs lines) (line_indent l) (near (line_indent l) lines)
      (new_line d (length lines) (Z.of_nat (length lines)) true l) =
    ((if next_parent lines l =? length lines then exp_objs lines
      else upd (exp_objs lines) (next_parent lines l) (push_child (length lines) (line_indent l))),
     set_parent (next_parent lines l) (new_line d (length lines) (Z.of_nat (length lines)) true l)).
  Proof.
    unfold add_child. rewrite last_exp, exp_objs_length. unfold next_parent.
    assert (Hself : set_parent (length lines) (new_line d (length lines) (Z.of_nat (length lines)) true l)
                    = new_line d (length lines) (Z.of_nat (length lines)) true l) by reflexivity.
    destruct (near (line_indent l) lines) as [p|] eqn:E.
    - replace (cl_comment (new_line d (length lines) (Z.of_nat (length lines)) true l))
        with (comment_line d l) by (cbn; now rewrite text_is_comment_spec).
      destruct (comment_line d l && (line_indent l <? last_indent lines)).
      + rewrite Nat.eqb_refl, Hself. reflexivity.
      + apply near_lt in E.
        replace (p =? length lines) with false by (symmetry; apply Nat.eqb_neq; lia). reflexivity.
    - rewrite Nat.eqb_refl, Hself. reflexivity.
  Qed.

  Lemma boot_step_inv (o : opts) (st : bstate) (lines : list str) (l : str) :
    o_comment o = d ->
    b_objs st = exp_objs lines ->
    cache_ok (b_cache st) (b_max st) lines ->
    b_objs (boot_step o st l) = exp_objs (lines ++ [l]) /\
    cache_ok (b_cache (boot_step o st l)) (b_max (boot_step o st l)) (lines ++ [l]).
  Proof.
    intros Hd Hobjs Hc. unfold boot_step. rewrite Hobjs, exp_objs_length, Hd.
    rewrite is_config_line_spec.
    replace (cl_indent (new_line d (length lines) (Z.of_nat (length lines)) true l))
      with (line_indent l) by (cbn; now rewrite text_indent_spec).
    rewrite exp_objs_snoc.
    pose proof (add_child_exp lines l) as Hadd.
    assert (Hroot : line_indent l = 0 -> next_parent lines l = length lines).
    { intros H. unfold next_parent. now rewrite H, near_0. }
    unfold maintain_cache.
    destruct ((line_indent l <? b_max st) && config_line d l) eqn:E1.
    - apply andb_prop in E1 as [E1 E2]. apply Nat.ltb_lt in E1. rewrite E2.
      unfold build_parent_child.
      destruct (0 <? line_indent l) eqn:E0.
      + apply Nat.ltb_lt in E0.
        rewrite walk_back_near by (rewrite exp_objs_length; lia).
        rewrite exp_objs_length, firstn_all, Hadd. cbn [b_objs b_cache b_max].
        replace (line_indent l =? 0) with false by (symmetry; apply Nat.eqb_neq; lia).
        replace (b_max st <? line_indent l) with false by (symmetry; apply Nat.ltb_ge; lia).
        cbn [andb]. split; [reflexivity|].
        assert (Hf : cache_ok (filter (fun kv => fst kv <? line_indent l) (b_cache st)) (b_max st) (lines ++ [l])).
        { intros k p Hin. apply filter_In in Hin as [Hin Hlt]. cbn in Hlt. apply Nat.ltb_lt in Hlt.
          destruct (Hc k p Hin) as (H1 & H2 & H3). repeat split; auto.
          rewrite near_snoc. replace (line_indent l <? k) with false by (symmetry; apply Nat.ltb_ge; lia).
          exact H3. }
        destruct (near (line_indent l) lines) as [p|] eqn:En; [|exact Hf].
        intros k q [Hin|Hin]; [|now apply Hf].
        injection Hin as <- <-. repeat split; try lia.
        rewrite near_snoc, Nat.ltb_irrefl. exact En.
      + apply Nat.ltb_ge in E0. assert (Ez : line_indent l = 0) by lia.
        cbn [b_objs b_cache b_max]. rewrite Ez. cbn [Nat.eqb andb].
        rewrite Hroot by assumption. rewrite Nat.eqb_refl. split; [reflexivity|].
        intros k p Hin. apply filter_In in Hin as [_ Hlt]. discriminate.
    - assert (Hf : cache_ok (b_cache st)
                     (if (line_indent l =? 0) && config_line d l then 0
                      else if b_max st <? line_indent l then line_indent l else b_max st)
                     (lines ++ [l])).
      { intros k p Hin. destruct (Hc k p Hin) as (H1 & H2 & H3).
        destruct (config_line d l) eqn:E2.
        - rewrite andb_true_r in E1 |- *. apply Nat.ltb_ge in E1.
          split; [assumption|]. split.
          + destruct (line_indent l =? 0) eqn:E3; [apply Nat.eqb_eq in E3; lia|].
            destruct (b_max st <? line_indent l); lia.
          + rewrite near_snoc. replace (line_indent l <? k) with false by (symmetry; apply Nat.ltb_ge; lia).
            exact H3.
        - rewrite andb_false_r. split; [assumption|]. split.
          + destruct (b_max st <? line_indent l) eqn:E3; [apply Nat.ltb_lt in E3; lia|lia].
          + rewrite near_snoc, E2, andb_false_r. exact H3. }
      unfold build_parent_child.
      destruct (0 <? line_indent l) eqn:E0.
      + apply Nat.ltb_lt in E0.
        destruct (cache_get (line_indent l) (b_cache st)) as [p|] eqn:Eg.
        * apply cache_get_in in Eg. destruct (Hc _ _ Eg) as (_ & _ & H3).
          rewrite H3 in Hadd. rewrite Hadd. cbn [b_objs b_cache b_max]. split; [reflexivity|exact Hf].
        * rewrite walk_back_near by (rewrite exp_objs_length; lia).
          rewrite exp_objs_length, firstn_all, Hadd. cbn [b_objs b_cache b_max].
          split; [reflexivity|].
          destruct (near (line_indent l) lines) as [p|] eqn:En; [|exact Hf].
          intros k q [Hin|Hin]; [|now apply Hf].
          injection Hin as <- <-. split; [assumption|]. split.
          -- replace (line_indent l =? 0) with false by (symmetry; apply Nat.eqb_neq; lia).
             cbn [andb]. destruct (b_max st <? line_indent l) eqn:E3; [lia|].
             apply Nat.ltb_ge in E3. exact E3.
          -- rewrite near_snoc, Nat.ltb_irrefl. exact En.
      + apply Nat.ltb_ge in E0. assert (Ez : line_indent l = 0) by lia.
        cbn [b_objs b_cache b_max]. rewrite Hroot by assumption. rewrite Nat.eqb_refl.
        split; [reflexivity|exact Hf].
  Qed.

  Theorem boot_loop_exp (o : opts) (lines : list str) :
    o_comment o = d -> b_objs (boot_loop o lines) = exp_objs lines.
  Proof.
    intros Hd.
    enough (b_objs (boot_loop o lines) = exp_objs lines /\
            cache_ok (b_cache (boot_loop o lines)) (b_max (boot_loop o lines)) lines) by tauto.
    unfold boot_loop. induction lines as [|l lines IH] using rev_ind.
    - split; [reflexivity|]. intros k p [].
    - rewrite fold_left_app. cbn [fold_left]. destruct IH as [IH1 IH2]. now apply boot_step_inv.
  Qed.

  (** ** [par] is the specified parent *)

  Lemma firstn_nth_error {A} (l : list A) n i :
    nth_error (firstn n l) i = if i <? n then nth_error l i else None.
  Proof.
    revert n i; induction l as [|x l IH]; intros [|n] [|i]; try reflexivity.
    - cbn [firstn nth_error]. now destruct (S i <? S n).
    - cbn [firstn nth_error]. change (S i <? S n) with (i <? n). apply IH.
  Qed.

  Lemma near_spec lines i li j :
    nth_error lines i = Some li ->
    near (line_indent li) (firstn i lines) = Some j <-> nearest_shallower d lines i j.
  Proof.
    intros Hi. rewrite near_some. unfold nearest_shallower. split.
    - intros (lj & Hj & Hc & Hlt & Hall). rewrite firstn_nth_error in Hj.
      destruct (j <? i) eqn:E; [|discriminate]. apply Nat.ltb_lt in E.
      exists li, lj. repeat split; auto.
      intros k lk Hk Hl Hck. apply (Hall k); auto; [lia|].
      rewrite firstn_nth_error. replace (k <? i) with true by (symmetry; apply Nat.ltb_lt; lia). exact Hl.
    - intros (li' & lj & Hi' & Hj & Hji & Hc & Hlt & Hall).
      rewrite Hi in Hi'. injection Hi' as <-.
      exists lj. rewrite firstn_nth_error.
      replace (j <? i) with true by (symmetry; apply Nat.ltb_lt; lia).
      repeat split; auto. intros m lm Hm Hl Hcm. rewrite firstn_nth_error in Hl.
      destruct (m <? i) eqn:E; [|discriminate]. apply Nat.ltb_lt in E.
      apply (Hall m); auto.
  Qed.

  Lemma nearest_shallower_lt lines i j : nearest_shallower d lines i j -> j < i.
  Proof. intros (? & ? & ? & ? & ? & ?). assumption. Qed.

  Lemma last_indent_firstn lines i :
    0 < i -> i <= length lines ->
    exists lp, nth_error lines (i - 1) = Some lp /\ last_indent (firstn i lines) = line_indent lp.
  Proof.
    intros H0 Hi. destruct (nth_error_lt_some lines (i - 1)) as (lp & Hlp); [lia|].
    exists lp. split; [assumption|]. unfold last_indent.
    apply nth_error_split in Hlp as (a & b & -> & Ha).
    replace i with (length a + 1) by lia.
    rewrite firstn_app. rewrite firstn_all2 by lia.
    replace (length a + 1 - length a) with 1 by lia. cbn [firstn].
    rewrite rev_app_distr. reflexivity.
  Qed.

  Lemma comment_below_spec lines i li :
    nth_error lines i = Some li ->
    comment_line d li && (line_indent li <? last_indent (firstn i lines)) = true
    <-> comment_below_deeper d lines i.
  Proof.
    intros Hi. pose proof (nth_error_length_lt _ _ _ Hi) as Hl.
    rewrite andb_true_iff, Nat.ltb_lt. unfold comment_below_deeper. split.
    - intros [Hc Hlt]. destruct (Nat.eq_dec i 0) as [->|H0]; [cbn in Hlt; lia|].
      destruct (last_indent_firstn lines i) as (lp & Hlp & E); try lia.
      rewrite E in Hlt. exists li, lp. repeat split; auto. lia.
    - intros (li' & lp & Hi' & Hp & H0 & Hc & Hlt). rewrite Hi in Hi'. injection Hi' as <-.
      split; [assumption|].
      destruct (last_indent_firstn lines i) as (lp' & Hlp & E); try lia.
      rewrite Hp in Hlp. injection Hlp as <-. lia.
  Qed.

  Theorem par_spec lines i : i < length lines -> tree_parent d lines i (par lines i).
  Proof.
    intros Hi. destruct (nth_error_lt_some lines i Hi) as (li & Hli).
    unfold par. rewrite Hli. unfold next_parent.
    pose proof (near_spec lines i li) as Hn.
    pose proof (comment_below_spec lines i li Hli) as Hcb.
    assert (Hlen : length (firstn i lines) = i) by (rewrite firstn_length; lia).
    destruct (near (line_indent li) (firstn i lines)) as [p|] eqn:E.
    - destruct (comment_line d li && _).
      + right. split; [exact Hlen|]. split; [exact Hi|]. right. now apply Hcb.
      + left. split; [now apply Hn|]. intros H. apply Hcb in H. discriminate.
    - right. split; [exact Hlen|]. split; [exact Hi|]. left. intros j Hj.
      apply Hn in Hj; [|assumption]. discriminate.
  Qed.

  Theorem tree_parent_unique lines i p q :
    tree_parent d lines i p -> tree_parent d lines i q -> p = q.
  Proof.
    assert (U : nearest_shallower d lines i p -> nearest_shallower d lines i q -> p = q).
    { intros Hp Hq.
      assert (Hex : exists li, nth_error lines i = Some li) by (destruct Hp as (li & ? & Hi & _); eauto).
      destruct Hex as (li & Hi).
      apply (near_spec lines i li p Hi) in Hp. apply (near_spec lines i li q Hi) in Hq. congruence. }
    unfold tree_parent. intros [[H1 H2]|(H1 & H2 & H3)] [[H4 H5]|(H4 & H5 & H6)]; subst; auto.
    - destruct H6; [exfalso; eapply H; eauto|contradiction].
    - destruct H3; [exfalso; eapply H; eauto|contradiction].
  Qed.

  Corollary par_iff lines i p : i < length lines -> (par lines i = p <-> tree_parent d lines i p).
  Proof.
    intros Hi. split.
    - intros <-. now apply par_spec.
    - intros H. eapply tree_parent_unique; eauto. now apply par_spec.
  Qed.

  Lemma kids_in lines i j :
    In j (kids lines i) <-> j < length lines /\ par lines j = i /\ j <> i.
  Proof.
    unfold kids. rewrite filter_In, in_seq, andb_true_iff, Nat.eqb_eq, negb_true_iff, Nat.eqb_neq.
    split; intros; intuition lia.
  Qed.

  Lemma kids_gt lines i j : In j (kids lines i) -> i < j < length lines.
  Proof.
    rewrite kids_in. intros (H1 & H2 & H3). pose proof (par_le lines j). lia.
  Qed.
End Near.
