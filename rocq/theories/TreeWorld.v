(** Parsed worlds: where the objects of a parse live and what they hold. *)
From Coq Require Import Ascii String Arith NArith ZArith Bool List Lia Sorting.Sorted.
From Verif Require Import PyStr PyStrFacts PyBase PyBaseFacts CfgModel TreeSpec TreeProofs TreePost TreeRel.
Import ListNotations.
Local Open Scope nat_scope.

Lemma no_digit_rstrip l : no_digit_start l = true -> no_digit_start (rstrip l) = true.
Proof.
  destruct (rstrip_prefix l) as (p & E & _). destruct (rstrip l) as [|c t]; [reflexivity|].
  rewrite E. cbn. auto.
Qed.

Lemma reboot_inv w lines w' :
  reboot w lines = Ok w' ->
  exists objs kept, bootstrap (w_opts w) lines = Ok (objs, kept) /\
    w' = mkW (w_opts w) (w_heap w ++ map (relocate (length (w_heap w))) objs)
             (map (Nat.add (length (w_heap w))) kept).
Proof.
  unfold reboot, bind. destruct (bootstrap _ _) as [[objs kept]|]; [|discriminate].
  intros H; injection H as <-. eauto.
Qed.

Lemma reboot_obj w lines w' objs kept :
  bootstrap (w_opts w) lines = Ok (objs, kept) -> reboot w lines = Ok w' ->
  forall i, obj w' (length (w_heap w) + i) = option_map (relocate (length (w_heap w))) (nth_error objs i).
Proof.
  intros B H i. destruct (reboot_inv _ _ _ H) as (objs' & kept' & B' & ->).
  rewrite B in B'. injection B' as <- <-. unfold obj. cbn [w_heap].
  rewrite nth_error_app2 by lia. replace (length (w_heap w) + i - length (w_heap w)) with i by lia.
  apply nth_error_map_iff.
Qed.

Lemma reboot_old w lines w' i :
  reboot w lines = Ok w' -> i < length (w_heap w) -> obj w' i = obj w i.
Proof.
  intros H Hi. destruct (reboot_inv _ _ _ H) as (objs' & kept' & B' & ->).
  unfold obj. cbn [w_heap]. now rewrite nth_error_app1.
Qed.

Lemma reboot_heap w lines w' :
  reboot w lines = Ok w' -> length (w_heap w') = length (w_heap w) + length lines.
Proof.
  intros H. destruct (reboot_inv _ _ _ H) as (objs & kept & B & ->). cbn [w_heap].
  rewrite app_length, map_length. now rewrite (bootstrap_length _ _ _ _ B).
Qed.

Lemma reboot_region w lines w' :
  reboot w lines = Ok w' -> Forall (fun l => no_digit_start l = true) lines ->
  region w' (length (w_heap w)) (length lines).
Proof.
  intros H Hd i Hi. destruct (reboot_inv _ _ _ H) as (objs & kept & B & _).
  pose proof (reboot_obj _ _ _ _ _ B H i) as E.
  pose proof (bootstrap_length _ _ _ _ B) as Hlen.
  destruct (nth_error_lt_some objs i) as (l & Hl); [lia|]. rewrite Hl in E. cbn in E.
  eexists. split; [exact E|].
  destruct (bootstrap_facts _ _ _ _ B) as (_ & L & _). destruct (L i l Hl) as (L1 & L2 & L3).
  destruct (bootstrap_static _ _ _ _ _ _ B Hl) as (line & Hline & T1 & _).
  unfold good_obj, relocate. cbn. split; [exact L1|]. split; [lia|]. split.
  - apply Forall_forall. intros c Hc. apply in_map_iff in Hc as (c' & <- & Hc').
    rewrite Forall_forall in L3. specialize (L3 _ Hc'). lia.
  - rewrite T1. apply no_digit_rstrip. rewrite Forall_forall in Hd. apply Hd.
    eapply nth_error_In; eauto.
Qed.

Lemma reboot_conf w lines w' :
  reboot w lines = Ok w' ->
  exists objs, bootstrap (w_opts w) lines = Ok (objs, positions (stays (w_opts w)) 0 objs) /\
    w_conf w' = map (Nat.add (length (w_heap w))) (positions (stays (w_opts w)) 0 objs).
Proof.
  intros H. destruct (reboot_inv _ _ _ H) as (objs & kept & B & ->).
  destruct (bootstrap_facts _ _ _ _ B) as (_ & _ & ->). eauto.
Qed.

Lemma positions_map_nth {A B} (f : A -> bool) (g : A -> B) (l : list A) (pre : list A) d :
  map (fun i => match nth_error (pre ++ l) i with Some x => g x | None => d end)
      (positions f (length pre) l) = map g (filter f l).
Proof.
  revert pre; induction l as [|x l IH]; intros pre; cbn [positions filter]; [reflexivity|].
  assert (E : map (fun i => match nth_error (pre ++ x :: l) i with Some y => g y | None => d end)
                (positions f (S (length pre)) l) = map g (filter f l)).
  { specialize (IH (pre ++ [x])). rewrite app_length in IH. cbn in IH.
    rewrite Nat.add_1_r in IH. rewrite <- IH. now rewrite <- app_assoc. }
  destruct (f x); [|exact E]. cbn [map]. rewrite E. f_equal.
  rewrite nth_error_app2, Nat.sub_diag by lia. reflexivity.
Qed.

Lemma reboot_ioscfg w lines w' objs kept :
  bootstrap (w_opts w) lines = Ok (objs, kept) -> reboot w lines = Ok w' ->
  ioscfg w' = map cl_text (filter (stays (w_opts w)) objs).
Proof.
  intros B H. destruct (reboot_conf _ _ _ H) as (objs' & B' & Ec).
  rewrite B in B'. injection B' as <- ->.
  unfold ioscfg. rewrite Ec, map_map. unfold text_of.
  rewrite (map_ext _ (fun i => match nth_error objs i with Some l => cl_text l | None => [] end)).
  - apply (positions_map_nth (stays (w_opts w)) cl_text objs [] []).
  - intros i. rewrite (reboot_obj _ _ _ _ _ B H). now destruct (nth_error objs i).
Qed.

Lemma filter_map_comm {A B} (f : A -> B) (p : B -> bool) l :
  filter p (map f l) = map f (filter (fun x => p (f x)) l).
Proof. induction l as [|x l IH]; cbn; [reflexivity|]. destruct (p (f x)); cbn; now rewrite IH. Qed.

(** ** Plain configurations *)

Definition kept_line (o : opts) (l : str) : bool := negb (o_ignore_blank o) || negb (blank l).

Lemma stays_exp o d lines i :
  stays o (exp_line d lines i) = kept_line o (nth i lines []).
Proof.
  unfold stays, kept_line. cbn [exp_line cl_text cl_keep]. rewrite strip_rstrip, orb_false_r.
  f_equal. unfold blank. pose proof (strip_nil_iff (nth i lines [])) as H.
  destruct (strip (nth i lines [])).
  - now rewrite (proj1 H eq_refl).
  - destruct (forallb is_space (nth i lines [])); [|reflexivity]. specialize (proj2 H eq_refl). discriminate.
Qed.

Definition kept_ids (o : opts) (lines : list str) : list nat := positions (kept_line o) 0 lines.

Lemma positions_ext {A B} (f : A -> bool) (g : B -> bool) l m b :
  map f l = map g m -> positions f b l = positions g b m.
Proof.
  revert m b; induction l as [|x l IH]; intros [|y m] b H; try discriminate; [reflexivity|].
  cbn in *. injection H as -> H. now rewrite (IH m (S b) H).
Qed.

Lemma exp_positions o d lines : positions (stays o) 0 (exp_objs d lines) = kept_ids o lines.
Proof.
  apply positions_ext. unfold exp_objs. rewrite map_map.
  rewrite (map_ext _ _ (stays_exp o d lines)).
  apply nth_error_ext. intros i. rewrite !nth_error_map_iff, nth_error_seq.
  destruct (i <? length lines) eqn:E.
  - apply Nat.ltb_lt in E. destruct (nth_error_lt_some lines i E) as (x & Hx).
    rewrite Hx. cbn. now rewrite (nth_error_nth lines i [] Hx).
  - apply Nat.ltb_ge in E. now rewrite (proj2 (nth_error_None lines i) E).
Qed.

Theorem reboot_plain w lines :
  Forall (fun l => plain_line l = true) lines ->
  reboot w lines =
  Ok (mkW (w_opts w)
          (w_heap w ++ map (relocate (length (w_heap w))) (exp_objs (o_comment (w_opts w)) lines))
          (map (Nat.add (length (w_heap w))) (kept_ids (w_opts w) lines))).
Proof.
  intros H. unfold reboot, bind. rewrite bootstrap_plain by assumption.
  cbn [fst snd]. now rewrite exp_positions.
Qed.

Lemma relocate_0 l : relocate 0 l = l.
Proof.
  unfold relocate. destruct l. cbn. f_equal. exact (map_id _).
Qed.

Lemma map_add_0 l : map (Nat.add 0) l = l.
Proof. exact (map_id l). Qed.

Theorem parse_plain o lines :
  Forall (fun l => plain_line l = true) lines ->
  parse o lines =
  Ok (mkW o (exp_objs (o_comment o) (input_lines o lines)) (kept_ids o (input_lines o lines))).
Proof.
  intros H. unfold parse. rewrite reboot_plain.
  - cbn [w_opts w_heap length app]. rewrite map_add_0.
    rewrite (map_ext _ (fun x => x)); [now rewrite map_id|apply relocate_0].
  - unfold input_lines. destruct (o_ignore_blank o); [|exact H].
    rewrite Forall_forall in *. intros x Hx. apply filter_In in Hx as [Hx _]. auto.
Qed.

Lemma parse_plain_obj o lines w i :
  Forall (fun l => plain_line l = true) lines -> parse o lines = Ok w ->
  obj w i = if i <? length (input_lines o lines)
            then Some (exp_line (o_comment o) (input_lines o lines) i) else None.
Proof.
  intros H. rewrite parse_plain by assumption. intros E; injection E as <-. unfold obj. cbn [w_heap].
  apply exp_objs_nth.
Qed.
