(** Properties of the modifications. *)
From Coq Require Import Ascii String Arith NArith ZArith Bool List Lia Sorting.Sorted.
From Verif Require Import PyStr PyStrFacts PyBase PyBaseFacts CfgModel TreeSpec BraceSpec WorldSpec
  TreeProofs TreePost TreeRel TreeWorld TreeBanner TreeFull CommitProofs CommitMain TreeMain FamilyProofs
  SearchModel SearchSpec SearchProofs MutModel MutSpec MutProofs MutProofs2 PTree PSearch.
Import ListNotations.
Local Open Scope nat_scope.

(** ** C15 delete() *)

(** Deleting a line in any state whose line numbers are positions (fresh or
    committed configurations, and again after each such deletion). *)
Theorem C15_delete_family : forall w x,
  editable w -> In x (w_conf w) -> owned w x = true ->
  (forall y, descendant (children_of w) x y -> In y (w_conf w)) ->
  exists w', delete w true x = Ok w' /\
    without (in_family w x) (w_conf w) (w_conf w') /\ objects_kept w w' /\ editable w'.
Proof.
  intros w x HE Hx Ho Hd. pose proof HE as (HN & HD & HC).
  destruct (delete_family w HN HD HC x Hx Ho Hd) as (f & E & Hf).
  eexists. split; [exact E|]. split; [|split; [apply filter_kept|now apply filter_editable]].
  apply without_filter. intros y _. apply Hf.
Qed.
Print Assumptions C15_delete_family.

(** delete(recurse=False) removes just the line. *)
Theorem C15_delete_one : forall w x,
  editable w -> In x (w_conf w) -> owned w x = true ->
  exists w', delete w false x = Ok w' /\
    without (fun y => y = x) (w_conf w) (w_conf w') /\ objects_kept w w' /\ editable w'.
Proof.
  intros w x HE Hx Ho. pose proof HE as (HN & HD & HC).
  eexists. split; [exact (delete_one w HN x Hx Ho)|]. split; [|split; [apply filter_kept|now apply filter_editable]].
  apply without_filter. intros y _. rewrite negb_false_iff. apply Nat.eqb_eq.
Qed.
Print Assumptions C15_delete_one.

(** On a parsed or committed configuration from which no line was dropped, the
    remaining text is the text of the lines outside the family. *)
Theorem C15_delete_loaded : forall w b lines i,
  loaded w b lines -> (forall j, j < length lines -> line_kept (w_opts w) lines j) ->
  no_digit_cfg lines -> i < length lines ->
  exists w' ks, delete w true (b + i) = Ok w' /\ objects_kept w w' /\ editable w' /\
    StronglySorted lt ks /\
    (forall j, In j ks <-> j < length lines /\ ~ in_family w (b + i) (b + j)) /\
    w_conf w' = map (Nat.add b) ks /\
    ioscfg w' = map (fun j => rstrip (nth j lines [])) ks.
Proof.
  intros w b lines i HL Hk Hd Hi.
  pose proof (loaded_editable w b lines HL Hk Hd) as HE. pose proof HE as (HN & HD & HC).
  assert (Hx : In (b + i) (w_conf w)) by (apply (loaded_in_conf w b lines HL Hk); unfold inr; lia).
  destruct (delete_family w HN HD HC (b + i) Hx) as (f & E & Hf).
  { apply (loaded_owned w b lines HL). unfold inr. lia. }
  { intros y. now apply (loaded_desc_in w b lines HL Hk Hd). }
  destruct (loaded_all w b lines HL Hk) as [C T].
  eexists. exists (filter (fun j => f (b + j)) (seq 0 (length lines))).
  split; [exact E|]. split; [apply filter_kept|]. split; [now apply filter_editable|].
  split; [apply filter_sorted; apply seq_sorted|]. split.
  { intros j. rewrite filter_In, in_seq, <- Hf. split; intros [H1 H2]; (split; [lia|]); destruct (f (b + j)); congruence. }
  assert (Ec : filter f (w_conf w) = map (Nat.add b) (filter (fun j => f (b + j)) (seq 0 (length lines)))).
  { rewrite C. clear. induction (seq 0 (length lines)) as [|j l IH]; [reflexivity|]. cbn [map filter].
    destruct (f (b + j)); cbn [map]; now rewrite IH. }
  split; [exact Ec|]. unfold ioscfg. cbn [reassign_linenums set_heap w_conf set_conf]. rewrite Ec, map_map.
  apply map_ext_in. intros j Hj. apply filter_In in Hj as [Hj _]. apply in_seq in Hj.
  rewrite reassign_text. change (text_of (set_conf _ w) (b + j)) with (text_of w (b + j)).
  destruct (nth_error_lt_some lines j) as (l & Hl); [lia|].
  destruct (loaded_obj w b lines HL j l Hl) as (o & Ho & Ht & _). unfold text_of. rewrite Ho, Ht.
  f_equal. symmetry. now apply nth_error_nth.
Qed.
Print Assumptions C15_delete_loaded.

Lemma filter_seq_out (f : nat -> bool) n i k :
  i + k < n -> (forall j, j < n -> (f j = false <-> i <= j <= i + k)) ->
  filter f (seq 0 n) = seq 0 i ++ seq (S (i + k)) (n - S (i + k)).
Proof.
  intros Hn Hf.
  replace (seq 0 n) with (seq 0 i ++ seq i (S k) ++ seq (S (i + k)) (n - S (i + k))).
  2:{ rewrite <- (seq_app (S k) (n - S (i + k)) i) || idtac.
      replace (S (i + k)) with (i + S k) by lia. rewrite <- seq_app, <- (seq_app i _ 0). f_equal. lia. }
  assert (T : forall a m, (forall j, a <= j < a + m -> f j = true) -> filter f (seq a m) = seq a m).
  { intros a m; revert a; induction m as [|m IH]; intros a H; [reflexivity|]. cbn [seq filter].
    rewrite H by lia. f_equal. apply IH. intros; apply H; lia. }
  assert (F : forall a m, (forall j, a <= j < a + m -> f j = false) -> filter f (seq a m) = []).
  { intros a m; revert a; induction m as [|m IH]; intros a H; [reflexivity|]. cbn [seq filter].
    rewrite H by lia. apply IH. intros; apply H; lia. }
  rewrite !filter_app, (T 0 i), (F i (S k)), T; [reflexivity| | |].
  - intros j Hj. destruct (f j) eqn:E; [reflexivity|]. apply Hf in E; lia.
  - intros j Hj. apply Hf; lia.
  - intros j Hj. destruct (f j) eqn:E; [reflexivity|]. apply Hf in E; lia.
Qed.

Lemma sorted_nodup (l : list nat) : StronglySorted lt l -> NoDup l.
Proof.
  induction 1 as [|x l S IH F]; constructor; auto. intros H. rewrite Forall_forall in F. specialize (F x H). lia.
Qed.

Lemma map_nth_seq {A B} (g : A -> B) (d : A) l a n : a + n <= length l ->
  map (fun j => g (nth j l d)) (seq a n) = map g (firstn n (skipn a l)).
Proof.
  revert a. induction n as [|n IH]; intros a H; [reflexivity|]. cbn [seq map].
  destruct (nth_error_lt_some l a) as (x & Hx); [lia|].
  assert (E : skipn a l = x :: skipn (S a) l).
  { clear - Hx. revert a Hx. induction l as [|y l IH]; intros [|a] Hx; try discriminate; cbn in *.
    - now injection Hx as ->.
    - rewrite IH by exact Hx. reflexivity. }
  rewrite E. cbn [firstn map]. f_equal; [f_equal; now apply nth_error_nth|]. apply IH. lia.
Qed.

Lemma clean_kept w b lines : loaded w b lines ->
  Forall (fun l => config_line (o_comment (w_opts w)) l = true) lines ->
  forall j, j < length lines -> line_kept (w_opts w) lines j.
Proof.
  intros HL Hc j Hj. destruct (nth_error_lt_some lines j Hj) as (l & Hl). exists l. split; [exact Hl|].
  right. left. rewrite Forall_forall in Hc. specialize (Hc l (nth_error_In _ _ Hl)). unfold config_line in Hc.
  apply andb_true_iff in Hc as [H _]. now apply negb_true_iff in H.
Qed.

(** In indented configurations without comments, delete() cuts out the line and
    the deeper lines directly below it. *)
Theorem C15_delete_block : forall w b lines i,
  loaded w b lines -> plain_cfg lines ->
  Forall (fun l => config_line (o_comment (w_opts w)) l = true) lines -> no_digit_cfg lines ->
  i < length lines ->
  exists w' k, delete w true (b + i) = Ok w' /\ i + k < length lines /\
    ioscfg w' = map rstrip (firstn i lines ++ skipn (S (i + k)) lines) /\
    (forall j, i < j <= i + k -> line_indent (nth i lines []) < line_indent (nth j lines [])) /\
    (S (i + k) = length lines \/
     line_indent (nth (S (i + k)) lines []) <= line_indent (nth i lines [])).
Proof.
  intros w b lines i HL Hp Hc Hd Hi.
  destruct (family_run w b lines i HL Hp Hc Hd Hi) as (k & E & _ & Hk & H1 & H2).
  destruct (C15_delete_loaded w b lines i HL (clean_kept w b lines HL Hc) Hd Hi)
    as (w' & ks & E' & _ & _ & S' & M & _ & T).
  exists w', k. split; [exact E'|]. split; [exact Hk|]. split; [|auto]. rewrite T.
  pose proof (loaded_region w b lines HL Hd) as R. pose proof (loaded_heap w b lines HL) as Hh.
  assert (Hx : inr b (length lines) (b + i)) by (unfold inr; lia).
  destruct (all_children_region w b _ R Hh (b + i) Hx) as (l & El & _ & Ml). rewrite E in El. injection El as <-.
  assert (Ek : ks = filter (fun j => (j <? i) || (i + k <? j)) (seq 0 (length lines))).
  { apply lt_sorted_unique; [exact S'|apply filter_sorted; apply seq_sorted|]. intros j.
    rewrite M, filter_In, in_seq, orb_true_iff, !Nat.ltb_lt. unfold in_family. rewrite <- Ml, in_map_iff.
    split.
    - intros [J1 J2]. split; [lia|]. destruct (Nat.lt_trichotomy j i) as [G|[->|G]]; [now left| |].
      + exfalso. apply J2. now left.
      + right. apply Nat.nle_gt. intros G2. apply J2. right. exists j. split; [reflexivity|]. apply in_seq. lia.
    - intros [J1 J2]. split; [lia|]. intros [G|(q & Q1 & Q2)]; [lia|]. apply in_seq in Q2. lia. }
  rewrite Ek, (filter_seq_out _ _ i k Hk).
  - rewrite !map_app, !map_nth_seq by lia. change (skipn 0 lines) with lines. f_equal. f_equal. apply firstn_all2. rewrite skipn_length. lia.
  - intros j Hj. rewrite orb_false_iff, !Nat.ltb_ge. lia.
Qed.
Print Assumptions C15_delete_block.

Example C15_ex :
  plain_cfg cfg_clean /\ Forall (fun l => config_line (lit "!") l = true) cfg_clean /\ no_digit_cfg cfg_clean /\
  loaded (get w_none (parse oT cfg_clean)) 0 cfg_clean /\
  rmap ioscfg (delete (get w_none (parse oT cfg_clean)) true 1)
  = Ok (map lit ["interface Gi0/1"; " shutdown"; "router bgp 1"; "  neighbor x"; " dedent"; "end"]%string) /\
  rmap ioscfg (delete (get w_none (parse oT cfg_clean)) false 5)
  = Ok (map lit ["interface Gi0/1"; " ip address 1.1.1.1 255.255.255.0"; "   deeper"; "  less deep"; " shutdown";
           "  neighbor x"; " dedent"; "end"]%string).
Proof.
  split; [apply forallb_Forall; vm_compute; reflexivity|]. split; [apply forallb_Forall; vm_compute; reflexivity|].
  split; [apply forallb_Forall; vm_compute; reflexivity|].
  split; [apply (parse_is_loaded oT cfg_clean); vm_compute; reflexivity|]. split; vm_compute; reflexivity.
Qed.

(** ** C16 Several deletions without commit() *)

(** Deleting lines whose families do not overlap is safe in any order. *)
Theorem C16_disjoint_deletes : forall w xs, editable w ->
  (forall x, In x xs -> In x (w_conf w) /\ owned w x = true /\
     forall y, descendant (children_of w) x y -> In y (w_conf w)) ->
  ForallOrdPairs (fun x y => forall z, in_family w x z -> ~ in_family w y z) xs ->
  exists w', delete_each w xs = Ok w' /\ editable w' /\ objects_kept w w' /\
    without (fun y => exists x, In x xs /\ in_family w x y) (w_conf w) (w_conf w').
Proof. intros w xs. apply delete_each_spec. Qed.
Print Assumptions C16_disjoint_deletes.

(** Lines none of which is below another one may be deleted together. *)
Lemma plain_disjoint w b lines xs :
  loaded w b lines -> plain_cfg lines -> no_digit_cfg lines ->
  (forall x, In x xs -> inr b (length lines) x) -> NoDup xs ->
  (forall x y, In x xs -> In y xs -> ~ descendant (children_of w) x y) ->
  ForallOrdPairs (fun x y => forall z, in_family w x z -> ~ in_family w y z) xs.
Proof.
  intros HL Hp Hd. induction xs as [|x xs IH]; intros Hr Hn Ha; constructor.
  - apply Forall_forall. intros y Hy z Fx Fy. inversion Hn as [|? ? N1 N2]; subst.
    destruct (plain_families w b lines x y z HL Hp Hd (Hr x (or_introl eq_refl)) (Hr y (or_intror Hy)) Fx Fy) as [[->|F]|[->|F]].
    + contradiction.
    + exact (Ha x y (or_introl eq_refl) (or_intror Hy) F).
    + contradiction.
    + exact (Ha y x (or_intror Hy) (or_introl eq_refl) F).
  - inversion Hn; subst. apply IH; auto; [intros; apply Hr; now right|]. intros a c Ha' Hc'. apply Ha; now right.
Qed.

(** delete_lines removes the families of all matching lines, provided no
    matching line is below another one. *)
Theorem C16_delete_lines : forall w b lines r,
  loaded w b lines -> plain_cfg lines -> (forall j, j < length lines -> line_kept (w_opts w) lines j) ->
  no_digit_cfg lines ->
  (forall x y, in_config w r x -> in_config w r y -> ~ descendant (children_of w) x y) ->
  exists w', delete_lines w r = Ok w' /\ editable w' /\ objects_kept w w' /\
    without (fun y => exists x, in_config w r x /\ in_family w x y) (w_conf w) (w_conf w').
Proof.
  intros w b lines r HL Hp Hk Hd Ha. unfold delete_lines.
  pose proof (loaded_editable w b lines HL Hk Hd) as HE.
  assert (In1 : forall x, In x (rev (find_objects w r)) <-> in_config w r x).
  { intros x. rewrite <- in_rev. unfold find_objects, rfilter, in_config. rewrite filter_In, hits_spec. reflexivity. }
  destruct (delete_each_spec (rev (find_objects w r)) w HE) as (w' & E & E' & K & W).
  - intros x Hx. apply In1 in Hx as [Hx _]. split; [exact Hx|]. split.
    + apply (loaded_owned w b lines HL). now apply (loaded_in_conf w b lines HL Hk).
    + intros y. now apply (loaded_desc_in w b lines HL Hk Hd).
  - apply (plain_disjoint w b lines); auto.
    + intros x Hx. apply In1 in Hx as [Hx _]. now apply (loaded_in_conf w b lines HL Hk).
    + apply NoDup_rev. apply NoDup_filter. apply numbered_nodup. apply HE.
    + intros x y Hx Hy. apply Ha; now apply In1.
  - exists w'. split; [exact E|]. split; [exact E'|]. split; [exact K|].
    eapply without_iff; [|exact W]. intros y _. cbn beta. split; intros (x & Hx & Hy); exists x; (split; [now apply In1|exact Hy]).
Qed.
Print Assumptions C16_delete_lines.

(** delete_children_matching removes the families of the matching children. *)
Theorem C16_delete_children_matching : forall w b lines r i,
  loaded w b lines -> plain_cfg lines -> (forall j, j < length lines -> line_kept (w_opts w) lines j) ->
  no_digit_cfg lines -> i < length lines ->
  exists w', delete_children_matching w r (b + i) = Ok w' /\ editable w' /\ objects_kept w w' /\
    without (fun y => exists c, In c (children_of w (b + i)) /\ found r (text_of w c) /\ in_family w c y)
      (w_conf w) (w_conf w').
Proof.
  intros w b lines r i HL Hp Hk Hd Hi. unfold delete_children_matching.
  assert (Hx : inr b (length lines) (b + i)) by (unfold inr; lia).
  rewrite (loaded_owned w b lines HL _ Hx).
  pose proof (loaded_editable w b lines HL Hk Hd) as HE.
  pose proof (loaded_region w b lines HL Hd) as R. pose proof (loaded_heap w b lines HL) as Hh.
  assert (LA : links_agree w b (length lines)) by apply (plain_agree w b lines HL Hp).
  set (xs := filter (line_re_search w r) (children_of w (b + i))).
  assert (In1 : forall x, In x xs <-> In x (children_of w (b + i)) /\ found r (text_of w x)).
  { intros x. unfold xs. rewrite filter_In. now rewrite line_re_search_spec. }
  assert (Hr : forall x, In x xs -> inr b (length lines) x).
  { intros x Hxs. apply In1 in Hxs as [Hxs _]. apply (children_inr w b _ R) in Hxs; auto. destruct Hx. unfold inr. lia. }
  destruct (delete_each_spec xs w HE) as (w' & E & E' & K & W).
  - intros x Hxs. split; [apply (loaded_in_conf w b lines HL Hk); auto|]. split.
    + apply (loaded_owned w b lines HL). auto.
    + intros y. apply (loaded_desc_in w b lines HL Hk Hd). apply (loaded_in_conf w b lines HL Hk); auto.
  - apply (plain_disjoint w b lines); auto.
    + unfold xs. apply NoDup_filter. apply sorted_nodup. now apply (plain_children_sorted w b lines).
    + intros x y Hxs Hys D. pose proof (Hr x Hxs) as Rx. pose proof (Hr y Hys) as Ry.
      apply In1 in Hxs as [Hxs _]. apply In1 in Hys as [Hys _].
      apply (LA (b + i) x Hx Rx) in Hxs as [Px Nx]. apply (LA (b + i) y Hx Ry) in Hys as [Py Ny].
      apply (duality w b _ R Hh x y LA Rx Ry) in D.
      assert (Q : x <= b + i).
      { inversion D as [? ? D1 D2|? z ? D1 D2 D3]; subst; unfold parent_rel in D1; [lia|].
        cbn beta in *. replace (b + i) with z in * by congruence.
        apply (duality w b _ R Hh x z LA Rx Hx) in D3. apply (descendant_gt w b _ R) in D3; auto. lia. }
      pose proof (parent_inr w b _ R x Rx) as P. destruct Rx. lia.
  - exists w'. split; [exact E|]. split; [exact E'|]. split; [exact K|].
    eapply without_iff; [|exact W]. intros y _. cbn beta. split.
    + intros (x & Hxs & Hy). apply In1 in Hxs as [H1 H2]. eauto.
    + intros (x & H1 & H2 & Hy). exists x. split; [now apply In1|exact Hy].
Qed.
Print Assumptions C16_delete_children_matching.

Example C16_ex :
  rmap ioscfg (delete_lines w_search (rx "ip address"))
  = Ok (map lit ["interface Gi0/1"; " shutdown"; "interface Gi0/2"; "interface Gi0/3"; "end"]%string) /\
  rmap ioscfg (delete_children_matching w_search (rx "ip") 0)
  = Ok (map lit ["interface Gi0/1"; " shutdown"; "interface Gi0/2"; " ip address 2.2.2.2"; "interface Gi0/3";
                 " no ip address"; "end"]%string) /\
  rmap ioscfg (delete_each w_search [6; 1])
  = Ok (map lit ["interface Gi0/1"; " shutdown"; "interface Gi0/2"; " ip address 2.2.2.2"; "end"]%string).
Proof. vm_compute. repeat split; reflexivity. Qed.

Definition cfg_small : list str := map lit ["interface a"; " shutdown"; "end"; "x"]%string.
Definition w_small : world := get w_none (parse oT cfg_small).

(** Deleting a child and then its parent also deletes the line that follows. *)
Theorem C16_child_then_parent_refuted :
  parse oT cfg_small = Ok w_small /\ loaded w_small 0 cfg_small /\
  In 1 (children_of w_small 0) /\ ~ in_family w_small 0 2 /\ ~ in_family w_small 1 2 /\
  exists w', delete_each w_small [1; 0] = Ok w' /\ w_conf w_small = [0; 1; 2; 3] /\ w_conf w' = [3].
Proof.
  assert (E : parse oT cfg_small = Ok w_small) by (vm_compute; reflexivity).
  split; [exact E|]. split; [exact (proj2 (parse_is_loaded oT cfg_small _ E))|]. split; [vm_compute; auto|].
  assert (K0 : children_of w_small 0 = [1]) by (vm_compute; reflexivity).
  assert (K1 : children_of w_small 1 = []) by (vm_compute; reflexivity).
  assert (D1 : forall y, ~ descendant (children_of w_small) 1 y).
  { intros y H. inversion H as [? ? H1|? z ? H1 H2]; subst; rewrite K1 in H1; exact H1. }
  split; [|split].
  - intros [H|H]; [discriminate|]. inversion H as [? ? H1|? z ? H1 H2]; subst; rewrite K0 in H1.
    + destruct H1 as [H1|[]]; discriminate.
    + destruct H1 as [<-|[]]. exact (D1 _ H2).
  - intros [H|H]; [discriminate|]. exact (D1 _ H).
  - exists (get w_none (delete_each w_small [1; 0])). vm_compute. repeat split; reflexivity.
Qed.
Print Assumptions C16_child_then_parent_refuted.

(** delete_lines with a pattern matching a line and its child does the same. *)
Theorem C16_delete_lines_refuted : exists r w',
  in_config w_small r 0 /\ in_config w_small r 1 /\ ~ matches r (text_of w_small 2) /\
  delete_lines w_small r = Ok w' /\ w_conf w' = [3].
Proof.
  set (r := mkRx (lit "int|shut") (fun t => if contains (lit "int") t || contains (lit "shut") t
                                            then Some (mkMatch (lit "int") []) else None)).
  exists r, (get w_none (delete_lines w_small r)).
  split; [split; [vm_compute; auto|eexists; vm_compute; reflexivity]|].
  split; [split; [vm_compute; auto|eexists; vm_compute; reflexivity]|].
  split; [intros (m & H); vm_compute in H; discriminate|]. vm_compute. split; reflexivity.
Qed.

(** Deleting the same line twice deletes another line. *)
Theorem C16_twice_refuted : exists w', delete_each w_small [2; 2] = Ok w' /\ w_conf w' = [0; 1].
Proof. exists (get w_none (delete_each w_small [2; 2])). vm_compute. split; reflexivity. Qed.

(** After a whitespace-only line, delete() hits the next line. *)
Theorem C16_blank_line_refuted : exists lines w w' x,
  parse oT lines = Ok w /\ text_of w x = lit "b" /\ delete w true x = Ok w' /\
  ioscfg w = map lit ["a"; "b"; "c"]%string /\ ioscfg w' = map lit ["a"; "b"]%string.
Proof.
  set (ls := map lit ["a"; "  "; "b"; "c"]%string).
  exists ls, (get w_none (parse oT ls)), (get w_none (delete (get w_none (parse oT ls)) true 2)), 2.
  vm_compute. repeat split; reflexivity.
Qed.

(** ** C17 ConfigObjs.insert_before / insert_after *)

Lemma ins_before_spec r v ts : inserted_before (matches r) [v] ts (ins_lines 0 r v ts).
Proof.
  unfold ins_lines. apply (flat_before (matches r) (hits r) [v]). intros; apply hits_spec.
Qed.
Lemma ins_after_spec r v ts : inserted_after (matches r) [v] ts (ins_lines 1 r v ts).
Proof.
  unfold ins_lines. apply (flat_after (matches r) (hits r) [v]). intros; apply hits_spec.
Qed.

(** Every match gets one new line; all other lines stay, with all their
    attributes; each line number is the last position of its line. *)
Theorem C17_insert_before : forall w from_obj r v,
  valid w -> blank_text v && o_ignore_blank (w_opts w) = false -> from_obj = true \/ rx_src r <> [] ->
  exists w', conf_insert_before w from_obj r v false = Ok w' /\
    inserted_before (matches r) [rstrip v] (ioscfg w) (ioscfg w') /\
    inserted_before (fun x => matches r (text_of w x)) [length (w_heap w)] (w_conf w) (w_conf w') /\
    objects_kept w w' /\ valid w' /\ numbered_last w'.
Proof.
  intros w fo r v Hv Hb Hs. destruct (conf_insert_spec 0 w fo r v ltac:(lia) Hv Hb Hs) as (w' & E & T & C & K & V & N & _).
  exists w'. split; [exact E|]. rewrite T, C. split; [apply ins_before_spec|]. split; [|auto].
  apply (flat_before _ (fun y => hits r (text_of w y)) [length (w_heap w)]). intros; apply hits_spec.
Qed.
Print Assumptions C17_insert_before.

Theorem C17_insert_after : forall w from_obj r v,
  valid w -> blank_text v && o_ignore_blank (w_opts w) = false -> from_obj = true \/ rx_src r <> [] ->
  exists w', conf_insert_after w from_obj r v false = Ok w' /\
    inserted_after (matches r) [rstrip v] (ioscfg w) (ioscfg w') /\
    inserted_after (fun x => matches r (text_of w x)) [length (w_heap w)] (w_conf w) (w_conf w') /\
    objects_kept w w' /\ valid w' /\ numbered_last w'.
Proof.
  intros w fo r v Hv Hb Hs. destruct (conf_insert_spec 1 w fo r v ltac:(lia) Hv Hb Hs) as (w' & E & T & C & K & V & N & _).
  exists w'. split; [exact E|]. rewrite T, C. split; [apply ins_after_spec|]. split; [|auto].
  apply (flat_after _ (fun y => hits r (text_of w y)) [length (w_heap w)]). intros; apply hits_spec.
Qed.
Print Assumptions C17_insert_after.

(** The refused calls. *)
Theorem C17_refused : forall d w r v atomic,
  (blank_text v = true -> o_ignore_blank (w_opts w) = true -> forall fo, conf_insert d w fo r v atomic = Err InvalidParameters) /\
  (rx_src r = [] -> blank_text v && o_ignore_blank (w_opts w) = false -> conf_insert d w false r v atomic = Err ValueError).
Proof.
  intros d w r v a. unfold conf_insert. split.
  - intros -> ->. reflexivity.
  - intros -> ->. reflexivity.
Qed.
Print Assumptions C17_refused.

(** States reached by parsing and committing are valid. *)
Theorem C17_loaded_valid : forall w b lines, loaded w b lines -> valid w.
Proof. exact loaded_valid. Qed.

(** With two matches, the two new lines are one object, so the line number of
    the first is not its position. *)
Theorem C17_shared_object_refuted : exists w' i x,
  conf_insert_before w_search false (rx "interface") (lit "!") false = Ok w' /\
  nth_error (w_conf w') i = Some x /\ linenum_of w' x <> Z.of_nat i.
Proof.
  exists (get w_none (conf_insert_before w_search false (rx "interface") (lit "!") false)), 0, 9.
  vm_compute. split; [reflexivity|]. split; [reflexivity|discriminate].
Qed.

(** The inserted object belongs to no configuration: delete() on it raises. *)
Theorem C17_inserted_unusable_refuted : exists w' x,
  conf_insert_before w_search false (rx "end") (lit "!") false = Ok w' /\ In x (w_conf w') /\
  text_of w' x = lit "!" /\ delete w' true x = Err AttributeErr.
Proof.
  exists (get w_none (conf_insert_before w_search false (rx "end") (lit "!") false)), 9.
  vm_compute. intuition.
Qed.

Example C17_ex :
  valid w_search /\
  rmap ioscfg (conf_insert_after w_search false (rx "ip address") (lit "  mtu 9 ") false)
  = Ok (map lit ["interface Gi0/1"; " ip address 1.1.1.1"; "  mtu 9"; "  secondary"; " shutdown";
           "interface Gi0/2"; " ip address 2.2.2.2"; "  mtu 9"; "interface Gi0/3"; " no ip address"; "  mtu 9"; "end"]%string).
Proof. split; [eapply loaded_valid; apply w_search_loaded|vm_compute; reflexivity]. Qed.

(** ** C18 CiscoConfParse.insert_before / insert_after *)

Lemma loaded_lead w b lines x : loaded w b lines -> In x (w_conf w) -> text_lead (text_of w x) = indent_of w x.
Proof.
  intros HL Hx. destruct (conf_in w b lines HL x Hx) as (i & line & -> & Hl & _).
  destruct (loaded_obj w b lines HL i line Hl) as (l & Ho & Ht & _ & Hi & _).
  unfold text_of, indent_of. rewrite Ho, Ht, Hi. rewrite <- line_indent_rstrip.
  unfold text_lead, line_indent. destruct (blank (rstrip line)) eqn:E.
  - apply blank_rstrip in E. rewrite rstrip_idem in E. rewrite E. reflexivity.
  - clear. generalize (rstrip line). intros t. induction t as [|c t IH]; [reflexivity|]. cbn [leading lstrip].
    destruct (is_space c).
    + cbn [length]. destruct (lstrip_suffix t) as (p & Ep & _). apply (f_equal (@length ascii)) in Ep. rewrite app_length in Ep. lia.
    + lia.
Qed.

Lemma steps_iter {A} (R : A -> A -> Prop) f n x : (forall a, R a (f a)) -> steps R n x (Nat.iter n f x).
Proof.
  intros H. revert x; induction n as [|n IH]; intros x; [constructor|].
  rewrite iter_succ_r. econstructor; [apply H|apply IH].
Qed.

Lemma find_objects_ok w b lines rf : loaded w b lines ->
  forall x, In x (find_objects w rf) -> x < length (w_heap w) /\ text_lead (text_of w x) = indent_of w x.
Proof.
  intros HL x Hx. apply filter_In in Hx as [Hx _]. split; [exact (loaded_valid w b lines HL x Hx)|].
  now apply (loaded_lead w b lines).
Qed.

(** [rf] is the pattern as used by find_objects, [r] the bare exist_val.  One
    round of insertions is made for each line found. *)
Theorem C18_rounds_before : forall w b lines rf r v indent,
  loaded w b lines -> rx_src r <> [] -> v <> [] ->
  blank_text (indented indent v) && o_ignore_blank (w_opts w) = false ->
  exists ret w', ccp_insert_before w rf r v indent false = Ok (ret, w') /\ objects_kept w w' /\ valid w' /\
    steps (inserted_before (matches r) [rstrip (indented indent v)]) (length (find_objects w rf)) (ioscfg w) (ioscfg w').
Proof.
  intros w b lines rf r v ind HL Hr Hv Hb. unfold ccp_insert_before.
  replace (nonempty (rx_src r) && nonempty v) with true by (destruct (rx_src r), v; try contradiction; reflexivity).
  destruct (insert_loop_spec 0 r (indented ind v) (find_objects w rf) ltac:(lia) Hr w (loaded_valid _ _ _ HL) Hb
              (find_objects_ok w b lines rf HL)) as (w' & E & K & V & T).
  rewrite E. cbn [bind]. do 2 eexists. split; [reflexivity|]. split; [exact K|]. split; [exact V|].
  rewrite T. apply steps_iter. intros; apply ins_before_spec.
Qed.
Print Assumptions C18_rounds_before.

Theorem C18_rounds_after : forall w b lines rf r v indent,
  loaded w b lines -> rx_src r <> [] ->
  blank_text (indented indent v) && o_ignore_blank (w_opts w) = false ->
  exists ret w', ccp_insert_after w rf r v indent false = Ok (ret, w') /\ objects_kept w w' /\ valid w' /\
    steps (inserted_after (matches r) [rstrip (indented indent v)]) (length (find_objects w rf)) (ioscfg w) (ioscfg w').
Proof.
  intros w b lines rf r v ind HL Hr Hb. unfold ccp_insert_after.
  destruct (insert_loop_spec 1 r (indented ind v) (find_objects w rf) ltac:(lia) Hr w (loaded_valid _ _ _ HL) Hb
              (find_objects_ok w b lines rf HL)) as (w' & E & K & V & T).
  rewrite E. cbn [bind]. do 2 eexists. split; [reflexivity|]. split; [exact K|]. split; [exact V|].
  rewrite T. apply steps_iter. intros; apply ins_after_spec.
Qed.
Print Assumptions C18_rounds_after.

(** So with [n] matches, every match gets [n] copies of a new line which does
    not itself match. *)
Theorem C18_copies_before : forall w b lines rf r v indent,
  loaded w b lines -> rx_src r <> [] -> v <> [] ->
  blank_text (indented indent v) && o_ignore_blank (w_opts w) = false ->
  ~ matches r (rstrip (indented indent v)) ->
  exists ret w', ccp_insert_before w rf r v indent false = Ok (ret, w') /\
    inserted_before (matches r) (repeat (rstrip (indented indent v)) (length (find_objects w rf))) (ioscfg w) (ioscfg w').
Proof.
  intros w b lines rf r v ind HL Hr Hv Hb Hn. unfold ccp_insert_before.
  replace (nonempty (rx_src r) && nonempty v) with true by (destruct (rx_src r), v; try contradiction; reflexivity).
  destruct (insert_loop_spec 0 r (indented ind v) (find_objects w rf) ltac:(lia) Hr w (loaded_valid _ _ _ HL) Hb
              (find_objects_ok w b lines rf HL)) as (w' & E & K & V & T).
  rewrite E. cbn [bind]. do 2 eexists. split; [reflexivity|]. rewrite T, iter_ins_before.
  - apply flat_before. intros; apply hits_spec.
  - destruct (hits r _) eqn:G; [|reflexivity]. apply hits_spec in G. contradiction.
Qed.
Print Assumptions C18_copies_before.

Theorem C18_copies_after : forall w b lines rf r v indent,
  loaded w b lines -> rx_src r <> [] ->
  blank_text (indented indent v) && o_ignore_blank (w_opts w) = false ->
  ~ matches r (rstrip (indented indent v)) ->
  exists ret w', ccp_insert_after w rf r v indent false = Ok (ret, w') /\
    inserted_after (matches r) (repeat (rstrip (indented indent v)) (length (find_objects w rf))) (ioscfg w) (ioscfg w').
Proof.
  intros w b lines rf r v ind HL Hr Hb Hn. unfold ccp_insert_after.
  destruct (insert_loop_spec 1 r (indented ind v) (find_objects w rf) ltac:(lia) Hr w (loaded_valid _ _ _ HL) Hb
              (find_objects_ok w b lines rf HL)) as (w' & E & K & V & T).
  rewrite E. cbn [bind]. do 2 eexists. split; [reflexivity|]. rewrite T, iter_ins_after.
  - apply flat_after. intros; apply hits_spec.
  - destruct (hits r _) eqn:G; [|reflexivity]. apply hits_spec in G. contradiction.
Qed.
Print Assumptions C18_copies_after.

(** With one match exactly one line is inserted, whatever it is. *)
Theorem C18_single : forall w b lines r v indent x,
  loaded w b lines -> rx_src r <> [] -> v <> [] ->
  blank_text (indented indent v) && o_ignore_blank (w_opts w) = false ->
  find_objects w r = [x] ->
  exists ret w' ret2 w2,
    ccp_insert_before w r r v indent false = Ok (ret, w') /\
    inserted_before (matches r) [rstrip (indented indent v)] (ioscfg w) (ioscfg w') /\
    length (ioscfg w') = S (length (ioscfg w)) /\
    ccp_insert_after w r r v indent false = Ok (ret2, w2) /\
    inserted_after (matches r) [rstrip (indented indent v)] (ioscfg w) (ioscfg w2) /\
    length (ioscfg w2) = S (length (ioscfg w)).
Proof.
  intros w b lines r v ind x HL Hr Hv Hb Hx.
  destruct (C18_rounds_before w b lines r r v ind HL Hr Hv Hb) as (ret & w' & E & _ & _ & S1).
  destruct (C18_rounds_after w b lines r r v ind HL Hr Hb) as (ret2 & w2 & E2 & _ & _ & S2).
  rewrite Hx in S1, S2. cbn [length] in S1, S2.
  inversion S1 as [|? ? ? ? R1 Q1]; subst. inversion Q1; subst.
  inversion S2 as [|? ? ? ? R2 Q2]; subst. inversion Q2; subst.
  assert (L1 : length (filter (hits r) (ioscfg w)) = 1).
  { apply (f_equal (@length nat)) in Hx. cbn in Hx. rewrite <- Hx. unfold find_objects, rfilter, ioscfg. clear.
    induction (w_conf w) as [|y l IH]; [reflexivity|]. cbn [map filter]. destruct (hits r (text_of w y)); cbn [length]; now rewrite IH. }
  assert (B : forall v l l', inserted_before (matches r) [v] l l' -> length l' = length (filter (hits r) l) + length l).
  { clear. induction 1 as [|y l l' H _ IH|y l l' H _ IH]; cbn [filter]; [reflexivity| |].
    - apply hits_spec in H. rewrite H. cbn [app length]. lia.
    - destruct (hits r y) eqn:G; [apply hits_spec in G; contradiction|]. cbn [length]. lia. }
  assert (B2 : forall v l l', inserted_after (matches r) [v] l l' -> length l' = length (filter (hits r) l) + length l).
  { clear. induction 1 as [|y l l' H _ IH|y l l' H _ IH]; cbn [filter]; [reflexivity| |].
    - apply hits_spec in H. rewrite H. cbn [app length]. lia.
    - destruct (hits r y) eqn:G; [apply hits_spec in G; contradiction|]. cbn [length]. lia. }
  exists ret, w', ret2, w2. split; [exact E|]. split; [assumption|]. split; [rewrite (B _ _ _ R1); lia|].
  split; [exact E2|]. split; [assumption|]. rewrite (B2 _ _ _ R2). lia.
Qed.
Print Assumptions C18_single.

(** Two matches: each gets two copies, or three when the new line matches. *)
Theorem C18_one_per_match_refuted : exists ret w1 ret2 w2,
  find_objects w_search (rx "Gi0/") = [0; 4; 6] /\
  ccp_insert_before w_search (rx "address 2") (rx "address") (lit "!") None false = Ok (ret, w1) /\
  length (ioscfg w1) = length (ioscfg w_search) + 3 /\
  ccp_insert_before w_search (rx "Gi0/") (rx "Gi0/") (lit "!") None false = Ok (ret2, w2) /\
  length (ioscfg w2) = length (ioscfg w_search) + 9.
Proof.
  exists (fst (get ([], w_none) (ccp_insert_before w_search (rx "address 2") (rx "address") (lit "!") None false))),
    (snd (get ([], w_none) (ccp_insert_before w_search (rx "address 2") (rx "address") (lit "!") None false))),
    (fst (get ([], w_none) (ccp_insert_before w_search (rx "Gi0/") (rx "Gi0/") (lit "!") None false))),
    (snd (get ([], w_none) (ccp_insert_before w_search (rx "Gi0/") (rx "Gi0/") (lit "!") None false))).
  vm_compute. repeat split; reflexivity.
Qed.

Example C18_ex :
  rmap (fun p => (fst p, ioscfg (snd p))) (ccp_insert_after w_search (rx "shutdown") (rx "shutdown") (lit "mtu 9") (Some 1) false)
  = Ok ([lit " shutdown"], map lit ["interface Gi0/1"; " ip address 1.1.1.1"; "  secondary"; " shutdown"; " mtu 9";
           "interface Gi0/2"; " ip address 2.2.2.2"; "interface Gi0/3"; " no ip address"; "end"]%string).
Proof. vm_compute. reflexivity. Qed.

(** ** C19 append_to_family *)

Lemma ins_after_one r v a t c :
  ~ Exists (matches r) a -> matches r t -> ~ Exists (matches r) c ->
  ins_lines 1 r v (a ++ t :: c) = a ++ t :: v :: c.
Proof.
  intros Ha Ht Hc. unfold ins_lines.
  assert (N : forall l, ~ Exists (matches r) l -> flat_map (fun u => if hits r u then [u; v] else [u]) l = l).
  { induction l as [|u l IH]; intros H; [reflexivity|]. cbn [flat_map].
    destruct (hits r u) eqn:E; [exfalso; apply H; constructor; now apply hits_spec|].
    cbn [app]. f_equal. apply IH. intros G. apply H. now right. }
  rewrite flat_map_app. cbn [flat_map]. rewrite (N a Ha), (N c Hc).
  apply hits_spec in Ht. rewrite Ht. reflexivity.
Qed.

Lemma split_firstn {A} (l : list A) k x : nth_error l k = Some x -> l = firstn k l ++ x :: skipn (S k) l.
Proof.
  revert k. induction l as [|y l IH]; intros [|k] H; try discriminate; cbn in *.
  - now injection H as ->.
  - f_equal. now apply IH.
Qed.

Lemma firstn_S_nth {A} (l : list A) k x : nth_error l k = Some x -> firstn (S k) l = firstn k l ++ [x].
Proof.
  revert k. induction l as [|y l IH]; intros [|k] H; try discriminate.
  - cbn in H. injection H as ->. reflexivity.
  - cbn [nth_error] in H. change (firstn (S (S k)) (y :: l)) with (y :: firstn (S k) l). now rewrite (IH k H).
Qed.
Lemma nth_error_firstn {A} (l : list A) n j : j < n -> nth_error (firstn n l) j = nth_error l j.
Proof.
  revert n j. induction l as [|y l IH]; intros [|n] [|j] H; try lia; try reflexivity. cbn. apply IH. lia.
Qed.
Lemma nth_error_skipn' {A} (l : list A) n j : nth_error (skipn n l) j = nth_error l (n + j).
Proof.
  revert n. induction l as [|y l IH]; intros [|n]; try reflexivity; cbn; [now destruct j|apply IH].
Qed.

(** The target is the last descendant, or the line itself.  When its text, used
    as a pattern, matches only the target, one line is added right after it. *)
Theorem C19_append_to_family : forall compile w x s auto indent cs k r,
  valid w -> owned w x = true ->
  all_children w x = Ok cs -> nth_error (w_conf w) k = Some (last cs x) ->
  compile (text_of w (last cs x)) = Ok r ->
  (forall j t, nth_error (ioscfg w) j = Some t -> (matches r t <-> j = k)) ->
  blank_text (family_text w x s auto indent) && o_ignore_blank (w_opts w) = false ->
  exists w', append_to_family compile w x s auto indent = Ok w' /\
    ioscfg w' = firstn (S k) (ioscfg w) ++ rstrip (family_text w x s auto indent) :: skipn (S k) (ioscfg w) /\
    objects_kept w w' /\ valid w' /\ numbered_last w'.
Proof.
  intros compile w x s auto ind cs k r Hv Ho Ec Hk Er Hm Hb. unfold append_to_family.
  rewrite Ho, Ec. cbn [bind]. rewrite Er. cbn [bind].
  destruct (conf_insert_spec 1 w true r (family_text w x s auto ind) ltac:(lia) Hv Hb (or_introl eq_refl))
    as (w' & E & T & _ & K & V & N & _).
  exists w'. split; [exact E|]. split; [|auto]. rewrite T.
  assert (Hk' : nth_error (ioscfg w) k = Some (text_of w (last cs x))) by (unfold ioscfg; now rewrite nth_error_map_iff, Hk).
  pose proof (nth_error_length_lt _ _ _ Hk') as Hlt.
  pose proof (split_firstn _ _ _ Hk') as S1. rewrite S1 at 1. rewrite ins_after_one.
  - rewrite (firstn_S_nth _ _ _ Hk'). rewrite <- app_assoc. reflexivity.
  - intros G. apply Exists_exists in G as (t & Ht & M). apply In_nth_error in Ht as (j & Hj).
    pose proof (nth_error_length_lt _ _ _ Hj) as Hjl. rewrite firstn_length in Hjl.
    rewrite nth_error_firstn in Hj by lia. apply (Hm j t Hj) in M. lia.
  - now apply (Hm k _ Hk').
  - intros G. apply Exists_exists in G as (t & Ht & M). apply In_nth_error in Ht as (j & Hj).
    rewrite nth_error_skipn' in Hj. apply (Hm _ t Hj) in M. lia.
Qed.
Print Assumptions C19_append_to_family.

Lemma plain_rstrip l : plain_line l = true -> plain_line (rstrip l) = true.
Proof.
  unfold plain_line. rewrite !andb_true_iff, !negb_true_iff, opening_line_rstrip, closing_line_rstrip.
  intros ((((H1 & H2) & H3) & H4) & H5). repeat split; auto.
  - destruct (contains _ (rstrip l)) eqn:E; [|reflexivity]. apply contains_rstrip in E. congruence.
  - destruct (contains _ (rstrip l)) eqn:E; [|reflexivity]. apply contains_rstrip in E. congruence.
  - destruct (starts_with _ (rstrip l)) eqn:E; [|reflexivity]. apply starts_with_spec in E as (q & E).
    destruct (rstrip_prefix l) as (p & Ep & _). rewrite <- H5. symmetry. apply starts_with_spec.
    exists (q ++ p). rewrite Ep, E at 1. now rewrite <- app_assoc.
Qed.

Lemma plain_commit w : Forall (fun l => plain_line l = true) (ioscfg w) -> exists w', commit w = Ok w'.
Proof.
  intros Hp. unfold commit, reboot. pose proof (bootstrap_full (w_opts w) (ioscfg w)) as B.
  destruct (bootstrap (w_opts w) (ioscfg w)) as [[objs kept]|e]; cbn [bind]; [eauto|].
  exfalso. rewrite Forall_forall in Hp.
  assert (Bo : braces_ok (ioscfg w)).
  { intros k. generalize (ioscfg w) Hp. intros ls. revert ls. clear. induction k as [|k IH]; intros [|l ls] Hp; cbn [depth]; try lia.
    specialize (IH ls (fun x H => Hp x (or_intror H))).
    assert (E : brace_step l = 0%Z).
    { specialize (Hp l (or_introl eq_refl)). unfold plain_line in Hp. unfold brace_step.
      rewrite !andb_true_iff, !negb_true_iff in Hp. destruct Hp as ((((-> & ->) & _) & _) & _). reflexivity. }
    lia. }
  destruct B as [[_ B]|(_ & _ & _ & B)]; [contradiction|]. apply B. intros p l Hl Hs.
  specialize (Hp l (nth_error_In _ _ Hl)). unfold plain_line in Hp. rewrite Hs, andb_false_r in Hp. discriminate.
Qed.

Lemma plain_above w b lines i j : loaded w b lines -> Forall (fun l => plain_line l = true) lines ->
  j < length lines -> ancestor (prel (o_comment (w_opts w)) lines) i j -> above w (b + i) (b + j).
Proof.
  intros HL Hp. set (d := o_comment (w_opts w)). revert i. induction j as [j IH] using lt_wf_ind. intros i Hj A.
  pose proof (plain_parent w b lines HL Hp j Hj) as Pj. fold d in Pj.
  pose proof (par_le d lines j) as Hle. unfold above.
  inversion A as [? ? A1 A2|? z ? A1 A2 A3]; subst; unfold prel in A1.
  - constructor; [lia|lia].
  - subst z. apply anc_step with (b + par d lines j); [exact Pj|lia|]. apply IH; [lia|lia|exact A3].
Qed.

Lemma last_map_seq b a k x : last (map (Nat.add b) (seq a k)) x = match k with 0 => x | S m => b + (a + m) end.
Proof.
  destruct k as [|m]; [reflexivity|]. rewrite seq_S, map_app. cbn [map]. apply last_last.
Qed.

(** In an indented configuration without comments, after commit() the line
    appended with auto_indent is a descendant of the object it was appended to;
    with indent width 1 it is a child. *)
Theorem C19_commit_descendant : forall compile w b lines i s n,
  loaded w b lines -> plain_cfg lines ->
  Forall (fun l => config_line (o_comment (w_opts w)) l = true) lines -> no_digit_cfg lines ->
  i < length lines -> 1 <= n ->
  plain_line (family_text w (b + i) s (Some n) None) = true ->
  config_line (o_comment (w_opts w)) (family_text w (b + i) s (Some n) None) = true ->
  (forall cs, all_children w (b + i) = Ok cs -> exists r,
     compile (text_of w (last cs (b + i))) = Ok r /\
     forall x, In x (w_conf w) -> (matches r (text_of w x) <-> x = last cs (b + i))) ->
  exists w1 w2 k,
    append_to_family compile w (b + i) s (Some n) None = Ok w1 /\
    ioscfg w1 = firstn (S (i + k)) (map rstrip lines) ++
                rstrip (spaces (line_indent (nth i lines []) + n) ++ lstrip s) ::
                skipn (S (i + k)) (map rstrip lines) /\
    (S (i + k) = length lines \/
     line_indent (nth (S (i + k)) lines []) <= line_indent (nth i lines [])) /\
    commit w1 = Ok w2 /\ loaded w2 (length (w_heap w1)) (ioscfg w1) /\
    above w2 (length (w_heap w1) + i) (length (w_heap w1) + S (i + k)) /\
    (n = 1 -> parent_of w2 (length (w_heap w1) + S (i + k)) = length (w_heap w1) + i).
Proof.
  intros compile w b lines i s n HL Hp Hc Hd Hi Hn Hpv Hcv Hm. set (d := o_comment (w_opts w)) in *.
  destruct (family_run w b lines i HL Hp Hc Hd Hi) as (k & E & _ & Hk & F1 & F2).
  pose proof (clean_kept w b lines HL Hc) as Hkept. destruct (loaded_all w b lines HL Hkept) as [C T].
  destruct (Hm _ E) as (r & Er & Hr).
  assert (El : last (map (Nat.add b) (seq (S i) k)) (b + i) = b + (i + k)).
  { rewrite last_map_seq. destruct k; lia. }
  rewrite El in *.
  assert (Hi' : indent_of w (b + i) = line_indent (nth i lines [])).
  { destruct (nth_error_lt_some lines i Hi) as (l & Hl). destruct (loaded_obj w b lines HL i l Hl) as (o & Ho & _ & _ & Hin & _).
    unfold indent_of. rewrite Ho, Hin. f_equal. symmetry. now apply nth_error_nth. }
  assert (Ev : family_text w (b + i) s (Some n) None = spaces (line_indent (nth i lines []) + n) ++ lstrip s).
  { unfold family_text. now rewrite Hi'. }
  set (v := family_text w (b + i) s (Some n) None) in *.
  assert (Hnth : nth_error (w_conf w) (i + k) = Some (b + (i + k))).
  { rewrite C, nth_error_map_iff, nth_error_seq. destruct (Nat.ltb_spec (i + k) (length lines)); [reflexivity|lia]. }
  assert (Hbv : blank v = false).
  { unfold config_line in Hcv. apply andb_true_iff in Hcv as [H _]. now apply negb_true_iff in H. }
  destruct (C19_append_to_family compile w (b + i) s (Some n) None (map (Nat.add b) (seq (S i) k)) (i + k) r)
    as (w1 & E1 & T1 & K1 & V1 & _).
  - eapply loaded_valid; eauto.
  - apply (loaded_owned w b lines HL). unfold inr. lia.
  - exact E.
  - rewrite El. exact Hnth.
  - rewrite El. exact Er.
  - intros j t Hj. unfold ioscfg in Hj. rewrite nth_error_map_iff in Hj. rewrite C, nth_error_map_iff, nth_error_seq in Hj.
    destruct (Nat.ltb_spec j (length lines)); [|discriminate]. cbn [option_map] in Hj. injection Hj as <-. cbn [Nat.add].
    rewrite Hr; [lia|]. rewrite C. apply in_map. apply in_seq. lia.
  - fold v. unfold blank_text. destruct (strip v) eqn:Es; [|reflexivity]. apply strip_nil_iff in Es.
    unfold blank in Hbv. congruence.
  - fold v in T1. rewrite T in T1. rewrite Ev in T1.
    set (t := rstrip (spaces (line_indent (nth i lines []) + n) ++ lstrip s)) in *.
    assert (Pt : plain_line t = true) by (unfold t; rewrite <- Ev; now apply plain_rstrip).
    assert (Ct : config_line d t = true) by (unfold t; rewrite <- Ev, config_line_rstrip; exact Hcv).
    assert (It : line_indent t = line_indent (nth i lines []) + n).
    { unfold t. rewrite <- Ev, line_indent_rstrip. unfold line_indent at 1. rewrite Hbv, Ev.
      assert (Hs : blank (lstrip s) = false).
      { destruct (blank (lstrip s)) eqn:G; [|reflexivity]. rewrite Ev in Hbv. unfold blank in *.
        rewrite forallb_app, spaces_space, G in Hbv. discriminate. }
      generalize (line_indent (nth i lines []) + n) as m. intros m. induction m as [|m IH].
      - cbn [spaces repeat app]. pose proof (lstrip_head s) as Hz. destruct (lstrip s) as [|c q]; [discriminate|].
        cbn [leading]. now rewrite Hz.
      - change (spaces (S m)) with (" "%char :: spaces m). cbn [app leading]. rewrite space_is_space, IH. reflexivity. }
    assert (Hlen1 : length (ioscfg w1) = S (length lines)).
    { rewrite T1, app_length. cbn [length]. rewrite firstn_length, skipn_length, map_length. lia. }
    assert (Hall : forall P : str -> Prop, Forall P (map rstrip lines) -> P t -> Forall P (ioscfg w1)).
    { intros P HP Pt'. rewrite T1. apply Forall_app. split; [|constructor; [exact Pt'|]].
      - apply Forall_forall. intros y Hy. rewrite Forall_forall in HP. apply HP.
        apply In_nth_error in Hy as (q & Hq). pose proof (nth_error_length_lt _ _ _ Hq) as Hl.
        rewrite firstn_length in Hl. rewrite nth_error_firstn in Hq by lia. eapply nth_error_In; eauto.
      - apply Forall_forall. intros y Hy. rewrite Forall_forall in HP. apply HP.
        apply In_nth_error in Hy as (q & Hq). rewrite nth_error_skipn' in Hq. eapply nth_error_In; eauto. }
    assert (Hp1 : Forall (fun l => plain_line l = true) (ioscfg w1)).
    { apply (Hall (fun l => plain_line l = true)); [|exact Pt]. apply Forall_map. eapply Forall_impl; [|exact Hp]. intros; now apply plain_rstrip. }
    assert (Hc1 : Forall (fun l => config_line d l = true) (ioscfg w1)).
    { apply (Hall (fun l => config_line d l = true)); [|exact Ct]. apply Forall_map. eapply Forall_impl; [|exact Hc].
      intros a Ha. cbn beta. now rewrite config_line_rstrip. }
    destruct (plain_commit w1 Hp1) as (w2 & E2). destruct (commit_is_loaded w1 w2 E2) as [Eo HL2].
    exists w1, w2, k. split; [exact E1|]. split; [exact T1|]. split; [exact F2|]. split; [exact E2|]. split; [exact HL2|].
    assert (Eod : o_comment (w_opts w2) = d) by (rewrite Eo, (proj1 K1); reflexivity).
    assert (Hind : forall j, j <= i + k -> line_indent (nth j (ioscfg w1) []) = line_indent (nth j lines [])).
    { intros j Hj. rewrite T1, app_nth1 by (rewrite firstn_length, map_length; lia).
      destruct (nth_error_lt_some lines j) as (l & Hl); [lia|].
      assert (G : nth_error (firstn (S (i + k)) (map rstrip lines)) j = Some (rstrip l)).
      { rewrite nth_error_firstn by lia. now rewrite nth_error_map_iff, Hl. }
      pose proof (nth_error_nth _ _ ([] : str) G) as G1. pose proof (nth_error_nth _ _ ([] : str) Hl) as G2.
      unfold str in *. rewrite G1, G2. apply line_indent_rstrip. }
    assert (Hnew : nth (S (i + k)) (ioscfg w1) [] = t).
    { rewrite T1, app_nth2; rewrite firstn_length, map_length; [|lia].
      replace (S (i + k) - Nat.min (S (i + k)) (length lines)) with 0 by lia. reflexivity. }
    split.
    + apply (plain_above w2 (length (w_heap w1)) (ioscfg w1)); auto; [lia|]. rewrite Eod.
      apply (ancestor_run d (ioscfg w1) Hc1); [lia|]. split; [lia|]. intros q Hq. unfold ind.
      destruct (Nat.eq_dec q (S (i + k))) as [->|Hne].
      * rewrite Hnew, It, Hind by lia. lia.
      * rewrite !Hind by lia. apply F1. lia.
    + intros ->. apply C02_parent_rule with (lines := ioscfg w1); auto; [lia|]. rewrite Eod.
      left. split; [|now apply (cfg_no_comment d (ioscfg w1))].
      destruct (nth_error_lt_some (ioscfg w1) (S (i + k))) as (l1 & Hl1); [lia|].
      destruct (nth_error_lt_some (ioscfg w1) i) as (l2 & Hl2); [lia|].
      exists l1, l2. split; [exact Hl1|]. split; [exact Hl2|]. split; [lia|].
      pose proof (nth_error_nth _ _ [] Hl1) as N1. pose proof (nth_error_nth _ _ [] Hl2) as N2.
      split; [rewrite Forall_forall in Hc1; apply Hc1; eapply nth_error_In; eauto|].
      assert (N1' : line_indent l1 = line_indent (nth i lines []) + 1) by (rewrite <- It, <- Hnew; f_equal; symmetry; exact N1).
      assert (N2' : line_indent l2 = line_indent (nth i lines [])) by (rewrite <- (Hind i) by lia; f_equal; symmetry; exact N2).
      split; [lia|]. intros q lq Hq Hlq _.
      assert (Q : line_indent lq = line_indent (nth q lines [])).
      { rewrite <- (Hind q) by lia. f_equal. symmetry. exact (nth_error_nth _ _ [] Hlq). }
      specialize (F1 q ltac:(lia)). lia.
Qed.
Print Assumptions C19_commit_descendant.

(** [compile] of the examples: text without special characters. *)
Definition lit_compile (t : str) : result regex :=
  Ok (mkRx t (fun u => if contains t u then Some (mkMatch t []) else None)).

Example C19_ex :
  rmap ioscfg (append_to_family lit_compile w_search 0 (lit "mtu 9") (Some 1) None)
  = Ok (map lit ["interface Gi0/1"; " ip address 1.1.1.1"; "  secondary"; " shutdown"; " mtu 9";
           "interface Gi0/2"; " ip address 2.2.2.2"; "interface Gi0/3"; " no ip address"; "end"]%string) /\
  all_children w_search 0 = Ok [1; 2; 3] /\
  map (fun x => hits (get (rx "") (lit_compile (text_of w_search 3))) (text_of w_search x)) (w_conf w_search)
  = [false; false; false; true; false; false; false; false; false] /\
  plain_line (family_text w_search 0 (lit "mtu 9") (Some 1) None)
  && config_line (lit "!") (family_text w_search 0 (lit "mtu 9") (Some 1) None) = true.
Proof. vm_compute. repeat split; reflexivity. Qed.

(** Two families ending in the same text: the line is also added to the other
    family. *)
Theorem C19_duplicate_text_refuted : exists lines w w',
  parse oT lines = Ok w /\ append_to_family lit_compile w 0 (lit "mtu 9") (Some 1) None = Ok w' /\
  ioscfg w' = map lit ["interface a"; " shutdown"; " mtu 9"; "interface b"; " shutdown"; " mtu 9"]%string.
Proof.
  set (ls := map lit ["interface a"; " shutdown"; "interface b"; " shutdown"]%string).
  exists ls, (get w_none (parse oT ls)), (get w_none (append_to_family lit_compile (get w_none (parse oT ls)) 0 (lit "mtu 9") (Some 1) None)).
  vm_compute. repeat split; reflexivity.
Qed.

(** A text that, read as a pattern, does not match itself: nothing is added.
    Here the pattern is " a+b" on texts without a run "a...ab". *)
Theorem C19_special_text_refuted : exists compile lines w w',
  parse oT lines = Ok w /\ append_to_family compile w 0 (lit "mtu 9") (Some 1) None = Ok w' /\
  ioscfg w' = ioscfg w.
Proof.
  set (ls := map lit ["interface a"; " a+b"; "interface b"]%string).
  set (cm := fun t => Ok (mkRx t (fun u => if contains (lit " ab") u then Some (mkMatch (lit " ab") []) else None))).
  exists cm, ls, (get w_none (parse oT ls)), (get w_none (append_to_family cm (get w_none (parse oT ls)) 0 (lit "mtu 9") (Some 1) None)).
  vm_compute. repeat split; reflexivity.
Qed.

(** ** C20 re_sub and replace *)

(** Two objects agree but for text and comment flag. *)
Definition same_but_text (l l' : cfgline) : Prop :=
  cl_linenum l' = cl_linenum l /\ cl_indent l' = cl_indent l /\ cl_parent l' = cl_parent l /\
  cl_children l' = cl_children l /\ cl_child_indent l' = cl_child_indent l /\ cl_keep l' = cl_keep l /\
  cl_owned l' = cl_owned l.

Theorem C20_re_sub : forall w sub ign x l,
  obj w x = Some l -> (forall e, ign = Some e -> ~ matches e (cl_text l)) -> blank (sub (cl_text l)) = false ->
  exists w', re_sub w sub ign x = Ok (Some (sub (cl_text l)), w') /\
    w_conf w' = w_conf w /\ w_opts w' = w_opts w /\ length (w_heap w') = length (w_heap w) /\
    (exists l', obj w' x = Some l' /\ cl_text l' = sub (cl_text l) /\ same_but_text l l') /\
    (forall y, y <> x -> obj w' y = obj w y).
Proof.
  intros w sub ign x l Ho Hi Hb. unfold re_sub. assert (Et : text_of w x = cl_text l) by (unfold text_of; now rewrite Ho).
  rewrite Et.
  replace (match ign with Some e => hits e (cl_text l) | None => false end) with false.
  2:{ destruct ign as [e|]; [|reflexivity]. destruct (hits e (cl_text l)) eqn:E; [|reflexivity].
      apply hits_spec in E. exfalso. now apply (Hi e). }
  replace (blank_text (sub (cl_text l))) with false.
  2:{ unfold blank_text. destruct (strip (sub (cl_text l))) eqn:E; [|reflexivity].
      apply strip_nil_iff in E. unfold blank in Hb. congruence. }
  eexists. split; [reflexivity|]. split; [reflexivity|]. split; [reflexivity|].
  unfold set_heap, obj in *. cbn [w_heap]. split; [apply upd_length|]. split.
  - rewrite upd_nth_same, Ho. eexists. split; [reflexivity|]. split; [reflexivity|]. repeat split.
  - intros y Hy. now apply upd_nth_other.
Qed.
Print Assumptions C20_re_sub.

Theorem C20_re_sub_ignored : forall w sub e x, matches e (text_of w x) ->
  re_sub w sub (Some e) x = Ok (Some (text_of w x), w).
Proof. intros w sub e x H. unfold re_sub. apply hits_spec in H. now rewrite H. Qed.
Print Assumptions C20_re_sub_ignored.

(** A blank result deletes the line with its family. *)
Theorem C20_re_sub_blank : forall w sub ign x,
  editable w -> In x (w_conf w) -> owned w x = true ->
  (forall y, descendant (children_of w) x y -> In y (w_conf w)) ->
  (forall e, ign = Some e -> ~ matches e (text_of w x)) -> blank (sub (text_of w x)) = true ->
  exists w', re_sub w sub ign x = Ok (None, w') /\
    without (in_family w x) (w_conf w) (w_conf w') /\ objects_kept w w' /\ editable w'.
Proof.
  intros w sub ign x HE Hx Ho Hd Hi Hb. destruct (C15_delete_family w x HE Hx Ho Hd) as (w' & E & W).
  exists w'. split; [|exact W]. unfold re_sub.
  replace (match ign with Some e => hits e (text_of w x) | None => false end) with false.
  2:{ destruct ign as [e|]; [|reflexivity]. destruct (hits e (text_of w x)) eqn:G; [|reflexivity].
      apply hits_spec in G. exfalso. now apply (Hi e). }
  replace (blank_text (sub (text_of w x))) with true.
  - rewrite E. reflexivity.
  - unfold blank_text. unfold blank in Hb. apply strip_nil_iff in Hb. now rewrite Hb.
Qed.
Print Assumptions C20_re_sub_blank.

Lemma replace_each_spec sub ex xs : forall w,
  NoDup xs -> (forall x, In x xs -> x < length (w_heap w)) ->
  (forall x, In x xs -> blank (sub (text_of w x)) = false) ->
  exists w', replace_each w sub ex xs = Ok w' /\ w_conf w' = w_conf w /\ w_opts w' = w_opts w /\
    length (w_heap w') = length (w_heap w) /\
    (forall y, ~ In y xs -> obj w' y = obj w y) /\
    (forall y, In y xs -> excluded w ex y = true -> obj w' y = obj w y) /\
    (forall y, In y xs -> excluded w ex y = false -> exists l l', obj w y = Some l /\ obj w' y = Some l' /\
       cl_text l' = sub (cl_text l) /\ same_but_text l l').
Proof.
  induction xs as [|x xs IH]; intros w Hn Hl Hb; cbn [replace_each].
  - exists w. repeat split; auto; intros y [].
  - inversion Hn as [|? ? N1 N2]; subst. destruct (excluded w ex x) eqn:Ex.
    + destruct (IH w N2) as (w' & E & C & O & L & F1 & F2 & F3); [intros; apply Hl; now right|intros; apply Hb; now right|].
      exists w'. split; [exact E|]. repeat split; auto.
      * intros y Hy. apply F1. intros G. apply Hy. now right.
      * intros y [<-|Hy] Hx; [now apply F1|now apply F2].
      * intros y [<-|Hy] Hx; [congruence|now apply F3].
    + destruct (nth_error_lt_some (w_heap w) x (Hl x (or_introl eq_refl))) as (l & Ho).
      assert (Et : text_of w x = cl_text l) by (unfold text_of, obj; now rewrite Ho).
      destruct (C20_re_sub w sub None x l Ho) as (w1 & E1 & C1 & O1 & L1 & (l' & Ho' & T' & S') & F).
      { intros e. discriminate. } { rewrite <- Et. apply Hb. now left. }
      rewrite E1. cbn [bind snd].
      assert (Hy1 : forall y, In y xs -> obj w1 y = obj w y) by (intros y Hy; apply F; intros ->; contradiction).
      assert (Ht1 : forall y, In y xs -> text_of w1 y = text_of w y) by (intros y Hy; unfold text_of; now rewrite Hy1).
      destruct (IH w1 N2) as (w' & E & C & O & L & F1 & F2 & F3).
      { intros y Hy. rewrite L1. apply Hl. now right. }
      { intros y Hy. rewrite Ht1 by exact Hy. apply Hb. now right. }
      assert (Hex : forall y, In y xs -> excluded w1 ex y = excluded w ex y).
      { intros y Hy. unfold excluded. destruct ex; [|reflexivity]. now rewrite Ht1. }
      exists w'. split; [exact E|]. split; [congruence|]. split; [congruence|]. split; [congruence|]. split; [|split].
      * intros y Hy. rewrite F1 by (intros G; apply Hy; now right). apply F. intros ->. apply Hy. now left.
      * intros y [<-|Hy] Hx; [congruence|]. rewrite F2 by (auto; now rewrite Hex). now apply Hy1.
      * intros y [<-|Hy] Hx.
        -- exists l, l'. split; [exact Ho|]. split; [rewrite F1 by exact N1; exact Ho'|]. auto.
        -- destruct (F3 y Hy) as (m & m' & M1 & M2 & M3 & M4); [now rewrite Hex|].
           exists m, m'. rewrite Hy1 in M1 by exact Hy. auto.
Qed.

(** replace_lines applies the substitution to exactly the matching lines that
    are not excluded; nothing else changes. *)
Theorem C20_replace_lines : forall w r sub ex,
  NoDup (w_conf w) -> valid w ->
  (forall t, In t (ioscfg w) -> matches r t -> blank (sub t) = false) ->
  exists w', replace_lines w r sub ex = Ok w' /\ w_conf w' = w_conf w /\
    (forall y, (in_config w r y /\ (forall e, ex = Some e -> ~ matches e (text_of w y))) ->
       exists l l', obj w y = Some l /\ obj w' y = Some l' /\ cl_text l' = sub (cl_text l) /\ same_but_text l l') /\
    (forall y, ~ (in_config w r y /\ (forall e, ex = Some e -> ~ matches e (text_of w y))) -> obj w' y = obj w y).
Proof.
  intros w r sub ex Hn Hv Hb. unfold replace_lines.
  assert (In1 : forall x, In x (find_objects w r) <-> in_config w r x).
  { intros x. unfold find_objects, rfilter, in_config. rewrite filter_In, hits_spec. reflexivity. }
  assert (Ex : forall y, excluded w ex y = false <-> forall e, ex = Some e -> ~ matches e (text_of w y)).
  { intros y. unfold excluded. destruct ex as [e|].
    - split.
      + intros H e' [= <-] M. apply hits_spec in M. congruence.
      + intros H. destruct (hits e (text_of w y)) eqn:G; [|reflexivity]. apply hits_spec in G. exfalso. exact (H e eq_refl G).
    - split; [discriminate|reflexivity]. }
  destruct (replace_each_spec sub ex (find_objects w r) w) as (w' & E & C & O & L & F1 & F2 & F3).
  - now apply NoDup_filter.
  - intros x Hx. apply In1 in Hx as [Hx _]. auto.
  - intros x Hx. apply In1 in Hx as [Hx M]. apply Hb; [|exact M]. unfold ioscfg. now apply in_map.
  - exists w'. split; [exact E|]. split; [exact C|]. split.
    + intros y [Hy1 Hy2]. apply F3; [now apply In1|now apply Ex].
    + intros y Hy. destruct (in_dec Nat.eq_dec y (find_objects w r)) as [G|G]; [|now apply F1].
      destruct (excluded w ex y) eqn:Q; [now apply F2|]. exfalso. apply Hy. split; [now apply In1|now apply Ex].
Qed.
Print Assumptions C20_replace_lines.

(** Assigning to [text] changes that line only; its indent and comment flag are
    those of the new text. *)
Theorem C20_text_setter : forall w x l v, obj w x = Some l ->
  w_conf (set_text w x v) = w_conf w /\
  (exists l', obj (set_text w x v) x = Some l' /\ cl_text l' = rstrip v /\ cl_indent l' = line_indent v /\
     cl_comment l' = comment_line (o_comment (w_opts w)) v /\ cl_linenum l' = cl_linenum l /\
     cl_children l' = cl_children l /\
     cl_parent l' = (if comment_line (o_comment (w_opts w)) v then x else cl_parent l)) /\
  (forall y, y <> x -> obj (set_text w x v) y = obj w y).
Proof.
  intros w x l v Ho. unfold set_text, set_heap, obj in *. cbn [w_heap w_conf]. split; [reflexivity|]. split.
  - rewrite upd_nth_same, Ho. eexists. split; [reflexivity|].
    cbn [cl_text cl_indent cl_comment cl_linenum cl_children cl_parent].
    rewrite text_indent_spec, text_is_comment_spec. auto 8.
  - intros y Hy. now apply upd_nth_other.
Qed.
Print Assumptions C20_text_setter.

(** re_sub keeps the old indent: afterwards the indent may not be that of the
    text. *)
Theorem C20_indent_refuted : exists sub w' v,
  re_sub w_search sub None 1 = Ok (Some v, w') /\ text_lead v = 0 /\ indent_of w' 1 = 1.
Proof.
  exists lstrip, (snd (get (None, w_none) (re_sub w_search lstrip None 1))), (lit "ip address 1.1.1.1").
  vm_compute. repeat split; reflexivity.
Qed.

Example C20_ex :
  rmap ioscfg (replace_lines w_search (rx "address") (fun t => t ++ lit "9") (Some (rx "no")))
  = Ok (map lit ["interface Gi0/1"; " ip address 1.1.1.19"; "  secondary"; " shutdown";
           "interface Gi0/2"; " ip address 2.2.2.29"; "interface Gi0/3"; " no ip address"; "end"]%string) /\
  NoDup (w_conf w_search) /\ valid w_search.
Proof.
  split; [vm_compute; reflexivity|]. split; [|eapply loaded_valid; apply w_search_loaded].
  replace (w_conf w_search) with (seq 0 9) by (vm_compute; reflexivity). apply seq_NoDup.
Qed.

(** ** C40 uncfgtext *)

(** A line of words separated by single spaces. *)
Definition single_spaced (n : nat) (ws : list str) : str := spaces n ++ join [" "%char] ws.
Definition is_no (s : str) : Prop := lower s = lit "no".

Theorem C40_adds_no : forall w x w0 ws,
  text_of w x = single_spaced (indent_of w x) (w0 :: ws) -> Forall is_token (w0 :: ws) -> ~ is_no w0 ->
  text_of w x <> lit "__undefined__" ->
  uncfgtext w x = Ok (single_spaced (indent_of w x) (lit "no" :: w0 :: ws)).
Proof.
  intros w x w0 ws Et Ht Hn Hu. unfold uncfgtext. apply str_eqb_neq in Hu. rewrite Hu.
  rewrite Et. unfold single_spaced. rewrite words_spaces_prefix, words_join by exact Ht.
  destruct (str_eqb (lower w0) (lit "no")) eqn:E; [apply str_eqb_eq in E; contradiction|].
  rewrite lstrip_app_space by apply spaces_space. rewrite lstrip_not_space; [reflexivity|].
  inversion Ht as [|? ? [T1 T2] T3]; subst. destruct w0 as [|c w0]; [contradiction|].
  cbn [forallb] in T2. apply andb_true_iff in T2 as [T2 _]. apply negb_true_iff in T2.
  destruct ws; exact T2.
Qed.
Print Assumptions C40_adds_no.

Theorem C40_removes_no : forall w x w0 w1 ws,
  text_of w x = single_spaced (indent_of w x) (w0 :: w1 :: ws) -> Forall is_token (w0 :: w1 :: ws) -> is_no w0 ->
  uncfgtext w x = Ok (single_spaced (indent_of w x) (w1 :: ws)).
Proof.
  intros w x w0 w1 ws Et Ht Hn. unfold uncfgtext.
  assert (Ew : words (text_of w x) = w0 :: w1 :: ws).
  { rewrite Et. unfold single_spaced. now rewrite words_spaces_prefix, words_join. }
  destruct (str_eqb (text_of w x) (lit "__undefined__")) eqn:Eu.
  { apply str_eqb_eq in Eu. rewrite Eu in Ew. exfalso. vm_compute in Ew. discriminate. }
  rewrite Ew. apply str_eqb_eq in Hn. rewrite Hn. reflexivity.
Qed.
Print Assumptions C40_removes_no.

(** uncfgtext twice gives the line back (the words of the line may only start
    with "no" once, in lower case). *)
Theorem C40_involution : forall w x w' x' ws t1,
  text_of w x = single_spaced (indent_of w x) ws -> Forall is_token ws ->
  (forall w0 r, ws = w0 :: r -> is_no w0 -> w0 = lit "no") ->
  (forall w0 w1 r, ws = w0 :: w1 :: r -> is_no w0 -> ~ is_no w1) ->
  text_of w x <> lit "__undefined__" -> t1 <> lit "__undefined__" ->
  uncfgtext w x = Ok t1 -> text_of w' x' = t1 -> indent_of w' x' = indent_of w x ->
  uncfgtext w' x' = Ok (text_of w x).
Proof.
  intros w x w' x' ws t1 Et Ht H1 H2 Hu Hu1 E E' Ei.
  destruct ws as [|w0 ws].
  { exfalso. unfold uncfgtext in E. apply str_eqb_neq in Hu. rewrite Hu, Et in E. unfold single_spaced in E.
    rewrite words_spaces_prefix in E. discriminate. }
  destruct (str_eqb (lower w0) (lit "no")) eqn:En.
  - apply str_eqb_eq in En. destruct ws as [|w1 ws].
    { exfalso. unfold uncfgtext in E. apply str_eqb_neq in Hu. rewrite Hu, Et in E. unfold single_spaced in E.
      rewrite words_spaces_prefix, words_join in E by exact Ht. rewrite En in E. discriminate. }
    rewrite (C40_removes_no w x w0 w1 ws Et Ht En) in E. injection E as E.
    rewrite Et, (H1 _ _ eq_refl En), <- Ei. apply C40_adds_no.
    + rewrite E', Ei. symmetry. exact E.
    + now inversion Ht.
    + exact (H2 _ _ _ eq_refl En).
    + rewrite E'. exact Hu1.
  - apply str_eqb_neq in En. rewrite (C40_adds_no w x w0 ws Et Ht En Hu) in E. injection E as E.
    rewrite Et, <- Ei. apply C40_removes_no with (lit "no").
    + rewrite E', Ei. symmetry. exact E.
    + constructor; [|exact Ht]. split; [discriminate|reflexivity].
    + reflexivity.
Qed.
Print Assumptions C40_involution.

Definition is_ok_single (w : world) (x : nat) : bool :=
  str_eqb (text_of w x) (single_spaced (indent_of w x) (words (text_of w x))).

(** Without the conditions it fails. *)
Theorem C40_involution_refuted : exists lines w t,
  parse oT lines = Ok w /\ is_ok_single w 0 = true /\ is_ok_single w 1 = true /\
  uncfgtext w 0 = Ok t /\ text_of w 1 = t /\ uncfgtext w 1 <> Ok (text_of w 0).
Proof.
  set (ls := map lit ["no no x"; "no x"]%string).
  exists ls, (get w_none (parse oT ls)), (lit "no x"). vm_compute. repeat split; try reflexivity. discriminate.
Qed.

Example C40_ex : uncfgtext w_search 7 = Ok (lit " ip address") /\ uncfgtext w_search 3 = Ok (lit " no shutdown").
Proof. vm_compute. split; reflexivity. Qed.

(** ** C45 append_line, C46 prepend_line and insert *)

(** append_line commits the configuration with the text "__undefined__" as last
    line, whatever line is given. *)
Theorem C45_append_line_effect : forall w v w',
  valid w -> append_line w v = Ok w' ->
  loaded w' (S (length (w_heap w))) (ioscfg w ++ [lit "__undefined__"]).
Proof.
  intros w v w' Hv H. unfold append_line in H. destruct (blank_text v && o_ignore_blank (w_opts w)); [discriminate|].
  cbn [alloc] in H. destruct (commit_is_loaded _ _ H) as [_ HL].
  cbn [set_conf set_heap w_heap] in HL. rewrite app_length in HL. cbn [length] in HL. rewrite Nat.add_1_r in HL.
  match type of HL with loaded _ _ ?l => assert (E : l = ioscfg w ++ [lit "__undefined__"]) end.
  { unfold ioscfg. cbn [set_conf w_conf]. rewrite map_app. cbn [map]. f_equal.
    - apply map_ext_in. intros x Hx. unfold text_of, obj. cbn [set_conf set_heap w_heap].
      rewrite nth_error_app1; [reflexivity|]. now apply Hv.
    - f_equal. unfold text_of, obj. cbn [set_conf set_heap w_heap]. rewrite nth_error_app2 by lia. rewrite Nat.sub_diag. reflexivity. }
  now rewrite E in HL.
Qed.
Print Assumptions C45_append_line_effect.

Example C45_ex : rmap ioscfg (append_line w_small (lit "hostname x"))
  = Ok (map lit ["interface a"; " shutdown"; "end"; "x"; "__undefined__"]%string).
Proof. vm_compute. reflexivity. Qed.

Theorem C45_append_line_refuted : exists v w',
  append_line w_small v = Ok w' /\ v = lit "hostname x" /\ ~ In v (ioscfg w').
Proof.
  exists (lit "hostname x"), (get w_none (append_line w_small (lit "hostname x"))).
  split; [vm_compute; reflexivity|]. split; [reflexivity|].
  replace (ioscfg (get w_none (append_line w_small (lit "hostname x"))))
    with (map lit ["interface a"; " shutdown"; "end"; "x"; "__undefined__"]%string) by (vm_compute; reflexivity).
  cbn [map In]. intros H. repeat destruct H as [H|H]; try discriminate. exact H.
Qed.

(** ConfigObjs.insert(z, line) puts the line before the line at position [z],
    counted from the end when negative, limited to the ends of the list. *)
Theorem C46_insert : forall w z v a c,
  valid w -> w_conf w = a ++ c ->
  (Z.of_nat (length a) = z \/
   (z < 0 /\ Z.of_nat (length a) = Z.of_nat (length (w_conf w)) + z) \/
   (z < - Z.of_nat (length (w_conf w)) /\ a = []) \/ (Z.of_nat (length (w_conf w)) < z /\ c = []))%Z ->
  exists w', conf_insert_index w z v = w' /\
    ioscfg w' = map (text_of w) a ++ rstrip v :: map (text_of w) c /\
    w_conf w' = a ++ length (w_heap w) :: c /\ objects_kept w w' /\ valid w' /\
    (NoDup (w_conf w) -> numbered w').
Proof.
  intros w z v a c Hv Hc Hz.
  assert (Hpos : py_insert_pos (length (w_conf w)) z = length a).
  { rewrite Hc in *. rewrite app_length in *. unfold py_insert_pos.
    destruct (Z.ltb_spec z 0).
    - destruct Hz as [Hz|[[Hz1 Hz2]|[[Hz1 ->]|[Hz1 ->]]]]; cbn [length] in *; lia.
    - destruct Hz as [Hz|[[Hz1 Hz2]|[[Hz1 ->]|[Hz1 ->]]]]; cbn [length] in *; lia. }
  unfold conf_insert_index. destruct (alloc w v) as [w1 x] eqn:Ea.
  assert (E1 : w1 = fst (alloc w v)) by now rewrite Ea. assert (Ex : x = snd (alloc w v)) by now rewrite Ea.
  assert (Hx : x = length (w_heap w)) by (rewrite Ex; reflexivity).
  assert (Hc1 : w_conf w1 = w_conf w) by (rewrite E1; reflexivity).
  assert (Hh1 : length (w_heap w1) = S (length (w_heap w))).
  { rewrite E1. cbn. rewrite app_length. cbn. lia. }
  rewrite Hc1, Hpos, Hc, insert_at_app. eexists. split; [reflexivity|].
  set (w2 := set_conf (a ++ x :: c) w1).
  assert (Hold : forall y, In y (w_conf w) -> obj w2 y = obj w y).
  { intros y Hy. unfold w2, obj. cbn [set_conf w_heap]. rewrite E1. now apply alloc_old, Hv. }
  assert (Hnew : obj w2 x = Some (new_line (o_comment (w_opts w)) (length (w_heap w)) (-1) false v)).
  { unfold w2, obj. cbn [set_conf w_heap]. rewrite E1, Ex. apply alloc_new. }
  assert (Hv2 : valid w2).
  { intros y Hy. unfold w2 in *. cbn [set_conf w_conf w_heap] in *. rewrite Hh1.
    apply in_app_iff in Hy as [Hy|[<-|Hy]]; [|lia|];
      (assert (y < length (w_heap w)) by (apply Hv; rewrite Hc; apply in_app_iff; auto); lia). }
  split; [|split; [|split; [|split]]].
  - unfold ioscfg. cbn [reassign_linenums set_heap w_conf]. rewrite (map_ext _ (text_of w2)) by (intros; apply reassign_text).
    cbn [w2 set_conf w_conf]. rewrite map_app. cbn [map]. f_equal; [|f_equal].
    + apply map_ext_in. intros y Hy. unfold text_of. fold w2. rewrite Hold; [reflexivity|]. rewrite Hc. apply in_app_iff. auto.
    + fold w2. unfold text_of. rewrite Hnew. reflexivity.
    + apply map_ext_in. intros y Hy. unfold text_of. fold w2. rewrite Hold; [reflexivity|]. rewrite Hc. apply in_app_iff. auto.
  - cbn [reassign_linenums set_heap w_conf w2 set_conf]. now rewrite Hx.
  - eapply objects_kept_trans; [|apply reassign_kept]. split.
    + cbn [w2 set_conf w_opts]. rewrite E1. reflexivity.
    + intros y l Hl. exists l. split; [|apply same_line_refl]. unfold w2, obj. cbn [set_conf w_heap]. rewrite E1.
      rewrite <- Hl. apply alloc_old. eapply nth_error_length_lt; exact Hl.
  - intros y Hy. cbn [reassign_linenums set_heap w_conf w_heap] in *. rewrite renumber_length. apply Hv2. exact Hy.
  - intros Hn. apply reassign_numbered.
    + cbn [w2 set_conf w_conf]. apply (NoDup_Add (Add_app x a c)).
      split; [exact Hn|]. intros G. rewrite <- Hc in G. apply Hv in G. lia.
    + intros y Hy. apply Hv2 in Hy. destruct (nth_error_lt_some (w_heap w2) y Hy) as (l & El). exists l. exact El.
Qed.
Print Assumptions C46_insert.

Theorem C46_prepend_line : forall w v, valid w ->
  ioscfg (prepend_line w v) = rstrip v :: ioscfg w /\ objects_kept w (prepend_line w v) /\
  (NoDup (w_conf w) -> numbered (prepend_line w v)).
Proof.
  intros w v Hv. destruct (C46_insert w 0 v [] (w_conf w) Hv eq_refl) as (w' & E & T & _ & K & _ & N); [left; reflexivity|].
  unfold prepend_line. rewrite E, T. auto.
Qed.
Print Assumptions C46_prepend_line.

Example C46_ex :
  ioscfg (prepend_line w_small (lit "hostname x ")) = map lit ["hostname x"; "interface a"; " shutdown"; "end"; "x"]%string /\
  ioscfg (conf_insert_index w_small (-1) (lit "y")) = map lit ["interface a"; " shutdown"; "end"; "y"; "x"]%string.
Proof. vm_compute. split; reflexivity. Qed.

(** ** C47 del parse.ConfigObjs[z] *)

(** The line at the index is removed and the rest is parsed again. *)
Theorem C47_del_item : forall w z i, py_index (length (w_conf w)) z = Some i ->
  match del_item w z with
  | Ok w' => loaded w' (length (w_heap w)) (firstn i (ioscfg w) ++ skipn (S i) (ioscfg w))
  | Err e => bootstrap (w_opts w) (firstn i (ioscfg w) ++ skipn (S i) (ioscfg w)) = Err e
  end.
Proof.
  intros w z i Hi. unfold del_item, py_del. rewrite Hi. cbn [bind].
  assert (Hlt : i < length (w_conf w)).
  { unfold py_index in Hi. destruct ((0 <=? z) && (z <? Z.of_nat (length (w_conf w))))%Z eqn:E.
    - injection Hi as <-. apply andb_true_iff in E as [E1 E2]. apply Z.leb_le in E1. apply Z.ltb_lt in E2. lia.
    - destruct ((z <? 0) && (- Z.of_nat (length (w_conf w)) <=? z))%Z eqn:E'; [|discriminate].
      injection Hi as <-. apply andb_true_iff in E' as [E1 E2]. apply Z.ltb_lt in E1. apply Z.leb_le in E2. lia. }
  assert (Et : ioscfg (set_conf (del_nth i (w_conf w)) w) = firstn i (ioscfg w) ++ skipn (S i) (ioscfg w)).
  { destruct (nth_error_lt_some (w_conf w) i Hlt) as (x & Hx). pose proof (split_firstn _ _ _ Hx) as S1.
    assert (L : length (firstn i (w_conf w)) = i) by (rewrite firstn_length; lia).
    unfold ioscfg. cbn [set_conf w_conf]. rewrite firstn_map, skipn_map, <- map_app.
    change (text_of (set_conf (del_nth i (w_conf w)) w)) with (text_of w). f_equal.
    rewrite S1 at 1. rewrite <- L at 1. apply del_nth_app. }
  rewrite Et. unfold reboot at 1. cbn [set_conf w_opts].
  destruct (bootstrap (w_opts w) (firstn i (ioscfg w) ++ skipn (S i) (ioscfg w))) as [r|e] eqn:B; cbn [bind]; [|reflexivity].
  exists w. split; [reflexivity|]. split; [reflexivity|]. unfold reboot. rewrite B. reflexivity.
Qed.
Print Assumptions C47_del_item.

Example C47_ex : rmap ioscfg (del_item w_small (-3)) = Ok (map lit ["interface a"; "end"; "x"]%string) /\
  del_item w_small 4 = Err IndexError.
Proof. vm_compute. split; reflexivity. Qed.
