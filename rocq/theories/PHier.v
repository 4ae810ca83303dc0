(** C92: the two lists of lines at the left margin. *)
From Coq Require Import Ascii String Arith NArith ZArith Bool List Lia Sorted.
From Verif Require Import PyStr PyStrFacts PyBase CfgModel TreeSpec BraceSpec TreePost TreeMain WorldSpec SearchModel PyRe PyReFacts PyReTmpl PyReSent FactoryFacts ListModel DiffFacts PTree HierModel HierSpec.
Import ListNotations.
Local Open Scope char_scope.

Lemma margin_found t : hits (pattern false (lit "^\S+")) t = true <-> exists c r, t = c :: r /\ is_space c = false.
Proof.
  assert (E : hits (pattern false (lit "^\S+")) t = true <-> rx_find (pattern false (lit "^\S+")) t <> None).
  { unfold hits. destruct (rx_find _ t); split; congruence. }
  rewrite E, (found_iff _ [Run ns true] 0) by reflexivity. split.
  - intros (s' & c & HD). apply D_run_eq in HD as (w & r & -> & A & N & _). destruct w as [|x w]; [now destruct N|].
    exists x, (w ++ r). split; [reflexivity|]. apply all_ns in A. cbn in A. apply andb_true_iff in A as [A _]. now apply negb_true_iff.
  - intros (c & r & -> & S). exists r, []. apply (D_run false ns true [] [c] r r [] []); [apply all_ns; cbn; now rewrite S|discriminate|discriminate|constructor].
Qed.
Lemma rstrip_head l : (exists c r, rstrip l = c :: r /\ is_space c = false) <-> exists c r, l = c :: r /\ is_space c = false.
Proof.
  destruct (rstrip_prefix l) as (p & E & W). split.
  - intros (c & r & R & S). rewrite R in E. exists c, (r ++ p). now split.
  - intros (c & r & -> & S). destruct (rstrip (c :: r)) as [|x q] eqn:R; cbn in E.
    + subst p. cbn in W. rewrite S in W. discriminate.
    + injection E as -> _. eauto.
Qed.
Lemma steps_filter w l : forall acc, fold_left (hierarchy_step w) l acc =
  (fst acc ++ filter (fun x => negb (is_comment w x) && match children_of w x with [] => false | _ => true end) l,
   snd acc ++ filter (fun x => negb (is_comment w x) && match children_of w x with [] => true | _ => false end) l).
Proof.
  induction l as [|x l IH]; intros [a b]; cbn [fold_left filter]; [now rewrite !app_nil_r|]. rewrite IH. unfold hierarchy_step.
  destruct (is_comment w x); cbn [negb andb fst snd]; [reflexivity|]. destruct (children_of w x); cbn [fst snd]; now rewrite <- app_assoc.
Qed.
Lemma ssorted_filter (f : nat -> bool) l : StronglySorted lt l -> StronglySorted lt (filter f l).
Proof.
  induction 1 as [|x l S IH F]; cbn; [constructor|]. destruct (f x); [|exact IH]. constructor; [exact IH|].
  rewrite Forall_forall in *. intros y I0. apply filter_In in I0 as [I0 _]. auto.
Qed.

(** The first list has the lines at the left margin that have children and the second those that
    have none, both in the order of the file, and neither has a comment. *)
Theorem C92_lists : forall w b lines, loaded w b lines -> exists ps ns,
  config_hierarchy w = (map (Nat.add b) ps, map (Nat.add b) ns) /\ StronglySorted lt ps /\ StronglySorted lt ns /\
  (forall i, In i ps <-> at_margin (o_comment (w_opts w)) lines i /\ has_child_line (w_opts w) lines i) /\
  (forall i, In i ns <-> at_margin (o_comment (w_opts w)) lines i /\ ~ has_child_line (w_opts w) lines i).
Proof.
  intros w b lines HL. destruct (loaded_text w b lines HL) as (ks & Sk & Ik & C & _).
  unfold config_hierarchy. rewrite steps_filter. cbn [fst snd app]. unfold find_objects. rewrite C.
  assert (FM : forall f l, filter f (map (Nat.add b) l) = map (Nat.add b) (filter (fun i => f (b + i)) l)).
  { intros f l. induction l as [|x l IH]; cbn; [reflexivity|]. destruct (f (b + x)); cbn; now rewrite IH. }
  rewrite !FM. eexists _, _. split; [reflexivity|]. split; [now repeat apply ssorted_filter|]. split; [now repeat apply ssorted_filter|].
  assert (K : forall i line, nth_error lines i = Some line ->
    (hits (pattern false (lit "^\S+")) (text_of w (b + i)) && negb (is_comment w (b + i)) = true <-> at_margin (o_comment (w_opts w)) lines i) /\
    (children_of w (b + i) <> [] <-> has_child_line (w_opts w) lines i)).
  { intros i line N. destruct (loaded_obj w b lines HL i line N) as (l & O & T & _ & _ & Cm & _ & Ch & _).
    unfold text_of, is_comment, children_of. rewrite O, T, Cm. split.
    - rewrite andb_true_iff, margin_found, rstrip_head, negb_true_iff. unfold at_margin. rewrite N. split.
      + intros ((c & r & -> & S) & B). unfold comment_line in B. cbn [find] in B. rewrite S in B. cbn in B. eauto.
      + intros (c & r & E & S & B). injection E as ->. split; [eauto|]. unfold comment_line. cbn [find]. rewrite S. exact B.
    - unfold has_child_line. split.
      + intros NE. destruct (cl_children l) as [|x q] eqn:E; [congruence|]. destruct (proj1 (Ch x) (or_introl eq_refl)) as (j & _ & J). eauto.
      + intros (j & J). assert (I0 : In (b + j) (cl_children l)) by (apply Ch; eauto). intros E. rewrite E in I0. destruct I0. }
  assert (M : forall i, at_margin (o_comment (w_opts w)) lines i -> In i ks).
  { intros i (c & r & N & S & _). apply Ik. exists (c :: r). split; [exact N|]. right. left. cbn. now rewrite S. }
  assert (G : forall i, In i ks -> exists line, nth_error lines i = Some line).
  { intros i I0. apply Ik in I0 as (l & N & _). eauto. }
  split; intros i; rewrite !filter_In, andb_true_iff.
  - split.
    + intros [[I0 H] [NC CH]]. destruct (G i I0) as (line & N). destruct (K i line N) as [K1 K2]. split; [apply K1; now rewrite H|].
      apply K2. destruct (children_of w (b + i)); [discriminate|congruence].
    + intros [A H]. pose proof (M i A) as I0. destruct (G i I0) as (line & N). destruct (K i line N) as [K1 K2].
      apply K1 in A. apply andb_true_iff in A as [A1 A2]. apply K2 in H. destruct (children_of w (b + i)); [congruence|]. auto.
  - split.
    + intros [[I0 H] [NC CH]]. destruct (G i I0) as (line & N). destruct (K i line N) as [K1 K2]. split; [apply K1; now rewrite H|].
      intros Q. apply K2 in Q. destruct (children_of w (b + i)); [congruence|discriminate].
    + intros [A H]. pose proof (M i A) as I0. destruct (G i I0) as (line & N). destruct (K i line N) as [K1 K2].
      apply K1 in A. apply andb_true_iff in A as [A1 A2]. destruct (children_of w (b + i)) eqn:E; [auto|]. exfalso. apply H, K2. discriminate.
Qed.
Print Assumptions C92_lists.

(** Parsing gives such a state, and the lists are these. *)
Definition hier_lines : list str := map lit ["hostname a"; "!"; "interface e1"; " ip address"; "  deep"; "end"]%string.
Example C92_ex : exists w, parse oT hier_lines = Ok w /\ loaded w 0 hier_lines /\ config_hierarchy w = ([2], [0; 5]).
Proof.
  destruct (parse oT hier_lines) as [w|] eqn:E; [|vm_compute in E; discriminate]. exists w. split; [reflexivity|].
  split; [exact (proj2 (parse_loaded _ _ _ E))|]. vm_compute in E. injection E as <-. vm_compute. reflexivity.
Qed.

(** The description speaks of every level of parents: a line with children that is indented itself
    is in neither list, nor is an indented line that has no parent. *)
Theorem C92_levels_refuted : exists lines w, parse oT lines = Ok w /\
  (exists x, In x (w_conf w) /\ children_of w x <> [] /\ is_comment w x = false /\ ~ In x (fst (config_hierarchy w)) /\ ~ In x (snd (config_hierarchy w))) /\
  (exists x, In x (w_conf w) /\ parent_of w x = x /\ is_comment w x = false /\ ~ In x (fst (config_hierarchy w)) /\ ~ In x (snd (config_hierarchy w))).
Proof.
  exists (map lit [" orphan"; "interface e1"; " ip address"; "  deep"]%string).
  destruct (parse oT _) as [w|] eqn:E; [|vm_compute in E; discriminate]. exists w. split; [reflexivity|]. vm_compute in E. injection E as <-. split.
  - exists 2. vm_compute. repeat split; try discriminate; tauto || (intros [Q|[]]; discriminate) || (intros []) || idtac.
  - exists 0. vm_compute. repeat split; try discriminate; tauto || (intros [Q|[]]; discriminate) || (intros []) || idtac.
Qed.
Print Assumptions C92_levels_refuted.
