(** Properties of the searches. *)
From Coq Require Import Ascii String Arith NArith ZArith Bool List Lia Sorting.Sorted.
From Verif Require Import PyStr PyStrFacts PyBase PyBaseFacts CfgModel TreeSpec BraceSpec WorldSpec
  TreeProofs TreePost TreeRel TreeWorld TreeBanner TreeFull CommitProofs CommitMain TreeMain FamilyProofs
  SearchModel SearchSpec SearchProofs PTree.
Import ListNotations.
Local Open Scope nat_scope.

(** Patterns used in the examples: a literal without special characters, and the
    pattern "x*" on texts that do not start with "x". *)
Definition rx (s : string) : regex :=
  mkRx (lit s) (fun t => if contains (lit s) t then Some (mkMatch (lit s) []) else None).
Definition rx_any : regex := mkRx (lit "x*") (fun t => Some (mkMatch [] [])).
(** "^shut" *)
Definition rx_shut : regex :=
  mkRx (lit "^shut") (fun t => if starts_with (lit "shut") t then Some (mkMatch (lit "shut") []) else None).
Definition cfg_search : list str :=
  map lit ["interface Gi0/1"; " ip address 1.1.1.1"; "  secondary"; " shutdown";
           "interface Gi0/2"; " ip address 2.2.2.2"; "interface Gi0/3"; " no ip address"; "end"]%string.
Definition w_search : world := get w_none (parse oT cfg_search).
Lemma w_search_loaded : loaded w_search 0 cfg_search.
Proof. apply (parse_is_loaded oT cfg_search). vm_compute. reflexivity. Qed.
Lemma cfg_search_ok : plain_cfg cfg_search /\ no_digit_cfg cfg_search.
Proof. split; apply forallb_Forall; vm_compute; reflexivity. Qed.

(** ** C09 find_objects and find_lines *)

(** In every state of the configuration: the result lists the matching positions
    of the configuration in order, each once. *)
Theorem C09_find_objects : forall w r, exists ks,
  StronglySorted lt ks /\
  (forall i, In i ks <-> exists x, nth_error (w_conf w) i = Some x /\ matches r (text_of w x)) /\
  find_objects w r = map (fun i => nth i (w_conf w) 0) ks.
Proof.
  intros w r. exists (positions (fun x => hits r (text_of w x)) 0 (w_conf w)).
  split; [apply positions_sorted|]. split.
  - intros i. rewrite positions_in. split; intros (x & H & M); exists x; split; auto; now apply hits_spec.
  - exact (filter_positions _ 0 (w_conf w) []).
Qed.
Print Assumptions C09_find_objects.

Theorem C09_find_lines : forall w r,
  find_lines w r = map (text_of w) (find_objects w r) /\
  (forall t, In t (find_lines w r) <-> In t (ioscfg w) /\ matches r t) /\
  (has_line_with w r = true <-> exists t, In t (ioscfg w) /\ matches r t).
Proof.
  intros w r. split; [|split].
  - unfold find_lines, find_objects, ioscfg. now rewrite filter_map_comm.
  - intros t. unfold find_lines. now rewrite filter_In, hits_spec.
  - unfold has_line_with. rewrite existsb_exists.
    split; intros (t & H & M); exists t; split; auto; now apply hits_spec.
Qed.
Print Assumptions C09_find_lines.

(** After a parse or a commit: line order, no duplicates. *)
Theorem C09_find_objects_loaded : forall w b lines r, loaded w b lines ->
  StronglySorted lt (find_objects w r) /\
  forall x, In x (find_objects w r) <-> In x (w_conf w) /\ matches r (text_of w x).
Proof.
  intros w b lines r HL. split; [|apply find_objects_in].
  apply filter_sorted. eapply loaded_conf_sorted; eauto.
Qed.
Print Assumptions C09_find_objects_loaded.

Example C09_ex : find_objects w_search (rx "ip address") = [1; 5; 7] /\ matches (rx "ip address") (text_of w_search 5).
Proof. split; [vm_compute; reflexivity|]. eexists. vm_compute. reflexivity. Qed.

(** ** C10 Parents with and without a child *)

(** In every state, also with uncommitted changes. *)
Theorem C10_partition : forall w p c recurse l1 l2,
  find_parent_objects w p c recurse = Ok l1 ->
  find_parent_objects_wo_child w p c recurse = Ok l2 ->
  exists f, l1 = filter f (find_objects w p) /\ l2 = filter (fun x => negb (f x)) (find_objects w p) /\
    forall x, In x (find_objects w p) -> exists cs,
      (if recurse then all_children w x = Ok cs else cs = children_of w x) /\
      (f x = true <-> exists y, In y cs /\ found c (text_of w y)).
Proof.
  intros w p c recurse l1 l2 H1 H2.
  apply rfilter_ok in H1 as (f & Hf & ->). apply rfilter_ok in H2 as (g & Hg & ->).
  exists f. split; [reflexivity|]. split.
  - apply filter_ext_in. intros x Hx. specialize (Hf x Hx). specialize (Hg x Hx).
    unfold rmap, bind in Hf, Hg. destruct (line_re_search_children w c recurse x); [|discriminate].
    injection Hf as <-. injection Hg as <-. reflexivity.
  - intros x Hx. specialize (Hf x Hx). unfold rmap, line_re_search_children, offspring, bind in Hf.
    destruct recurse.
    + destruct (all_children w x) as [cs|] eqn:E; [|discriminate]. injection Hf as Hf. exists cs.
      split; [reflexivity|]. rewrite <- Hf, nonempty_filter.
      split; intros (y & Hy & M); exists y; split; auto; now apply line_re_search_spec.
    + injection Hf as Hf. exists (children_of w x). split; [reflexivity|]. rewrite <- Hf, nonempty_filter.
      split; intros (y & Hy & M); exists y; split; auto; now apply line_re_search_spec.
Qed.
Print Assumptions C10_partition.

(** recurse=False never raises, whatever the state. *)
Theorem C10_direct_total : forall w p c,
  (exists l, find_parent_objects w p c false = Ok l) /\
  (exists l, find_parent_objects_wo_child w p c false = Ok l).
Proof.
  intros w p c. split; apply rfilter_total; intros x _; cbn; eauto.
Qed.
Print Assumptions C10_direct_total.

(** After a parse or a commit both succeed, and say exactly what they should. *)
Theorem C10_loaded : forall w b lines p c recurse, loaded w b lines -> no_digit_cfg lines ->
  exists l1 l2,
    find_parent_objects w p c recurse = Ok l1 /\
    find_parent_objects_wo_child w p c recurse = Ok l2 /\
    StronglySorted lt l1 /\ StronglySorted lt l2 /\
    (forall x, In x l1 <-> in_config w p x /\ exists y, below w recurse x y /\ found c (text_of w y)) /\
    (forall x, In x l2 <-> in_config w p x /\ ~ exists y, below w recurse x y /\ found c (text_of w y)).
Proof.
  intros w b lines p c recurse HL Hd.
  pose proof (loaded_region w b lines HL Hd) as R. pose proof (loaded_heap w b lines HL) as Hh.
  pose proof (loaded_conf_inr w b lines HL) as Hc.
  assert (T : forall g : list nat -> bool, exists l,
    rfilter (fun x => rmap g (line_re_search_children w c recurse x)) (find_objects w p) = Ok l).
  { intros g. apply rfilter_total. intros x Hx. apply find_objects_in in Hx as [Hx _].
    destruct (offspring_ok w b _ R Hh recurse x (Hc x Hx)) as (cs & E & _).
    unfold line_re_search_children. rewrite E. cbn. eauto. }
  destruct (T nonempty) as (l1 & E1). destruct (T (fun l => negb (nonempty l))) as (l2 & E2).
  exists l1, l2. split; [exact E1|]. split; [exact E2|].
  destruct (C10_partition w p c recurse l1 l2 E1 E2) as (f & -> & -> & Hf).
  pose proof (loaded_conf_sorted w b lines HL) as Hs.
  split; [now apply filter_sorted, filter_sorted|]. split; [now apply filter_sorted, filter_sorted|].
  assert (Hb : forall x, In x (find_objects w p) ->
    (f x = true <-> exists y, below w recurse x y /\ found c (text_of w y))).
  { intros x Hx. destruct (Hf x Hx) as (cs & Ec & Hcs). rewrite Hcs.
    apply find_objects_in in Hx as [Hx _].
    destruct (offspring_ok w b _ R Hh recurse x (Hc x Hx)) as (cs' & E & M).
    assert (cs' = cs).
    { destruct recurse; cbn [offspring] in E; [rewrite Ec in E|subst cs]; now injection E as ->. }
    subst cs'. split; intros (y & Hy & F); exists y; split; auto; now apply M. }
  split; intros x; rewrite filter_In, <- find_objects_in.
  - split; intros [H1 H2]; (split; [exact H1|]); now apply Hb.
  - rewrite negb_true_iff, <- not_true_iff_false.
    split; intros [H1 H2]; (split; [exact H1|]); intros H3; apply H2; now apply Hb.
Qed.
Print Assumptions C10_loaded.

Example C10_ex :
  find_parent_objects w_search (rx "interface") (rx "shutdown") false = Ok [0] /\
  find_parent_objects_wo_child w_search (rx "interface") (rx "shutdown") false = Ok [4; 6] /\
  find_parent_objects w_search (rx "interface") (rx "secondary") false = Ok [] /\
  find_parent_objects w_search (rx "interface") (rx "secondary") true = Ok [0].
Proof. vm_compute. repeat split. Qed.

(** The pattern is also looked for as a literal text, so a child that does not
    match the regular expression can be reported. *)
Theorem C10_literal_refuted : exists lines w x,
  parse oT lines = Ok w /\ find_parent_objects w (rx "a") rx_shut false = Ok [x] /\
  forall y, In y (children_of w x) -> ~ matches rx_shut (text_of w y).
Proof.
  exists (map lit ["a"; " remark ^shut"]%string), (get w_none (parse oT (map lit ["a"; " remark ^shut"]%string))), 0.
  split; [vm_compute; reflexivity|]. split; [vm_compute; reflexivity|].
  intros y Hy. vm_compute in Hy. destruct Hy as [<-|[]]. intros (m & H). vm_compute in H. discriminate.
Qed.

(** With a list of patterns: the union over the child patterns, when each has
    some parent. *)
Lemma fpo_list_ok w b lines p recurse : loaded w b lines -> no_digit_cfg lines ->
  forall cs s P, setof b (length lines) s P ->
  exists l, fpo_list w p cs recurse s = Ok l /\
    ((StronglySorted lt l /\
      (forall c, In c cs -> exists x, in_config w p x /\ exists y, below w recurse x y /\ found c (text_of w y)) /\
      forall x, In x l <-> P x \/ in_config w p x /\ exists c y, In c cs /\ below w recurse x y /\ found c (text_of w y))
     \/
     (l = [] /\ exists c, In c cs /\
        forall x, in_config w p x -> ~ exists y, below w recurse x y /\ found c (text_of w y))).
Proof.
  intros HL Hd. pose proof (loaded_region w b lines HL Hd) as R. pose proof (loaded_heap w b lines HL) as Hh.
  induction cs as [|c cs IH]; intros s P Hs; cbn [fpo_list].
  - exists (sorted_objs w s). split; [reflexivity|]. left.
    destruct (setof_sorted w b (length lines) R s P Hs) as [S M]. split; [exact S|]. split; [intros ? []|].
    intros x. rewrite M. split; [auto|]. intros [H|(_ & c & y & [] & _)]. exact H.
  - destruct (C10_loaded w b lines p c recurse HL Hd) as (l1 & _ & E & _ & S1 & _ & M & _).
    rewrite E. cbn [bind]. destruct l1 as [|x0 l1'] eqn:El.
    + exists []. split; [reflexivity|]. right. split; [reflexivity|]. exists c. split; [now left|].
      intros x Hx Hy. apply (in_nil (a := x)). apply M. auto.
    + rewrite <- El in *.
      assert (F1 : Forall (inr b (length lines)) l1).
      { apply Forall_forall. intros x Hx. apply M in Hx as [[Hx _] _]. eapply loaded_conf_inr; eauto. }
      destruct (IH _ _ (setof_adds w b (length lines) R s P l1 Hs F1)) as (l & E' & Hl).
      exists l. split; [exact E'|]. destruct Hl as [(SL & HA & HM)|(-> & c' & Hc' & HN)].
      * left. split; [exact SL|]. split.
        -- intros c' [<-|Hc']; [|auto]. exists x0. apply M. rewrite El. now left.
        -- intros x. rewrite HM, M. split.
           ++ intros [[H|(H & y & H')]|(H & c' & y & H1 & H2)]; auto.
              ** right. split; [exact H|]. exists c, y. split; [now left|exact H'].
              ** right. split; [exact H|]. exists c', y. split; [now right|exact H2].
           ++ intros [H|(H & c' & y & [<-|H1] & H2)]; auto.
              ** left. right. split; eauto.
              ** right. split; eauto 6.
      * right. split; [reflexivity|]. exists c'. split; [now right|exact HN].
Qed.

Theorem C10_pattern_list : forall w b lines p c cs recurse, loaded w b lines -> no_digit_cfg lines ->
  exists l, find_parent_objects_list w (p :: c :: cs) recurse = Ok l /\
    ((StronglySorted lt l /\
      (forall c', In c' (c :: cs) -> exists x, in_config w p x /\ exists y, below w recurse x y /\ found c' (text_of w y)) /\
      forall x, In x l <-> in_config w p x /\
        exists c' y, In c' (c :: cs) /\ below w recurse x y /\ found c' (text_of w y))
     \/
     (l = [] /\ exists c', In c' (c :: cs) /\
        forall x, in_config w p x -> ~ exists y, below w recurse x y /\ found c' (text_of w y))).
Proof.
  intros w b lines p c cs recurse HL Hd. unfold find_parent_objects_list.
  destruct (fpo_list_ok w b lines p recurse HL Hd (c :: cs) [] (fun _ => False)) as (l & E & H).
  { apply setof_nil. }
  exists l. split; [exact E|]. destruct H as [(H1 & H2 & H3)|H]; [left|now right].
  split; [exact H1|]. split; [exact H2|]. intros x. rewrite H3. tauto.
Qed.
Print Assumptions C10_pattern_list.

(** So a parent without one of the listed children is returned. *)
Theorem C10_pattern_list_refuted : exists x,
  find_parent_objects_list w_search [rx "interface"; rx "ip address"; rx "shutdown"] false = Ok [0; 4; 6] /\
  x = 4 /\ ~ exists y, below w_search false x y /\ found (rx "shutdown") (text_of w_search y).
Proof.
  exists 4. split; [vm_compute; reflexivity|]. split; [reflexivity|]. intros (y & Hy & Hf).
  apply line_re_search_spec in Hf. vm_compute in Hy. destruct Hy as [<-|[]]. vm_compute in Hf. discriminate.
Qed.

(** ** C11 Children with a parent *)

Theorem C11_find_child_objects : forall w b lines p c recurse, loaded w b lines -> no_digit_cfg lines ->
  exists l, find_child_objects w p c recurse = Ok l /\ StronglySorted lt l /\
    forall y, In y l <-> matches_some c (text_of w y) /\ exists x, in_config w p x /\ below w recurse x y.
Proof.
  intros w b lines p c recurse HL Hd.
  apply (find_child_objects_loaded w b (length lines)); [now apply loaded_region|now apply loaded_heap|].
  now apply loaded_conf_inr.
Qed.
Print Assumptions C11_find_child_objects.

Theorem C11_find_children_w_parents : forall w b lines p c, loaded w b lines -> no_digit_cfg lines ->
  exists l, find_children_w_parents w p c = Ok (map (text_of w) l) /\ StronglySorted lt l /\
    forall y, In y l <-> in_config w c y /\ exists q, above w q y /\ matches p (text_of w q).
Proof.
  intros w b lines p c HL Hd.
  destruct (find_children_w_parents_loaded w b (length lines)
    (loaded_region w b lines HL Hd) (loaded_heap w b lines HL) (loaded_conf_inr w b lines HL) p c) as (l & E & H).
  exists l. split; [|exact H]. unfold find_children_w_parents. now rewrite E.
Qed.
Print Assumptions C11_find_children_w_parents.

(** The two agree, for child patterns without empty matches. *)
Theorem C11_agree : forall w b lines p c, loaded w b lines -> plain_cfg lines -> no_digit_cfg lines ->
  (forall t m, rx_find c t = Some m -> m_all m <> []) ->
  exists l, find_child_objects w p c true = Ok l /\ find_children_w_parents w p c = Ok (map (text_of w) l).
Proof.
  intros w b lines p c HL Hp Hd Hne.
  destruct (C11_find_child_objects w b lines p c true HL Hd) as (l & E & S & M).
  destruct (C11_find_children_w_parents w b lines p c HL Hd) as (l' & E' & S' & M').
  exists l. split; [exact E|]. rewrite E'. do 2 f_equal. apply lt_sorted_unique; auto.
  pose proof (loaded_region w b lines HL Hd) as R. pose proof (loaded_heap w b lines HL) as Hh.
  assert (D : forall x y, inr b (length lines) x -> inr b (length lines) y ->
    (below w true x y <-> above w x y)).
  { intros x y Hx Hy. apply (duality w b (length lines) R Hh); auto. apply (plain_agree w b lines HL Hp). }
  assert (K : forall x y, below w true x y -> inr b (length lines) x -> In y (w_conf w)).
  { intros x y H. cbn [below] in H. induction H as [x y H|x y z H H' IH]; intros Hx.
    - destruct Hx. replace x with (b + (x - b)) in H by lia.
      apply (C03_children_are_lines w b lines (x - b) y HL Hp) in H; [tauto|lia].
    - apply IH. apply (below_inr w b (length lines) R Hh false x y Hx H). }
  intros y. rewrite M, M'. split.
  - intros ((Hy & Hm) & q & Hq & Hmq).
    assert (Iy : inr b (length lines) y) by (eapply loaded_conf_inr; eauto).
    assert (Iq : inr b (length lines) q) by (eapply above_inr; eauto).
    split.
    + destruct Hm as (m & Hm). exists m. split; [exact Hm|]. eapply Hne; eauto.
    + exists q. split; [split; [|exact Hmq]|now apply D].
      clear - HL Hq Hy. induction Hq as [x y H N|x z y H N H' IH].
      * rewrite <- H. eapply C02_parent_in_config; eauto.
      * apply IH. rewrite <- H. eapply C02_parent_in_config; eauto.
  - intros ((m & Hm & _) & x & (Hx & Hmx) & Hb).
    assert (Ix : inr b (length lines) x) by (eapply loaded_conf_inr; eauto).
    split; [split; [eapply K; eauto|exists m; exact Hm]|].
    exists x. split; [|exact Hmx]. apply D; auto. eapply below_inr; eauto.
Qed.
Print Assumptions C11_agree.

Example C11_ex :
  find_child_objects w_search (rx "interface") (rx "ip address") false = Ok [1; 5; 7] /\
  find_child_objects w_search (rx "interface") (rx "secondary") false = Ok [] /\
  find_child_objects w_search (rx "interface") (rx "secondary") true = Ok [2] /\
  find_children_w_parents w_search (rx "interface") (rx "secondary") = Ok [lit "  secondary"].
Proof. vm_compute. repeat split. Qed.

(** A child found by an empty match only is left out. *)
Theorem C11_empty_match_refuted : exists x y,
  in_config w_search (rx "interface Gi0/1") x /\ In y (children_of w_search x) /\
  matches rx_any (text_of w_search y) /\
  find_child_objects w_search (rx "interface Gi0/1") rx_any false = Ok [].
Proof.
  exists 0, 1. split; [|split; [|split]].
  - split; [vm_compute; auto|]. eexists. vm_compute. reflexivity.
  - vm_compute. auto.
  - eexists. reflexivity.
  - vm_compute. reflexivity.
Qed.

(** With a list of patterns only the children matching the last one are
    returned, provided all earlier ones have some match. *)
Theorem C11_pattern_list : forall w b lines p c cs recurse, loaded w b lines -> no_digit_cfg lines ->
  exists l, find_child_objects_list w (p :: c :: cs) recurse = Ok l /\ StronglySorted lt l /\
    forall y, In y l <->
      (forall c', In c' (c :: cs) ->
         exists x z, in_config w p x /\ below w recurse x z /\ matches_some c' (text_of w z)) /\
      matches_some (last (c :: cs) c) (text_of w y) /\ exists x, in_config w p x /\ below w recurse x y.
Proof.
  intros w b lines p c cs recurse HL Hd. unfold find_child_objects_list.
  pose proof (loaded_region w b lines HL Hd) as R. pose proof (loaded_heap w b lines HL) as Hh.
  assert (G : forall c d, exists l, fcol_loop w p (c :: cs) recurse = Ok l /\ StronglySorted lt l /\
    forall y, In y l <->
      (forall c', In c' (c :: cs) ->
         exists x z, in_config w p x /\ below w recurse x z /\ matches_some c' (text_of w z)) /\
      matches_some (last (c :: cs) d) (text_of w y) /\ exists x, in_config w p x /\ below w recurse x y).
  2: exact (G c c).
  clear c. induction cs as [|c2 cs IH]; intros c d.
  - cbn [fcol_loop]. destruct (C11_find_child_objects w b lines p c recurse HL Hd) as (l & E & S & M).
    rewrite E. cbn [bind last].
    assert (A : forall y, In y l <->
      (forall c', In c' [c] -> exists x z, in_config w p x /\ below w recurse x z /\ matches_some c' (text_of w z)) /\
      matches_some c (text_of w y) /\ exists x, in_config w p x /\ below w recurse x y).
    { intros y. rewrite M. split; [|tauto]. intros (Hm & x & Hx & Hb). split; [|eauto].
      intros c' [<-|[]]. eauto. }
    destruct l as [|z l]; [exists []; auto|]. eexists. split; [reflexivity|].
    destruct (setof_sorted w b (length lines) R (fold_left (set_add w) (z :: l) []) (fun y => False \/ In y (z :: l)))
      as [S' M'].
    { apply setof_adds; auto; [apply setof_nil|]. apply Forall_forall. intros y Hy.
      apply M in Hy as (_ & x & [Hx _] & Hb). eapply (below_inr w b (length lines) R Hh); eauto.
      eapply loaded_conf_inr; eauto. }
    split; [exact S'|]. intros y. rewrite M'. rewrite <- A. tauto.
  - destruct (IH c2 d) as (l & E & S & M). 
    destruct (C11_find_child_objects w b lines p c recurse HL Hd) as (l1 & E1 & S1 & M1).
    change (fcol_loop w p (c :: c2 :: cs) recurse) with
      (do vs <- find_child_objects w p c recurse;
       match vs with [] => Ok [] | _ => fcol_loop w p (c2 :: cs) recurse end).
    rewrite E1. cbn [bind]. change (last (c :: c2 :: cs) d) with (last (c2 :: cs) d).
    destruct l1 as [|z l1].
    + exists []. split; [reflexivity|]. split; [constructor|]. intros y. split; [intros []|].
      intros (H & _). destruct (H c (or_introl eq_refl)) as (x & z & H1 & H2 & H3).
      apply (in_nil (a := z)). apply M1. eauto.
    + exists l. split; [exact E|]. split; [exact S|]. intros y. rewrite M. split; intros (H & H').
      * split; [|exact H']. intros c' [<-|Hc]; [|auto].
        assert (In z (z :: l1)) as Hz by now left. apply M1 in Hz as (Hm & x & Hx & Hb). eauto.
      * split; [|exact H']. intros c' Hc. apply H. now right.
Qed.
Print Assumptions C11_pattern_list.
Example C11_pattern_list_ex :
  find_child_objects_list w_search [rx "interface"; rx "shutdown"; rx "ip address"] false = Ok [1; 5; 7].
Proof. vm_compute. reflexivity. Qed.

(** ** C12 find_object_branches *)

(** In every state, for two patterns or more. *)
Theorem C12_branches : forall w s1 s2 ss,
  exists l, find_object_branches w (s1 :: s2 :: ss) = Ok l /\
    l = rows w (w_conf w) (s1 :: s2 :: ss) /\
    (forall row, In row l <-> branch w (w_conf w) (s1 :: s2 :: ss) row) /\
    (forall row, In row l -> length row = length (s1 :: s2 :: ss)).
Proof.
  intros w s1 s2 ss. eexists. split; [apply branches_rows|]. split; [reflexivity|]. split.
  - intros row. apply rows_branch.
  - intros row H. apply rows_branch in H. eapply branch_length; eauto.
Qed.
Print Assumptions C12_branches.

(** What a row says: entry k matches pattern k and is a child of entry k-1; after
    the first None only None; an entry is None only when the previous one has no
    matching child. *)
Theorem C12_row_entries : forall w s1 s2 ss l row,
  find_object_branches w (s1 :: s2 :: ss) = Ok l -> In row l ->
  forall k s e, nth_error (s1 :: s2 :: ss) k = Some s -> nth_error row k = Some e ->
  match e with
  | Some x => matches s (text_of w x) /\
      match k with
      | 0 => In x (w_conf w)
      | S k' => exists p, nth_error row k' = Some (Some p) /\ In x (children_of w p)
      end
  | None =>
      match k with
      | 0 => forall x, In x (w_conf w) -> ~ matches s (text_of w x)
      | S k' => nth_error row k' = Some None \/
                exists p, nth_error row k' = Some (Some p) /\
                  forall x, In x (children_of w p) -> ~ matches s (text_of w x)
      end
  end.
Proof.
  intros w s1 s2 ss l row E Hr. rewrite branches_rows in E. assert (E' : l = rows w (w_conf w) (s1 :: s2 :: ss)) by congruence.
  rewrite E' in Hr. apply rows_branch in Hr.
  clear E E'. revert Hr. generalize (s1 :: s2 :: ss) as specs. generalize (w_conf w) as cands. clear. intros cands specs H.
  induction H as [cands|cands r rs x row Hx Hm HB IH|cands r rs HN]; intros k s e Hs He.
  - destruct k; discriminate.
  - destruct k as [|k]; cbn [nth_error] in Hs, He.
    + injection Hs as <-. injection He as <-. split; auto.
    + specialize (IH k s e Hs He). destruct k as [|k].
      * destruct e as [y|].
        -- destruct IH as [H1 H2]. split; [exact H1|]. exists x. split; [reflexivity|exact H2].
        -- right. exists x. split; [reflexivity|exact IH].
      * exact IH.
  - assert (He' : e = None).
    { apply nth_error_In in He. apply repeat_spec in He. exact He. }
    subst e. destruct k as [|k]; cbn [nth_error] in Hs.
    + injection Hs as <-. exact HN.
    + left. apply nth_error_length_lt in Hs.
      clear - Hs. revert k Hs. induction (length rs) as [|m IHm]; intros k Hs; [lia|].
      destruct k; [reflexivity|]. cbn. apply IHm. lia.
Qed.
Print Assumptions C12_row_entries.

(** A single pattern raises UnboundLocalError whatever the configuration, none
    raises ValueError. *)
Theorem C12_one_pattern_refuted : forall w s,
  find_object_branches w [s] = Err UnboundLocal /\ find_object_branches w [] = Err ValueError.
Proof. split; reflexivity. Qed.

(** With regex_groups=True entry k holds the groups of pattern k, or the text of
    the line when it has no groups. *)
Theorem C12_regex_groups : forall w s1 s2 ss l,
  find_object_branches w (s1 :: s2 :: ss) = Ok l ->
  exists g, find_object_branches_groups w (s1 :: s2 :: ss) = Ok g /\ length g = length l /\
  forall i row grow, nth_error l i = Some row -> nth_error g i = Some grow ->
    length grow = length row /\
    forall k s e v, nth_error (s1 :: s2 :: ss) k = Some s -> nth_error row k = Some e -> nth_error grow k = Some v ->
    match e with
    | None => v = [None]
    | Some x => exists m, rx_find s (text_of w x) = Some m /\
        v = if length (m_groups m) =? 0 then [Some (text_of w x)] else m_groups m
    end.
Proof.
  intros w s1 s2 ss l E. unfold find_object_branches_groups. rewrite E. cbn [rmap bind].
  eexists. split; [reflexivity|]. split; [apply map_length|].
  intros i row grow Hrow Hg. rewrite nth_error_map, Hrow in Hg. cbn [option_map] in Hg.
  assert (Hg' : grow = row_groups w (s1 :: s2 :: ss) row) by congruence. rewrite Hg'. clear Hg Hg'.
  assert (Hin : In row l) by (eapply nth_error_In; eauto).
  pose proof (C12_row_entries w s1 s2 ss l row E Hin) as HE.
  destruct (C12_branches w s1 s2 ss) as (l' & E' & _ & _ & HL).
  assert (Hin' : In row l') by congruence. specialize (HL row Hin'). clear E' Hin'. clear E Hrow Hin.
  assert (HM : forall k s x, nth_error (s1 :: s2 :: ss) k = Some s -> nth_error row k = Some (Some x) ->
             matches s (text_of w x)).
  { intros k s x H1 H2. specialize (HE k s (Some x) H1 H2). apply HE. }
  clear HE. revert row HL HM. generalize (s1 :: s2 :: ss) as specs. clear.
  induction specs as [|r rs IH]; intros [|e row] HL HM; try discriminate.
  - split; [reflexivity|]. intros [|k]; discriminate.
  - cbn [row_groups length]. destruct (IH row) as [H1 H2].
    + cbn in HL. lia.
    + intros k s x A B. apply (HM (S k) s x A B).
    + split; [now rewrite H1|]. intros [|k] s e' v A B C; cbn [nth_error] in A, B, C.
      * injection A as <-. injection B as <-. injection C as <-. destruct e as [x|]; [|reflexivity].
        destruct (HM 0 r x eq_refl eq_refl) as (m & Hm). exists m. split; [exact Hm|].
        unfold branch_groups. rewrite Hm. now destruct (m_groups m).
      * apply (H2 k s e' v A B C).
Qed.
Print Assumptions C12_regex_groups.

Example C12_ex :
  find_object_branches w_search [rx "interface"; rx "address"; rx "secondary"]
  = Ok [[Some 0; Some 1; Some 2]; [Some 4; Some 5; None]; [Some 6; Some 7; None]] /\
  find_object_branches w_search [rx "router"; rx "address"] = Ok [[None; None]].
Proof. vm_compute. split; reflexivity. Qed.

(** ** C13 Families of matching lines *)

Theorem C13_find_children : forall w b lines r, loaded w b lines -> no_digit_cfg lines ->
  exists l, find_children w r = map (text_of w) l /\ StronglySorted lt l /\
    forall y, In y l <-> exists x, in_config w r x /\ (y = x \/ In y (children_of w x)).
Proof.
  intros w b lines r HL Hd. exists (find_children_objs w r). split; [reflexivity|].
  apply (find_children_loaded w b (length lines)); [now apply loaded_region|now apply loaded_heap|now apply loaded_conf_inr].
Qed.
Print Assumptions C13_find_children.

Theorem C13_find_all_children : forall w b lines r, loaded w b lines -> no_digit_cfg lines ->
  exists l, find_all_children w r = Ok (map (text_of w) l) /\ StronglySorted lt l /\
    forall y, In y l <-> exists x, in_config w r x /\ (y = x \/ descendant (children_of w) x y).
Proof.
  intros w b lines r HL Hd.
  destruct (find_all_children_loaded w b (length lines) (loaded_region w b lines HL Hd)
    (loaded_heap w b lines HL) (loaded_conf_inr w b lines HL) r) as (l & E & H).
  exists l. split; [|exact H]. unfold find_all_children. now rewrite E.
Qed.
Print Assumptions C13_find_all_children.

Theorem C13_find_blocks : forall w b lines r, loaded w b lines -> no_digit_cfg lines ->
  exists l, find_blocks w r = Ok (map (text_of w) l) /\ StronglySorted lt l /\
    forall y, In y l <-> exists x s, in_config w r x /\
      (s = x \/ In s (children_of w (parent_of w x))) /\ (y = s \/ above w y s).
Proof.
  intros w b lines r HL Hd.
  destruct (find_blocks_loaded w b (length lines) (loaded_region w b lines HL Hd)
    (loaded_heap w b lines HL) (loaded_conf_inr w b lines HL) r) as (l & E & H).
  exists l. split; [|exact H]. unfold find_blocks. now rewrite E.
Qed.
Print Assumptions C13_find_blocks.

Example C13_ex :
  find_children w_search (rx "Gi0/1") = map lit ["interface Gi0/1"; " ip address 1.1.1.1"; " shutdown"]%string /\
  find_all_children w_search (rx "Gi0/1")
    = Ok (map lit ["interface Gi0/1"; " ip address 1.1.1.1"; "  secondary"; " shutdown"]%string) /\
  find_blocks w_search (rx "secondary")
    = Ok (map lit ["interface Gi0/1"; " ip address 1.1.1.1"; "  secondary"]%string) /\
  find_blocks w_search (rx "shutdown")
    = Ok (map lit ["interface Gi0/1"; " ip address 1.1.1.1"; " shutdown"]%string).
Proof. vm_compute. repeat split. Qed.

(** ** C41 Typed searches *)

(** On one line, recurse=False or recurse=True: the line itself, then its
    offspring in order. *)
Theorem C41_line : forall (T : Type) (conv : option str -> result T) dflt w b lines r g (recurse : bool) i,
  loaded w b lines -> no_digit_cfg lines -> i < length lines ->
  exists cs, (if recurse then all_children w (b + i) = Ok cs else cs = children_of w (b + i)) /\
  let texts := map (text_of w) ((b + i) :: cs) in
  (exists pre t m post, texts = pre ++ t :: post /\ (forall u, In u pre -> ~ matches r u) /\
     rx_find r t = Some m /\
     line_re_match_iter_typed conv dflt w r g recurse (b + i) = (do v <- group g m; conv v)) \/
  ((forall u, In u texts -> ~ matches r u) /\
     line_re_match_iter_typed conv dflt w r g recurse (b + i) = dflt).
Proof.
  intros T conv dflt w b lines r g recurse i HL Hd Hi.
  destruct (offspring_ok w b (length lines) (loaded_region w b lines HL Hd) (loaded_heap w b lines HL) recurse (b + i))
    as (cs & E & _); [unfold inr; lia|].
  exists cs. split.
  { destruct recurse; cbn [offspring] in E; [exact E|]. now injection E as ->. }
  assert (N : forall u, rx_find r u = None -> ~ matches r u).
  { intros u H (m & H'). congruence. }
  cbn zeta. unfold line_re_match_iter_typed. rewrite E. cbn [map bind].
  destruct (rx_find r (text_of w (b + i))) as [m|] eqn:Em.
  - left. exists [], (text_of w (b + i)), m, (map (text_of w) cs). repeat split; auto; try (intros ? []; fail).
  - destruct (first_match_spec conv dflt r g (map (text_of w) cs)) as [(pre & t & m & post & -> & H1 & H2 & H3)|[H1 H2]].
    + left. exists (text_of w (b + i) :: pre), t, m, post. repeat split; auto.
      intros u [<-|Hu]; auto.
    + right. split; [|exact H2]. intros u [<-|Hu]; auto.
Qed.
Print Assumptions C41_line.

(** On a whole configuration: the root lines in order. *)
Theorem C41_config : forall (T : Type) (conv : option str -> result T) dflt w r g,
  exists roots, roots = filter (fun x => parent_of w x =? x) (w_conf w) /\
  ((exists pre x m post, roots = pre ++ x :: post /\ (forall u, In u pre -> ~ matches r (text_of w u)) /\
     rx_find r (text_of w x) = Some m /\
     conf_re_match_iter_typed conv dflt w r g = (do v <- group g m; conv v)) \/
   ((forall u, In u roots -> ~ matches r (text_of w u)) /\ conf_re_match_iter_typed conv dflt w r g = dflt)).
Proof.
  intros T conv dflt w r g. eexists. split; [reflexivity|]. unfold conf_re_match_iter_typed.
  generalize (filter (fun x => parent_of w x =? x) (w_conf w)) as roots. intros roots.
  induction roots as [|x roots IH]; cbn [map first_match].
  - right. split; [intros ? []|reflexivity].
  - destruct (rx_find r (text_of w x)) as [m|] eqn:E.
    + left. exists [], x, m, roots. repeat split; auto; try (intros ? []; fail).
    + assert (N : ~ matches r (text_of w x)) by (intros (m & H); congruence).
      destruct IH as [(pre & y & m & post & -> & H1 & H2 & H3)|[H1 H2]].
      * left. exists (x :: pre), y, m, post. repeat split; auto. intros u [<-|Hu]; auto.
      * right. split; [|exact H2]. intros u [<-|Hu]; auto.
Qed.
Print Assumptions C41_config.

(** With a groupdict and recurse=True the same first match is used. *)
Theorem C41_groupdict_recurse : forall w b lines r i, loaded w b lines -> no_digit_cfg lines -> i < length lines ->
  exists cs v, all_children w (b + i) = Ok cs /\ line_groupdict_match w r true (b + i) = Ok v /\
  let texts := map (text_of w) ((b + i) :: cs) in
  match v with
  | Some m => exists pre t post, texts = pre ++ t :: post /\ (forall u, In u pre -> ~ matches r u) /\ rx_find r t = Some m
  | None => forall u, In u texts -> ~ matches r u
  end.
Proof.
  intros w b lines r i HL Hd Hi.
  destruct (C04_all_children_closure w b lines i HL Hd Hi) as (cs & E & _).
  exists cs. cbn zeta. unfold line_groupdict_match. rewrite E. cbn [map bind].
  assert (N : forall u, rx_find r u = None -> ~ matches r u).
  { intros u H (m & H'). congruence. }
  destruct (rx_find r (text_of w (b + i))) as [m|] eqn:Em.
  - exists (Some m). split; [reflexivity|]. split; [reflexivity|].
    exists [], (text_of w (b + i)), (map (text_of w) cs). repeat split; auto; try (intros ? []; fail).
  - exists (first_found r (map (text_of w) cs)). split; [reflexivity|]. split; [reflexivity|].
    destruct (first_found_spec r (map (text_of w) cs)) as [(pre & t & m & post & E' & H1 & H2 & H3)|[H1 H2]].
    + rewrite H3. exists (text_of w (b + i) :: pre), t, post. rewrite E'. repeat split; auto.
      intros u [<-|Hu]; auto.
    + rewrite H2. intros u [<-|Hu]; auto.
Qed.
Print Assumptions C41_groupdict_recurse.

(** With a groupdict and recurse=False only the first child is looked at. *)
Theorem C41_groupdict_refuted : exists x y,
  In y (children_of w_search x) /\ matches (rx "shutdown") (text_of w_search y) /\
  line_groupdict_match w_search (rx "shutdown") false x = Ok None.
Proof.
  exists 0, 3. split; [vm_compute; auto|]. split; [|vm_compute; reflexivity].
  eexists. vm_compute. reflexivity.
Qed.

Example C41_ex :
  line_re_match_iter_typed (fun v => Ok v) (Ok None) w_search (rx "shutdown") 0 false 0 = Ok (Some (lit "shutdown")) /\
  line_re_match_iter_typed (fun v => Ok v) (Ok None) w_search (rx "secondary") 0 false 0 = Ok None /\
  line_re_match_iter_typed (fun v => Ok v) (Ok None) w_search (rx "secondary") 0 true 0 = Ok (Some (lit "secondary")) /\
  line_re_match_iter_typed (fun v => Ok v) (Ok None) w_search (rx "secondary") 1 true 0 = Err IndexError.
Proof. vm_compute. repeat split. Qed.

(** ** C43 All children / some child missing *)

Lemma all_match_ok w cs recurse x v :
  all_match w cs recurse x = Ok v ->
  (v = true <-> forall c, In c cs -> exists l y,
     offspring w recurse x = Ok l /\ In y l /\ found c (text_of w y)).
Proof.
  revert v; induction cs as [|c cs IH]; intros v H; cbn [all_match] in H.
  - injection H as <-. split; [intros _ ? []|reflexivity].
  - unfold bind in H. destruct (line_re_search_children w c recurse x) as [l|] eqn:El; [|discriminate].
    destruct (all_match w cs recurse x) as [r|] eqn:Er; [|discriminate]. injection H as <-.
    unfold line_re_search_children, bind in El. destruct (offspring w recurse x) as [os|] eqn:Eo; [|discriminate].
    injection El as <-. rewrite andb_true_iff, nonempty_filter, (IH r eq_refl). split.
    + intros [(y & Hy & F) H] c' [<-|Hc]; [|auto]. exists os, y. apply line_re_search_spec in F. auto.
    + intros H. split.
      * destruct (H c (or_introl eq_refl)) as (l & y & E & Hy & F). injection E as <-.
        exists y. split; [exact Hy|]. now apply line_re_search_spec.
      * intros c' Hc. apply H. now right.
Qed.

Theorem C43_all_children : forall w p cs recurse l,
  find_objects_w_all_children w p cs recurse = Ok l ->
  exists f, l = filter f (find_objects w p) /\
    forall x, In x (find_objects w p) ->
      (f x = true <-> forall c, In c cs -> exists os y,
         offspring w recurse x = Ok os /\ In y os /\ found c (text_of w y)).
Proof.
  intros w p cs recurse l H. apply rfilter_ok in H as (f & Hf & ->). exists f. split; [reflexivity|].
  intros x Hx. apply (all_match_ok w cs recurse x). auto.
Qed.
Print Assumptions C43_all_children.

(** In every state the two searches split the matching parents. *)
Theorem C43_partition : forall w p cs, exists f,
  find_objects_w_all_children w p cs false = Ok (filter f (find_objects w p)) /\
  find_objects_w_missing_children w p cs = Ok (filter (fun x => negb (f x)) (find_objects w p)) /\
  forall x, In x (find_objects w p) ->
    (f x = true <-> forall c, In c cs -> exists y, In y (children_of w x) /\ found c (text_of w y)).
Proof.
  intros w p cs.
  assert (T : forall x, exists v, all_match w cs false x = Ok v).
  { intros x. induction cs as [|c cs (v & IH)]; cbn [all_match]; [eauto|].
    unfold line_re_search_children, offspring, bind. rewrite IH. eauto. }
  destruct (rfilter_total (all_match w cs false) (find_objects w p) (fun x _ => T x)) as (l1 & E1).
  destruct (rfilter_total (fun x => rmap negb (all_match w cs false x)) (find_objects w p)) as (l2 & E2).
  { intros x _. destruct (T x) as (v & ->). cbn. eauto. }
  destruct (rfilter_ok _ _ _ E1) as (f & Hf & ->). destruct (rfilter_ok _ _ _ E2) as (g & Hg & ->).
  exists f. split; [exact E1|]. split.
  - unfold find_objects_w_missing_children. rewrite E2. f_equal. apply filter_ext_in. intros x Hx.
    specialize (Hf x Hx). specialize (Hg x Hx). cbn beta in Hg. rewrite Hf in Hg. cbn [rmap bind] in Hg. now injection Hg as <-.
  - intros x Hx. rewrite (all_match_ok w cs false x _ (Hf x Hx)). cbn [offspring].
    split; intros H c Hc.
    + destruct (H c Hc) as (l & y & E & H'). injection E as <-. eauto.
    + destruct (H c Hc) as (y & H'). eauto.
Qed.
Print Assumptions C43_partition.

Example C43_ex :
  find_objects_w_all_children w_search (rx "interface") [rx "ip address"; rx "shutdown"] false = Ok [0] /\
  find_objects_w_missing_children w_search (rx "interface") [rx "ip address"; rx "shutdown"] = Ok [4; 6].
Proof. vm_compute. split; reflexivity. Qed.

(** ** C44 find_lineage *)

Theorem C44_find_lineage : forall w b lines r, loaded w b lines -> no_digit_cfg lines ->
  match find_objects w r with
  | [x] => exists g cs, geneology w x = Ok g /\ root_path w g x /\ all_children w x = Ok cs /\
             find_lineage w r = Ok (map (text_of w) (g ++ cs))
  | [] => find_lineage w r = Err IndexError
  | _ => find_lineage w r = Err ValueError
  end.
Proof.
  intros w b lines r HL Hd. unfold find_lineage. destruct (find_objects w r) as [|x [|y l]] eqn:E; try reflexivity.
  assert (Hx : In x (w_conf w)).
  { apply (find_objects_in w r x). rewrite E. now left. }
  destruct (conf_in w b lines HL x Hx) as (i & line & -> & Hl & _).
  assert (Hi : i < length lines) by (eapply nth_error_length_lt; eauto).
  destruct (C14_lineage w b lines i HL Hd Hi) as (g & cs & E1 & E2 & E3 & _).
  destruct (C14_geneology_is_root_path w b lines i HL Hd Hi) as (g' & E4 & RP).
  rewrite E1 in E4. injection E4 as <-.
  exists g, cs. rewrite E3. auto.
Qed.
Print Assumptions C44_find_lineage.
Example C44_ex :
  find_lineage w_search (rx "address 1") = Ok (map lit ["interface Gi0/1"; " ip address 1.1.1.1"; "  secondary"]%string) /\
  find_lineage w_search (rx "address") = Err ValueError.
Proof. vm_compute. split; reflexivity. Qed.
