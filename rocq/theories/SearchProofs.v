(** Proofs about the searches. *)
From Coq Require Import Ascii String Arith NArith ZArith Bool List Lia Sorting.Sorted.
From Verif Require Import PyStr PyStrFacts PyBase PyBaseFacts CfgModel TreeSpec BraceSpec WorldSpec
  TreeProofs TreePost TreeRel TreeWorld TreeBanner TreeFull CommitProofs CommitMain TreeMain FamilyProofs
  SearchModel SearchSpec.
Import ListNotations.
Local Open Scope nat_scope.

Lemma hits_spec r t : hits r t = true <-> matches r t.
Proof.
  unfold hits, matches. destruct (rx_find r t) as [m|]; split; try discriminate; eauto.
  intros (m & H). discriminate.
Qed.

Lemma hits_false r t : hits r t = false <-> ~ matches r t.
Proof. rewrite <- hits_spec. now rewrite not_true_iff_false. Qed.

Lemma line_re_search_spec w r x : line_re_search w r x = true <-> found r (text_of w x).
Proof.
  unfold line_re_search, found. destruct (text_of w x) as [|a t] eqn:E.
  - split; [discriminate|]. intros [H _]. contradiction.
  - rewrite orb_true_iff, contains_spec, hits_spec. split; [|tauto].
    intros H. split; [discriminate|exact H].
Qed.

Lemma match_nonempty_spec r t : match_nonempty r t = true <-> matches_some r t.
Proof.
  unfold match_nonempty, matches_some. destruct (rx_find r t) as [m|]; split.
  - intros H. exists m. split; [reflexivity|]. destruct (m_all m); [discriminate|]. discriminate.
  - intros (m' & E & H). injection E as <-. destruct (m_all m); [contradiction|reflexivity].
  - discriminate.
  - intros (m & H & _). discriminate.
Qed.

Lemma find_objects_in w r x : In x (find_objects w r) <-> in_config w r x.
Proof. unfold find_objects, in_config. now rewrite filter_In, hits_spec. Qed.

Lemma filter_positions {A} (f : A -> bool) (d : A) l pre :
  filter f l = map (fun i => nth i (pre ++ l) d) (positions f (length pre) l).
Proof.
  revert pre; induction l as [|x l IH]; intros pre; cbn [filter positions map]; [reflexivity|].
  specialize (IH (pre ++ [x])). rewrite app_length in IH. cbn [length] in IH.
  rewrite <- app_assoc in IH. cbn [app] in IH. replace (length pre + 1) with (S (length pre)) in IH by lia.
  destruct (f x); [|exact IH]. cbn [map]. rewrite IH. f_equal.
  rewrite app_nth2 by lia. now rewrite Nat.sub_diag.
Qed.

Lemma nonempty_filter {A} (f : A -> bool) l : nonempty (filter f l) = true <-> exists x, In x l /\ f x = true.
Proof.
  split.
  - intros H. destruct (filter f l) as [|x r] eqn:E; [discriminate|].
    exists x. apply filter_In. rewrite E. now left.
  - intros (x & H). apply filter_In in H. now destruct (filter f l).
Qed.

(** ** rfilter *)

Lemma rfilter_ok {A} (f : A -> result bool) l r :
  rfilter f l = Ok r ->
  exists g, (forall x, In x l -> f x = Ok (g x)) /\ r = filter g l.
Proof.
  revert r; induction l as [|x l IH]; intros r H; cbn [rfilter] in H.
  - injection H as <-. exists (fun _ => true). split; [intros ? []|reflexivity].
  - unfold bind in H. destruct (f x) as [bx|] eqn:Ef; [|discriminate].
    destruct (rfilter f l) as [r'|] eqn:Er; [|discriminate].
    destruct (IH r' eq_refl) as (g & Hg & ->). injection H as <-.
    exists (fun y => match f y with Ok v => v | Err _ => false end). split.
    + intros y Hy. destruct Hy as [<-|Hy]; [now rewrite Ef|]. now rewrite (Hg y Hy).
    + cbn [filter]. rewrite Ef. 
      replace (filter (fun y => match f y with Ok v => v | Err _ => false end) l) with (filter g l).
      * now destruct bx.
      * apply filter_ext_in. intros y Hy. now rewrite (Hg y Hy).
Qed.

Lemma rfilter_total {A} (f : A -> result bool) l :
  (forall x, In x l -> exists v, f x = Ok v) -> exists r, rfilter f l = Ok r.
Proof.
  induction l as [|x l IH]; intros H; cbn [rfilter]; [eauto|].
  destruct (H x) as (v & Ev); [now left|]. destruct IH as (r & Er); [intros; apply H; now right|].
  unfold bind. rewrite Ev, Er. eauto.
Qed.

(** ** Trees of a loaded configuration *)

Section Loaded.
  Variables (w : world) (b n : nat).
  Hypothesis R : region w b n.
  Hypothesis Hh : b + n <= length (w_heap w).
  Hypothesis Hconf : forall x, In x (w_conf w) -> inr b n x.

  Lemma offspring_ok recurse x : inr b n x ->
    exists l, offspring w recurse x = Ok l /\ forall y, In y l <-> below w recurse x y.
  Proof.
    intros Hx. destruct recurse; cbn [offspring below].
    - destruct (all_children_region w b n R Hh x Hx) as (l & E & _ & M). eauto.
    - exists (children_of w x). split; [reflexivity|]. tauto.
  Qed.

  Lemma below_inr recurse x y : inr b n x -> below w recurse x y -> inr b n y.
  Proof.
    intros Hx H. destruct recurse; cbn [below] in H.
    - apply (descendant_gt w b n R) in H; auto. destruct Hx. unfold inr. lia.
    - apply (children_inr w b n R) in H; auto. destruct Hx. unfold inr. lia.
  Qed.

  Lemma above_inr y x : inr b n x -> above w y x -> inr b n y.
  Proof.
    intros Hx H. apply (ancestor_lt w b n R Hh) in H; auto. destruct Hx. unfold inr. lia.
  Qed.

  Lemma find_objects_inr r : Forall (inr b n) (find_objects w r).
  Proof. apply Forall_forall. intros x Hx. apply find_objects_in in Hx as [Hx _]. auto. Qed.

  Lemma fold_cond_filter (f : nat -> bool) l acc :
    fold_left (fun a x => if f x then set_add w a x else a) l acc = fold_left (set_add w) (filter f l) acc.
  Proof.
    revert acc; induction l as [|x l IH]; intros acc; cbn [fold_left filter]; [reflexivity|].
    rewrite IH. now destruct (f x).
  Qed.

  (** a duplicate-free set of lines *)
  Definition setof (s : list nat) (P : nat -> Prop) : Prop :=
    NoDup s /\ Forall (inr b n) s /\ forall y, In y s <-> P y.

  Lemma setof_sorted s P : setof s P ->
    StronglySorted lt (sorted_objs w s) /\ forall y, In y (sorted_objs w s) <-> P y.
  Proof.
    intros (H1 & H2 & H3). destruct (sorted_objs_facts w b n R s H2 H1) as (S1 & S2).
    split; [exact S1|]. intros y. now rewrite S2, H3.
  Qed.

  Lemma setof_add s P x : setof s P -> inr b n x -> setof (set_add w s x) (fun y => P y \/ y = x).
  Proof.
    intros (H1 & H2 & H3) Hx. destruct (set_add_facts w b n R s x Hx H2 H1) as (A1 & A2 & A3).
    split; [exact A1|]. split; [exact A2|]. intros y. now rewrite A3, H3.
  Qed.

  Lemma setof_adds s P l : setof s P -> Forall (inr b n) l ->
    setof (fold_left (set_add w) l s) (fun y => P y \/ In y l).
  Proof.
    intros (H1 & H2 & H3) Hl. destruct (fold_set_add_facts w b n R l s Hl H2 H1) as (A1 & A2 & A3).
    split; [exact A1|]. split; [exact A2|]. intros y. now rewrite A3, H3.
  Qed.

  Lemma setof_nil : setof [] (fun _ => False).
  Proof. split; [constructor|]. split; [constructor|]. intros y. split; intros []. Qed.

  Lemma setof_iff s P Q : (forall y, P y <-> Q y) -> setof s P -> setof s Q.
  Proof. intros E (H1 & H2 & H3). repeat split; auto; intros H; [apply E, H3|apply H3, E]; auto. Qed.

  Lemma find_children_set r :
    setof (fold_left (fun acc p => set_add w (fold_left (set_add w) (children_of w p) acc) p)
               (find_objects w r) [])
      (fun y => exists p, in_config w r p /\ (y = p \/ In y (children_of w p))).
  Proof.
    assert (G : forall ps s P, Forall (inr b n) ps -> setof s P ->
      setof (fold_left (fun acc p => set_add w (fold_left (set_add w) (children_of w p) acc) p) ps s)
        (fun y => P y \/ exists p, In p ps /\ (y = p \/ In y (children_of w p)))).
    { induction ps as [|p ps IH]; intros s P Hps Hs; cbn [fold_left].
      - eapply setof_iff; [|exact Hs]. intros y. split; [auto|]. intros [H|(p & [] & _)]. exact H.
      - apply Forall_cons_iff in Hps as [Hp Hps].
        eapply setof_iff; [|apply IH; [exact Hps|apply setof_add; [apply setof_adds; [exact Hs|]|exact Hp]]].
        + intros y. cbn beta. split.
          * intros [[[H|H]|H]|(q & H & H')]; auto.
            -- right. exists p. split; [now left|auto].
            -- right. exists p. split; [now left|auto].
            -- right. exists q. split; [now right|auto].
          * intros [H|(q & [<-|H] & H')]; auto.
            -- left. destruct H' as [H'|H']; auto.
            -- right. exists q. auto.
        + apply Forall_forall. intros y Hy. exact (below_inr false p y Hp Hy). }
    eapply setof_iff; [|apply (G _ [] (fun _ => False)); [apply find_objects_inr|apply setof_nil]].
    intros y. cbn beta. split.
    - intros [[]|(p & H & H')]. exists p. now rewrite <- find_objects_in.
    - intros (p & H & H'). right. exists p. now rewrite find_objects_in.
  Qed.

  Lemma fac_set ps s P : Forall (inr b n) ps -> setof s P ->
    exists l, fac_loop w ps s = Ok l /\
      setof l (fun y => P y \/ exists p, In p ps /\ (y = p \/ below w true p y)).
  Proof.
    revert s P; induction ps as [|p ps IH]; intros s P Hps Hs; cbn [fac_loop].
    - exists s. split; [reflexivity|]. eapply setof_iff; [|exact Hs]. intros y. split; [auto|].
      intros [H|(p & [] & _)]. exact H.
    - apply Forall_cons_iff in Hps as [Hp Hps].
      destruct (offspring_ok true p Hp) as (cs & E & M). cbn [offspring] in E. rewrite E. cbn [bind].
      destruct (IH (fold_left (set_add w) cs (set_add w s p)) _ Hps
        (setof_adds _ _ cs (setof_add _ _ p Hs Hp)
           ltac:(apply Forall_forall; intros y Hy; apply M in Hy; eapply below_inr; eauto))) as (l & El & Hl).
      exists l. split; [exact El|]. eapply setof_iff; [|exact Hl]. intros y. cbn beta. rewrite M. split.
      + intros [[[H|H]|H]|(q & H & H')]; auto.
        * right. exists p. split; [now left|auto].
        * right. exists p. split; [now left|auto].
        * right. exists q. split; [now right|auto].
      + intros [H|(q & [<-|H] & H')]; auto.
        * left. destruct H' as [H'|H']; auto.
        * right. exists q. auto.
  Qed.

  Lemma fco_set c recurse ps s P : Forall (inr b n) ps -> setof s P ->
    exists l, fco_loop w c recurse ps s = Ok l /\
      setof l (fun y => P y \/ exists p, In p ps /\ below w recurse p y /\ matches_some c (text_of w y)).
  Proof.
    revert s P; induction ps as [|p ps IH]; intros s P Hps Hs; cbn [fco_loop].
    - exists s. split; [reflexivity|]. eapply setof_iff; [|exact Hs]. intros y. split; [auto|].
      intros [H|(p & [] & _)]. exact H.
    - apply Forall_cons_iff in Hps as [Hp Hps].
      destruct (offspring_ok recurse p Hp) as (cs & E & M). rewrite E. cbn [bind].
      rewrite fold_cond_filter.
      destruct (IH _ _ Hps (setof_adds _ _ (filter (fun x => match_nonempty c (text_of w x)) cs) Hs
           ltac:(apply Forall_forall; intros y Hy; apply filter_In in Hy as [Hy _];
                 apply M in Hy; eapply below_inr; eauto))) as (l & El & Hl).
      exists l. split; [exact El|]. eapply setof_iff; [|exact Hl]. intros y. cbn beta.
      rewrite filter_In, M, match_nonempty_spec. split.
      + intros [[H|H]|(q & H & H')]; auto.
        * right. exists p. split; [now left|auto].
        * right. exists q. split; [now right|auto].
      + intros [H|(q & [<-|H] & H')]; auto. right. exists q. auto.
  Qed.

  Lemma fold_add_once c (f : nat -> bool) l s :
    fold_left (fun a q => if f q then set_add w a c else a) l s
    = fold_left (set_add w) (map (fun _ => c) (filter f l)) s.
  Proof.
    revert s; induction l as [|x l IH]; intros s; cbn [fold_left filter map]; [reflexivity|].
    rewrite IH. now destruct (f x).
  Qed.

  Lemma fcwp_set p cs s P : Forall (inr b n) cs -> setof s P ->
    exists l, fcwp_loop w p cs s = Ok l /\
      setof l (fun y => P y \/ In y cs /\ exists q, above w q y /\ matches p (text_of w q)).
  Proof.
    revert s P; induction cs as [|c cs IH]; intros s P Hcs Hs; cbn [fcwp_loop].
    - exists s. split; [reflexivity|]. eapply setof_iff; [|exact Hs]. intros y. split; [auto|].
      intros [H|([] & _)]. exact H.
    - apply Forall_cons_iff in Hcs as [Hc Hcs].
      destruct (all_parents_region w b n R Hh c Hc) as (ps & E & _ & M). rewrite E. cbn [bind].
      rewrite fold_add_once.
      destruct (IH _ _ Hcs (setof_adds _ _ (map (fun _ => c) (filter (fun q => hits p (text_of w q)) ps)) Hs
           ltac:(apply Forall_forall; intros y Hy; apply in_map_iff in Hy as (z & <- & _); exact Hc)))
        as (l & El & Hl).
      exists l. split; [exact El|]. eapply setof_iff; [|exact Hl]. intros y. cbn beta.
      rewrite in_map_iff. split.
      + intros [[H|(q & <- & H)]|(H & H')]; auto.
        * right. split; [now left|]. apply filter_In in H as [H1 H2]. exists q.
          split; [now apply M|now apply hits_spec].
        * right. split; [now right|auto].
      + intros [H|([<-|H] & q & H1 & H2)]; auto.
        * left. right. exists q. split; [reflexivity|]. apply filter_In.
          split; [now apply M|now apply hits_spec].
        * right. split; [exact H|]. eauto.
  Qed.

  Lemma fb_sib_set r :
    setof (fb_siblings w (find_objects w r))
      (fun y => exists x, in_config w r x /\ (y = x \/ In y (children_of w (parent_of w x)))).
  Proof.
    unfold fb_siblings.
    assert (G : forall ps s P, Forall (inr b n) ps -> setof s P ->
      setof (fold_left (fun acc x => fold_left (set_add w) (children_of w (parent_of w x)) (set_add w acc x)) ps s)
        (fun y => P y \/ exists p, In p ps /\ (y = p \/ In y (children_of w (parent_of w p))))).
    { induction ps as [|p ps IH]; intros s P Hps Hs; cbn [fold_left].
      - eapply setof_iff; [|exact Hs]. intros y. split; [auto|]. intros [H|(p & [] & _)]. exact H.
      - apply Forall_cons_iff in Hps as [Hp Hps].
        eapply setof_iff; [|apply IH; [exact Hps|apply setof_adds; [apply setof_add; [exact Hs|exact Hp]|]]].
        + intros y. cbn beta. split.
          * intros [[[H|H]|H]|(q & H & H')]; auto.
            -- right. exists p. split; [now left|auto].
            -- right. exists p. split; [now left|auto].
            -- right. exists q. split; [now right|auto].
          * intros [H|(q & [<-|H] & H')]; auto.
            -- left. destruct H' as [H'|H']; auto.
            -- right. exists q. auto.
        + apply Forall_forall. intros y Hy. 
          apply (below_inr false (parent_of w p) y); [|exact Hy].
          pose proof (parent_inr w b n R p Hp). destruct Hp. unfold inr. lia. }
    eapply setof_iff; [|apply (G _ [] (fun _ => False)); [apply find_objects_inr|apply setof_nil]].
    intros y. cbn beta. split.
    - intros [[]|(p & H & H')]. exists p. now rewrite <- find_objects_in.
    - intros (p & H & H'). right. exists p. now rewrite find_objects_in.
  Qed.

  Lemma fb_par_set xs s P : Forall (inr b n) xs -> setof s P ->
    exists l, fb_parents w xs s = Ok l /\ setof l (fun y => P y \/ exists x, In x xs /\ above w y x).
  Proof.
    revert s P; induction xs as [|x xs IH]; intros s P Hxs Hs; cbn [fb_parents].
    - exists s. split; [reflexivity|]. eapply setof_iff; [|exact Hs]. intros y. split; [auto|].
      intros [H|(x & [] & _)]. exact H.
    - apply Forall_cons_iff in Hxs as [Hx Hxs].
      destruct (all_parents_region w b n R Hh x Hx) as (ps & E & _ & M). rewrite E. cbn [bind].
      destruct (IH _ _ Hxs (setof_adds _ _ ps Hs
           ltac:(apply Forall_forall; intros y Hy; apply M in Hy; eapply above_inr; eauto))) as (l & El & Hl).
      exists l. split; [exact El|]. eapply setof_iff; [|exact Hl]. intros y. cbn beta. rewrite M. split.
      + intros [[H|H]|(q & H & H')]; auto.
        * right. exists x. split; [now left|auto].
        * right. exists q. split; [now right|auto].
      + intros [H|(q & [<-|H] & H')]; auto. right. exists q. auto.
  Qed.

  Theorem find_children_loaded r :
    StronglySorted lt (find_children_objs w r) /\
    forall y, In y (find_children_objs w r) <->
      exists p, in_config w r p /\ (y = p \/ In y (children_of w p)).
  Proof. apply setof_sorted, find_children_set. Qed.

  Theorem find_all_children_loaded r :
    exists l, find_all_children_objs w r = Ok l /\ StronglySorted lt l /\
    forall y, In y l <-> exists p, in_config w r p /\ (y = p \/ below w true p y).
  Proof.
    unfold find_all_children_objs.
    destruct (fac_set (find_objects w r) [] _ (find_objects_inr r) setof_nil) as (l & E & Hs).
    rewrite E. cbn [rmap bind]. eexists. split; [reflexivity|].
    apply (setof_sorted l). eapply setof_iff; [|exact Hs]. intros y. cbn beta. split.
    - intros [[]|(p & H & H')]. exists p. now rewrite <- find_objects_in.
    - intros (p & H & H'). right. exists p. now rewrite find_objects_in.
  Qed.

  Theorem find_child_objects_loaded p c recurse :
    exists l, find_child_objects w p c recurse = Ok l /\ StronglySorted lt l /\
    forall y, In y l <-> matches_some c (text_of w y) /\ exists x, in_config w p x /\ below w recurse x y.
  Proof.
    unfold find_child_objects.
    destruct (fco_set c recurse (find_objects w p) [] _ (find_objects_inr p) setof_nil) as (l & E & Hs).
    rewrite E. cbn [rmap bind]. eexists. split; [reflexivity|].
    apply (setof_sorted l). eapply setof_iff; [|exact Hs]. intros y. cbn beta. split.
    - intros [[]|(x & H & H' & H'')]. split; [exact H''|]. exists x. now rewrite <- find_objects_in.
    - intros (H'' & x & H & H'). right. exists x. now rewrite find_objects_in.
  Qed.

  Theorem find_children_w_parents_loaded p c :
    exists l, find_children_w_parents_objs w p c = Ok l /\ StronglySorted lt l /\
    forall y, In y l <-> in_config w c y /\ exists q, above w q y /\ matches p (text_of w q).
  Proof.
    unfold find_children_w_parents_objs.
    destruct (fcwp_set p (find_objects w c) [] _ (find_objects_inr c) setof_nil) as (l & E & Hs).
    rewrite E. cbn [rmap bind]. eexists. split; [reflexivity|].
    apply (setof_sorted l). eapply setof_iff; [|exact Hs]. intros y. cbn beta. rewrite find_objects_in. tauto.
  Qed.

  Theorem find_blocks_loaded r :
    exists l, find_blocks_objs w r = Ok l /\ StronglySorted lt l /\
    forall y, In y l <-> exists x s, in_config w r x /\ (s = x \/ In s (children_of w (parent_of w x))) /\
                                     (y = s \/ above w y s).
  Proof.
    unfold find_blocks_objs. pose proof (fb_sib_set r) as S1.
    destruct (fb_par_set (fb_siblings w (find_objects w r)) [] _ (proj1 (proj2 S1)) setof_nil) as (ps & E & S2).
    rewrite E. cbn [bind]. eexists. split; [reflexivity|].
    apply (setof_sorted (fold_left (set_add w) ps (fb_siblings w (find_objects w r)))).
    eapply setof_iff; [|apply setof_adds; [exact S1|apply S2]].
    intros y. cbn beta. destruct S1 as (_ & _ & M1). destruct S2 as (_ & _ & M2). rewrite M2. split.
    - intros [(x & H & H')|[[]|(s & H & H')]].
      + exists x, y. auto.
      + apply M1 in H as (x & H1 & H2). exists x, s. auto.
    - intros (x & s & H1 & H2 & [->|H3]).
      + left. eauto.
      + right. right. exists s. split; [|exact H3]. apply M1. eauto.
  Qed.
End Loaded.

Lemma loaded_conf_inr w b lines : loaded w b lines -> forall x, In x (w_conf w) -> inr b (length lines) x.
Proof.
  intros HL x Hx. destruct (conf_in w b lines HL x Hx) as (i & l & -> & Hl & _).
  apply nth_error_length_lt in Hl. unfold inr. lia.
Qed.

Lemma loaded_conf_sorted w b lines : loaded w b lines -> StronglySorted lt (w_conf w).
Proof.
  intros HL. destruct (loaded_text w b lines HL) as (ks & S & _ & -> & _). now apply map_add_sorted.
Qed.

(** ** find_object_branches *)

Definition step (w : world) (r : regex) (bs : list (list (option nat))) := flat_map (grow w r) bs.

Lemma last_snoc {A} (l : list A) x d : last (l ++ [x]) d = x.
Proof. induction l as [|y l IH]; [reflexivity|]. cbn [app last]. rewrite IH. destruct l; reflexivity. Qed.

Lemma repeat_snoc {A} (x : A) n : repeat x n ++ [x] = repeat x (S n).
Proof. induction n; cbn [repeat app]; [reflexivity|]. now rewrite IHn. Qed.

Lemma fold_flat {A B} (f : A -> B -> list B) ss bs :
  fold_left (fun bs r => flat_map (f r) bs) ss bs
  = flat_map (fun x => fold_left (fun bs r => flat_map (f r) bs) ss [x]) bs.
Proof.
  revert bs; induction ss as [|r ss IH]; intros bs; cbn [fold_left].
  - induction bs as [|x bs IHb]; cbn [flat_map]; [reflexivity|]. now rewrite <- IHb.
  - rewrite IH. induction bs as [|x bs IHb]; cbn [flat_map]; [reflexivity|].
    rewrite flat_map_app, IHb. cbn [flat_map]. rewrite app_nil_r. f_equal. rewrite <- IH. reflexivity.
Qed.

Lemma flat_map_map' {A B C} (f : B -> list C) (g : A -> B) l :
  flat_map f (map g l) = flat_map (fun x => f (g x)) l.
Proof. induction l; cbn; [reflexivity|]. now rewrite IHl. Qed.

Lemma flat_map_single {A B} (f : A -> list B) x : flat_map f [x] = f x.
Proof. cbn. apply app_nil_r. Qed.

Lemma map_flat_map {A B C} (g : B -> C) (f : A -> list B) l :
  map g (flat_map f l) = flat_map (fun x => map g (f x)) l.
Proof. induction l; cbn; [reflexivity|]. now rewrite map_app, IHl. Qed.

Definition grow_all (w : world) (ss : list regex) (bs : list (list (option nat))) :=
  fold_left (fun bs r => flat_map (grow w r) bs) ss bs.

Lemma grow_none w ss pre :
  grow_all w ss [pre ++ [None]] = [pre ++ repeat None (S (length ss))].
Proof.
  revert pre; induction ss as [|r ss IH]; intros pre; unfold grow_all; cbn [fold_left length repeat]; [reflexivity|].
  rewrite flat_map_single. unfold grow at 2. rewrite last_snoc.
  change (grow_all w ss [(pre ++ [None]) ++ [None]] = [pre ++ None :: None :: repeat None (length ss)]).
  rewrite IH. rewrite <- app_assoc. reflexivity.
Qed.

Lemma grow_some w ss pre x :
  grow_all w ss [pre ++ [Some x]] = map (fun row => pre ++ Some x :: row) (rows w (children_of w x) ss).
Proof.
  revert pre x; induction ss as [|r ss IH]; intros pre x; unfold grow_all; cbn [fold_left rows map]; [reflexivity|].
  rewrite flat_map_single. unfold grow at 2. rewrite last_snoc. unfold list_matching.
  destruct (filter (fun y => hits r (text_of w y)) (children_of w x)) as [|y ys] eqn:E.
  - cbn [map]. change (grow_all w ss [(pre ++ [Some x]) ++ [None]]
      = [pre ++ Some x :: repeat None (S (length ss))]).
    rewrite grow_none. now rewrite <- app_assoc.
  - rewrite fold_flat. rewrite map_map, flat_map_map'.
    rewrite map_flat_map. apply flat_map_ext. intros z.
    change (grow_all w ss [(pre ++ [Some x]) ++ [Some z]]
      = map (fun row => pre ++ Some x :: row) (map (cons (Some z)) (rows w (children_of w z) ss))).
    rewrite IH, map_map. apply map_ext. intros row. now rewrite <- app_assoc.
Qed.

Theorem branches_rows w s s' ss :
  find_object_branches w (s :: s' :: ss) = Ok (rows w (w_conf w) (s :: s' :: ss)).
Proof.
  unfold find_object_branches. f_equal.
  change (grow_all w (s' :: ss) (map (fun k => [k]) (list_matching w s (find_objects w s)))
          = rows w (w_conf w) (s :: s' :: ss)).
  remember (s' :: ss) as q eqn:Eq. clear Eq.
  unfold list_matching, find_objects. cbn [rows].
  assert (F : filter (fun x => hits s (text_of w x)) (filter (fun x => hits s (text_of w x)) (w_conf w))
              = filter (fun x => hits s (text_of w x)) (w_conf w)).
  { induction (w_conf w) as [|x l IH]; cbn [filter]; [reflexivity|].
    destruct (hits s (text_of w x)) eqn:E; cbn [filter]; [rewrite E, IH; reflexivity|exact IH]. }
  rewrite F. destruct (filter (fun x => hits s (text_of w x)) (w_conf w)) as [|x xs].
  - cbn [map]. exact (grow_none w q []).
  - unfold grow_all. rewrite fold_flat, map_map, flat_map_map'.
    apply flat_map_ext. intros z. exact (grow_some w q [] z).
Qed.

Lemma rows_branch w specs : forall cands row, In row (rows w cands specs) <-> branch w cands specs row.
Proof.
  induction specs as [|r rs IH]; intros cands row; cbn [rows].
  - split; [intros [<-|[]]; constructor|]. intros H. inversion H. now left.
  - destruct (filter (fun x => hits r (text_of w x)) cands) as [|x xs] eqn:E.
    + assert (N : forall y, In y cands -> ~ matches r (text_of w y)).
      { intros y Hy M. apply hits_spec in M.
        assert (In y (filter (fun x => hits r (text_of w x)) cands)) by (apply filter_In; auto).
        rewrite E in H. destruct H. }
      split.
      * intros [<-|[]]. now constructor.
      * intros H. inversion H as [|? ? ? y row' Hy M HB|]; subst; [|now left]. exfalso. exact (N y Hy M).
    + split.
      * intros H. apply in_flat_map in H as (y & Hy & H). apply in_map_iff in H as (row' & <- & Hr).
        rewrite <- E in Hy. apply filter_In in Hy as [Hy M]. apply hits_spec in M.
        apply br_match; auto. now apply IH.
      * intros H. inversion H as [|? ? ? y row' Hy M HB|? ? ? N]; subst.
        -- apply in_flat_map. exists y. split.
           ++ rewrite <- E. apply filter_In. split; [exact Hy|now apply hits_spec].
           ++ apply in_map. now apply IH.
        -- exfalso. assert (In x (filter (fun x => hits r (text_of w x)) cands)) by (rewrite E; now left).
           apply filter_In in H0 as [H0 H1]. apply hits_spec in H1. exact (N x H0 H1).
Qed.

Lemma branch_length w cands specs row : branch w cands specs row -> length row = length specs.
Proof.
  induction 1; cbn [length]; auto. rewrite repeat_length. reflexivity.
Qed.

(** ** First matches *)

Lemma first_match_spec {T} (conv : option str -> result T) dflt r g ts :
  (exists pre t m post, ts = pre ++ t :: post /\ (forall u, In u pre -> rx_find r u = None) /\
     rx_find r t = Some m /\ first_match conv dflt r g ts = (do v <- group g m; conv v)) \/
  ((forall u, In u ts -> rx_find r u = None) /\ first_match conv dflt r g ts = dflt).
Proof.
  induction ts as [|t ts IH]; cbn [first_match].
  - right. split; [intros ? []|reflexivity].
  - destruct (rx_find r t) as [m|] eqn:E.
    + left. exists [], t, m, ts. repeat split; auto. intros ? [].
    + destruct IH as [(pre & t' & m & post & -> & H1 & H2 & H3)|[H1 H2]].
      * left. exists (t :: pre), t', m, post. repeat split; auto.
        intros u [<-|Hu]; auto.
      * right. split; [|exact H2]. intros u [<-|Hu]; auto.
Qed.

Lemma first_found_spec r ts :
  (exists pre t m post, ts = pre ++ t :: post /\ (forall u, In u pre -> rx_find r u = None) /\
     rx_find r t = Some m /\ first_found r ts = Some m) \/
  ((forall u, In u ts -> rx_find r u = None) /\ first_found r ts = None).
Proof.
  induction ts as [|t ts IH]; cbn [first_found].
  - right. split; [intros ? []|reflexivity].
  - destruct (rx_find r t) as [m|] eqn:E.
    + left. exists [], t, m, ts. repeat split; auto. intros ? [].
    + destruct IH as [(pre & t' & m & post & -> & H1 & H2 & H3)|[H1 H2]].
      * left. exists (t :: pre), t', m, post. repeat split; auto.
        intros u [<-|Hu]; auto.
      * right. split; [|exact H2]. intros u [<-|Hu]; auto.
Qed.
