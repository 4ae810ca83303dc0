(** Ancestors and descendants of objects in a parsed configuration. *)
From Coq Require Import Ascii String Arith NArith ZArith Bool List Lia Sorting.Sorted.
From Verif Require Import PyStr PyStrFacts PyBase PyBaseFacts CfgModel TreeSpec TreeProofs TreePost.
Import ListNotations.
Local Open Scope nat_scope.

(** ** Keys *)

Lemma show_Z_nat n : show_Z (Z.of_nat n) = show_N (N.of_nat n).
Proof. destruct n; [reflexivity|]. cbn. f_equal. Qed.

Lemma key_inj l1 l2 i j :
  cl_linenum l1 = Z.of_nat i -> cl_linenum l2 = Z.of_nat j ->
  no_digit_start (cl_text l1) = true -> no_digit_start (cl_text l2) = true ->
  key l1 = key l2 -> i = j /\ cl_text l1 = cl_text l2.
Proof.
  unfold key. intros -> -> H1 H2 E. rewrite !show_Z_nat in E.
  apply digits_prefix_unique in E as [E1 E2].
  - apply show_N_inj in E1. split; [lia|exact E2].
  - apply show_N_digits.
  - apply show_N_digits.
  - unfold no_digit_start in H1. destruct (cl_text l1); [exact I|]. now apply negb_true_iff.
  - unfold no_digit_start in H2. destruct (cl_text l2); [exact I|]. now apply negb_true_iff.
Qed.

Lemma lt_sorted_unique l m :
  StronglySorted lt l -> StronglySorted lt m -> (forall x, In x l <-> In x m) -> l = m.
Proof.
  intros Hl Hm. apply (strict_sorted_unique Z.of_nat).
  - eapply StronglySorted_impl_in; [|exact Hl]. unfold lt_key. intros; lia.
  - eapply StronglySorted_impl_in; [|exact Hm]. unfold lt_key. intros; lia.
Qed.

Lemma ssorted_app (l m : list nat) :
  StronglySorted lt l -> StronglySorted lt m -> (forall x y, In x l -> In y m -> x < y) ->
  StronglySorted lt (l ++ m).
Proof.
  induction 1 as [|x l Hs IH Hf]; intros Hm H; [exact Hm|].
  cbn. constructor.
  - apply IH; auto. intros; apply H; auto. now right.
  - apply Forall_app. split; [exact Hf|]. apply Forall_forall. intros y Hy. apply H; auto. now left.
Qed.

Lemma ssorted_nodup (l : list nat) : StronglySorted lt l -> NoDup l.
Proof.
  induction 1 as [|x l Hs IH Hf]; constructor; [|exact IH].
  intros Hx. rewrite Forall_forall in Hf. specialize (Hf _ Hx). lia.
Qed.

(** ** A block of [n] consecutive objects made by one parse *)

Section Region.
  Variables (w : world) (b n : nat).

  Definition good_obj (i : nat) (l : cfgline) : Prop :=
    cl_linenum l = Z.of_nat i /\ b <= cl_parent l <= b + i /\
    Forall (fun c => b + i < c < b + n) (cl_children l) /\
    no_digit_start (cl_text l) = true.

  Definition region : Prop := forall i, i < n -> exists l, obj w (b + i) = Some l /\ good_obj i l.

  Hypothesis R : region.

  Definition inr (x : nat) : Prop := b <= x < b + n.

  Lemma inr_obj x : inr x -> exists l, obj w x = Some l /\ good_obj (x - b) l.
  Proof.
    intros [H1 H2]. destruct (R (x - b)) as (l & Hl & G); [lia|].
    replace (b + (x - b)) with x in Hl by lia. eauto.
  Qed.

  Lemma region_eqb x y : inr x -> inr y -> obj_eqb w x y = (x =? y).
  Proof.
    intros Hx Hy. unfold obj_eqb, key_of.
    destruct (inr_obj x Hx) as (lx & Ex & Gx). destruct (inr_obj y Hy) as (ly & Ey & Gy).
    rewrite Ex, Ey. destruct (x =? y) eqn:E.
    - apply Nat.eqb_eq in E. subst y. rewrite Ex in Ey. injection Ey as <-. apply str_eqb_refl.
    - apply str_eqb_neq. intros K. apply Nat.eqb_neq in E.
      destruct Gx as (N1 & _ & _ & D1). destruct Gy as (N2 & _ & _ & D2).
      destruct (key_inj _ _ _ _ N1 N2 D1 D2 K) as [K1 _]. destruct Hx, Hy. lia.
  Qed.

  Lemma region_linenum x : inr x -> linenum_of w x = Z.of_nat (x - b).
  Proof.
    intros Hx. unfold linenum_of. destruct (inr_obj x Hx) as (lx & Ex & G & _). now rewrite Ex.
  Qed.

  Lemma set_add_region s x :
    inr x -> Forall inr s ->
    set_add w s x = if existsb (Nat.eqb x) s then s else s ++ [x].
  Proof.
    intros Hx Hs. unfold set_add. replace (existsb (obj_eqb w x) s) with (existsb (Nat.eqb x) s); [reflexivity|].
    induction Hs as [|y s Hy Hs IH]; cbn; [reflexivity|]. rewrite IH. now rewrite region_eqb.
  Qed.

  Lemma set_add_facts s x :
    inr x -> Forall inr s -> NoDup s ->
    NoDup (set_add w s x) /\ Forall inr (set_add w s x) /\
    (forall y, In y (set_add w s x) <-> In y s \/ y = x).
  Proof.
    intros Hx Hs Hn. rewrite set_add_region by assumption.
    destruct (existsb (Nat.eqb x) s) eqn:E.
    - apply existsb_exists in E as (y & Hy & E). apply Nat.eqb_eq in E. subst y.
      repeat split; auto. intros [H|H]; subst; auto.
    - assert (Hnx : ~ In x s).
      { intros H. rewrite <- not_true_iff_false in E. apply E. apply existsb_exists.
        exists x. split; [exact H|]. apply Nat.eqb_refl. }
      repeat split.
      + apply NoDup_app_snoc || idtac. clear - Hn Hnx. induction s as [|y s IH]; cbn.
        * repeat constructor. intros [].
        * inversion Hn; subst. constructor.
          -- rewrite in_app_iff. intros [H|[H|[]]]; [contradiction|]. subst. apply Hnx. now left.
          -- apply IH; auto. intros H. apply Hnx. now right.
      + apply Forall_app. auto.
      + rewrite in_app_iff. cbn. intros [H|[H|[]]]; auto.
      + rewrite in_app_iff. cbn. intros [H|H]; auto.
  Qed.

  Lemma fold_set_add_facts l s :
    Forall inr l -> Forall inr s -> NoDup s ->
    NoDup (fold_left (set_add w) l s) /\ Forall inr (fold_left (set_add w) l s) /\
    (forall y, In y (fold_left (set_add w) l s) <-> In y s \/ In y l).
  Proof.
    intros Hl. revert s. induction Hl as [|x l Hx Hl IH]; intros s Hs Hn; cbn [fold_left].
    - repeat split; auto. intros [H|[]]; auto.
    - destruct (set_add_facts s x Hx Hs Hn) as (H1 & H2 & H3).
      destruct (IH _ H2 H1) as (H4 & H5 & H6). repeat split; auto.
      + intros H. apply H6 in H as [H|H]; [apply H3 in H as [H|H]|]; subst; cbn; auto.
      + intros H. apply H6. rewrite H3. cbn in H. intuition (subst; auto).
  Qed.

  Lemma sorted_objs_facts l :
    Forall inr l -> NoDup l ->
    StronglySorted lt (sorted_objs w l) /\ (forall y, In y (sorted_objs w l) <-> In y l).
  Proof.
    intros Hl Hn. unfold sorted_objs. split; [|intros; apply sort_by_in].
    rewrite Forall_forall in Hl.
    assert (Hs : StronglySorted (lt_key (linenum_of w)) (sort_by (linenum_of w) l)).
    { apply sorted_strict; [apply sort_by_sorted|].
      apply NoDup_map_NoDup_ForallPairs || idtac.
      assert (Hi : forall x y, In x (sort_by (linenum_of w) l) -> In y (sort_by (linenum_of w) l) ->
                   linenum_of w x = linenum_of w y -> x = y).
      { intros x y Hx Hy. apply sort_by_in in Hx. apply sort_by_in in Hy.
        pose proof (Hl _ Hx) as I1. pose proof (Hl _ Hy) as I2. rewrite !region_linenum by auto.
        destruct I1, I2. intros E. lia. }
      assert (Hns : NoDup (sort_by (linenum_of w) l)) by now apply sort_by_nodup.
      revert Hi Hns. generalize (sort_by (linenum_of w) l) as m. clear.
      induction m as [|x m IH]; intros Hi Hn; cbn; constructor; inversion Hn; subst.
      - intros H. apply in_map_iff in H as (y & E & Hy). 
        rewrite (Hi x y) in H1; auto; [now left|now right].
      - apply IH; auto. intros; apply Hi; auto; now right. }
    eapply StronglySorted_impl_in; [|exact Hs]. intros x y Hx Hy.
    apply sort_by_in in Hx. apply sort_by_in in Hy. unfold lt_key.
    rewrite !region_linenum by auto. destruct (Hl _ Hx), (Hl _ Hy). lia.
  Qed.

  Lemma children_inr x c : inr x -> In c (children_of w x) -> x < c < b + n.
  Proof.
    intros Hx. unfold children_of. destruct (inr_obj x Hx) as (l & E & _ & _ & Hc & _).
    rewrite E. intros H. rewrite Forall_forall in Hc. specialize (Hc _ H). destruct Hx. lia.
  Qed.

  Lemma parent_inr x : inr x -> b <= parent_of w x <= x.
  Proof.
    intros Hx. unfold parent_of. destruct (inr_obj x Hx) as (l & E & _ & Hp & _).
    rewrite E. destruct Hx. lia.
  Qed.

  Lemma descendant_gt x y : descendant (children_of w) x y -> inr x -> x < y < b + n.
  Proof.
    induction 1 as [x y H|x y z H _ IH]; intros Hx.
    - eapply children_inr; eauto.
    - apply children_inr in H; auto. destruct Hx. assert (inr y) as Hy by (unfold inr; lia).
      specialize (IH Hy). lia.
  Qed.

  Lemma all_children_f_spec m x :
    inr x -> b + n - x <= m ->
    exists l, all_children_f m w x = Ok l /\ StronglySorted lt l /\
      forall y, In y l <-> descendant (children_of w) x y.
  Proof.
    revert x; induction m as [|m IH]; intros x Hx Hm; [destruct Hx; lia|].
    cbn [all_children_f]. destruct (inr_obj x Hx) as (l & E & _ & _ & Hc & _). rewrite E.
    assert (F : forall cs s, Forall (fun c => x < c < b + n) cs -> Forall inr s -> NoDup s ->
      exists r,
        fold_left (fun acc c => do s <- acc; do sub <- all_children_f m w c;
                     Ok (fold_left (set_add w) sub (set_add w s c))) cs (Ok s) = Ok r /\
        NoDup r /\ Forall inr r /\
        forall y, In y r <-> In y s \/ exists c, In c cs /\ (y = c \/ descendant (children_of w) c y)).
    { induction cs as [|c cs IHc]; intros s Hcs Hs Hn; cbn [fold_left].
      - exists s. split; [reflexivity|]. split; [exact Hn|]. split; [exact Hs|].
        intros y. split; [now left|]. intros [H|(c & [] & _)]. exact H.
      - apply Forall_cons_iff in Hcs as [Hcx Hcs]. destruct Hx as [Hx1 Hx2].
        assert (Hci : inr c) by (unfold inr; lia).
        destruct (IH c Hci) as (sub & Es & Hss & Hsub); [lia|].
        unfold bind at 2. rewrite Es. unfold bind.
        assert (Hsubi : Forall inr sub).
        { apply Forall_forall. intros y Hy. apply Hsub in Hy. apply descendant_gt in Hy; auto.
          unfold inr; lia. }
        destruct (set_add_facts s c Hci Hs Hn) as (A1 & A2 & A3).
        destruct (fold_set_add_facts sub _ Hsubi A2 A1) as (B1 & B2 & B3).
        destruct (IHc _ Hcs B2 B1) as (r & Er & R1 & R2 & R3).
        unfold bind in Er.
        exists r. split; [exact Er|]. split; [exact R1|]. split; [exact R2|].
        intros y. rewrite R3, B3, A3, Hsub. split.
        + intros [[[H|H]|H]|(c' & Hc' & H)]; auto.
          * right. exists c. split; [now left|]. now left.
          * right. exists c. split; [now left|]. now right.
          * right. exists c'. split; [now right|]. exact H.
        + intros [H|(c' & [->|Hc'] & H)]; auto.
          * destruct H as [->|H]; auto.
          * right. eauto. }
    assert (Hc' : Forall (fun c => x < c < b + n) (cl_children l)).
    { eapply Forall_impl; [|exact Hc]. cbn. destruct Hx. intros; lia. }
    destruct (F (cl_children l) [] Hc') as (r & Er & R1 & R2 & R3); [constructor|constructor|].
    rewrite Er. cbn [rmap]. eexists. split; [reflexivity|].
    destruct (sorted_objs_facts r R2 R1) as [S1 S2]. split; [exact S1|].
    intros y. rewrite S2, R3.
    assert (Ek : children_of w x = cl_children l) by (unfold children_of; now rewrite E).
    split.
    - intros [[]|(c & Hcc & [->|H])].
      + apply desc_child. now rewrite Ek.
      + eapply desc_step; [|exact H]. now rewrite Ek.
    - intros H. right. destruct H as [x y H|x y z H H']; rewrite Ek in H; eauto.
  Qed.

  Hypothesis Hheap : b + n <= length (w_heap w).

  Theorem all_children_region x :
    inr x ->
    exists l, all_children w x = Ok l /\ StronglySorted lt l /\
      forall y, In y l <-> descendant (children_of w) x y.
  Proof. intros Hx. apply all_children_f_spec; auto. destruct Hx; lia. Qed.

  (** *** Parents *)

  Definition parent_rel (y x : nat) : Prop := parent_of w y = x.

  Lemma ancestor_lt x y : ancestor parent_rel x y -> inr y -> b <= x < y.
  Proof.
    induction 1 as [x y H Hne|x y z H Hne _ IH]; intros Hy; unfold parent_rel in H.
    - pose proof (parent_inr y Hy). lia.
    - pose proof (parent_inr z Hy). assert (inr y) as Hyy by (destruct Hy; unfold inr; lia).
      specialize (IH Hyy). lia.
  Qed.

  Lemma parents_walk_spec m x acc :
    inr x -> x - b < m -> Forall inr acc -> NoDup acc ->
    exists l, parents_walk m w x acc = Ok l /\ Forall inr l /\ NoDup l /\
      forall y, In y l <-> In y acc \/ ancestor parent_rel y x.
  Proof.
    revert x acc; induction m as [|m IH]; intros x acc Hx Hm Ha Hn; [lia|].
    cbn [parents_walk]. destruct (inr_obj x Hx) as (l & E & _ & Hp & _). rewrite E.
    assert (Ep : parent_of w x = cl_parent l) by (unfold parent_of; now rewrite E).
    assert (Hpi : inr (cl_parent l)) by (destruct Hx; unfold inr; lia).
    rewrite region_eqb by assumption.
    destruct (cl_parent l =? x) eqn:Eq.
    - apply Nat.eqb_eq in Eq. exists acc. repeat split; auto.
      intros [H|H]; auto. exfalso.
      destruct H as [y x H Hne|y z x H Hne H']; unfold parent_rel in H; congruence.
    - apply Nat.eqb_neq in Eq.
      destruct (set_add_facts acc (cl_parent l) Hpi Ha Hn) as (A1 & A2 & A3).
      destruct (IH (cl_parent l) (set_add w acc (cl_parent l))) as (r & Er & R1 & R2 & R3); auto.
      { destruct Hx; lia. }
      exists r. repeat split; auto.
      + intros H. apply R3 in H as [H|H]; [apply A3 in H as [H|H]|]; auto; right.
        * subst y. apply anc_parent; [exact Ep|exact Eq].
        * eapply anc_step; [|exact Eq|exact H]. exact Ep.
      + intros H. apply R3. rewrite A3. destruct H as [H|H]; auto.
        destruct H as [y x H Hne|y z x H Hne H']; unfold parent_rel in H.
        * left. right. congruence.
        * right. congruence.
  Qed.

  Theorem all_parents_region x :
    inr x ->
    exists l, all_parents w x = Ok l /\ StronglySorted lt l /\
      forall y, In y l <-> ancestor parent_rel y x.
  Proof.
    intros Hx. unfold all_parents.
    destruct (parents_walk_spec (S (length (w_heap w))) x []) as (r & Er & R1 & R2 & R3);
      [exact Hx| |constructor|constructor|].
    { destruct Hx; lia. }
    rewrite Er. cbn [rmap]. eexists. split; [reflexivity|].
    destruct (sorted_objs_facts r R1 R2) as [S1 S2]. split; [exact S1|].
    intros y. rewrite S2, R3. cbn. tauto.
  Qed.

  (** *** Duality, when parent and child links agree *)

  Definition links_agree : Prop :=
    forall x y, inr x -> inr y -> (In y (children_of w x) <-> parent_of w y = x /\ y <> x).

  Lemma descendant_snoc (kids : nat -> list nat) x y z :
    descendant kids x y -> In z (kids y) -> descendant kids x z.
  Proof.
    induction 1 as [x y H|x y y' H _ IH]; intros Hz.
    - eapply desc_step; [exact H|]. now constructor.
    - eapply desc_step; [exact H|]. auto.
  Qed.

  Lemma ancestor_cons (rel : nat -> nat -> Prop) x y z :
    rel y x -> x <> y -> ancestor rel y z -> ancestor rel x z.
  Proof.
    intros H Hne. induction 1 as [y z H1 H2|y z' z H1 H2 H3 IH].
    - eapply anc_step; eauto. now constructor.
    - eapply anc_step; eauto.
  Qed.

  Theorem duality x y :
    links_agree -> inr x -> inr y ->
    (descendant (children_of w) x y <-> ancestor parent_rel x y).
  Proof.
    intros LA Hx Hy. split.
    - intros H. revert Hx. induction H as [x y H|x y z H H' IH]; intros Hx.
      + apply LA in H as [H1 H2]; auto. constructor; auto.
      + assert (Hyy : inr y) by (apply children_inr in H; [destruct Hx; unfold inr; lia|assumption]).
        apply LA in H as [H1 H2]; auto. eapply ancestor_cons; [exact H1|auto|]. auto.
    - intros H. revert Hy. induction H as [x y H Hne|x y z H Hne H' IH]; intros Hy; unfold parent_rel in H.
      + constructor. apply LA; auto.
      + assert (Hyy : inr y).
        { pose proof (parent_inr z Hy). destruct Hy. unfold inr. lia. }
        eapply descendant_snoc; [apply IH; auto|]. apply LA; auto.
  Qed.

  (** *** lineage, geneology *)

  Theorem geneology_region x :
    inr x ->
    exists l, geneology w x = Ok l /\ StronglySorted lt l /\
      (forall y, In y l <-> y = x \/ ancestor parent_rel y x) /\
      exists ps, all_parents w x = Ok ps /\ l = ps ++ [x].
  Proof.
    intros Hx. destruct (all_parents_region x Hx) as (ps & E & S & M).
    assert (Hps : Forall inr ps).
    { apply Forall_forall. intros y Hy. apply M in Hy. apply ancestor_lt in Hy; auto.
      destruct Hx; unfold inr; lia. }
    assert (Es : sorted_objs w ps = ps).
    { destruct (sorted_objs_facts ps Hps) as [S1 S2]; [now apply ssorted_nodup|].
      now apply lt_sorted_unique. }
    unfold geneology, bind. rewrite E, Es. eexists. split; [reflexivity|]. split.
    - apply ssorted_app; auto; [repeat constructor|]. intros y z Hy [<-|[]].
      apply M in Hy. apply ancestor_lt in Hy; auto. lia.
    - split; [|eauto]. intros y. rewrite in_app_iff, M. cbn. split; [intros [H|[H|[]]]; auto|intros [H|H]; auto].
  Qed.

  Theorem lineage_region x :
    inr x ->
    exists ps cs, all_parents w x = Ok ps /\ all_children w x = Ok cs /\
      lineage w x = Ok (ps ++ [x] ++ cs) /\ StronglySorted lt (ps ++ [x] ++ cs).
  Proof.
    intros Hx. destruct (all_parents_region x Hx) as (ps & E & S & M).
    destruct (all_children_region x Hx) as (cs & E' & S' & M').
    exists ps, cs. split; [exact E|]. split; [exact E'|].
    assert (Hsort : StronglySorted lt (ps ++ [x] ++ cs)).
    { apply ssorted_app; auto.
      - apply ssorted_app; auto; [repeat constructor|]. intros y z [<-|[]] Hz.
        apply M' in Hz. apply descendant_gt in Hz; auto. lia.
      - intros y z Hy Hz. apply M in Hy. apply ancestor_lt in Hy; auto.
        cbn in Hz. destruct Hz as [<-|Hz]; [lia|].
        apply M' in Hz. apply descendant_gt in Hz; auto. lia. }
    split; [|exact Hsort].
    unfold lineage, bind. rewrite E, E'. f_equal.
    assert (Hin : Forall inr (ps ++ [x] ++ cs)).
    { apply Forall_forall. intros y Hy. destruct Hx as [Hx1 Hx2].
      rewrite !in_app_iff in Hy. destruct Hy as [Hy|[[<-|[]]|Hy]]; [| split; assumption |].
      - apply M in Hy. apply ancestor_lt in Hy; [|split; auto]. unfold inr; lia.
      - apply M' in Hy. apply descendant_gt in Hy; [|split; auto]. unfold inr; lia. }
    assert (G : forall l, StronglySorted lt l -> Forall inr l -> sorted_objs w l = l).
    { intros l Hl Hi. destruct (sorted_objs_facts l Hi) as [S1 S2]; [now apply ssorted_nodup|].
      now apply lt_sorted_unique. }
    destruct (children_of w x) as [|c t] eqn:Ec.
    - assert (cs = []).
      { destruct cs as [|y cs]; [reflexivity|]. exfalso.
        assert (H : descendant (children_of w) x y) by (apply M'; now left).
        destruct H as [x y H|x y z H]; rewrite Ec in H; destruct H. }
      subst cs. cbn [app] in *. rewrite ?app_nil_r in *. now apply G.
    - now apply G.
  Qed.
End Region.
