(** Proofs about modifications. *)
From Coq Require Import Ascii String Arith NArith ZArith Bool List Lia Sorting.Sorted.
From Verif Require Import PyStr PyStrFacts PyBase PyBaseFacts CfgModel TreeSpec BraceSpec WorldSpec
  TreeProofs TreePost TreeRel TreeWorld TreeBanner TreeFull CommitProofs CommitMain TreeMain FamilyProofs
  SearchModel SearchSpec SearchProofs MutModel MutSpec.
Import ListNotations.
Local Open Scope nat_scope.

(** ** Renumbering *)

Lemma renumber_length i conf h : length (renumber i conf h) = length h.
Proof. revert i h; induction conf as [|x c IH]; intros; cbn; [reflexivity|]. now rewrite IH, upd_length. Qed.

Lemma renumber_other i conf h x : ~ In x conf -> nth_error (renumber i conf h) x = nth_error h x.
Proof.
  revert i h; induction conf as [|y c IH]; intros i h Hx; cbn; [reflexivity|].
  rewrite IH by (intros H; apply Hx; now right). apply upd_nth_other.
  intros ->. apply Hx. now left.
Qed.

Lemma set_linenum_twice a b l : set_linenum a (set_linenum b l) = set_linenum a l.
Proof. reflexivity. Qed.

Lemma renumber_some i conf h x l :
  nth_error h x = Some l -> exists z, nth_error (renumber i conf h) x = Some (set_linenum z l).
Proof.
  revert i h l; induction conf as [|y c IH]; intros i h l Hx; cbn [renumber].
  - exists (cl_linenum l). now destruct l.
  - destruct (Nat.eq_dec y x) as [->|Hne].
    + destruct (IH (S i) (upd h x (set_linenum (Z.of_nat i))) (set_linenum (Z.of_nat i) l)) as (z & Hz).
      { rewrite upd_nth_same, Hx. reflexivity. }
      exists z. rewrite Hz. reflexivity.
    + apply IH. rewrite upd_nth_other; auto.
Qed.

Lemma renumber_pos i conf h k x l :
  NoDup conf -> nth_error conf k = Some x -> nth_error h x = Some l ->
  nth_error (renumber i conf h) x = Some (set_linenum (Z.of_nat (i + k)) l).
Proof.
  revert i h k l; induction conf as [|y c IH]; intros i h k l Hn Hk Hx; [destruct k; discriminate|].
  inversion Hn as [|? ? Hy Hc]; subst. cbn [renumber]. destruct k as [|k]; cbn [nth_error] in Hk.
  - injection Hk as ->. rewrite renumber_other by assumption. rewrite upd_nth_same, Hx, Nat.add_0_r. reflexivity.
  - replace (i + S k) with (S i + k) by lia. apply IH; auto.
    rewrite upd_nth_other; auto. intros ->. apply nth_error_In in Hk. contradiction.
Qed.

Lemma same_line_refl l : same_line l l.
Proof. unfold same_line. tauto. Qed.
Lemma same_line_set z l : same_line l (set_linenum z l).
Proof. unfold same_line. cbn. tauto. Qed.
Lemma same_line_trans a b c : same_line a b -> same_line b c -> same_line a c.
Proof. unfold same_line. intuition congruence. Qed.

Lemma objects_kept_refl w : objects_kept w w.
Proof. split; [reflexivity|]. intros x l H. exists l. split; [exact H|apply same_line_refl]. Qed.
Lemma objects_kept_trans a b c : objects_kept a b -> objects_kept b c -> objects_kept a c.
Proof.
  intros (O1 & H1) (O2 & H2). split; [congruence|]. intros x l Hx.
  destruct (H1 x l Hx) as (l1 & E1 & S1). destruct (H2 x l1 E1) as (l2 & E2 & S2).
  exists l2. split; [exact E2|]. eapply same_line_trans; eauto.
Qed.

Lemma reassign_kept w : objects_kept w (reassign_linenums w).
Proof.
  split; [reflexivity|]. intros x l Hx. unfold reassign_linenums, obj, set_heap. cbn [w_heap].
  destruct (renumber_some 0 (w_conf w) (w_heap w) x l Hx) as (z & Hz).
  exists (set_linenum z l). split; [exact Hz|]. apply same_line_set.
Qed.

Lemma reassign_none w x : obj w x = None -> obj (reassign_linenums w) x = None.
Proof.
  unfold obj, reassign_linenums, set_heap. cbn [w_heap]. rewrite !nth_error_None, renumber_length. auto.
Qed.

(** texts, children, parents and ownership are untouched *)
Lemma reassign_text w x : text_of (reassign_linenums w) x = text_of w x.
Proof.
  unfold text_of. destruct (obj w x) as [l|] eqn:E.
  - destruct (proj2 (reassign_kept w) x l E) as (l' & E' & S). rewrite E'. apply S.
  - now rewrite (reassign_none w x E).
Qed.
Lemma reassign_children w x : children_of (reassign_linenums w) x = children_of w x.
Proof.
  unfold children_of. destruct (obj w x) as [l|] eqn:E.
  - destruct (proj2 (reassign_kept w) x l E) as (l' & E' & S). rewrite E'. apply S.
  - now rewrite (reassign_none w x E).
Qed.
Lemma reassign_parent w x : parent_of (reassign_linenums w) x = parent_of w x.
Proof.
  unfold parent_of. destruct (obj w x) as [l|] eqn:E.
  - destruct (proj2 (reassign_kept w) x l E) as (l' & E' & S). rewrite E'. apply S.
  - now rewrite (reassign_none w x E).
Qed.
Lemma reassign_indent w x : indent_of (reassign_linenums w) x = indent_of w x.
Proof.
  unfold indent_of. destruct (obj w x) as [l|] eqn:E.
  - destruct (proj2 (reassign_kept w) x l E) as (l' & E' & S). rewrite E'. apply S.
  - now rewrite (reassign_none w x E).
Qed.
Lemma reassign_owned w x : owned (reassign_linenums w) x = owned w x.
Proof.
  unfold owned. destruct (obj w x) as [l|] eqn:E.
  - destruct (proj2 (reassign_kept w) x l E) as (l' & E' & S). rewrite E'. apply S.
  - now rewrite (reassign_none w x E).
Qed.

Lemma reassign_numbered w :
  NoDup (w_conf w) -> (forall x, In x (w_conf w) -> exists l, obj w x = Some l) ->
  numbered (reassign_linenums w).
Proof.
  intros Hn Hv i x Hi. unfold reassign_linenums, set_heap in Hi. cbn [w_conf] in Hi.
  destruct (Hv x) as (l & Hl); [eapply nth_error_In; eauto|].
  exists (set_linenum (Z.of_nat i) l). split; [|reflexivity].
  unfold obj, reassign_linenums, set_heap. cbn [w_heap]. exact (renumber_pos 0 _ _ _ _ _ Hn Hi Hl).
Qed.

Lemma numbered_nodup w : numbered w -> NoDup (w_conf w).
Proof.
  intros H. apply NoDup_nth_error. intros i j Hi E.
  destruct (nth_error_lt_some (w_conf w) i Hi) as (x & Hx). rewrite Hx in E. symmetry in E.
  destruct (H i x Hx) as (l & E1 & N1). destruct (H j x E) as (l' & E2 & N2).
  rewrite E1 in E2. injection E2 as <-. lia.
Qed.

Lemma numbered_obj w x : numbered w -> In x (w_conf w) -> exists l, obj w x = Some l.
Proof. intros H Hx. apply In_nth_error in Hx as (i & Hi). destruct (H i x Hi) as (l & E & _). eauto. Qed.

Lemma ssorted_snoc (l : list nat) x :
  StronglySorted lt (l ++ [x]) -> StronglySorted lt l /\ forall y, In y l -> y < x.
Proof.
  induction l as [|z l IH]; cbn [app]; intros H.
  - split; [constructor|intros ? []].
  - inversion H as [|? ? Hs Hf]; subst. destruct (IH Hs) as [H1 H2]. rewrite Forall_app in Hf. split.
    + constructor; [exact H1|apply Hf].
    + intros y [<-|Hy]; [|auto]. destruct Hf as [_ Hf]. now inversion Hf.
Qed.

(** ** Descendants in an edited configuration *)

Section Editable.
  Variable w : world.
  Hypothesis HN : numbered w.
  Hypothesis HD : no_digit_lines w.
  Hypothesis HC : children_later w.

  Let live (x : nat) : Prop := In x (w_conf w).

  Lemma live_eqb x y : live x -> live y -> obj_eqb w x y = (x =? y).
  Proof.
    intros Hx Hy. pose proof (HD x Hx) as Dx. pose proof (HD y Hy) as Dy.
    destruct (Nat.eqb_spec x y) as [->|Hne]; [apply str_eqb_refl|].
    unfold obj_eqb, key_of. unfold text_of in Dx, Dy.
    apply In_nth_error in Hx as (i & Hi). apply In_nth_error in Hy as (j & Hj).
    destruct (HN i x Hi) as (lx & Ex & Nx). destruct (HN j y Hj) as (ly & Ey & Ny).
    rewrite Ex, Ey in *. apply str_eqb_neq. intros K.
    destruct (key_inj _ _ _ _ Nx Ny Dx Dy K) as [-> _]. rewrite Hi in Hj. congruence.
  Qed.

  Lemma live_set_add s x :
    live x -> Forall live s -> NoDup s ->
    NoDup (set_add w s x) /\ Forall live (set_add w s x) /\
    (forall y, In y (set_add w s x) <-> In y s \/ y = x).
  Proof.
    intros Hx Hs Hn. unfold set_add.
    assert (E : existsb (obj_eqb w x) s = true <-> In x s).
    { rewrite existsb_exists. rewrite Forall_forall in Hs. split.
      - intros (y & Hy & Hq). rewrite live_eqb in Hq by auto. apply Nat.eqb_eq in Hq. now subst.
      - intros H. exists x. split; [exact H|]. rewrite live_eqb by auto. apply Nat.eqb_refl. }
    destruct (existsb (obj_eqb w x) s) eqn:B.
    - split; [exact Hn|]. split; [exact Hs|]. intros y. split; [auto|]. intros [H|H]; auto. subst y. now apply E.
    - assert (N : ~ In x s) by (rewrite <- E; discriminate). split.
      { clear - Hn N. induction s as [|y s IH]; cbn.
        - constructor; [intros []|constructor].
        - inversion Hn; subst. constructor.
          + rewrite in_app_iff. intros [H|[H|[]]]; [contradiction|]. subst. apply N. now left.
          + apply IH; auto. intros H. apply N. now right. }
      split; [apply Forall_app; auto|]. intros y. rewrite in_app_iff. cbn. intuition auto.
  Qed.

  Lemma live_set_adds l s :
    Forall live l -> Forall live s -> NoDup s ->
    NoDup (fold_left (set_add w) l s) /\ Forall live (fold_left (set_add w) l s) /\
    (forall y, In y (fold_left (set_add w) l s) <-> In y s \/ In y l).
  Proof.
    intros Hl. revert s. induction Hl as [|x l Hx Hl IH]; intros s Hs Hn; cbn [fold_left].
    - split; [exact Hn|]. split; [exact Hs|]. intros y. cbn. tauto.
    - destruct (live_set_add s x Hx Hs Hn) as (H1 & H2 & H3).
      destruct (IH _ H2 H1) as (H4 & H5 & H6). split; [exact H4|]. split; [exact H5|].
      intros y. rewrite H6, H3. cbn. intuition auto.
  Qed.

  Lemma all_children_f_live m x :
    live x -> (forall y, descendant (children_of w) x y -> live y) -> length (w_heap w) - x <= m -> x < length (w_heap w) ->
    exists l, all_children_f m w x = Ok l /\ NoDup l /\ Forall live l /\
      StronglySorted (fun a b => (linenum_of w a <= linenum_of w b)%Z) l /\
      forall y, In y l <-> descendant (children_of w) x y.
  Proof.
    revert x; induction m as [|m IH]; intros x Hx Hdesc Hm Hlt; [lia|].
    cbn [all_children_f]. destruct (numbered_obj w x HN Hx) as (l & E). rewrite E.
    assert (Ec : children_of w x = cl_children l) by (unfold children_of; now rewrite E).
    assert (F : forall cs s, (forall c, In c cs -> In c (children_of w x)) -> Forall live s -> NoDup s ->
      exists r,
        fold_left (fun acc c => do s <- acc; do sub <- all_children_f m w c;
                     Ok (fold_left (set_add w) sub (set_add w s c))) cs (Ok s) = Ok r /\
        NoDup r /\ Forall live r /\
        forall y, In y r <-> In y s \/ exists c, In c cs /\ (y = c \/ descendant (children_of w) c y)).
    { induction cs as [|c cs IHc]; intros s Hcs Hs Hn; cbn [fold_left].
      - exists s. split; [reflexivity|]. split; [exact Hn|]. split; [exact Hs|].
        intros y. split; [now left|]. intros [H|(c & [] & _)]. exact H.
      - assert (Hc : In c (children_of w x)) by (apply Hcs; now left).
        pose proof (HC x c Hx Hc) as Hcx.
        assert (Lc : live c) by (apply Hdesc; now constructor).
        destruct (IH c Lc) as (sub & Es & Hns & Hls & _ & Hsub); [|lia|lia|].
        { intros y Hy. apply Hdesc. eapply desc_step; eauto. }
        unfold bind at 2. rewrite Es. unfold bind.
        destruct (live_set_add s c Lc Hs Hn) as (A1 & A2 & A3).
        destruct (live_set_adds sub (set_add w s c) Hls A2 A1) as (B1 & B2 & B3).
        destruct (IHc (fold_left (set_add w) sub (set_add w s c))) as (r & Er & R1 & R2 & R3); auto.
        { intros; apply Hcs; now right. }
        exists r. split; [exact Er|]. split; [exact R1|]. split; [exact R2|].
        intros y. rewrite R3, B3, A3, Hsub. split.
        + intros [[[H|H]|H]|(c' & H & H')]; auto; right.
          * exists c. split; [now left|auto].
          * exists c. split; [now left|auto].
          * exists c'. split; [now right|auto].
        + intros [H|(c' & [<-|H] & H')]; auto.
          * left. destruct H'; auto.
          * right. eauto. }
    destruct (F (cl_children l) []) as (r & Er & R1 & R2 & R3); [now rewrite Ec|constructor|constructor|].
    rewrite Er. cbn [rmap]. exists (sorted_objs w r). split; [reflexivity|]. unfold sorted_objs.
    split; [now apply sort_by_nodup|]. split.
    { apply Forall_forall. intros y Hy. apply sort_by_in in Hy. rewrite Forall_forall in R2. auto. }
    split.
    { exact (sort_by_sorted (linenum_of w) r). }
    intros y. rewrite sort_by_in, R3, <- Ec. split.
    - intros [[]|(c & Hc & [->|Hd])]; [now constructor|]. eapply desc_step; eauto.
    - intros H. right. inversion H; subst; eauto.
  Qed.

  Theorem all_children_live x :
    live x -> (forall y, descendant (children_of w) x y -> live y) ->
    exists l, all_children w x = Ok l /\ NoDup l /\ Forall live l /\
      StronglySorted (fun a b => (linenum_of w a <= linenum_of w b)%Z) l /\
      forall y, In y l <-> descendant (children_of w) x y.
  Proof.
    intros Hx Hd. unfold all_children. apply all_children_f_live; auto; [lia|].
    destruct (numbered_obj w x HN Hx) as (l & E). apply nth_error_length_lt in E. exact E.
  Qed.

  Lemma live_linenum i x : nth_error (w_conf w) i = Some x -> linenum_of w x = Z.of_nat i.
  Proof. intros H. destruct (HN i x H) as (l & E & N). unfold linenum_of. now rewrite E. Qed.

  (** ** Deleting positions *)

  Lemma del_lines_filter (f : nat -> bool) js : StronglySorted lt js ->
    forall a c, (forall i y, nth_error a i = Some y -> (f y = false <-> In i js)) ->
    (forall j, In j js -> j < length a) ->
    del_lines (rev (map Z.of_nat js)) (a ++ c) = Ok (filter f a ++ c).
  Proof.
    induction js as [|j js IH] using rev_ind; intros Hs a c Hf Hj.
    - cbn [map rev del_lines]. do 2 f_equal.
      assert (Ha : forall y, In y a -> f y = true).
      { intros y Hy. apply In_nth_error in Hy as (i & Hi). specialize (Hf i y Hi).
        destruct (f y); [reflexivity|]. exfalso. apply Hf. reflexivity. }
      clear - Ha. induction a as [|y a IHa]; [reflexivity|]. cbn [filter].
      rewrite (Ha y (or_introl eq_refl)), <- IHa; [reflexivity|]. intros; apply Ha; now right.
    - assert (Hjl : j < length a) by (apply Hj; apply in_or_app; right; now left).
      apply ssorted_snoc in Hs as [Hs Hlt].
      destruct (nth_error_lt_some a j Hjl) as (x & Hx).
      destruct (nth_error_split a j Hx) as (a1 & a2 & Ha & Hlen).
      rewrite map_app, rev_app_distr. cbn [map rev app del_lines].
      unfold py_del, py_index. rewrite app_length.
      replace ((0 <=? Z.of_nat j)%Z && (Z.of_nat j <? Z.of_nat (length a + length c))%Z) with true
        by (symmetry; apply andb_true_iff; split; [apply Z.leb_le|apply Z.ltb_lt]; lia).
      rewrite Nat2Z.id. cbn [bind]. rewrite Ha, <- app_assoc. cbn [app]. rewrite <- Hlen, del_nth_app.
      rewrite (IH Hs a1 (a2 ++ c)).
      + rewrite filter_app. cbn [filter]. assert (Fx : f x = false).
        { apply (Hf j x Hx). apply in_or_app. right. now left. }
        rewrite Fx. rewrite <- app_assoc. do 3 f_equal.
        assert (Ha2 : forall y, In y a2 -> f y = true).
        { intros y Hy. apply In_nth_error in Hy as (i & Hi).
          assert (Hi' : nth_error a (S j + i) = Some y).
          { rewrite Ha, nth_error_app2 by lia. replace (S j + i - length a1) with (S i) by lia. exact Hi. }
          specialize (Hf _ y Hi'). destruct (f y); [reflexivity|]. exfalso.
          destruct Hf as [Hf _]. specialize (Hf eq_refl). apply in_app_iff in Hf as [Hf|[Hf|[]]]; [|lia].
          specialize (Hlt _ Hf). lia. }
        clear - Ha2. induction a2 as [|y a2 IHa]; [reflexivity|]. cbn [filter].
        rewrite (Ha2 y (or_introl eq_refl)), <- IHa; [reflexivity|]. intros; apply Ha2; now right.
      + intros i y Hi. assert (Hil : i < length a1) by (eapply nth_error_length_lt; eauto).
        assert (Hi' : nth_error a i = Some y) by (rewrite Ha, nth_error_app1; auto).
        rewrite (Hf i y Hi'). rewrite in_app_iff. cbn. intuition lia.
      + intros i Hi. specialize (Hlt _ Hi). lia.
  Qed.

  Definition familyb (cs : list nat) (x y : nat) : bool := (y =? x) || existsb (Nat.eqb y) cs.

  Lemma familyb_spec cs x y :
    (forall y, In y cs <-> descendant (children_of w) x y) ->
    (familyb cs x y = true <-> in_family w x y).
  Proof.
    intros H. unfold familyb, in_family. rewrite orb_true_iff, Nat.eqb_eq, existsb_exists, <- H. split.
    - intros [E|(z & Hz & E)]; auto. apply Nat.eqb_eq in E. subst. auto.
    - intros [E|E]; auto. right. exists y. split; [exact E|apply Nat.eqb_refl].
  Qed.

  (** deleting a set of live lines given in any duplicate-free order *)
  Lemma del_lines_set s : NoDup s -> Forall live s ->
    del_lines (rev (map (linenum_of w) (sorted_objs w s))) (w_conf w)
    = Ok (filter (fun y => negb (existsb (Nat.eqb y) s)) (w_conf w)).
  Proof.
    intros Hn Hl. rewrite Forall_forall in Hl.
    assert (P : exists js, StronglySorted lt js /\ map (linenum_of w) (sorted_objs w s) = map Z.of_nat js /\
              forall i, In i js <-> exists y, nth_error (w_conf w) i = Some y /\ In y s).
    { pose proof (sort_by_sorted (linenum_of w) s) as Hsrt.
      assert (Hn' : NoDup (sort_by (linenum_of w) s)) by now apply sort_by_nodup.
      assert (Hin : forall y, In y (sort_by (linenum_of w) s) <-> In y s) by (intros; apply sort_by_in).
      unfold sorted_objs. exists (map (fun y => Z.to_nat (linenum_of w y)) (sort_by (linenum_of w) s)).
      assert (Hpos : forall y, In y s -> exists i, nth_error (w_conf w) i = Some y /\ linenum_of w y = Z.of_nat i).
      { intros y Hy. apply Hl, In_nth_error in Hy as (i & Hi). exists i. split; [exact Hi|]. now apply live_linenum. }
      split; [|split].
      - assert (Hls : forall y, In y (sort_by (linenum_of w) s) -> In y s) by (intros; now apply Hin).
        clear - Hsrt Hn' Hls Hpos. induction Hsrt as [|y l Hs IH Hf]; cbn [map]; constructor.
        + apply IH; [now inversion Hn'|]. intros; apply Hls; now right.
        + apply Forall_forall. intros k Hk. apply in_map_iff in Hk as (z & <- & Hz).
          rewrite Forall_forall in Hf. specialize (Hf z Hz). unfold le_key in Hf.
          destruct (Hpos y) as (i & Hi & Ei); [apply Hls; now left|].
          destruct (Hpos z) as (j & Hj & Ej); [apply Hls; now right|].
          rewrite Ei, Ej in *. rewrite !Nat2Z.id. destruct (Nat.eq_dec i j) as [->|]; [|lia].
          exfalso. inversion Hn'; subst. rewrite Hi in Hj. injection Hj as ->. contradiction.
      - rewrite map_map. apply map_ext_in. intros y Hy. apply Hin in Hy.
        destruct (Hpos y Hy) as (i & _ & E). rewrite E. now rewrite Nat2Z.id.
      - intros i. rewrite in_map_iff. split.
        + intros (y & <- & Hy). apply Hin in Hy. destruct (Hpos y Hy) as (k & Hk & E).
          exists y. rewrite E, Nat2Z.id. auto.
        + intros (y & Hy & Hs). exists y. split; [|now apply Hin].
          rewrite (live_linenum i y Hy). apply Nat2Z.id. }
    destruct P as (js & Hjs & -> & Hin).
    pose proof (del_lines_filter (fun y => negb (existsb (Nat.eqb y) s)) js Hjs (w_conf w) []) as D.
    rewrite !app_nil_r in D. apply D.
    - intros i y Hi. rewrite negb_false_iff, existsb_exists, Hin. split.
      + intros (z & Hz & E). apply Nat.eqb_eq in E. subst z. eauto.
      + intros (z & Hz & Hs). rewrite Hi in Hz. injection Hz as <-. exists y. split; [exact Hs|apply Nat.eqb_refl].
    - intros j Hj. apply Hin in Hj as (y & Hy & _). eapply nth_error_length_lt; eauto.
  Qed.

  Theorem delete_family x :
    live x -> owned w x = true -> (forall y, descendant (children_of w) x y -> live y) ->
    exists f, delete w true x = Ok (reassign_linenums (set_conf (filter f (w_conf w)) w)) /\
      forall y, f y = false <-> in_family w x y.
  Proof.
    intros Hx Ho Hd. unfold delete. rewrite Ho.
    destruct (all_children_live x Hx Hd) as (cs & E & Hn & Hl & _ & M). rewrite E. cbn [bind].
    unfold set_of. cbn [fold_left].
    destruct (live_set_add [] x Hx) as (A1 & A2 & A3); [constructor|constructor|].
    destruct (live_set_adds cs (set_add w [] x) Hl A2 A1) as (B1 & B2 & B3).
    rewrite (del_lines_set _ B1 B2). cbn [bind]. eexists. split; [reflexivity|].
    intros y. rewrite negb_false_iff, existsb_exists. unfold in_family. rewrite <- M. split.
    - intros (z & Hz & Eq). apply Nat.eqb_eq in Eq. subst z. apply B3 in Hz as [Hz|Hz]; auto.
      apply A3 in Hz as [[]|Hz]. auto.
    - intros H. exists y. split; [|apply Nat.eqb_refl]. apply B3. destruct H as [->|H]; auto.
      left. apply A3. auto.
  Qed.

  Theorem delete_one x :
    live x -> owned w x = true ->
    delete w false x = Ok (reassign_linenums (set_conf (filter (fun y => negb (y =? x)) (w_conf w)) w)).
  Proof.
    intros Hx Ho. unfold delete. rewrite Ho. unfold live in Hx. apply In_nth_error in Hx as (i & Hi).
    rewrite (live_linenum i x Hi). pose proof (nth_error_length_lt _ _ _ Hi) as Hlt. unfold py_index.
    replace ((0 <=? Z.of_nat i)%Z && (Z.of_nat i <? Z.of_nat (length (w_conf w)))%Z) with true
      by (symmetry; apply andb_true_iff; split; [apply Z.leb_le|apply Z.ltb_lt]; lia).
    rewrite Nat2Z.id, Hi, str_eqb_refl. do 3 f_equal.
    destruct (nth_error_split _ _ Hi) as (a & c & E & Hl). pose proof (numbered_nodup w HN) as Hn.
    rewrite E in *. rewrite <- Hl, del_nth_app, filter_app. cbn [filter].
    rewrite Nat.eqb_refl. cbn [negb]. apply NoDup_remove in Hn as [_ Hn]. rewrite in_app_iff in Hn.
    f_equal.
    - clear - Hn. induction a as [|y a IH]; [reflexivity|]. cbn [filter].
      destruct (Nat.eqb_spec y x) as [->|]; [exfalso; apply Hn; left; now left|]. cbn [negb]. rewrite <- IH; [reflexivity|].
      intros [H|H]; apply Hn; auto. left. now right.
    - clear - Hn. induction c as [|y c IH]; [reflexivity|]. cbn [filter].
      destruct (Nat.eqb_spec y x) as [->|]; [exfalso; apply Hn; right; now left|]. cbn [negb]. rewrite <- IH; [reflexivity|].
      intros [H|H]; apply Hn; auto. right. now right.
  Qed.
End Editable.
