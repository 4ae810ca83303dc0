(** Lemmas about [PyBase]: list update, deletion, insertion, sorting. *)
From Coq Require Import Arith ZArith Bool List Lia Sorting.Permutation Sorting.Sorted.
From Verif Require Import PyBase.
Import ListNotations.

Lemma upd_length {A} (l : list A) i f : length (upd l i f) = length l.
Proof. revert i; induction l as [|x l IH]; intros [|i]; cbn; auto. Qed.

Lemma upd_nth {A} (l : list A) i f j :
  nth_error (upd l i f) j = if j =? i then option_map f (nth_error l j) else nth_error l j.
Proof.
  revert i j; induction l as [|x l IH]; intros [|i] [|j]; cbn; auto.
  - now destruct (j =? i).
Qed.

Lemma upd_nth_same {A} (l : list A) i f :
  nth_error (upd l i f) i = option_map f (nth_error l i).
Proof. now rewrite upd_nth, Nat.eqb_refl. Qed.

Lemma upd_nth_other {A} (l : list A) i f j :
  j <> i -> nth_error (upd l i f) j = nth_error l j.
Proof. intros H. rewrite upd_nth. apply Nat.eqb_neq in H. now rewrite H. Qed.

Lemma upd_out {A} (l : list A) i f : length l <= i -> upd l i f = l.
Proof.
  revert i; induction l as [|x l IH]; intros [|i] H; cbn in *; try lia; auto.
  f_equal. apply IH. lia.
Qed.

Lemma map_upd {A B} (g : A -> B) (l : list A) i f :
  (forall x, g (f x) = g x) -> map g (upd l i f) = map g l.
Proof.
  intros H. revert i; induction l as [|x l IH]; intros [|i]; cbn; auto.
  - now rewrite H.
  - now rewrite IH.
Qed.

Lemma upd_app_l {A} (l m : list A) i f : i < length l -> upd (l ++ m) i f = upd l i f ++ m.
Proof.
  revert i; induction l as [|x l IH]; intros [|i] H; cbn in *; try lia; auto.
  f_equal. apply IH. lia.
Qed.

Lemma nth_error_ext {A} (l m : list A) :
  (forall i, nth_error l i = nth_error m i) -> l = m.
Proof.
  revert m; induction l as [|x l IH]; intros [|y m] H; auto.
  - specialize (H 0); discriminate.
  - specialize (H 0); discriminate.
  - pose proof (H 0) as H0; cbn in H0; injection H0 as ->. f_equal.
    apply IH. intros i. exact (H (S i)).
Qed.

Lemma nth_error_map_iff {A B} (f : A -> B) l i :
  nth_error (map f l) i = option_map f (nth_error l i).
Proof. revert i; induction l as [|x l IH]; intros [|i]; cbn; auto. Qed.

Lemma nth_error_seq a n i : nth_error (seq a n) i = if i <? n then Some (a + i) else None.
Proof.
  revert a i; induction n as [|n IH]; intros a [|i]; try reflexivity.
  - cbn. now rewrite Nat.add_0_r.
  - cbn [seq nth_error]. rewrite IH. change (S i <? S n) with (i <? n).
    destruct (i <? n); auto. f_equal; lia.
Qed.

Lemma nth_error_length_lt {A} (l : list A) i x : nth_error l i = Some x -> i < length l.
Proof. intros H. apply nth_error_Some. congruence. Qed.

Lemma nth_error_lt_some {A} (l : list A) i : i < length l -> exists x, nth_error l i = Some x.
Proof.
  intros H. destruct (nth_error l i) as [x|] eqn:E; [now exists x|].
  apply nth_error_None in E. lia.
Qed.

(** ** sorting *)
Section SortFacts.
  Context {A : Type} (key : A -> Z).
  Notation ins := (insert_sorted key).
  Notation srt := (sort_by key).

  Lemma insert_sorted_perm x l : Permutation (x :: l) (ins x l).
  Proof.
    induction l as [|y l IH]; cbn; [reflexivity|].
    destruct (key x <=? key y)%Z; [reflexivity|].
    rewrite perm_swap. now apply perm_skip.
  Qed.
  Lemma sort_by_perm l : Permutation l (srt l).
  Proof.
    induction l as [|x l IH]; cbn; [reflexivity|].
    rewrite <- insert_sorted_perm. now apply perm_skip.
  Qed.
  Lemma sort_by_in l x : In x (srt l) <-> In x l.
  Proof.
    split; apply Permutation_in; [symmetry|]; apply sort_by_perm.
  Qed.
  Lemma sort_by_length l : length (srt l) = length l.
  Proof. symmetry. apply Permutation_length, sort_by_perm. Qed.
  Lemma sort_by_nodup l : NoDup l -> NoDup (srt l).
  Proof. intros H. eapply Permutation_NoDup; [apply sort_by_perm|exact H]. Qed.

  Definition le_key (x y : A) : Prop := (key x <= key y)%Z.
  Definition lt_key (x y : A) : Prop := (key x < key y)%Z.

  Lemma insert_sorted_sorted x l :
    StronglySorted le_key l -> StronglySorted le_key (ins x l).
  Proof.
    induction 1 as [|y l Hs IH Hf]; cbn.
    - repeat constructor.
    - destruct (key x <=? key y)%Z eqn:E.
      + apply Z.leb_le in E. constructor; [now constructor|].
        constructor; [exact E|]. eapply Forall_impl; [|exact Hf].
        unfold le_key. intros z Hz. lia.
      + apply Z.leb_gt in E. constructor; [exact IH|].
        assert (G : Forall (le_key y) (x :: l)).
        { constructor; [unfold le_key; lia|exact Hf]. }
        rewrite Forall_forall in *. intros z Hz. apply G.
        eapply Permutation_in; [symmetry; apply insert_sorted_perm|exact Hz].
  Qed.
  Lemma sort_by_sorted l : StronglySorted le_key (srt l).
  Proof. induction l as [|x l IH]; cbn; [constructor|]. now apply insert_sorted_sorted. Qed.

  Lemma insert_sorted_id x l :
    Forall (fun y => (key x <= key y)%Z) l -> ins x l = x :: l.
  Proof.
    destruct 1 as [|y l H _]; cbn; [reflexivity|].
    apply Z.leb_le in H. now rewrite H.
  Qed.
  Lemma sort_by_id l : StronglySorted le_key l -> srt l = l.
  Proof.
    induction 1 as [|x l Hs IH Hf]; cbn; [reflexivity|].
    rewrite IH. now apply insert_sorted_id.
  Qed.

  (** Two strictly sorted lists with the same elements are equal. *)
  Lemma strict_sorted_unique l m :
    StronglySorted lt_key l -> StronglySorted lt_key m ->
    (forall x, In x l <-> In x m) -> l = m.
  Proof.
    intros Hl. revert m. induction Hl as [|x l Hs IH Hf]; intros m Hm Heq.
    - destruct m as [|y m]; [reflexivity|]. destruct (Heq y) as [_ H].
      destruct H; now left.
    - destruct Hm as [|y m Hms Hmf].
      + destruct (Heq x) as [H _]. destruct H; now left.
      + rewrite Forall_forall in Hf, Hmf. unfold lt_key in *.
        assert (x = y).
        { destruct (proj1 (Heq x)) as [E|Hx]; [now left|auto|].
          destruct (proj2 (Heq y)) as [E|Hy]; [now left|auto|].
          specialize (Hf _ Hy). specialize (Hmf _ Hx). lia. }
        subst y. f_equal. apply IH; [exact Hms|].
        intros z. split; intros Hz.
        * destruct (proj1 (Heq z)) as [E|H]; [now right| |exact H].
          subst z. specialize (Hf _ Hz). lia.
        * destruct (proj2 (Heq z)) as [E|H]; [now right| |exact H].
          subst z. specialize (Hmf _ Hz). lia.
  Qed.

  (** With distinct keys the sort is strict. *)
  Lemma sorted_strict l :
    StronglySorted le_key l -> NoDup (map key l) -> StronglySorted lt_key l.
  Proof.
    induction 1 as [|x l Hs IH Hf]; intros Hn; [constructor|].
    cbn in Hn. inversion Hn as [|? ? Hnin Hn']; subst. constructor; [auto|].
    rewrite Forall_forall in *. intros y Hy. specialize (Hf y Hy).
    unfold le_key, lt_key in *. assert (key x <> key y); [|lia].
    intros E. apply Hnin. rewrite E. now apply in_map.
  Qed.
End SortFacts.

Lemma StronglySorted_impl_in {A} (R S : A -> A -> Prop) l :
  (forall x y, In x l -> In y l -> R x y -> S x y) ->
  StronglySorted R l -> StronglySorted S l.
Proof.
  intros H Hs. induction Hs as [|x l Hs IH Hf]; constructor.
  - apply IH. intros a b Ha Hb. apply H; now right.
  - rewrite Forall_forall in *. intros y Hy. apply H; [now left|now right|auto].
Qed.

(** ** deletion and insertion *)
Lemma del_nth_app {A} (a b : list A) x : del_nth (length a) (a ++ x :: b) = a ++ b.
Proof. induction a as [|y a IH]; cbn; [reflexivity|]. now rewrite IH. Qed.

Lemma insert_at_app {A} (a b : list A) x : insert_at (length a) x (a ++ b) = a ++ x :: b.
Proof. induction a as [|y a IH]; cbn; [now destruct b|]. now rewrite IH. Qed.

Lemma py_index_nat n i : i < n -> py_index n (Z.of_nat i) = Some i.
Proof.
  intros H. unfold py_index.
  replace ((0 <=? Z.of_nat i)%Z && (Z.of_nat i <? Z.of_nat n)%Z) with true.
  - now rewrite Nat2Z.id.
  - symmetry. apply andb_true_iff. split; [apply Z.leb_le|apply Z.ltb_lt]; lia.
Qed.
