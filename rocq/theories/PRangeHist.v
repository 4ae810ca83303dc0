(** C87: histories of operations on ranges. *)
From Coq Require Import Ascii String Arith ZArith Bool List Lia Sorted Permutation.
From Verif Require Import PyStr PyBase PyBaseFacts RangeModel RangeSpec RangeFacts PRange RangeHistModel RangeHistSpec.
Import ListNotations.
Local Open Scope Z_scope.

Lemma put_same st r l : put st r l r = l.
Proof. unfold put. now rewrite Nat.eqb_refl. Qed.
Lemma put_others st r l : others st (put st r l) r.
Proof. intros q N. unfold put. destruct (Nat.eqb_spec q r); congruence. Qed.
Lemma index_ok l i : match py_index (length l) i with
  | Some k => exists a b, index l i a (nth k l 0) b /\ length a = k
  | None => forall a v b, ~ index l i a v b
  end.
Proof.
  unfold py_index. destruct (0 <=? i) eqn:E1; cbn [andb].
  - apply Z.leb_le in E1. destruct (i <? Z.of_nat (length l)) eqn:E2.
    + apply Z.ltb_lt in E2. destruct (nth_split l 0 (n := Z.to_nat i)) as (a & b & E & L); [lia|]. exists a, b. split; [|exact L]. split; [exact E|]. left. lia.
    + apply Z.ltb_ge in E2. destruct (Z.ltb_spec i 0); [lia|]. cbn [andb]. intros a v b [-> [E|E]]; rewrite ?app_length in *; cbn [length] in *; lia.
  - apply Z.leb_gt in E1. destruct (Z.ltb_spec i 0); [|lia]. cbn [andb]. destruct (- Z.of_nat (length l) <=? i) eqn:E2.
    + apply Z.leb_le in E2. destruct (nth_split l 0 (n := Z.to_nat (Z.of_nat (length l) + i))) as (a & b & E & L); [lia|]. exists a, b. split; [|exact L]. split; [exact E|]. right.
      apply (f_equal (@length Z)) in E. rewrite app_length in E. cbn [length] in E. lia.
    + apply Z.leb_gt in E2. intros a v b [-> [E|E]]; rewrite ?app_length in *; cbn [length] in *; lia.
Qed.
Lemma past (l : list Z) i : i >? Z.of_nat (length l) - 1 = true -> py_index (length l) i = None.
Proof.
  rewrite Z.gtb_ltb. intros H. apply Z.ltb_lt in H. unfold py_index. destruct (Z.ltb_spec i (Z.of_nat (length l))); [lia|]. rewrite andb_false_r.
  destruct (Z.ltb_spec i 0); [lia|]. reflexivity.
Qed.
Lemma item_index l i : item l i = match py_index (length l) i with Some k => Ok (nth k l 0) | None => Err IndexError end.
Proof. unfold item. destruct (i >? Z.of_nat (length l) - 1) eqn:E; [now rewrite (past l i E)|reflexivity]. Qed.
Lemma del_index (l : list Z) i : (if i >? Z.of_nat (length l) - 1 then Err IndexError else py_del i l) = py_del i l.
Proof. destruct (i >? Z.of_nat (length l) - 1) eqn:E; [|reflexivity]. unfold py_del. now rewrite (past l i E). Qed.
Lemma del_mid {A} (a : list A) v b : del_nth (length a) (a ++ v :: b) = a ++ b.
Proof. induction a as [|x a IH]; cbn; [reflexivity|]. now rewrite IH. Qed.
Lemma filter_mid l v : NoDup l -> In v l -> exists a b, l = a ++ v :: b /\ filter (fun x => negb (x =? v)) l = a ++ b.
Proof.
  intros N H. apply in_split in H as (a & b & ->). exists a, b. split; [reflexivity|]. apply NoDup_remove_2 in N. rewrite filter_app. cbn [filter]. rewrite Z.eqb_refl. cbn [negb].
  assert (K : forall c, ~ In v c -> filter (fun x => negb (x =? v)) c = c).
  { induction c as [|x c IH]; intros Nc; [reflexivity|]. cbn [filter]. destruct (Z.eqb_spec x v) as [->|]; [destruct Nc; now left|]. cbn [negb]. rewrite IH; [reflexivity|]. intros Q. apply Nc. now right. }
  rewrite !K; auto; intros Q; apply N, in_app_iff; auto.
Qed.
Lemma sub_filter m : forall l, NoDup l -> range_sub l m = filter (fun y => if in_dec Z.eq_dec y m then false else true) l.
Proof.
  assert (RF : forall l v, NoDup l -> remove_first v l = filter (fun y => if Z.eq_dec y v then false else true) l).
  { induction l as [|x l IH]; intros v N; [reflexivity|]. inversion N; subst. cbn [remove_first filter]. destruct (Z.eqb_spec v x) as [->|E].
    - destruct (Z.eq_dec x x); [|congruence]. clear IH. induction l as [|y l IH2]; [reflexivity|]. cbn [filter]. destruct (Z.eq_dec y x) as [->|]; [destruct H1; now left|].
      f_equal. apply IH2; [inversion N; subst; constructor; [intros K; apply H1; now right|now inversion H4]|intros K; apply H1; now right|now inversion H2].
    - destruct (Z.eq_dec x v); [congruence|]. f_equal. now apply IH. }
  unfold range_sub. induction m as [|v m IH]; intros l N; cbn [fold_left].
  - induction l as [|x l IHl]; [reflexivity|]. cbn. f_equal. apply IHl. now inversion N.
  - rewrite RF by exact N. rewrite IH by now apply NoDup_filter. clear. induction l as [|x l IHl]; [reflexivity|]. cbn [filter].
    destruct (Z.eq_dec x v) as [->|E].
    + destruct (in_dec Z.eq_dec v (v :: m)) as [_|K]; [exact IHl|]. destruct K. now left.
    + cbn [filter]. rewrite IHl. destruct (in_dec Z.eq_dec x m) as [I1|I1], (in_dec Z.eq_dec x (v :: m)) as [I2|I2]; try reflexivity.
      * destruct I2. now right.
      * destruct I2; congruence.
Qed.
Lemma append_ascending l v m : NoDup l -> range_append l v = Ok m -> ascending m.
Proof.
  unfold range_append. intros N. destruct (zmem v l) eqn:E; [discriminate|]. intros [= <-]. assert (~ In v l) by (intros K; apply zmem_in in K; congruence).
  unfold ascending. apply (sorted_strict (fun z => z)); [apply sort_by_sorted|]. rewrite map_id. apply sort_by_nodup.
  apply (Permutation_NoDup (l := v :: l)); [apply Permutation_cons_append|now constructor].
Qed.

Definition distinct (st : ranges) : Prop := forall r, NoDup (st r).
Lemma put_distinct st r l : distinct st -> NoDup l -> distinct (put st r l).
Proof. intros D N q. unfold put. destruct (Nat.eqb q r); auto. Qed.

(** One operation, on any state. *)
Theorem C87_step : forall hash_of st o, distinct st -> sound o ->
  does st o (snd (step hash_of st o)) (fst (step hash_of st o)) /\ distinct (fst (step hash_of st o)).
Proof.
  intros hash_of st o D S. assert (U : unchanged st st) by (intros q; reflexivity). destruct o; cbn [sound] in S; try (exfalso; exact S); cbn [step does fst snd].
  - (* Append *) destruct (C35_append (st r) v (D r)) as [A B]. destruct (in_dec Z.eq_dec v (st r)) as [I|I].
    + rewrite (A I). cbn [change fst snd]. auto.
    + destruct (B I) as (m & E & N & M). rewrite E. cbn [change fst snd]. split; [|now apply put_distinct]. split; [reflexivity|]. split; [apply put_others|]. rewrite put_same.
      split; [now apply (append_ascending (st r) v)|]. intros y. rewrite M. tauto.
  - (* Remove *) destruct (C35_remove (st r) v ignore_errors (D r)) as (A & B & C). destruct (in_dec Z.eq_dec v (st r)) as [I|I].
    + destruct (A I) as (m & E & N & M). destruct (filter_mid (st r) v (D r) I) as (a & b & E1 & E2). rewrite E. cbn [change fst snd]. split; [|now apply put_distinct].
      split; [reflexivity|]. split; [apply put_others|]. rewrite put_same. exists a, b. split; [exact E1|].
      unfold range_remove in E. rewrite (proj2 (zmem_in v (st r)) I) in E. cbn [negb andb] in E. rewrite E2 in E. destruct (st r) as [|z l0]; [destruct I|]. destruct (_ <? _)%nat in E; [congruence|discriminate E].
    + destruct ignore_errors.
      * rewrite (B I). cbn [change fst snd]. split; [|now apply put_distinct]. split; [reflexivity|]. intros q. unfold put. now destruct (Nat.eqb_spec q r) as [->|].
      * destruct (C I) as (e & E). rewrite E. cbn [change fst snd]. split; [|exact D]. split; [now exists e|exact U].
  - (* AddTo *) destruct (C35_add (st r) (st s)) as (N & A & M). split; [|now apply put_distinct]. split; [reflexivity|]. split; [apply put_others|]. rewrite put_same. auto.
  - (* SubFrom *) destruct (Nat.eqb_spec r s) as [->|_]; [now destruct S|]. destruct (C35_sub (st r) (st s) (D r)) as [N _]. split; [|now apply put_distinct].
    split; [reflexivity|]. split; [apply put_others|]. rewrite put_same. now apply sub_filter.
  - (* Get *) split; [|exact D]. split; [exact U|]. rewrite item_index. pose proof (index_ok (st r) i) as K. destruct (py_index (length (st r)) i) as [k|]; cbn [bind].
    + destruct K as (a & b & I & _). left. eauto.
    + right. auto.
  - (* Del *) pose proof (index_ok (st r) i) as K. pose proof (past (st r) i) as P. unfold py_del. destruct (i >? Z.of_nat (length (st r)) - 1).
    + rewrite (P eq_refl) in K. cbn [fst snd]. split; [|exact D]. right. auto.
    + destruct (py_index (length (st r)) i) as [k|]; cbn [change fst snd].
      * destruct K as (a & b & I & L). pose proof I as [E _]. assert (Ed : del_nth k (st r) = a ++ b) by (rewrite E at 1; rewrite <- L; apply del_mid). split.
        -- left. exists a, (nth k (st r) 0), b. split; [exact I|]. split; [reflexivity|]. split; [apply put_others|]. now rewrite put_same.
        -- apply put_distinct; [exact D|]. rewrite Ed. pose proof (D r) as N. rewrite E in N. now apply NoDup_remove_1 in N.
      * split; [|exact D]. right. auto.
  - (* Len *) split; [|exact D]. split; [exact U|reflexivity].
  - (* Eq *) split; [|exact D]. split; [exact U|]. eexists. split; [reflexivity|]. destruct (list_eq_dec Z.eq_dec (st r) (st s)); split; congruence.
  - (* Has *) split; [|exact D]. split; [exact U|]. eexists. split; [reflexivity|]. apply zmem_in.
  - (* Iter *) split; [|exact D]. split; [exact U|reflexivity].
Qed.
Print Assumptions C87_step.

(** Any program: as long as it subtracts no range from itself and assigns to no item, every
    operation does what it should on what the operations before it left, the members of each range
    stay distinct, and a range changes only by operations on it. *)
Theorem C87_history : forall hash_of os st, distinct st -> Forall sound os ->
  history st os (snd (run hash_of st os)) (fst (run hash_of st os)) /\ distinct (fst (run hash_of st os)).
Proof.
  intros hash_of os. induction os as [|o os IH]; intros st D F; cbn [run].
  - split; [|exact D]. constructor. intros q. reflexivity.
  - inversion F as [|? ? S F']; subst. destruct (C87_step hash_of st o D S) as [H1 D1]. destruct (step hash_of st o) as [st1 x]. cbn [fst snd] in *.
    destruct (IH st1 D1 F') as [H2 D2]. destruct (run hash_of st1 os) as [st2 xs]. cbn [fst snd] in *. split; [|exact D2]. econstructor; eauto.
Qed.
Print Assumptions C87_history.

(** ** A case *)
Definition two : ranges := fun r => match r with O => [5; 1; 2] | 1%nat => [2; 9] | _ => [] end.
Definition program : list op :=
  [Append 0 4; Append 0 4; Get 0 (-1); AddTo 1 0; Iter 1; SubFrom 0 1; Len 0; Del 1 (-2); Del 1 9; Remove 1 7 false; Remove 1 7 true; Remove 1 2 false; Has 1 2; Iter 1; Eq 0 1].
Example C87_ex : distinct two /\ Forall sound program /\
  snd (run (fun _ => 7) two program) =
    [Ok (VRange 0); Err DuplicateMember; Ok (VInt 5); Ok (VRange 1); Ok (VList [1; 2; 4; 5; 9]); Ok (VRange 0); Ok (VInt 0); Ok VNone; Err IndexError;
     Err MismatchedType; Ok (VRange 1); Ok (VRange 1); Ok (VBool false); Ok (VList [1; 4; 9]); Ok (VBool false)].
Proof.
  split; [|split; [|vm_compute; reflexivity]].
  - intros [|[|r]]; cbn [two]; repeat constructor; cbn [In]; intuition discriminate.
  - repeat (apply Forall_cons; [try exact I; cbn; discriminate|]). apply Forall_nil.
Qed.

(** ** What fails *)
(** Assigning to an item changes nothing, and raises nothing. *)
Theorem C87_set_refuted : (forall hash_of st r i v, unchanged st (fst (step hash_of st (SetItem r i v)))) /\
  exists st, distinct st /\ snd (step (fun _ => 7) st (SetItem 0 0 8)) = Ok VNone /\
    ~ does st (SetItem 0 0 8) (snd (step (fun _ => 7) st (SetItem 0 0 8))) (fst (step (fun _ => 7) st (SetItem 0 0 8))).
Proof.
  split; [intros hash_of st r i v q; reflexivity|]. exists two. split; [apply C87_ex|]. split; [reflexivity|]. cbn. intros [(a & w & b & [E _] & _ & _ & K)|(_ & K & _)]; [|discriminate K].
  assert (H : In 8 [5; 1; 2]) by (rewrite K; apply in_elt). cbn in H. intuition discriminate.
Qed.
Print Assumptions C87_set_refuted.
(** A range minus itself keeps every second member. *)
Theorem C87_sub_self_refuted : forall hash_of st r, distinct st -> fst (step hash_of st (SubFrom r r)) r = every_second (st r).
Proof. intros hash_of st r D. cbn [step fst]. rewrite put_same, Nat.eqb_refl. apply C35_sub_self_refuted, D. Qed.
Print Assumptions C87_sub_self_refuted.
(** [insert] always raises; [as_set()] raises TypeError unless the range is empty, and then it
    gives a list; [hash()] of an empty range raises TypeError. *)
Theorem C87_raise_refuted : forall hash_of st r,
  (forall i v, step hash_of st (Insert r i v) = (st, Err NotImplementedErr)) /\
  (st r <> [] -> step hash_of st (AsSet r) = (st, Err TypeErr)) /\
  (st r = [] -> step hash_of st (Hash r) = (st, Err TypeErr)).
Proof. intros hash_of st r. split; [reflexivity|]. split; intros E; cbn [step]; destruct (st r); congruence. Qed.
Print Assumptions C87_raise_refuted.
(** The sum of two ranges is the first of them: making [c = a + b] changes [a]. *)
Theorem C87_sum_refuted : exists st, distinct st /\ snd (step (fun _ => 7) st (AddTo 0 1)) = Ok (VRange 0) /\ fst (step (fun _ => 7) st (AddTo 0 1)) 0%nat <> st 0%nat.
Proof. exists two. split; [apply C87_ex|]. split; [reflexivity|]. intros K. vm_compute in K. discriminate K. Qed.
Print Assumptions C87_sum_refuted.
