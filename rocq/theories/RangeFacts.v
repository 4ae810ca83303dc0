(** Facts about integer ranges. *)
From Coq Require Import Ascii String Arith NArith ZArith Bool List Lia Sorted Permutation.
From Verif Require Import PyStr PyStrFacts PyBase PyBaseFacts IpModel IpFacts RangeModel RangeSpec.
Import ListNotations.
Local Open Scope char_scope.
Local Open Scope Z_scope.

Lemma interval_in a b x : In x (interval a b) <-> a <= x <= b.
Proof.
  unfold interval. rewrite in_map_iff. split.
  - intros (i & <- & Hi). apply in_seq in Hi. lia.
  - intros H. exists (Z.to_nat (x - a)). split; [lia|]. apply in_seq. lia.
Qed.

Lemma sorted_set_in l x : In x (sorted_set l) <-> In x l.
Proof. unfold sorted_set. rewrite sort_by_in. apply nodup_In. Qed.

Lemma sorted_set_ascending l : ascending (sorted_set l).
Proof.
  unfold sorted_set, ascending. apply (sorted_strict (fun z => z)); [apply sort_by_sorted|].
  rewrite map_id. apply sort_by_nodup, NoDup_nodup.
Qed.

Lemma ascending_unique l m : ascending l -> ascending m -> (forall x, In x l <-> In x m) -> l = m.
Proof. apply (strict_sorted_unique (fun z => z)). Qed.

Lemma ascending_nodup l : ascending l -> NoDup l.
Proof.
  induction 1 as [|x l Hs IH Hf]; constructor; [|exact IH].
  intros Hi. rewrite Forall_forall in Hf. specialize (Hf x Hi). lia.
Qed.

(** ** Parsing *)

Lemma show_digits z : 0 <= z -> forallb is_digit (show_Z z) = true.
Proof. intros H. destruct z; try lia; [reflexivity|apply show_N_digits]. Qed.
Lemma show_nonempty z : show_Z z <> [].
Proof. destruct z; cbn [show_Z]; try discriminate. apply show_N_nonempty. Qed.

Lemma int_strip_pad i j s : forallb is_digit s = true -> s <> [] -> int_strip (spaces i ++ s ++ spaces j) = s.
Proof.
  intros D N. unfold int_strip.
  assert (R : forall k, rev (spaces k) = spaces k).
  { unfold spaces. induction k as [|k IH]; [reflexivity|]. cbn [repeat rev]. rewrite IH. clear. induction k as [|k IH]; [reflexivity|].
    cbn [repeat app]. now rewrite IH. }
  assert (P : forall k t, drop_while int_space (spaces k ++ t) = drop_while int_space t).
  { intros k t. unfold spaces. induction k as [|k IH]; [reflexivity|]. cbn [repeat app drop_while]. exact IH. }
  rewrite !rev_app_distr, <- app_assoc, !R, P. rewrite (drop_while_stop int_space (rev s ++ spaces i)).
  2:{ destruct (rev s) as [|c t] eqn:E; [apply (f_equal (@rev ascii)) in E; rewrite rev_involutive in E; contradiction|].
      cbn [app]. rewrite <- forallb_rev, E in D. cbn [forallb] in D. apply andb_true_iff in D as [D _]. now apply digit_not_int_space. }
  rewrite rev_app_distr, rev_involutive, R, P.
  apply drop_while_stop. destruct s as [|c t]; [trivial|]. cbn [forallb] in D. apply andb_true_iff in D as [D _]. now apply digit_not_int_space.
Qed.

Lemma py_int_pad i j a : 0 <= a -> py_int (spaces i ++ show_Z a ++ spaces j) = Some a.
Proof.
  intros H. pose proof (py_int_show_Z a) as P. unfold py_int in *.
  rewrite int_strip_pad by (apply show_digits || apply show_nonempty; exact H).
  now rewrite int_strip_digits in P by (now apply show_digits).
Qed.

Lemma strip_pad i j s : forallb is_digit s = true -> s <> [] -> strip (spaces i ++ s ++ spaces j) = s.
Proof.
  intros D N. unfold strip, rstrip. rewrite !rev_app_distr, <- app_assoc.
  rewrite lstrip_app_space by (rewrite forallb_rev; apply spaces_space).
  rewrite (lstrip_not_space (rev s ++ rev (spaces i))).
  2:{ destruct (rev s) as [|c t] eqn:E; [apply (f_equal (@rev ascii)) in E; rewrite rev_involutive in E; contradiction|].
      cbn [app]. rewrite <- forallb_rev, E in D. cbn [forallb] in D. apply andb_true_iff in D as [D _]. now apply digit_not_space. }
  rewrite rev_app_distr, !rev_involutive. rewrite lstrip_app_space by apply spaces_space.
  apply lstrip_not_space. destruct s as [|c t]; [trivial|]. cbn [forallb] in D. apply andb_true_iff in D as [D _]. now apply digit_not_space.
Qed.

Lemma filter_digits s : forallb is_digit s = true -> filter is_digit s = s.
Proof.
  induction s as [|c s IH]; intros H; [reflexivity|]. cbn [forallb] in H. apply andb_true_iff in H as [H1 H2].
  cbn [filter]. now rewrite H1, IH.
Qed.

Lemma spaces_nochar c i : Ascii.eqb c " " = false -> has_char c (spaces i) = false.
Proof. intros H. unfold spaces, has_char. induction i as [|i IH]; [reflexivity|]. cbn [repeat existsb]. now rewrite H, IH. Qed.

Definition expand (e : entry) : list Z := match e with One a => [a] | Run a b => interval a b end.
Lemma expand_covers e x : In x (expand e) <-> covers e x.
Proof. destruct e; cbn [expand covers]; [cbn [In]; intuition|apply interval_in]. Qed.

Lemma pad_nochar c i j a : is_digit c = false -> Ascii.eqb c " " = false -> 0 <= a ->
  has_char c (spaces i ++ show_Z a ++ spaces j) = false.
Proof.
  intros H1 H2 Ha. rewrite !has_char_app, !spaces_nochar by exact H2. rewrite show_Z_nodigit_char by assumption. reflexivity.
Qed.

Lemma parse_part_denotes t e : denotes t e -> parse_part t = Ok (expand e).
Proof.
  intros [i j a Ha|i j k m a b Ha Hb]; unfold parse_part.
  - rewrite pad_nochar by (reflexivity || assumption). unfold int_or_err. now rewrite py_int_pad.
  - change (lit "-" ++ spaces k ++ show_Z b ++ spaces m) with ("-" :: spaces k ++ show_Z b ++ spaces m).
    rewrite (has_char_app "-"). cbn [has_char existsb]. rewrite Ascii.eqb_refl, orb_true_r.
    rewrite split_on_app by (apply pad_nochar; reflexivity || assumption).
    rewrite split_on_nochar by (apply pad_nochar; reflexivity || assumption).
    rewrite !strip_pad by (apply show_digits || apply show_nonempty; assumption).
    rewrite filter_digits by (now apply show_digits).
    unfold int_or_err. rewrite !py_int_show_Z. reflexivity.
Qed.

Lemma denotes_nocomma t e : denotes t e -> has_char "," t = false.
Proof.
  intros [i j a Ha|i j k m a b Ha Hb]; [apply pad_nochar; reflexivity || assumption|].
  rewrite has_char_app. rewrite pad_nochar by (reflexivity || assumption). cbn [orb].
  change (has_char "," (lit "-" ++ spaces k ++ show_Z b ++ spaces m)) with (has_char "," (spaces k ++ show_Z b ++ spaces m)).
  apply pad_nochar; reflexivity || assumption.
Qed.

Lemma denotes_nonempty t e : denotes t e -> t <> [].
Proof.
  intros [i j a Ha|i j k m a b Ha Hb] E.
  - apply app_eq_nil in E as [_ E]. apply app_eq_nil in E as [E _]. now apply show_nonempty in E.
  - apply app_eq_nil in E as [_ E]. discriminate.
Qed.

Lemma parse_parts_denotes ts es : Forall2 denotes ts es -> parse_parts ts = Ok (flat_map expand es).
Proof.
  induction 1 as [|t e ts es H _ IH]; [reflexivity|]. cbn [parse_parts flat_map].
  rewrite (parse_part_denotes t e H), IH. reflexivity.
Qed.

Lemma double_comma s : contains (lit ",,") s = true -> In [] (tl (split_on "," s)).
Proof.
  induction s as [|c s IH]; [discriminate|]. change (contains (lit ",,") (c :: s)) with
    (starts_with (lit ",,") (c :: s) || contains (lit ",,") s).
  intros H. apply orb_true_iff in H as [H|H].
  - change (lit ",,") with [","; ","] in H. cbn [starts_with] in H. apply andb_true_iff in H as [H1 H2].
    apply Ascii.eqb_eq in H1. subst c. destruct s as [|d s]; [discriminate|]. cbn [starts_with] in H2. apply andb_true_iff in H2 as [H2 _].
    apply Ascii.eqb_eq in H2. subst d. cbn [split_on tl]. rewrite Ascii.eqb_refl. now left.
  - specialize (IH H). cbn [split_on]. destruct (Ascii.eqb c ",").
    + cbn [tl]. destruct (split_on "," s); [exact IH|now right].
    + destruct (split_on "," s); exact IH.
Qed.

Lemma no_double_comma ts es : Forall2 denotes ts es -> contains (lit ",,") (join [","] ts) = false.
Proof.
  intros H. apply not_true_iff_false. intros C. apply double_comma in C.
  destruct ts as [|t ts]; [exact C|].
  rewrite split_on_join in C; [|discriminate|].
  - cbn [tl] in C. assert (G : In [] (t :: ts)) by now right.
    revert G. clear C. induction H as [|x e xs es D _ IH]; intros G; [exact G|]. destruct G as [->|G]; [now apply denotes_nonempty in D|auto].
  - clear C. induction H as [|x e xs es D _ IH]; constructor; [now apply denotes_nocomma in D|exact IH].
Qed.

Lemma range_of_denotes f ts es : Forall2 denotes ts es -> es <> [] ->
  range_of_text f (join [","] ts) = Ok (f (flat_map expand es)).
Proof.
  intros H N. unfold range_of_text. rewrite (no_double_comma ts es H).
  assert (Nt : ts <> []) by (destruct H; [contradiction|discriminate]).
  destruct (join [","] ts) as [|c r] eqn:E.
  { destruct H as [|t e ts es D H]; [contradiction|]. apply denotes_nonempty in D. destruct ts; cbn [join] in E; [contradiction|].
    apply app_eq_nil in E as [E _]. contradiction. }
  rewrite <- E. unfold parse_integers. rewrite split_on_join; [|exact Nt|].
  - rewrite (parse_parts_denotes ts es H). reflexivity.
  - clear E Nt. induction H as [|x e' xs es' D H IH]; constructor; [now apply denotes_nocomma in D|].
    destruct H; [constructor|]. apply IH. discriminate.
Qed.

(** ** Compression *)

(** [(a, n)] is the run a, a+1, ..., a+n. *)
Definition run_list (r : Z * nat) : list Z := map (fun i => fst r + Z.of_nat i) (seq 0 (S (snd r))).
Definition run_entries (r : Z * nat) : list entry :=
  match snd r with
  | O => [One (fst r)]
  | S O => [One (fst r); One (fst r + 1)]
  | n => [Run (fst r) (fst r + Z.of_nat n)]
  end.
Definition run_items (r : Z * nat) : list ritem :=
  match snd r with
  | O => [RNum (fst r)]
  | S O => [RNum (fst r); RNum (fst r + 1)]
  | n => [RNum (fst r); RDash; RNum (fst r + Z.of_nat n)]
  end.
(** Consecutive runs do not touch. *)
Fixpoint gaps (rs : list (Z * nat)) : Prop :=
  match rs with
  | r :: ((r' :: _) as t) => fst r + Z.of_nat (snd r) + 1 < fst r' /\ gaps t
  | _ => True
  end.

Lemma map_seq_shift {A} (f : nat -> A) n : map f (seq 1 n) = map (fun i => f (S i)) (seq 0 n).
Proof. now rewrite <- seq_shift, map_map. Qed.

Lemma run_list_cons a n : run_list (a, S n) = a :: run_list (a + 1, n).
Proof.
  unfold run_list. cbn [fst snd]. change (seq 0 (S (S n))) with (0%nat :: seq 1 (S n)). cbn [map]. f_equal; [lia|].
  rewrite map_seq_shift. apply map_ext. intros i. lia.
Qed.
Lemma run_list_0 a : run_list (a, 0%nat) = [a].
Proof. unfold run_list. cbn. f_equal. lia. Qed.

(** Every ascending list is made of separated runs. *)
Lemma runs_exist l : ascending l -> exists rs, l = flat_map run_list rs /\ gaps rs.
Proof.
  induction 1 as [|x l Hs (rs & -> & G) Hf]; [exists []; split; [reflexivity|exact I]|].
  destruct rs as [|[a n] rs]; [exists [(x, 0%nat)]; split; [cbn [flat_map]; now rewrite run_list_0|exact I]|].
  assert (Hx : x < a).
  { rewrite Forall_forall in Hf. apply Hf. cbn [flat_map]. apply in_or_app. left. destruct n; [rewrite run_list_0|rewrite run_list_cons]; now left. }
  destruct (Z.eq_dec (x + 1) a) as [E|E].
  - exists ((x, S n) :: rs). split.
    + cbn [flat_map]. rewrite run_list_cons, E. reflexivity.
    + destruct rs as [|r' rs]; [exact I|]. destruct G as [G1 G2]. split; [cbn [fst snd] in *; lia|exact G2].
  - exists ((x, 0%nat) :: (a, n) :: rs). split; [cbn [flat_map]; now rewrite run_list_0|].
    change (fst (x, 0%nat) + Z.of_nat (snd (x, 0%nat)) + 1 < fst (a, n) /\ gaps ((a, n) :: rs)). cbn [fst snd]. split; [lia|exact G].
Qed.

(** The forward form of the compression loop. *)
Fixpoint emit (dashed : bool) (prev : Z) (l : list Z) : list ritem :=
  match l with
  | [] => []
  | cur :: r =>
      match r with
      | [] => [RNum cur]
      | next :: _ =>
          if (cur - prev =? 1) && (next - cur =? 1) then
            if dashed then emit true cur r else RDash :: emit true cur r
          else RNum cur :: emit false cur r
      end
  end.

Definition ends_dash (acc : list ritem) : bool := match acc with RDash :: _ => true | _ => false end.

Lemma comp_loop_emit l : forall acc prev,
  rev (match l with [] => comp_loop acc prev l | _ => RNum (last l 0) :: comp_loop acc prev l end) =
  rev acc ++ emit (ends_dash acc) prev l.
Proof.
  induction l as [|cur r IH]; intros acc prev; [cbn; now rewrite app_nil_r|].
  destruct r as [|next r].
  - cbn [last comp_loop emit rev]. reflexivity.
  - change (last (cur :: next :: r) 0) with (last (next :: r) 0).
    change (comp_loop acc prev (cur :: next :: r)) with (comp_loop
      (if (cur - prev =? 1) && (next - cur =? 1) then match acc with RDash :: _ => acc | _ => RDash :: acc end
       else RNum cur :: acc) cur (next :: r)).
    change (emit (ends_dash acc) prev (cur :: next :: r)) with
      (if (cur - prev =? 1) && (next - cur =? 1) then
         if ends_dash acc then emit true cur (next :: r) else RDash :: emit true cur (next :: r)
       else RNum cur :: emit false cur (next :: r)).
    destruct ((cur - prev =? 1) && (next - cur =? 1)).
    + specialize (IH (match acc with RDash :: _ => acc | _ => RDash :: acc end) cur). cbn iota in IH. rewrite IH.
      destruct acc as [|[z|] acc]; cbn [ends_dash rev]; rewrite <- ?app_assoc; reflexivity.
    + specialize (IH (RNum cur :: acc) cur). cbn iota in IH. rewrite IH. cbn [rev ends_dash]. now rewrite <- app_assoc.
Qed.

Definition far (p : Z) (l : list Z) : Prop := match l with [] => True | x :: _ => p + 1 < x end.

(** Inside a run, after a dash. *)
Lemma emit_dashed n : forall p rest, far (p + 1 + Z.of_nat n) rest ->
  emit true p (run_list (p + 1, n) ++ rest) = RNum (p + 1 + Z.of_nat n) :: emit false (p + 1 + Z.of_nat n) rest.
Proof.
  induction n as [|n IH]; intros p rest Hf.
  - rewrite run_list_0. cbn [app emit]. change (Z.of_nat 0) with 0 in *. rewrite Z.add_0_r in *.
    destruct rest as [|x rest]; [reflexivity|]. cbn [far] in Hf. replace (x - (p + 1) =? 1) with false by lia.
    rewrite andb_false_r. reflexivity.
  - rewrite run_list_cons. cbn [app emit].
    destruct (run_list (p + 1 + 1, n)) as [|y t] eqn:E; [destruct n; [rewrite run_list_0 in E|rewrite run_list_cons in E]; discriminate|].
    assert (y = p + 1 + 1) by (destruct n; [rewrite run_list_0 in E|rewrite run_list_cons in E]; now inversion E). subst y.
    cbn [app]. replace (p + 1 - p =? 1) with true by lia. replace (p + 1 + 1 - (p + 1) =? 1) with true by lia. cbn [andb].
    rewrite app_comm_cons, <- E, IH.
    + replace (p + 1 + 1 + Z.of_nat n) with (p + 1 + Z.of_nat (S n)) by lia. reflexivity.
    + replace (p + 1 + 1 + Z.of_nat n) with (p + 1 + Z.of_nat (S n)) by lia. exact Hf.
Qed.

(** The rest of a run whose first number has been written. *)
Lemma emit_run n a rest : far (a + Z.of_nat n) rest ->
  RNum a :: emit false a (tl (run_list (a, n)) ++ rest) = run_items (a, n) ++ emit false (a + Z.of_nat n) rest.
Proof.
  intros Hf. destruct n as [|[|n]].
  - rewrite run_list_0. cbn [tl app run_items snd fst]. change (Z.of_nat 0) with 0. now rewrite Z.add_0_r.
  - rewrite run_list_cons, run_list_0. cbn [tl app run_items snd fst emit]. change (Z.of_nat 1) with 1 in *.
    destruct rest as [|x rest]; [reflexivity|]. cbn [far] in Hf. replace (x - (a + 1) =? 1) with false by lia.
    rewrite andb_false_r. reflexivity.
  - rewrite run_list_cons. cbn [tl]. rewrite run_list_cons. cbn [app emit].
    destruct (run_list (a + 1 + 1, n)) as [|y t] eqn:E; [destruct n; [rewrite run_list_0 in E|rewrite run_list_cons in E]; discriminate|].
    assert (y = a + 1 + 1) by (destruct n; [rewrite run_list_0 in E|rewrite run_list_cons in E]; now inversion E). subst y.
    cbn [app]. replace (a + 1 - a =? 1) with true by lia. replace (a + 1 + 1 - (a + 1) =? 1) with true by lia. cbn [andb].
    rewrite app_comm_cons, <- E, emit_dashed.
    + cbn [run_items snd fst app]. replace (a + 1 + 1 + Z.of_nat n) with (a + Z.of_nat (S (S n))) by lia. reflexivity.
    + replace (a + 1 + 1 + Z.of_nat n) with (a + Z.of_nat (S (S n))) by lia. exact Hf.
Qed.

Lemma run_head a n : exists t, run_list (a, n) = a :: t.
Proof. destruct n; [rewrite run_list_0|rewrite run_list_cons]; eauto. Qed.

Lemma emit_next p a n rest : p + 1 < a ->
  emit false p (run_list (a, n) ++ rest) = RNum a :: emit false a (tl (run_list (a, n)) ++ rest).
Proof.
  intros H. destruct (run_head a n) as [t ->]. cbn [app emit tl].
  destruct (t ++ rest) as [|x l]; [reflexivity|]. replace (a - p =? 1) with false by lia. reflexivity.
Qed.

Lemma far_gaps a n rs : gaps ((a, n) :: rs) -> far (a + Z.of_nat n) (flat_map run_list rs).
Proof.
  destruct rs as [|[b m] rs]; [intros _; exact I|]. intros [G _]. cbn [fst snd] in G. cbn [flat_map].
  destruct (run_head b m) as [t ->]. exact G.
Qed.

Lemma emit_runs rs : forall p, gaps rs -> far p (flat_map run_list rs) ->
  emit false p (flat_map run_list rs) = flat_map run_items rs.
Proof.
  induction rs as [|[a n] rs IH]; intros p G F; [reflexivity|].
  pose proof (far_gaps a n rs G) as F2.
  cbn [flat_map] in *. destruct (run_head a n) as [t Et]. rewrite Et in F. cbn [app far] in F.
  rewrite emit_next by lia. rewrite emit_run by exact F2. f_equal. apply IH; [|exact F2].
  destruct rs; [exact I|apply G].
Qed.

Lemma range_list_runs rs : gaps rs -> range_list (flat_map run_list rs) = flat_map run_items rs.
Proof.
  destruct rs as [|[a n] rs]; intros G; [reflexivity|].
  pose proof (far_gaps a n rs G) as F2. cbn [flat_map]. destruct (run_head a n) as [t Et].
  rewrite Et. cbn [app range_list]. rewrite comp_loop_emit. cbn [rev ends_dash app].
  replace (t ++ flat_map run_list rs) with (tl (run_list (a, n)) ++ flat_map run_list rs) by (now rewrite Et).
  rewrite emit_run by exact F2. f_equal. apply emit_runs; [|exact F2]. destruct rs; [exact I|apply G].
Qed.

Lemma render_entries rs a : 
  render_items (RNum a) (flat_map run_items rs) =
  flat_map (fun e => "," :: entry_text e) (flat_map run_entries rs).
Proof.
  revert a; induction rs as [|[b n] rs IH]; intros a; [reflexivity|]. cbn [flat_map].
  destruct n as [|[|n]]; cbn [run_items run_entries snd fst app flat_map render_items same_type item_text entry_text];
    rewrite ?IH, <- ?app_assoc; try reflexivity.
Qed.

Lemma join_flat sep (l : list str) w : join [sep] (w :: l) = w ++ flat_map (fun t => sep :: t) l.
Proof.
  revert w; induction l as [|x l IH]; intros w; [cbn; now rewrite app_nil_r|].
  change (w ++ [sep] ++ join [sep] (x :: l) = w ++ (sep :: x) ++ flat_map (fun t => sep :: t) l).
  rewrite (IH x). reflexivity.
Qed.

Lemma flat_map_map {A B C} (f : B -> list C) (g : A -> B) l : flat_map f (map g l) = flat_map (fun x => f (g x)) l.
Proof. induction l as [|x l IH]; [reflexivity|]. cbn. now rewrite IH. Qed.

Lemma compressed_runs l rs : l <> [] -> sorted_set l = flat_map run_list rs -> gaps rs ->
  compressed_str l = range_text (flat_map run_entries rs).
Proof.
  intros N E G. unfold compressed_str. destruct l as [|x l]; [contradiction|]. rewrite E, range_list_runs by exact G.
  destruct rs as [|[a n] rs].
  { assert (In x (sorted_set (x :: l))) by (apply sorted_set_in; now left). rewrite E in *. contradiction. }
  unfold range_text. change (lit ",") with [","].
  destruct n as [|[|n]]; cbn [flat_map run_items run_entries snd fst app map]; rewrite join_flat;
    cbn [render_items same_type item_text flat_map entry_text map]; rewrite flat_map_map, render_entries, <- ?app_assoc; reflexivity.
Qed.

(** ** Runs and members *)

Lemma run_list_in a n x : In x (run_list (a, n)) <-> a <= x <= a + Z.of_nat n.
Proof.
  unfold run_list. cbn [fst snd]. rewrite in_map_iff. split.
  - intros (i & <- & Hi). apply in_seq in Hi. lia.
  - intros H. exists (Z.to_nat (x - a)). split; [lia|]. apply in_seq. lia.
Qed.

Lemma run_entries_covers r x : In x (run_list r) <-> exists e, In e (run_entries r) /\ covers e x.
Proof.
  destruct r as [a n]. rewrite run_list_in. destruct n as [|[|n]]; cbn [run_entries snd fst].
  - split; [intros H; exists (One a); split; [now left|cbn; lia]|intros (e & [<-|[]] & H); cbn in H; lia].
  - split.
    + intros H. destruct (Z.eq_dec x a); [exists (One a)|exists (One (a + 1))]; (split; [cbn; tauto|cbn; lia]).
    + intros (e & [<-|[<-|[]]] & H); cbn in H; lia.
  - split; [intros H; eexists; split; [now left|exact H]|intros (e & [<-|[]] & H); exact H].
Qed.

(** ** The entries written *)

Definition apart (r s : Z * nat) : Prop := fst r + Z.of_nat (snd r) + 1 < fst s.

Lemma gaps_sorted rs : gaps rs -> StronglySorted apart rs.
Proof.
  induction rs as [|r rs IH]; intros G; [constructor|].
  assert (G2 : gaps rs) by (destruct rs; [exact I|apply G]).
  specialize (IH G2). constructor; [exact IH|].
  destruct rs as [|r' rs]; [constructor|]. destruct G as [G _].
  constructor; [exact G|]. inversion IH as [|? ? _ F]; subst. rewrite Forall_forall in *. intros s Hs. specialize (F s Hs).
  unfold apart in *. lia.
Qed.

Lemma sorted_pairs {A} (R : A -> A -> Prop) l x y : StronglySorted R l -> In x l -> In y l -> x = y \/ R x y \/ R y x.
Proof.
  induction 1 as [|z l Hs IH Hf]; [intros []|]. rewrite Forall_forall in Hf.
  intros [->|Hx] [->|Hy]; auto.
Qed.

Section runs.
  Variable l : list Z.
  Variable rs : list (Z * nat).
  Hypothesis members : forall x, In x l <-> In x (flat_map run_list rs).
  Hypothesis G : gaps rs.

  Lemma in_runs x : In x l <-> exists a n, In (a, n) rs /\ a <= x <= a + Z.of_nat n.
  Proof.
    rewrite members, in_flat_map. split.
    - intros ([a n] & H & K). apply run_list_in in K. eauto.
    - intros (a & n & H & K). exists (a, n). split; [exact H|now apply run_list_in].
  Qed.

  Lemma two_runs a n b m : In (a, n) rs -> In (b, m) rs -> (a = b /\ n = m) \/ a + Z.of_nat n + 1 < b \/ b + Z.of_nat m + 1 < a.
  Proof.
    intros H K. destruct (sorted_pairs apart rs _ _ (gaps_sorted rs G) H K) as [E|[E|E]]; [left|right; left|right; right].
    - inversion E; auto.
    - exact E.
    - exact E.
  Qed.

  Lemma run_maximal a n : In (a, n) rs -> ~ In (a - 1) l /\ ~ In (a + Z.of_nat n + 1) l.
  Proof.
    intros H. split; intros K; apply in_runs in K as (b & m & K & L); destruct (two_runs _ _ _ _ H K) as [[E F]|[E|E]]; subst; lia.
  Qed.

  Lemma maximal_run_iff a b : maximal_run l a b <-> exists n, In (a, S (S n)) rs /\ b = a + Z.of_nat (S (S n)).
  Proof.
    split.
    - intros (H1 & H2 & H3 & H4). destruct (proj1 (in_runs a) (H2 a ltac:(lia))) as (a' & n & H & K).
      assert (a' = a).
      { destruct (Z.eq_dec a' a) as [|N]; [assumption|]. exfalso. apply H3, in_runs. exists a', n. split; [exact H|lia]. }
      subst a'.
      assert (b = a + Z.of_nat n).
      { destruct (Z.lt_trichotomy b (a + Z.of_nat n)) as [L|[L|L]]; [|exact L|].
        - exfalso. apply H4, in_runs. exists a, n. split; [exact H|lia].
        - exfalso. apply (run_maximal a n H). apply H2. lia. }
      destruct n as [|[|n]]; try lia. eauto.
    - intros (n & H & ->). repeat split; [lia| |apply (run_maximal _ _ H)|apply (run_maximal _ _ H)].
      intros x Hx. apply in_runs. eauto.
  Qed.

  Lemma entries_run a b : In (Run a b) (flat_map run_entries rs) <-> maximal_run l a b.
  Proof.
    rewrite maximal_run_iff, in_flat_map. split.
    - intros ([a' n] & H & K). destruct n as [|[|n]]; cbn [run_entries fst snd In] in K; [now destruct K|now destruct K as [K|[K|K]]|].
      destruct K as [K|[]]. injection K as <- <-. eauto.
    - intros (n & H & ->). exists (a, S (S n)). split; [exact H|now left].
  Qed.

  Lemma entries_one x : In (One x) (flat_map run_entries rs) <-> In x l /\ forall a b, maximal_run l a b -> ~ (a <= x <= b).
  Proof.
    rewrite in_flat_map. split.
    - intros ([a n] & H & K).
      assert (L : (n < 2)%nat /\ a <= x <= a + Z.of_nat n).
      { destruct n as [|[|n]]; cbn [run_entries fst snd In] in K.
        - destruct K as [K|[]]. injection K as <-. lia.
        - destruct K as [K|[K|[]]]; injection K as <-; lia.
        - destruct K as [K|[]]. discriminate. }
      split; [apply in_runs; exists a, n; tauto|].
      intros a' b M. apply maximal_run_iff in M as (m & M & ->). intros C.
      destruct (two_runs _ _ _ _ H M) as [[E F]|[E|E]]; lia.
    - intros [H K]. apply in_runs in H as (a & n & H & L). exists (a, n). split; [exact H|].
      destruct n as [|[|n]]; cbn [run_entries fst snd In].
      + left. f_equal. lia.
      + destruct (Z.eq_dec x a); [left; f_equal; lia|right; left; f_equal; lia].
      + exfalso. apply (K a (a + Z.of_nat (S (S n)))); [|exact L]. apply maximal_run_iff. eauto.
  Qed.
End runs.

Lemma entry_in_run r e x : In e (run_entries r) -> covers e x -> fst r <= x <= fst r + Z.of_nat (snd r).
Proof.
  destruct r as [a n]. intros H C. destruct n as [|[|n]]; cbn [run_entries fst snd In] in *.
  - destruct H as [<-|[]]. cbn [covers] in C. lia.
  - destruct H as [<-|[<-|[]]]; cbn [covers] in C; lia.
  - destruct H as [<-|[]]. exact C.
Qed.

Lemma sorted_app {A} (R : A -> A -> Prop) l m : StronglySorted R l -> StronglySorted R m ->
  (forall x y, In x l -> In y m -> R x y) -> StronglySorted R (l ++ m).
Proof.
  induction 1 as [|x l Hs IH Hf]; intros M P; [exact M|]. cbn [app]. constructor.
  - apply IH; [exact M|]. intros y z Hy Hz. apply P; [now right|exact Hz].
  - apply Forall_app. split; [exact Hf|]. apply Forall_forall. intros y Hy. apply P; [now left|exact Hy].
Qed.

Lemma entries_ascend rs : gaps rs -> in_order (flat_map run_entries rs).
Proof.
  intros G. apply gaps_sorted in G. unfold in_order. induction G as [|r rs Hs IH Hf]; [constructor|].
  cbn [flat_map]. apply sorted_app; [|exact IH|].
  - destruct r as [a [|[|n]]]; cbn [run_entries fst snd]; repeat constructor.
    intros x y Hx Hy. cbn [covers] in *. lia.
  - intros e e' He He' x y Hx Hy. apply in_flat_map in He' as (r' & Hr' & He').
    apply (entry_in_run r) in Hx; [|exact He]. apply (entry_in_run r') in Hy; [|exact He'].
    rewrite Forall_forall in Hf. specialize (Hf r' Hr'). unfold apart in Hf. lia.
Qed.

(** ** Operations *)

Lemma remove_first_in l x y : NoDup l -> (In y (remove_first x l) <-> In y l /\ y <> x).
Proof.
  induction l as [|z l IH]; intros H; [cbn; tauto|]. inversion H as [|? ? N H2]; subst. cbn [remove_first].
  destruct (Z.eqb_spec x z) as [<-|E].
  - split; [intros K; split; [now right|intros ->; contradiction]|intros [[->|K] L]; [contradiction|exact K]].
  - cbn [In]. rewrite (IH H2). split; [intros [->|[K L]]; auto|intros [[->|K] L]; auto].
Qed.
Lemma remove_first_nodup l x : NoDup l -> NoDup (remove_first x l).
Proof.
  induction l as [|z l IH]; intros H; [exact H|]. inversion H as [|? ? N H2]; subst. cbn [remove_first].
  destruct (Z.eqb_spec x z); [exact H2|]. constructor; [|auto]. rewrite remove_first_in by exact H2. tauto.
Qed.
Lemma range_sub_in other : forall l, NoDup l -> NoDup (range_sub l other) /\ forall x, In x (range_sub l other) <-> In x l /\ ~ In x other.
Proof.
  unfold range_sub. induction other as [|o other IH]; intros l H; cbn [fold_left].
  - split; [exact H|cbn; tauto].
  - destruct (IH (remove_first o l) (remove_first_nodup l o H)) as [N K]. split; [exact N|].
    intros x. rewrite K, remove_first_in by exact H. cbn [In]. intuition.
Qed.

Lemma zmem_in x l : zmem x l = true <-> In x l.
Proof. unfold zmem. rewrite existsb_exists. split; [intros (y & H & E); apply Z.eqb_eq in E; now subst|intros H; exists x; rewrite Z.eqb_refl; auto]. Qed.

Lemma remove_first_mid k x r : ~ In x k -> remove_first x (k ++ x :: r) = k ++ r.
Proof.
  induction k as [|y k IH]; intros H; cbn [app remove_first]; [now rewrite Z.eqb_refl|].
  destruct (Z.eqb_spec x y) as [->|E]; [exfalso; apply H; now left|]. rewrite IH; [reflexivity|]. intros K. apply H. now right.
Qed.

Lemma sub_self_loop_spec fuel : forall k rest, NoDup (k ++ rest) -> (length rest <= fuel)%nat ->
  sub_self_loop fuel (length k) (k ++ rest) = k ++ every_second rest.
Proof.
  induction fuel as [|fuel IH]; intros k rest N L; cbn [sub_self_loop].
  - destruct rest; [reflexivity|cbn in L; lia].
  - destruct rest as [|x rest].
    + rewrite app_nil_r. replace (nth_error k (length k)) with (@None Z) by (symmetry; now apply nth_error_None). now rewrite app_nil_r.
    + rewrite nth_error_app2, Nat.sub_diag by lia. cbn [nth_error].
      apply NoDup_remove in N as [N1 N2].
      rewrite remove_first_mid by (intros K; apply N2, in_or_app; now left).
      destruct rest as [|y rest].
      * cbn [every_second]. rewrite app_nil_r. destruct fuel; [reflexivity|]. cbn [sub_self_loop].
        replace (nth_error k (S (length k))) with (@None Z); [reflexivity|]. symmetry. apply nth_error_None. lia.
      * cbn [every_second]. replace (k ++ y :: rest) with ((k ++ [y]) ++ rest) by (now rewrite <- app_assoc).
        replace (S (length k)) with (length (k ++ [y])) by (rewrite app_length; cbn; lia).
        rewrite IH; [now rewrite <- app_assoc|now rewrite <- app_assoc|cbn in L; lia].
Qed.
