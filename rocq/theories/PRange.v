(** Properties of integer ranges (CiscoRange). *)
From Coq Require Import Ascii String Arith NArith ZArith Bool List Lia Sorted Permutation.
From Verif Require Import PyStr PyStrFacts PyBase PyBaseFacts RangeModel RangeSpec RangeFacts.
Import ListNotations.
Local Open Scope char_scope.
Local Open Scope Z_scope.

(** [list(set(..))] has some order; the model's [nodup] is one. *)
Lemma some_set_order : set_order (nodup Z.eq_dec).
Proof. intros l. split; [apply NoDup_nodup|intros x; apply nodup_In]. Qed.

Lemma filter_len {A} (f : A -> bool) l : (length (filter f l) <= length l)%nat.
Proof. induction l as [|x l IH]; cbn [filter length]; [lia|]. destruct (f x); cbn [length]; lia. Qed.

(** ** C34: the compressed text *)

(** The text lists, in ascending order and without overlap, exactly the maximal
    runs of three or more members as "a-b" and every other member by itself. *)
Theorem C34_compressed_entries : forall l, l <> [] ->
  exists es, compressed_str l = range_text es /\ in_order es /\
    (forall a b, In (Run a b) es <-> maximal_run l a b) /\
    (forall x, In (One x) es <-> In x l /\ forall a b, maximal_run l a b -> ~ (a <= x <= b)).
Proof.
  intros l N. destruct (runs_exist (sorted_set l) (sorted_set_ascending l)) as (rs & E & G).
  assert (M : forall x, In x l <-> In x (flat_map run_list rs)) by (intros x; rewrite <- E; symmetry; apply sorted_set_in).
  exists (flat_map run_entries rs). split; [now apply compressed_runs|]. split; [now apply entries_ascend|].
  split; [intros a b; now apply entries_run|intros x; now apply entries_one].
Qed.
Print Assumptions C34_compressed_entries.

Lemma entry_denotes e : nonneg e -> denotes (entry_text e) e.
Proof.
  destruct e as [a|a b]; cbn [nonneg entry_text]; intros H.
  - pose proof (d_one 0 0 a H) as D. cbn [spaces repeat app] in D. now rewrite app_nil_r in D.
  - destruct H as [H K]. pose proof (d_run 0 0 0 0 a b H K) as D. cbn [spaces repeat app] in D. now rewrite !app_nil_r in D.
Qed.

(** Parsing the text gives back the same members, each once. *)
Theorem C34_round_trip : forall set_list l, set_order set_list -> Forall (fun z => 0 <= z) l ->
  exists m, range_of_text set_list (compressed_str l) = Ok m /\ NoDup m /\ forall x, In x m <-> In x l.
Proof.
  intros f l S P. destruct l as [|y l]; [exists []; repeat split; auto; constructor|].
  destruct (runs_exist (sorted_set (y :: l)) (sorted_set_ascending (y :: l))) as (rs & E & G).
  assert (M : forall x, In x (y :: l) <-> In x (flat_map run_list rs)) by (intros x; rewrite <- E; symmetry; apply sorted_set_in).
  rewrite (compressed_runs (y :: l) rs) by (discriminate || assumption).
  assert (NE : flat_map run_entries rs <> []).
  { intros C. destruct rs as [|[a [|[|n]]] rs]; try discriminate. apply (proj1 (M y)). now left. }
  assert (D : Forall2 denotes (map entry_text (flat_map run_entries rs)) (flat_map run_entries rs)).
  { assert (Q : Forall nonneg (flat_map run_entries rs)).
    { rewrite Forall_forall in *. intros [x|a b] H.
      - apply (entries_one (y :: l) rs M G) in H as [H _]. now apply P.
      - apply (entries_run (y :: l) rs M G) in H as (H1 & H2 & _). split; apply P, H2; lia. }
    revert Q. generalize (flat_map run_entries rs). induction 1 as [|e es He _ IH]; [constructor|].
    cbn [map]. constructor; [now apply entry_denotes|exact IH]. }
  unfold range_text. change (lit ",") with [","]. rewrite (range_of_denotes f _ _ D NE).
  destruct (S (flat_map expand (flat_map run_entries rs))) as [S1 S2].
  eexists. split; [reflexivity|]. split; [exact S1|]. intros x. rewrite S2, M, in_flat_map, in_flat_map. split.
  - intros (e & He & Hx). apply in_flat_map in He as (r & Hr & He). exists r. split; [exact Hr|].
    apply run_entries_covers. exists e. split; [exact He|now apply expand_covers].
  - intros (r & Hr & Hx). apply run_entries_covers in Hx as (e & He & Hc). exists e.
    split; [apply in_flat_map; eauto|now apply expand_covers].
Qed.
Print Assumptions C34_round_trip.

(** The text depends on the members alone. *)
Theorem C34_canonical : forall l m, (forall x, In x l <-> In x m) -> compressed_str l = compressed_str m.
Proof.
  intros l m H. assert (E : sorted_set l = sorted_set m).
  { apply ascending_unique; try apply sorted_set_ascending. intros x. now rewrite !sorted_set_in. }
  unfold compressed_str. rewrite E.
  destruct l as [|a l], m as [|b m]; [reflexivity| | |reflexivity]; exfalso.
  - apply (H b). now left.
  - apply (H a). now left.
Qed.
Print Assumptions C34_canonical.

(** Negative members do not survive: the text of {-1} is "-1", which is refused. *)
Theorem C34_negative_refuted : exists l, NoDup l /\
  range_of_text (nodup Z.eq_dec) (compressed_str l) = Err ValueError.
Proof. exists [-1]. split; [repeat constructor; tauto|reflexivity]. Qed.
Print Assumptions C34_negative_refuted.

Example C34_ex1 : compressed_str [5; 1; 2; 3; 9; 8; 5; 20] = lit "1-3,5,8,9,20".
Proof. reflexivity. Qed.
Example C34_ex2 : maximal_run [5; 1; 2; 3; 9; 8; 5; 20] 1 3.
Proof.
  split; [lia|]. split; [intros x H; assert (x = 1 \/ x = 2 \/ x = 3) as [E|[E|E]] by lia; subst x; cbn; tauto|].
  cbn. split; intuition discriminate.
Qed.
Example C34_ex3 : Forall (fun z => 0 <= z) [5; 1; 2; 3; 9; 8; 5; 20] /\
  range_of_text (nodup Z.eq_dec) (lit "1-3,5,8,9,20") = Ok [1; 2; 3; 5; 8; 9; 20].
Proof. split; [repeat constructor; lia|reflexivity]. Qed.

(** ** C35: ranges as sets *)

(** Any comma-separated list of numbers and intervals, with spaces around the
    numbers, gives the union of what is listed, without duplicates. *)
Theorem C35_parse : forall set_list ts es, set_order set_list -> Forall2 denotes ts es -> es <> [] ->
  exists m, range_of_text set_list (join (lit ",") ts) = Ok m /\ NoDup m /\
    forall x, In x m <-> exists e, In e es /\ covers e x.
Proof.
  intros f ts es S D N. change (lit ",") with [","]. rewrite (range_of_denotes f ts es D N).
  destruct (S (flat_map expand es)) as [S1 S2]. eexists. split; [reflexivity|]. split; [exact S1|].
  intros x. rewrite S2, in_flat_map. split; intros (e & He & Hx); exists e; (split; [exact He|now apply expand_covers]).
Qed.
Print Assumptions C35_parse.

(** A text with an empty part is refused. *)
Theorem C35_empty_part : forall set_list text, text <> [] -> In [] (split_on "," text) ->
  exists e, range_of_text set_list text = Err e.
Proof.
  intros f text N H. unfold range_of_text. destruct text as [|c r]; [contradiction|].
  destruct (contains (lit ",,") (c :: r)); [eexists; reflexivity|]. unfold parse_integers.
  assert (P : forall l, In [] l -> exists e, parse_parts l = Err e).
  { induction l as [|p l IH]; [intros []|]. intros [->|K]; cbn [parse_parts].
    - eexists. reflexivity.
    - destruct (parse_part p) as [q|e]; [|eexists; reflexivity]. cbn [bind]. destruct (IH K) as [e ->]. eexists. reflexivity. }
  destruct (P _ H) as [e ->]. eexists. reflexivity.
Qed.
Print Assumptions C35_empty_part.

(** So is a text with a part that has two dashes, or a character that no number has. *)
Definition number_char (c : ascii) : Prop := is_digit c = true \/ is_space c = true \/ In c ["+"; "-"; "_"].
Lemma int_digits_chars b s d : int_digits b s = Some d -> Forall number_char s.
Proof.
  revert b d. induction s as [|c s IH]; intros b d; [constructor|]. cbn [int_digits]. destruct (is_digit c) eqn:Dc.
  - destruct (int_digits true s) as [d'|] eqn:E; [|discriminate]. intros _. constructor; [now left|eauto].
  - destruct (Ascii.eqb_spec c "_") as [->|Nc]; [|discriminate]. destruct b; [|discriminate]. cbn [andb]. intros E. constructor; [right; right; cbn; tauto|eauto].
Qed.
Lemma int_space_space c : int_space c = true -> is_space c = true.
Proof. destruct c as [[] [] [] [] [] [] [] []]; vm_compute; congruence. Qed.
Lemma drop_while_chars s : Forall number_char (drop_while int_space s) -> Forall number_char s.
Proof.
  induction s as [|c s IH]; [auto|]. cbn [drop_while]. destruct (int_space c) eqn:E; [|auto]. intros H. constructor; [right; left; now apply int_space_space|auto].
Qed.
Lemma py_int_chars s z : py_int s = Some z -> Forall number_char s.
Proof.
  unfold py_int. intros H. assert (F : Forall number_char (int_strip s)).
  { destruct (int_strip s) as [|c t]; [discriminate|]. destruct (Ascii.eqb_spec c "-") as [->|N1]; [|destruct (Ascii.eqb_spec c "+") as [->|N2]].
    - destruct (int_digits false t) eqn:E; [|discriminate]. constructor; [right; right; cbn; tauto|eapply int_digits_chars; eauto].
    - destruct (int_digits false t) eqn:E; [|discriminate]. constructor; [right; right; cbn; tauto|eapply int_digits_chars; eauto].
    - destruct (int_digits false (c :: t)) eqn:E; [|discriminate]. eapply int_digits_chars; eauto. }
  unfold int_strip in F. apply drop_while_chars in F. rewrite Forall_forall in *. apply Forall_forall in F. apply Forall_rev in F. rewrite rev_involutive in F.
  apply drop_while_chars in F. apply Forall_rev in F. rewrite rev_involutive in F. now rewrite Forall_forall in F.
Qed.
Lemma strip_chars s : Forall number_char (strip s) -> Forall number_char s.
Proof.
  intros H. destruct (rstrip_prefix s) as (q & E1 & W1). destruct (lstrip_suffix (rstrip s)) as (p & E2 & W2). unfold strip in H.
  assert (W : forall u, forallb is_space u = true -> Forall number_char u) by (intros u Hu; apply Forall_forall; intros x Hx; right; left; rewrite forallb_forall in Hu; auto).
  rewrite E1, E2. rewrite !Forall_app. auto.
Qed.
Lemma int_or_err_chars s z : int_or_err s = Ok z -> Forall number_char s.
Proof. unfold int_or_err. destruct (py_int s) eqn:E; [|discriminate]. intros _. eapply py_int_chars; eauto. Qed.
Lemma parse_part_ok part l : parse_part part = Ok l -> Forall number_char part /\ (length (split_on "-" part) <= 2)%nat.
Proof.
  unfold parse_part. destruct (has_char "-" part) eqn:H.
  - pose proof (join_split_on "-" part) as J. destruct (split_on "-" part) as [|x [|y [|z r]]]; try discriminate. cbn [join] in J.
    destruct (int_or_err (strip x)) eqn:E1; [|discriminate]. destruct (int_or_err (strip y)) eqn:E2; [|discriminate]. intros _.
    apply int_or_err_chars, strip_chars in E1. apply int_or_err_chars, strip_chars in E2. rewrite <- J. split; [|cbn; lia].
    rewrite !Forall_app. split; [exact E1|]. split; [|exact E2]. constructor; [right; right; cbn; tauto|constructor].
  - rewrite (split_on_nochar _ _ H). destruct (int_or_err part) eqn:E; [|discriminate]. intros _. split; [eapply int_or_err_chars; eauto|cbn; lia].
Qed.
Lemma two_dashes a b c : (2 < length (split_on "-" (a ++ "-" :: b ++ "-" :: c)))%nat.
Proof.
  assert (G : forall a s, (length (split_on "-" s) < length (split_on "-" (a ++ "-" :: s)))%nat).
  { clear. induction a as [|x a IH]; intros s; cbn [app split_on].
    - rewrite Ascii.eqb_refl. cbn [length]. lia.
    - specialize (IH s). destruct (Ascii.eqb x "-"); [cbn [length]; lia|]. destruct (split_on "-" (a ++ "-" :: s)) as [|w ws]; cbn [length] in *; lia. }
  pose proof (G a (b ++ "-" :: c)). pose proof (G b c). pose proof (split_on_nonnil "-" c). destruct (split_on "-" c); [congruence|]. cbn [length] in *. lia.
Qed.
Theorem C35_refused : forall set_list text part, In part (split_on "," text) ->
  (exists a b c, part = a ++ "-" :: b ++ "-" :: c) \/ (exists c, In c part /\ ~ number_char c) ->
  exists e, range_of_text set_list text = Err e.
Proof.
  intros f text part I H. unfold range_of_text. destruct text as [|c0 r0].
  { destruct I as [<-|[]]. destruct H as [(a & b & c & H)|(c & [] & _)]. now destruct a. }
  destruct (contains (lit ",,") (c0 :: r0)); [eexists; reflexivity|]. unfold parse_integers. revert I. generalize (split_on "," (c0 :: r0)). intros l I.
  assert (P : exists e, parse_parts l = Err e).
  { induction l as [|p l IH]; [destruct I|]. cbn [parse_parts]. destruct I as [->|I].
    - destruct (parse_part part) as [q|e] eqn:E; [|eexists; reflexivity]. exfalso. apply parse_part_ok in E as [E1 E2]. destruct H as [(a & b & c & ->)|(c & Hc & Nc)].
      + pose proof (two_dashes a b c). lia.
      + apply Nc. rewrite Forall_forall in E1. now apply E1.
    - destruct (parse_part p) as [q|e]; [|eexists; reflexivity]. cbn [bind]. destruct (IH I) as [e ->]. eexists; reflexivity. }
  destruct P as [e ->]. eexists; reflexivity.
Qed.
Print Assumptions C35_refused.
Example C35_refused_ex : range_of_text (nodup Z.eq_dec) (lit "1,2-3-4") = Err InvalidCiscoRange /\ range_of_text (nodup Z.eq_dec) (lit "1,2x") = Err ValueError /\
  In (lit "2-3-4") (split_on "," (lit "1,2-3-4")) /\ ~ number_char "x".
Proof. split; [reflexivity|]. split; [reflexivity|]. split; [right; now left|]. intros [K|[K|[K|[K|[K|[]]]]]]; discriminate. Qed.

(** [as_list] is ascending (descending with reverse) and has the members. *)
Theorem C35_as_list : forall l,
  ascending (range_as_list l false) /\ (forall x, In x (range_as_list l false) <-> In x l) /\
  range_as_list l true = rev (range_as_list l false).
Proof. intros l. split; [apply sorted_set_ascending|]. split; [apply sorted_set_in|reflexivity]. Qed.
Print Assumptions C35_as_list.

(** [+] is union, [-] is difference. *)
Theorem C35_add : forall l m, NoDup (range_add l m) /\ ascending (range_add l m) /\
  forall x, In x (range_add l m) <-> In x l \/ In x m.
Proof.
  intros l m. split; [apply ascending_nodup, sorted_set_ascending|]. split; [apply sorted_set_ascending|].
  intros x. unfold range_add. rewrite sorted_set_in. apply in_app_iff.
Qed.
Print Assumptions C35_add.
Theorem C35_sub : forall l m, NoDup l ->
  NoDup (range_sub l m) /\ forall x, In x (range_sub l m) <-> In x l /\ ~ In x m.
Proof. intros l m H. now apply range_sub_in. Qed.
Print Assumptions C35_sub.

(** [append] adds a new member and refuses one that is there. *)
Theorem C35_append : forall l v, NoDup l ->
  (In v l -> range_append l v = Err DuplicateMember) /\
  (~ In v l -> exists m, range_append l v = Ok m /\ NoDup m /\ forall x, In x m <-> x = v \/ In x l).
Proof.
  intros l v N. unfold range_append. split; intros H.
  - now rewrite (proj2 (zmem_in v l) H).
  - destruct (zmem v l) eqn:E; [apply zmem_in in E; contradiction|]. eexists. split; [reflexivity|]. split.
    + apply sort_by_nodup. apply (Permutation_NoDup (l := v :: l)); [apply Permutation_cons_append|now constructor].
    + intros x. rewrite sort_by_in, in_app_iff. cbn. intuition.
Qed.
Print Assumptions C35_append.

(** [remove] removes a member; a missing member is ignored on request. *)
Theorem C35_remove : forall l v ign, NoDup l ->
  (In v l -> exists m, range_remove l v ign = Ok m /\ NoDup m /\ forall x, In x m <-> In x l /\ x <> v) /\
  (~ In v l -> range_remove l v true = Ok l) /\
  (~ In v l -> exists e, range_remove l v false = Err e).
Proof.
  intros l v ign N. unfold range_remove. split; [|split]; intros H.
  - rewrite (proj2 (zmem_in v l) H). cbn [negb andb]. destruct l as [|y l]; [contradiction|]. set (m := y :: l) in *.
    assert (L : (length (filter (fun x => negb (x =? v)%Z) m) < length m)%nat).
    { clear N. clearbody m. clear y l. induction m as [|z m IH]; [destruct H|]. cbn [filter length].
      destruct H as [->|H].
      - rewrite Z.eqb_refl. cbn [negb]. pose proof (filter_len (fun x => negb (x =? v)) m). lia.
      - specialize (IH H). destruct (negb (z =? v)); cbn [length]; lia. }
    apply Nat.ltb_lt in L. rewrite L. eexists. split; [reflexivity|]. split; [now apply NoDup_filter|].
    intros x. rewrite filter_In. destruct (Z.eqb_spec x v); cbn [negb]; intuition discriminate.
  - destruct (zmem v l) eqn:E; [apply zmem_in in E; contradiction|]. reflexivity.
  - destruct (zmem v l) eqn:E; [apply zmem_in in E; contradiction|]. cbn [negb andb]. destruct l as [|y l]; [eexists; reflexivity|].
    replace (filter (fun x => negb (x =? v)) (y :: l)) with (y :: l); [rewrite Nat.ltb_irrefl; eexists; reflexivity|].
    symmetry. clear N. set (m := y :: l) in *. clearbody m. clear E. induction m as [|z m IH]; [reflexivity|]. cbn [filter].
    destruct (Z.eqb_spec z v) as [->|]; [exfalso; apply H; now left|]. cbn [negb]. f_equal. apply IH. intros K. apply H. now right.
Qed.
Print Assumptions C35_remove.

(** Finding: the error for a missing member names the wrong cause. *)
Theorem C35_remove_missing_error : forall l v, ~ In v l ->
  range_remove l v false = Err (match l with [] => UnboundLocal | _ => MismatchedType end).
Proof.
  intros l v H. unfold range_remove. rewrite andb_false_r. destruct l as [|y l]; [reflexivity|].
  set (m := y :: l) in *. assert (E : filter (fun x => negb (x =? v)) m = m); [|rewrite E, Nat.ltb_irrefl; reflexivity].
  clearbody m. induction m as [|z m IH]; [reflexivity|]. cbn [filter].
  destruct (Z.eqb_spec z v) as [->|]; [exfalso; apply H; now left|]. cbn [negb]. f_equal. apply IH. intros K. apply H. now right.
Qed.
Print Assumptions C35_remove_missing_error.

(** Finding: a range minus itself keeps every second member. *)
Theorem C35_sub_self_refuted : forall l, NoDup l -> range_sub_self l = every_second l.
Proof. intros l N. unfold range_sub_self. now apply (sub_self_loop_spec (length l) [] l). Qed.
Print Assumptions C35_sub_self_refuted.

Example C35_ex1 : Forall2 denotes [lit " 5 "; lit "1 - 3"; lit "9-7"] [One 5; Run 1 3; Run 9 7].
Proof.
  constructor; [|constructor; [|constructor; [|constructor]]].
  - apply (d_one 1 1 5). lia.
  - apply (d_run 0 1 1 0 1 3); lia.
  - apply (d_run 0 0 0 0 9 7); lia.
Qed.
Example C35_ex2 : range_of_text (nodup Z.eq_dec) (lit " 5 ,1 - 3,9-7") = Ok [5; 1; 2; 3].
Proof. reflexivity. Qed.
Example C35_ex3 : In [] (split_on "," (lit "1,2,")) /\ range_of_text (nodup Z.eq_dec) (lit "1,2,") = Err ValueError.
Proof. cbn. tauto. Qed.
Example C35_ex4 : range_add [5; 1] [2; 5] = [1; 2; 5] /\ range_sub [1; 2; 5] [5; 7] = [1; 2] /\
  range_append [1; 5] 3 = Ok [1; 3; 5] /\ range_remove [1; 3; 5] 3 false = Ok [1; 5] /\
  range_remove [1; 5] 3 false = Err MismatchedType /\ range_remove [] 3 false = Err UnboundLocal.
Proof. repeat split. Qed.
Example C35_ex5 : range_sub_self [1; 2; 3; 4; 5] = [2; 4].
Proof. reflexivity. Qed.
