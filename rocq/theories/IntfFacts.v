From Coq Require Import Ascii String Arith NArith ZArith Bool List Lia.
From Verif Require Import PyStr PyStrFacts PyBase IntfModel IntfSpec.
Import ListNotations.
Local Open Scope char_scope.
Local Open Scope Z_scope.

Definition stops (f : ascii -> bool) (b : str) : Prop := match b with [] => True | c :: _ => f c = false end.

Lemma take_while_app f a b : forallb f a = true -> stops f b -> take_while f (a ++ b) = a.
Proof.
  induction a as [|x a IH]; cbn [forallb app take_while]; intros H S.
  - destruct b as [|c b]; [reflexivity|]. cbn [take_while]. cbn [stops] in S. now rewrite S.
  - apply andb_true_iff in H as [H1 H2]. rewrite H1. now rewrite IH.
Qed.
Lemma drop_while_app f a b : forallb f a = true -> stops f b -> drop_while f (a ++ b) = b.
Proof.
  induction a as [|x a IH]; cbn [forallb app drop_while]; intros H S.
  - destruct b as [|c b]; [reflexivity|]. cbn [drop_while]. cbn [stops] in S. now rewrite S.
  - apply andb_true_iff in H as [H1 H2]. rewrite H1. now apply IH.
Qed.
Lemma while_split f s : s = take_while f s ++ drop_while f s /\ forallb f (take_while f s) = true /\ stops f (drop_while f s).
Proof.
  induction s as [|c s [E [F S]]]; [now split|]. cbn [take_while drop_while].
  destruct (f c) eqn:H.
  - split; [cbn [app]; now rewrite <- E|]. cbn [forallb]. now rewrite H.
  - split; [reflexivity|]. split; [reflexivity|]. cbn [stops]. exact H.
Qed.
Lemma forallb_imp {A} (f g : A -> bool) l : (forall x, f x = true -> g x = true) -> forallb f l = true -> forallb g l = true.
Proof. intros H. rewrite !forallb_forall. firstorder. Qed.

(** Character classes, decided by enumeration. *)
Ltac by_chars := let c := fresh "c" in intros c; destruct c as [[] [] [] [] [] [] [] []]; vm_compute; intros; congruence.
Lemma digit_prefix c : is_digit c = true -> prefix_char c = false. Proof. revert c. by_chars. Qed.
Lemma digit_short c : is_digit c = true -> short_char c = true. Proof. revert c. by_chars. Qed.
Lemma prefix_short c : prefix_char c = true -> short_char c = true. Proof. revert c. by_chars. Qed.
Lemma prefix_digit c : prefix_char c = true -> is_digit c = false. Proof. revert c. by_chars. Qed.
Lemma class_short c : class_char c = true -> short_char c = true. Proof. revert c. by_chars. Qed.
Lemma space_short c : is_space c = true -> short_char c = true. Proof. revert c. by_chars. Qed.
Lemma short_long c : short_char c = true -> long_char c = true. Proof. revert c. by_chars. Qed.
Lemma class_space c : class_char c = true -> is_space c = false. Proof. revert c. by_chars. Qed.
Lemma space_class c : is_space c = true -> class_char c = false. Proof. revert c. by_chars. Qed.
Lemma digit_class c : is_digit c = true -> class_char c = false. Proof. revert c. by_chars. Qed.
Lemma digit_space c : is_digit c = true -> is_space c = false. Proof. revert c. by_chars. Qed.
Lemma digit_sep c : is_digit c = true -> sep_char c = false. Proof. revert c. by_chars. Qed.
Lemma long_sep c : long_char c = true -> sep_char c = true -> c = "/". Proof. revert c. by_chars. Qed.
Lemma long_not_comma c : long_char c = true -> c <> ",". Proof. revert c. by_chars. Qed.
Lemma long_split c : long_char c = true -> short_char c = true \/ c = "/".
Proof. unfold long_char. intros H. apply orb_true_iff in H as [H|H]; [now left|right; now apply Ascii.eqb_eq]. Qed.

(** Numerals *)
Lemma show_pos z : 0 <= z -> show_Z z = show_N (Z.to_N z).
Proof. destruct z; [reflexivity|reflexivity|lia]. Qed.
Lemma digits_val_zeros k s : digits_val (repeat "0" k ++ s) = digits_val s.
Proof. induction k as [|k IH]; [reflexivity|]. cbn [repeat app]. rewrite <- IH. reflexivity. Qed.
Lemma digits_zeros k : forallb is_digit (repeat "0" k) = true.
Proof. induction k; [reflexivity|]. cbn [repeat forallb]. now rewrite IHk. Qed.
Lemma numeral_digits t n : numeral t n -> forallb is_digit t = true.
Proof. intros [H [k ->]]. rewrite forallb_app, digits_zeros, show_pos by assumption. apply show_N_digits. Qed.
Lemma numeral_value t n : numeral t n -> digits_Z t = n.
Proof. intros [H [k ->]]. unfold digits_Z. rewrite digits_val_zeros, show_pos, show_N_val by assumption. lia. Qed.
Lemma numeral_head t n : numeral t n -> exists c r, t = c :: r /\ is_digit c = true.
Proof.
  intros H. pose proof (numeral_digits _ _ H) as D. destruct t as [|c r].
  - destruct H as [H [k E]]. symmetry in E. apply app_eq_nil in E as [_ E]. rewrite show_pos in E by assumption. now apply show_N_nonempty in E.
  - exists c, r. split; [reflexivity|]. cbn [forallb] in D. now apply andb_true_iff in D.
Qed.
Lemma show_numeral n : 0 <= n -> numeral (show_Z n) n.
Proof. intros H. split; [assumption|]. now exists 0%nat. Qed.
Lemma numeral_last t n : numeral t n -> exists r c, t = r ++ [c] /\ is_digit c = true.
Proof.
  intros H. pose proof (numeral_digits _ _ H) as D. destruct (numeral_head _ _ H) as (c & r & -> & _).
  destruct (@exists_last _ (c :: r)) as (r' & c' & E); [congruence|]. rewrite E in *. exists r', c'. split; [reflexivity|].
  rewrite forallb_app in D. apply andb_true_iff in D as [_ D]. cbn [forallb] in D. now apply andb_true_iff in D.
Qed.
Lemma numeral_opt t n : numeral t n -> opt_digits t = Some n.
Proof.
  intros H. pose proof (numeral_value _ _ H) as V. destruct (numeral_head _ _ H) as (c & r & -> & _).
  unfold opt_digits. now rewrite V.
Qed.
Lemma numeral_take t n b : numeral t n -> stops is_digit b -> take_while is_digit (t ++ b) = t.
Proof. intros H. apply take_while_app. exact (numeral_digits _ _ H). Qed.
Lemma numeral_drop t n b : numeral t n -> stops is_digit b -> drop_while is_digit (t ++ b) = b.
Proof. intros H. apply drop_while_app. exact (numeral_digits _ _ H). Qed.

(** Marks *)
Lemma after_mark_skip m a b : ~ In m a -> after_mark m (a ++ b) = after_mark m b.
Proof.
  induction a as [|c a IH]; intros H; [reflexivity|]. cbn [app after_mark].
  destruct (Ascii.eqb_spec c m) as [->|N]; [exfalso; apply H; now left|]. apply IH. intros K. apply H. now right.
Qed.
Lemma after_mark_none m a : ~ In m a -> after_mark m a = None.
Proof. intros H. rewrite <- (app_nil_r a), after_mark_skip by assumption. reflexivity. Qed.
Lemma after_mark_here m t n b : numeral t n -> stops is_digit b -> after_mark m (m :: t ++ b) = Some n.
Proof.
  intros H S. cbn [after_mark]. rewrite Ascii.eqb_refl. rewrite (numeral_take _ _ _ H S).
  pose proof (numeral_value _ _ H) as V. destruct (numeral_head _ _ H) as (c & r & -> & _). now rewrite V.
Qed.

(** The class *)
Lemma class_of_word a g w : white g -> g <> [] -> class_word w -> class_of (a ++ g ++ w) = Some w.
Proof.
  intros G Gn [W Wc]. unfold class_of.
  assert (D : rev (a ++ g ++ w) = rev w ++ (rev g ++ rev a)) by now rewrite !rev_app_distr, app_assoc.
  rewrite D.
  assert (R : forallb class_char (rev w) = true) by (rewrite forallb_rev; exact Wc).
  destruct (rev g) as [|c r] eqn:E.
  { exfalso. apply Gn. rewrite <- (rev_involutive g), E. reflexivity. }
  assert (C : is_space c = true).
  { unfold white in G. rewrite <- forallb_rev, E in G. cbn [forallb] in G. now apply andb_true_iff in G. }
  assert (St : stops class_char ((c :: r) ++ rev a)) by (cbn [app stops]; now apply space_class).
  rewrite take_while_app, drop_while_app by assumption.
  destruct (rev w) as [|d u] eqn:F.
  { exfalso. apply W. rewrite <- (rev_involutive w), F. reflexivity. }
  cbn [app]. rewrite C, <- F. now rewrite rev_involutive.
Qed.
Lemma class_of_digit a c : is_digit c = true -> class_of (a ++ [c]) = None.
Proof.
  intros H. unfold class_of. rewrite rev_app_distr. cbn [rev app take_while]. now rewrite (digit_class _ H).
Qed.
Lemma class_of_some s w : class_of s = Some w -> class_word w.
Proof.
  unfold class_of. destruct (while_split class_char (rev s)) as (E & F & _).
  destruct (take_while class_char (rev s)) as [|a r] eqn:T; [discriminate|].
  destruct (drop_while class_char (rev s)) as [|c u]; [discriminate|]. destruct (is_space c); [|discriminate].
  intros [= <-]. split.
  - intros K. apply (f_equal (@length ascii)) in K. rewrite app_length in K. cbn in K. lia.
  - change (rev r ++ [a]) with (rev (a :: r)). now rewrite forallb_rev.
Qed.

(** Stripping *)
Lemma lstrip_blank_app p s : white p -> lstrip (p ++ s) = lstrip s.
Proof. apply lstrip_app_space. Qed.
Lemma lstrip_app q c s : is_space c = false -> lstrip (q ++ c :: s) = lstrip q ++ c :: s.
Proof.
  intros H. induction q as [|x q IH]; cbn [app lstrip].
  - now rewrite H.
  - destruct (is_space x); [apply IH|reflexivity].
Qed.
Lemma rstrip_app_white s p : white p -> rstrip (s ++ p) = rstrip s.
Proof.
  intros H. unfold rstrip. rewrite rev_app_distr, lstrip_app_space; [reflexivity|]. now rewrite forallb_rev.
Qed.
Lemma strip_lstrip q : strip (lstrip q) = strip q.
Proof.
  destruct (lstrip_suffix q) as (p & E & P). unfold strip. rewrite E at 2.
  destruct (lstrip q) as [|c r] eqn:F.
  - rewrite app_nil_r. rewrite (proj2 (rstrip_nil_iff p) P). reflexivity.
  - assert (C : is_space c = false).
    { pose proof (lstrip_head q) as L. rewrite F in L. exact L. }
    replace (rstrip (p ++ c :: r)) with (p ++ rstrip (c :: r)); [now rewrite lstrip_app_space|].
    unfold rstrip. rewrite rev_app_distr. cbn [rev]. rewrite <- app_assoc. cbn [app].
    rewrite !lstrip_app by assumption. repeat (rewrite ?rev_app_distr, ?rev_involutive; cbn [rev app]).
    now rewrite <- ?app_assoc.
Qed.
(** A name [q core post] whose core starts and ends with characters that are kept. *)
Lemma strip_name q c r d u post : white post -> is_space c = false -> is_space d = false -> c :: r = u ++ [d] ->
  strip (q ++ (c :: r) ++ post) = lstrip q ++ c :: r.
Proof.
  intros P C D E. unfold strip. rewrite app_assoc, rstrip_app_white by assumption.
  replace (rstrip (q ++ c :: r)) with (q ++ c :: r).
  - now apply lstrip_app.
  - rewrite E, app_assoc. now rewrite rstrip_app_cons.
Qed.

(** Splitting *)
Lemma split_name_app cls q c r : (forall x, prefix_char x = true -> cls x = true) ->
  forallb prefix_char q = true -> is_digit c = true -> forallb cls (c :: r) = true ->
  split_name cls (q ++ c :: r) = Some (q, c :: r).
Proof.
  intros Sub Q C R. unfold split_name.
  assert (St : stops prefix_char (c :: r)) by (cbn [stops]; now apply digit_prefix).
  rewrite drop_while_app, take_while_app by assumption.
  rewrite forallb_app, R, (forallb_imp _ _ _ Sub Q). cbn [andb]. now destruct q.
Qed.
Lemma split_name_fail cls q c : In c q -> cls c = false -> split_name cls q = None.
Proof.
  intros H F. unfold split_name. destruct q; [reflexivity|].
  destruct (forallb cls (a :: q)) eqn:E; [|reflexivity]. rewrite forallb_forall in E. apply E in H. congruence.
Qed.
