(** Lemmas about the string model of [PyStr]. *)
From Coq Require Import Decimal DecimalN DecimalFacts.
From Coq Require Import Ascii String Arith NArith ZArith Bool List Lia.
From Verif Require Import PyStr.
Import ListNotations.
Local Open Scope char_scope.

Lemma str_eqb_refl a : str_eqb a a = true.
Proof. induction a as [|x a IH]; cbn; [reflexivity|]. now rewrite Ascii.eqb_refl. Qed.

Lemma str_eqb_eq a b : str_eqb a b = true <-> a = b.
Proof.
  split.
  - revert b; induction a as [|x a IH]; intros [|y b]; cbn; try discriminate; auto.
    intros H; apply andb_prop in H as [H1 H2].
    apply Ascii.eqb_eq in H1; subst y. f_equal. now apply IH.
  - intros ->; apply str_eqb_refl.
Qed.

Lemma str_eqb_neq a b : str_eqb a b = false <-> a <> b.
Proof.
  rewrite <- not_true_iff_false, str_eqb_eq. tauto.
Qed.

Lemma str_eqb_spec a b : reflect (a = b) (str_eqb a b).
Proof.
  destruct (str_eqb a b) eqn:E; constructor.
  - now apply str_eqb_eq.
  - now apply str_eqb_neq.
Qed.

Definition str_eq_dec (a b : str) : {a = b} + {a <> b} := list_eq_dec ascii_dec a b.

(** ** Character classes *)

Ltac ascii_cases c :=
  destruct c as [[|] [|] [|] [|] [|] [|] [|] [|]]; vm_compute.

Lemma digit_not_space c : is_digit c = true -> is_space c = false.
Proof. ascii_cases c; intros; congruence. Qed.
Lemma digit_not_int_space c : is_digit c = true -> int_space c = false.
Proof. ascii_cases c; intros; congruence. Qed.
Lemma alpha_not_space c : is_alpha c = true -> is_space c = false.
Proof. ascii_cases c; intros; congruence. Qed.
Lemma alpha_not_digit c : is_alpha c = true -> is_digit c = false.
Proof. ascii_cases c; intros; congruence. Qed.
Lemma int_space_is_space c : int_space c = true -> is_space c = true.
Proof. ascii_cases c; intros; congruence. Qed.
Lemma space_is_space : is_space " " = true.
Proof. reflexivity. Qed.

Lemma digit_val_lt c : is_digit c = true -> (digit_val c < 10)%N.
Proof.
  unfold is_digit, digit_val. intros H. apply andb_prop in H as [H1 H2].
  apply N.leb_le in H1, H2. lia.
Qed.

(** ** strip *)

Lemma lstrip_not_space s :
  match s with [] => True | c :: _ => is_space c = false end -> lstrip s = s.
Proof. destruct s as [|c s]; cbn; intros H; [reflexivity|]. now rewrite H. Qed.

Lemma lstrip_head s :
  match lstrip s with [] => True | c :: _ => is_space c = false end.
Proof.
  induction s as [|c s IH]; cbn; [trivial|].
  destruct (is_space c) eqn:E; [exact IH|exact E].
Qed.

Lemma lstrip_idem s : lstrip (lstrip s) = lstrip s.
Proof. apply lstrip_not_space, lstrip_head. Qed.

Lemma rstrip_idem s : rstrip (rstrip s) = rstrip s.
Proof. unfold rstrip. now rewrite rev_involutive, lstrip_idem. Qed.

Lemma lstrip_suffix s : exists p, s = p ++ lstrip s /\ forallb is_space p = true.
Proof.
  induction s as [|c s (p & E & H)]; cbn.
  - now exists [].
  - destruct (is_space c) eqn:Ec.
    + exists (c :: p). cbn. rewrite Ec, H, <- E. auto.
    + now exists [].
Qed.

Lemma rstrip_prefix s : exists p, s = rstrip s ++ p /\ forallb is_space p = true.
Proof.
  destruct (lstrip_suffix (rev s)) as (p & E & H).
  exists (rev p). split.
  - unfold rstrip. rewrite <- rev_app_distr, <- E. now rewrite rev_involutive.
  - rewrite forallb_forall in *. intros x Hx. apply H. now apply in_rev.
Qed.

Lemma lstrip_app_space p s : forallb is_space p = true -> lstrip (p ++ s) = lstrip s.
Proof.
  induction p as [|c p IH]; cbn; [reflexivity|]. intros H.
  apply andb_prop in H as [H1 H2]. rewrite H1. auto.
Qed.

Lemma spaces_space n : forallb is_space (spaces n) = true.
Proof. induction n; cbn; auto. Qed.

Lemma spaces_length n : length (spaces n) = n.
Proof. apply repeat_length. Qed.

Lemma lstrip_nil_iff s : lstrip s = [] <-> forallb is_space s = true.
Proof.
  induction s as [|c s IH]; cbn; [tauto|].
  destruct (is_space c); cbn; [exact IH|]. split; discriminate.
Qed.

Lemma forallb_rev {A} (f : A -> bool) l : forallb f (rev l) = forallb f l.
Proof.
  apply eq_true_iff_eq. rewrite !forallb_forall.
  split; intros H x Hx; apply H; [now apply in_rev in Hx|now apply in_rev]; auto.
Qed.

Lemma rstrip_nil_iff s : rstrip s = [] <-> forallb is_space s = true.
Proof.
  unfold rstrip. rewrite <- (forallb_rev is_space s), <- lstrip_nil_iff.
  split; intros H; [|now rewrite H].
  apply (f_equal (@rev ascii)) in H. now rewrite rev_involutive in H.
Qed.

Lemma rstrip_app_cons s c : is_space c = false -> rstrip (s ++ [c]) = s ++ [c].
Proof.
  intros H. unfold rstrip. rewrite rev_app_distr; cbn. rewrite H. cbn.
  now rewrite rev_involutive.
Qed.

Lemma rstrip_last s : rstrip s = [] \/ exists p c, rstrip s = p ++ [c] /\ is_space c = false.
Proof.
  unfold rstrip. pose proof (lstrip_head (rev s)) as H.
  destruct (lstrip (rev s)) as [|c t] eqn:E; [now left|].
  right. exists (rev t), c. now cbn.
Qed.

Lemma rstrip_fix_iff s :
  rstrip s = s <-> s = [] \/ exists p c, s = p ++ [c] /\ is_space c = false.
Proof.
  split.
  - intros H. destruct (rstrip_last s) as [E|(p & c & E & Hc)].
    + left; congruence.
    + right; exists p, c; split; congruence.
  - intros [->|(p & c & -> & Hc)]; [reflexivity|]. now apply rstrip_app_cons.
Qed.

Lemma strip_rstrip s : strip (rstrip s) = strip s.
Proof. unfold strip. now rewrite rstrip_idem. Qed.

Lemma strip_nil_iff s : strip s = [] <-> forallb is_space s = true.
Proof.
  unfold strip. rewrite lstrip_nil_iff.
  destruct (rstrip_prefix s) as (p & E & H). rewrite E at 2.
  rewrite forallb_app, H, andb_true_r. tauto.
Qed.

Lemma strip_nil_rstrip s : strip s = [] <-> rstrip s = [].
Proof. now rewrite strip_nil_iff, rstrip_nil_iff. Qed.

Lemma rstrip_lstrip_fix s : rstrip s = s -> rstrip (lstrip s) = lstrip s.
Proof.
  intros H. apply rstrip_fix_iff in H as [->|(p & c & -> & Hc)]; [reflexivity|].
  apply rstrip_fix_iff. right.
  assert (G : exists q, lstrip (p ++ [c]) = q ++ [c]).
  { clear H || idtac. induction p as [|x p (q & IH)]; cbn.
    - rewrite Hc. now exists [].
    - destruct (is_space x); [now exists q|]. now exists (x :: p). }
  destruct G as (q & ->). now exists q, c.
Qed.

Lemma strip_alt s : strip s = rstrip (lstrip (rstrip s)).
Proof. unfold strip. symmetry. apply rstrip_lstrip_fix, rstrip_idem. Qed.

Lemma strip_idem s : strip (strip s) = strip s.
Proof.
  rewrite (strip_alt s) at 1. rewrite strip_rstrip. unfold strip at 1.
  rewrite (rstrip_lstrip_fix (rstrip s)) by apply rstrip_idem.
  now rewrite lstrip_idem.
Qed.

Lemma words_aux_space_prefix p s :
  forallb is_space p = true -> words_aux [] (p ++ s) = words_aux [] s.
Proof.
  induction p as [|c p IH]; cbn; [reflexivity|].
  intros H; apply andb_prop in H as [H1 H2]. rewrite H1. auto.
Qed.

Lemma words_aux_word acc w s :
  forallb (fun c => negb (is_space c)) w = true ->
  words_aux acc (w ++ s) = words_aux (rev w ++ acc) s.
Proof.
  revert acc; induction w as [|c w IH]; intros acc; cbn; [reflexivity|].
  intros H; apply andb_prop in H as [H1 H2].
  apply negb_true_iff in H1. rewrite H1, IH by assumption.
  now rewrite <- app_assoc.
Qed.

Lemma words_aux_acc_space acc c s :
  acc <> [] -> is_space c = true -> words_aux acc (c :: s) = rev acc :: words_aux [] s.
Proof. intros Ha Hc. cbn. rewrite Hc. now destruct acc. Qed.

Lemma words_lstrip s : words (lstrip s) = words s.
Proof.
  destruct (lstrip_suffix s) as (p & E & H). unfold words.
  rewrite E at 2. now rewrite words_aux_space_prefix.
Qed.

Lemma words_spaces_prefix n s : words (spaces n ++ s) = words s.
Proof. apply words_aux_space_prefix, spaces_space. Qed.

(** Every word is non-empty and free of whitespace. *)
Definition is_token (w : str) : Prop :=
  w <> [] /\ forallb (fun c => negb (is_space c)) w = true.

Lemma words_aux_tokens acc s :
  forallb (fun c => negb (is_space c)) acc = true ->
  Forall is_token (words_aux acc s).
Proof.
  revert acc; induction s as [|c s IH]; intros acc Ha; cbn.
  - destruct acc as [|a acc]; constructor; [|constructor].
    split; [|now rewrite forallb_rev].
    cbn. intros E. apply (f_equal (@length ascii)) in E.
    rewrite app_length in E; cbn in E; lia.
  - destruct (is_space c) eqn:Ec.
    + destruct acc as [|a acc]; [now apply IH|].
      constructor; [|now apply IH].
      split; [|now rewrite forallb_rev].
      cbn. intros E. apply (f_equal (@length ascii)) in E.
      rewrite app_length in E; cbn in E; lia.
    + apply IH. cbn. now rewrite Ec.
Qed.

Lemma words_tokens s : Forall is_token (words s).
Proof. now apply words_aux_tokens. Qed.

Lemma words_aux_token_end acc w :
  forallb (fun c => negb (is_space c)) w = true -> rev w ++ acc <> [] ->
  words_aux acc w = [rev (rev w ++ acc)].
Proof.
  intros Hw Hne. rewrite <- (app_nil_r w) at 1. rewrite words_aux_word by assumption.
  cbn. destruct (rev w ++ acc); [congruence|reflexivity].
Qed.

Lemma words_join l : Forall is_token l -> words (join [" "] l) = l.
Proof.
  unfold words. induction 1 as [|w l [Hne Hw] Hl IH]; [reflexivity|].
  destruct l as [|w' l].
  - cbn [join]. rewrite words_aux_token_end; rewrite ?app_nil_r; auto.
    + now rewrite rev_involutive.
    + intros E. apply (f_equal (@rev ascii)) in E. now rewrite rev_involutive in E.
  - change (join [" "] (w :: w' :: l)) with (w ++ " " :: join [" "] (w' :: l)).
    rewrite words_aux_word by assumption. rewrite words_aux_acc_space.
    + rewrite IH, app_nil_r, rev_involutive. reflexivity.
    + rewrite app_nil_r. intros E. apply (f_equal (@rev ascii)) in E.
      now rewrite rev_involutive in E.
    + reflexivity.
Qed.

Lemma words_strip s : words (strip s) = words s.
Proof.
  unfold strip. rewrite words_lstrip.
  destruct (rstrip_prefix s) as (p & E & H). unfold words. rewrite E at 2.
  generalize (rstrip s) as t. clear E. revert p H.
  assert (G : forall t acc p, forallb is_space p = true ->
             words_aux acc t = words_aux acc (t ++ p)).
  { induction t as [|c t IH]; intros acc p Hp; cbn.
    - destruct p as [|c p]; [reflexivity|].
      cbn in Hp. apply andb_prop in Hp as [H1 H2]. cbn. rewrite H1.
      pose proof (words_aux_space_prefix p [] H2) as Q. rewrite app_nil_r in Q.
      rewrite Q. now destruct acc.
    - destruct (is_space c); [destruct acc|]; rewrite (IH _ p); auto. }
  intros p Hp t. now apply G.
Qed.

(** ** split and join *)

Lemma has_char_app c a b : has_char c (a ++ b) = has_char c a || has_char c b.
Proof. apply existsb_app. Qed.

Lemma has_char_false c s : has_char c s = false <-> ~ In c s.
Proof.
  unfold has_char. rewrite <- not_true_iff_false, existsb_exists. split.
  - intros H Hin. apply H. exists c. split; auto. apply Ascii.eqb_refl.
  - intros H (x & Hx & E). apply Ascii.eqb_eq in E; subst. auto.
Qed.

Lemma split_on_nochar c s : has_char c s = false -> split_on c s = [s].
Proof.
  induction s as [|x s IH]; cbn; [reflexivity|]. intros H.
  apply orb_false_iff in H as [H1 H2].
  rewrite Ascii.eqb_sym in H1. rewrite H1. unfold has_char in IH. now rewrite IH.
Qed.

Lemma split_on_app c w s :
  has_char c w = false -> split_on c (w ++ c :: s) = w :: split_on c s.
Proof.
  induction w as [|x w IH]; cbn; intros H.
  - now rewrite Ascii.eqb_refl.
  - apply orb_false_iff in H as [H1 H2].
    rewrite Ascii.eqb_sym in H1. rewrite H1. unfold has_char in IH. now rewrite IH.
Qed.

Lemma split_on_join c l :
  l <> [] -> Forall (fun w => has_char c w = false) l -> split_on c (join [c] l) = l.
Proof.
  intros Hne H. induction H as [|w l Hw Hl IH]; [congruence|].
  destruct l as [|w' l].
  - now apply split_on_nochar.
  - change (join [c] (w :: w' :: l)) with (w ++ c :: join [c] (w' :: l)).
    rewrite split_on_app by assumption. f_equal. apply IH. discriminate.
Qed.

Lemma split_on_nonnil c s : split_on c s <> [].
Proof.
  destruct s as [|x s]; cbn; [discriminate|].
  destruct (Ascii.eqb x c); [discriminate|].
  destruct (split_on c s); discriminate.
Qed.

Lemma join_split_on c s : join [c] (split_on c s) = s.
Proof.
  induction s as [|x s IH]; [reflexivity|]. cbn [split_on].
  destruct (Ascii.eqb x c) eqn:E.
  - apply Ascii.eqb_eq in E; subst x.
    pose proof (split_on_nonnil c s).
    destruct (split_on c s) as [|w ws]; [congruence|]. cbn in *. now rewrite IH.
  - destruct (split_on c s) as [|w ws] eqn:Es; [now apply split_on_nonnil in Es|].
    destruct ws; cbn in *; now rewrite IH.
Qed.

Lemma split_on_parts c s : Forall (fun w => has_char c w = false) (split_on c s).
Proof.
  induction s as [|x s IH]; cbn; [constructor; auto|].
  destruct (Ascii.eqb x c) eqn:E.
  - now constructor.
  - destruct (split_on c s) as [|w ws]; inversion IH; subst.
    + constructor; auto. cbn. now rewrite Ascii.eqb_sym, E.
    + constructor; auto. cbn. rewrite Ascii.eqb_sym, E. assumption.
Qed.

Lemma split_on_length c s : 1 < length (split_on c s) <-> has_char c s = true.
Proof.
  induction s as [|x s IH]; cbn.
  - split; [lia|discriminate].
  - rewrite Ascii.eqb_sym. destruct (Ascii.eqb c x) eqn:E; cbn.
    + pose proof (split_on_nonnil c s). destruct (split_on c s); [congruence|].
      cbn. split; [reflexivity|lia].
    + fold (has_char c s). rewrite <- IH.
      destruct (split_on c s) eqn:Es; [now apply split_on_nonnil in Es|]. cbn. tauto.
Qed.

(** ** decimal numbers *)

Lemma digits_val_snoc s c : digits_val (s ++ [c]) = (10 * digits_val s + digit_val c)%N.
Proof. unfold digits_val. now rewrite fold_left_app. Qed.

Definition dv_acc (acc : N) (s : str) : N :=
  fold_left (fun acc c => (10 * acc + digit_val c)%N) s acc.

Lemma dv_acc_cons acc c s : dv_acc acc (c :: s) = dv_acc (10 * acc + digit_val c) s.
Proof. reflexivity. Qed.

Lemma uint_str_acc d p : dv_acc (Npos p) (uint_str d) = Npos (Pos.of_uint_acc d p).
Proof.
  revert p; induction d as [|d IH|d IH|d IH|d IH|d IH|d IH|d IH|d IH|d IH|d IH]; intros p;
    cbn [uint_str Pos.of_uint_acc]; try reflexivity;
    rewrite dv_acc_cons, <- IH; f_equal;
    match goal with |- context [digit_val ?c] =>
      let v := eval vm_compute in (digit_val c) in change (digit_val c) with v end; lia.
Qed.

Lemma uint_str_val d : digits_val (uint_str d) = N.of_uint d.
Proof.
  change (dv_acc 0 (uint_str d) = Pos.of_uint d).
  induction d as [|d IH|d IH|d IH|d IH|d IH|d IH|d IH|d IH|d IH|d IH];
    cbn [uint_str Pos.of_uint]; try reflexivity;
    rewrite dv_acc_cons;
    match goal with |- context [digit_val ?c] =>
      let v := eval vm_compute in (digit_val c) in change (digit_val c) with v end;
    [exact IH|..]; match goal with |- dv_acc ?x _ = _ =>
      let v := eval vm_compute in x in change x with v end;
    apply uint_str_acc.
Qed.

Lemma show_N_val n : digits_val (show_N n) = n.
Proof. unfold show_N. rewrite uint_str_val. apply DecimalN.Unsigned.of_to. Qed.

Lemma show_N_inj a b : show_N a = show_N b -> a = b.
Proof. intros H. rewrite <- (show_N_val a), <- (show_N_val b). now rewrite H. Qed.

Lemma uint_str_digits d : forallb is_digit (uint_str d) = true.
Proof. induction d; cbn [uint_str forallb]; [reflexivity|..]; now rewrite IHd. Qed.

Lemma show_N_digits n : forallb is_digit (show_N n) = true.
Proof. apply uint_str_digits. Qed.

Lemma show_N_nonempty n : show_N n <> [].
Proof.
  intros H. pose proof (show_N_val n) as V. rewrite H in V. cbn in V. subst n.
  discriminate.
Qed.

Lemma show_N_all_digits n : all_digits (show_N n) = true.
Proof.
  pose proof (show_N_nonempty n). pose proof (show_N_digits n).
  unfold all_digits. destruct (show_N n); [congruence|assumption].
Qed.

(** Prefix of digits followed by a non-digit. *)
Lemma digits_prefix_unique a b x y :
  forallb is_digit a = true -> forallb is_digit b = true ->
  match x with [] => True | c :: _ => is_digit c = false end ->
  match y with [] => True | c :: _ => is_digit c = false end ->
  a ++ x = b ++ y -> a = b /\ x = y.
Proof.
  revert b; induction a as [|c a IH]; intros b Ha Hb Hx Hy E.
  - destruct b as [|d b]; [now cbn in E|]. cbn in E. subst x.
    cbn in Hb. apply andb_prop in Hb as [Hb _]. congruence.
  - destruct b as [|d b]; cbn in E.
    + subst y. cbn in Ha. apply andb_prop in Ha as [Ha _]. congruence.
    + inversion E; subst d. cbn in Ha, Hb.
      apply andb_prop in Ha as [_ Ha]. apply andb_prop in Hb as [_ Hb].
      destruct (IH b Ha Hb Hx Hy H1) as [-> ->]. auto.
Qed.

Lemma int_digits_digits s :
  forallb is_digit s = true -> s <> [] -> forall b, int_digits b s = Some s.
Proof.
  induction s as [|c s IH]; intros H Hne b; [congruence|].
  cbn in H. apply andb_prop in H as [H1 H2]. cbn. rewrite H1.
  destruct s as [|c' s].
  - reflexivity.
  - now rewrite IH.
Qed.

Lemma drop_while_stop f s :
  match s with [] => True | c :: _ => f c = false end -> drop_while f s = s.
Proof. destruct s as [|c s]; cbn; [auto|]. intros ->. reflexivity. Qed.

Lemma int_strip_tight s :
  match s with [] => True | c :: _ => int_space c = false end ->
  match rev s with [] => True | c :: _ => int_space c = false end ->
  int_strip s = s.
Proof.
  intros H1 H2. unfold int_strip. rewrite (drop_while_stop _ (rev s)) by assumption.
  rewrite rev_involutive. now apply drop_while_stop.
Qed.

Lemma int_strip_digits s : forallb is_digit s = true -> int_strip s = s.
Proof.
  intros H. apply int_strip_tight.
  - destruct s as [|c s]; [trivial|]. cbn in H. apply andb_prop in H as [H _].
    now apply digit_not_int_space.
  - rewrite <- forallb_rev in H. destruct (rev s) as [|c t]; [trivial|].
    cbn in H. apply andb_prop in H as [H _]. now apply digit_not_int_space.
Qed.

Lemma digit_not_sign c : is_digit c = true -> Ascii.eqb c "-" = false /\ Ascii.eqb c "+" = false.
Proof. ascii_cases c; intros; split; congruence. Qed.

Lemma py_int_digits s :
  forallb is_digit s = true -> s <> [] -> py_int s = Some (Z.of_N (digits_val s)).
Proof.
  intros H Hne. unfold py_int. rewrite int_strip_digits by assumption.
  destruct s as [|c s]; [congruence|].
  assert (Hc : is_digit c = true) by (cbn in H; now apply andb_prop in H).
  destruct (digit_not_sign c Hc) as [-> ->].
  rewrite int_digits_digits by assumption. reflexivity.
Qed.

Lemma py_int_show_N n : py_int (show_N n) = Some (Z.of_N n).
Proof.
  rewrite py_int_digits, show_N_val; auto using show_N_digits, show_N_nonempty.
Qed.

Lemma py_int_show_Z z : py_int (show_Z z) = Some z.
Proof.
  destruct z as [|p|p]; cbn [show_Z].
  - reflexivity.
  - rewrite py_int_show_N. reflexivity.
  - unfold py_int.
    assert (E : int_strip ("-" :: show_N (Npos p)) = "-" :: show_N (Npos p)).
    { apply int_strip_tight; [reflexivity|]. cbn [rev].
      pose proof (show_N_digits (Npos p)) as D. rewrite <- forallb_rev in D.
      destruct (rev (show_N (Npos p))) as [|c t]; [reflexivity|]. cbn in *.
      apply andb_prop in D as [D _]. now apply digit_not_int_space. }
    rewrite E. cbn [Ascii.eqb Bool.eqb andb].
    rewrite int_digits_digits by auto using show_N_digits, show_N_nonempty.
    cbn [option_map]. now rewrite show_N_val.
Qed.

Lemma show_Z_inj a b : show_Z a = show_Z b -> a = b.
Proof.
  intros H. pose proof (py_int_show_Z a) as Ha. rewrite H, py_int_show_Z in Ha.
  congruence.
Qed.
