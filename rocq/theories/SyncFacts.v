(** Lemmas about the repeated-word rule and the dictionaries of a difference. *)
From Coq Require Import Ascii String Arith NArith ZArith Bool List Lia.
From Verif Require Import PyStr PyStrFacts PyBase CfgModel MutModel TreeSpec TreeProofs SearchModel DiffModel DiffSpec DiffFacts PyRe PyReFacts PyReTmpl PyReSent SyncSpec SyncModel.
Import ListNotations.
Local Open Scope char_scope.

Definition one_line (s : str) : Prop := ~ In "010" s.
Definition fix_T : list item :=
  [Grp 1 [Run sp false]; Lit (lit "no"); Run sp true; Lit (lit "no"); Run sp true; Grp 2 [One ns; Run dot true]; End].
Lemma fix_reads : reads (repeated_pattern (lit "no")) fix_T 2.
Proof. reflexivity. Qed.
Lemma in_dot c : in_set dot c = negb (Ascii.eqb c "010").
Proof. destruct c as [[] [] [] [] [] [] [] []]; reflexivity. Qed.
Lemma all_dot s : one_line s -> all_in dot s.
Proof.
  intros H. apply (all_in_iff dot (fun c => negb (Ascii.eqb c "010")) s in_dot). apply forallb_forall. intros c Hc. apply negb_true_iff, Ascii.eqb_neq. intros ->. auto.
Qed.
Lemma all_sp' w : all_in sp w <-> whites w. Proof. apply all_in_iff, in_sp. Qed.

Lemma fix_hit s a c : one_line s -> twice s a c -> exists m, rx_find (pattern false (repeated_pattern (lit "no"))) s = Some m /\ part m 0 = a /\ part m 1 = c.
Proof.
  intros O (g & g' & x & r & Wa & [Wg Ng] & [Wg' Ng'] & Sx & Nr & -> & E).
  assert (Q : D true fix_T s [] [] [(2, x :: r); (1, a)]).
  { rewrite E. unfold fix_T. eapply D_grp with (c1 := []).
    { apply D_run; [now apply all_sp'|discriminate|intros _; reflexivity|constructor]. }
    apply D_lit. apply D_run; [now apply all_sp'|auto|intros _; reflexivity|]. apply D_lit.
    apply D_run; [now apply all_sp'|auto|intros _; unfold stops; cbn [app]; now rewrite in_sp|].
    rewrite <- (app_nil_r (x :: r)) at 1. eapply D_grp.
    { cbn [app]. apply D_one; [rewrite in_ns; now rewrite Sx|]. apply D_run; [|auto|intros _; exact I|constructor].
      apply all_dot. intros K. apply O. rewrite E. rewrite !in_app_iff. right. right. right. right. right. now right. }
    apply D_end; [now left|constructor]. }
  destruct (reads_some _ _ _ _ _ _ fix_reads Q) as (m & ->). eexists. split; [reflexivity|]. split; reflexivity.
Qed.
Lemma fix_hit_shape s m : one_line s -> rx_find (pattern false (repeated_pattern (lit "no"))) s = Some m -> twice s (part m 0) (part m 1).
Proof.
  intros O F. destruct (reads_shape _ _ _ _ _ fix_reads F) as (s' & c & Q & G). unfold part. rewrite G. unfold fix_T in Q.
  apply D_grp_eq in Q as (a & r1 & c1 & E1 & Q1 & Q). rewrite E1 in Q1. apply D_run_inv in Q1 as (Wa & _ & ->).
  apply D_lit_eq in Q as (r2 & -> & Q). apply D_run_eq in Q as (g & r3 & -> & Wg & Ng & Q). apply D_lit_eq in Q as (r4 & -> & Q).
  apply D_run_eq in Q as (g' & r5 & -> & Wg' & Ng' & Q). apply D_grp_eq in Q as (w & r6 & c2 & E2 & Q2 & Q).
  apply D_one_eq in Q2 as (x & r7 & E3 & Nx & Q2). apply D_run_eq in Q2 as (r & r8 & E4 & Ar & Nr & Q2). apply D_nil_eq in Q2 as [E5 E6].
  assert (Z : (r6 = [] \/ r6 = ["010"]) /\ c = (2, w) :: c2) by (inversion Q as [| | | | |? ? ? ? ? Z Q3| | | |]; subst; apply D_nil_eq in Q3 as [_ ->]; auto).
  destruct Z as [Z ->]. subst c2.
  assert (N6 : r6 = []). { destruct Z as [Z|Z]; [exact Z|]. exfalso. apply O. rewrite E1, E2, Z. rewrite !in_app_iff. cbn [In]. tauto. }
  rewrite N6, app_nil_r in *. clear N6 Z Q. subst r8. rewrite app_nil_r in E4. subst r7. subst w. cbn [map seq nth cap Nat.eqb].
  exists g, g', x, r. split; [now apply all_sp'|]. split; [split; [now apply all_sp'|auto]|]. split; [split; [now apply all_sp'|auto]|].
  split; [rewrite in_ns in Nx; now apply negb_true_iff|]. split; [now apply Nr|]. split; [congruence|]. congruence.
Qed.
Lemma twice_less s a c : twice s a c -> length (a ++ c) < length s.
Proof. intros (g & g' & x & r & _ & _ & _ & _ & _ & -> & ->). repeat (rewrite app_length; cbn [length lit]). change (length (lit "no")) with 2. lia. Qed.
Lemma twice_one_line s a c : twice s a c -> one_line s -> one_line (a ++ c).
Proof. intros (g & g' & x & r & _ & _ & _ & _ & _ & _ & ->) O K. apply O. rewrite !in_app_iff in *. tauto. Qed.

Lemma fix_rounds_undoubled n : forall s, length s <= n -> one_line s -> undoubled s (fix_rounds n (lit "no") s).
Proof.
  induction n as [|n IH]; intros s L O; cbn [fix_rounds].
  - apply ud_done. intros a c K. apply twice_less in K. lia.
  - destruct (rx_find _ s) as [m|] eqn:F.
    + pose proof (fix_hit_shape s m O F) as K. eapply ud_pair; [exact K|]. apply IH; [pose proof (twice_less _ _ _ K); lia|now apply (twice_one_line s)].
    + apply ud_done. intros a c K. destruct (fix_hit s a c O K) as (m & F' & _). congruence.
Qed.
Lemma fix_rounds_only s t : undoubled s t -> forall n, length s <= n -> one_line s -> fix_rounds n (lit "no") s = t.
Proof.
  induction 1 as [s a c t K U IH|s No]; intros n L O.
  - destruct n as [|n]; [apply twice_less in K; lia|]. cbn [fix_rounds]. destruct (fix_hit s a c O K) as (m & -> & -> & ->).
    apply IH; [pose proof (twice_less _ _ _ K); lia|now apply (twice_one_line s)].
  - destruct n as [|n]; [reflexivity|]. cbn [fix_rounds]. destruct (rx_find _ s) as [m|] eqn:F; [|reflexivity].
    destruct (No _ _ (fix_hit_shape s m O F)).
Qed.
Theorem fix_repeated s : s <> [] -> one_line s -> exists t, fix_repeated_words s (lit "no") = Ok t /\ forall u, undoubled s u <-> u = t.
Proof.
  intros N O. exists (fix_rounds (length s) (lit "no") s). split; [destruct s; [congruence|reflexivity]|]. intros u. split.
  - intros U. symmetry. now apply fix_rounds_only.
  - intros ->. now apply fix_rounds_undoubled.
Qed.

(** ** The indent in a dictionary is that of its text. *)
Definition own_indent (d : ddict) : Prop := d_indent d = line_indent (d_text d).
Lemma normal_own w x l : NoDup (w_conf w) -> In x (w_conf w) -> obj (normal_texts w) x = Some l -> cl_indent l = line_indent (cl_text l).
Proof.
  intros N Hx E. destruct (normal_fold (w_conf w) w N) as (_ & _ & _ & D0). unfold normal_texts in E. rewrite D0 in E.
  destruct (in_dec Nat.eq_dec x (w_conf w)); [|contradiction]. destruct (obj w x) as [k|]; [|discriminate]. cbn [option_map] in E. injection E as <-.
  cbn [norm_line cl_indent cl_text]. now rewrite indent_rstrip, text_indent_spec.
Qed.
Lemma dict_own hash w s n v x d : NoDup (w_conf w) -> In x (w_conf w) -> as_diff_dict hash (normal_texts w) s n v x = Ok d -> own_indent d.
Proof.
  intros N Hx. unfold as_diff_dict. destruct (all_parents _ x) as [ps|]; [|discriminate]. cbn [bind]. destruct (diff_id_list _ _ x) as [i|]; [|discriminate]. cbn [bind].
  intros [= <-]. unfold own_indent. cbn [d_indent d_text]. unfold indent_of, text_of. destruct (obj (normal_texts w) x) as [l|] eqn:E; [|reflexivity].
  now apply (normal_own w x).
Qed.
Lemma before_own hash w f xs : NoDup (w_conf w) -> (forall x, In x xs -> In x (w_conf w)) -> forall ds, dicts_before hash (normal_texts w) f xs = Ok ds -> Forall own_indent ds.
Proof.
  intros N. induction xs as [|x xs IH]; intros Hx ds; cbn [dicts_before]; [intros [= <-]; constructor|].
  assert (K : forall v, match as_diff_dict hash (normal_texts w) true (-1) v x with Ok d => own_indent d | Err _ => True end).
  { intros v. destruct (as_diff_dict _ _ _ _ _ x) eqn:E; [|exact I]. eapply dict_own; [exact N| |exact E]. apply Hx. now left. }
  destruct (f x) eqn:Ef; try discriminate; rewrite <- Ef in *; (specialize (K (f x)); destruct (as_diff_dict _ _ _ _ _ x); cbn [bind]; [|discriminate]);
  (destruct (dicts_before _ _ _ xs) as [r|]; cbn [bind]; [|discriminate]); intros [= <-]; constructor; auto; apply IH; auto; intros y Hy; apply Hx; now right.
Qed.
Lemma after_own hash w f xs : NoDup (w_conf w) -> (forall x, In x xs -> In x (w_conf w)) -> forall ds, dicts_after hash (normal_texts w) f xs = Ok ds -> Forall own_indent ds.
Proof.
  intros N. induction xs as [|x xs IH]; intros Hx ds; cbn [dicts_after]; [intros [= <-]; constructor|].
  assert (Hx' : forall y, In y xs -> In y (w_conf w)) by (intros y Hy; apply Hx; now right).
  assert (K : forall n v, match as_diff_dict hash (normal_texts w) false n v x with Ok d => own_indent d | Err _ => True end).
  { intros n v. destruct (as_diff_dict _ _ _ _ _ x) eqn:E; [|exact I]. eapply dict_own; [exact N| |exact E]. apply Hx. now left. }
  specialize (K (linenum_of (normal_texts w) x)).
  destruct (f x) eqn:Ef; try discriminate; [destruct (children_of _ x); [now apply IH|]|];
  (specialize (K (f x)); rewrite Ef in K; destruct (as_diff_dict _ _ _ _ _ x); cbn [bind]; [|discriminate]);
  (destruct (dicts_after _ _ _ xs) as [r0|]; cbn [bind]; [|discriminate]); intros [= <-]; constructor; auto; apply IH; auto.
Qed.
Lemma place_own d l : own_indent d -> Forall own_indent l -> Forall own_indent (place d l).
Proof.
  intros Hd. induction 1 as [|x l Hx Hl IH]; cbn [place]; [auto|]. destruct (below x d); repeat constructor; auto.
Qed.
Lemma compress_own todo : Forall own_indent todo -> forall out keys r, Forall own_indent out -> compress out keys todo = Ok r -> Forall own_indent r.
Proof.
  induction 1 as [|d todo Hd Ht IH]; intros out keys r Ho; cbn [compress]; [intros [= <-]; exact Ho|]. destruct (seen _ _); [now apply IH|].
  destruct (d_before d), (d_word d); try discriminate; apply IH; try (apply place_own; assumption); apply Forall_app; auto.
Qed.
Lemma diff_own hash wb wa ds : NoDup (w_conf wb) -> NoDup (w_conf wa) -> diff_dicts hash (normal_texts wb) (normal_texts wa) = Ok ds -> Forall own_indent ds.
Proof.
  intros Nb Na. unfold diff_dicts.
  assert (Cb : w_conf (normal_texts wb) = w_conf wb) by (destruct (normal_fold (w_conf wb) wb Nb) as (_ & C & _); exact C).
  assert (Ca : w_conf (normal_texts wa) = w_conf wa) by (destruct (normal_fold (w_conf wa) wa Na) as (_ & C & _); exact C). rewrite Cb, Ca.
  destruct (mark_after _ _ _ _ _ _) as [[fb fa]|]; [|discriminate]. cbn [bind fst snd].
  destruct (dicts_before _ _ _ _) as [db|] eqn:Eb; [|discriminate]. cbn [bind]. destruct (dicts_after _ _ _ _) as [da|] eqn:Ea; [|discriminate]. cbn [bind].
  apply compress_own; [|constructor]. apply Forall_app. split; [apply (before_own hash wb fb (w_conf wb)); auto|apply (after_own hash wa fa (w_conf wa)); auto].
Qed.
