(** Lemmas on reading files. *)
From Coq Require Import Ascii String Arith NArith ZArith Bool List Lia.
From Verif Require Import PyStr PyStrFacts PyBase CfgModel FileModel FileSpec.
Import ListNotations.
Local Open Scope nat_scope.

Lemma one_line_cons c l : one_line (c :: l) <-> Ascii.eqb c LF = false /\ Ascii.eqb c CR = false /\ one_line l.
Proof.
  unfold one_line. rewrite !Ascii.eqb_neq. cbn [In]. unfold LF, CR. split.
  - intros [H1 H2]. split; [intros K; apply H1; now left|]. split; [intros K; apply H2; now left|]. split; intros K; [apply H1|apply H2]; now right.
  - intros (N1 & N2 & H1 & H2). split; intros [K|K]; auto.
Qed.
Lemma universal_line l : one_line l -> forall s, universal (l ++ s) = l ++ universal s.
Proof. induction l as [|c l IH]; intros H s; [reflexivity|]. apply one_line_cons in H as (_ & N & H). cbn [app universal]. now rewrite N, IH. Qed.
Lemma universal_lines s ls : lines_of s ls -> universal s = join [LF] ls.
Proof.
  induction 1 as [l H|l t s ls H Ht Hc L IH]; [rewrite <- (app_nil_r l) at 1; rewrite universal_line, app_nil_r by exact H; reflexivity|].
  rewrite universal_line by exact H. assert (E : universal (t ++ s) = LF :: universal s).
  { destruct Ht as [-> |[-> | ->]]; [reflexivity|reflexivity|]. destruct s as [|c s]; [reflexivity|]. specialize (Hc eq_refl). cbn [hd_error] in Hc.
    cbn [app universal]. change (Ascii.eqb "013" CR) with true. assert (K : Ascii.eqb c LF = false) by (apply Ascii.eqb_neq; unfold LF; congruence). now rewrite K. }
  rewrite E, IH. destruct ls; [inversion L|]. reflexivity.
Qed.
Lemma lines_one s ls : lines_of s ls -> ls <> [] /\ Forall one_line ls.
Proof. induction 1 as [l H|l t s ls H Ht Hc L [_ IH]]; (split; [discriminate|]); constructor; auto. Qed.

Lemma sep_line plus c s : Ascii.eqb c LF = false -> Ascii.eqb c CR = false -> sep_length plus (c :: s) = None.
Proof.
  intros H1 H2. unfold sep_length. cbn [take_while]. rewrite Ascii.eqb_sym in H2. rewrite H2. cbn [length skipn take_while]. rewrite Ascii.eqb_sym in H1. now rewrite H1.
Qed.
Lemma split_line plus l : one_line l -> forall cur s, rgx_split plus 0 cur (l ++ s) = rgx_split plus 0 (rev l ++ cur) s.
Proof.
  induction l as [|c l IH]; intros H cur s; [reflexivity|]. apply one_line_cons in H as (N1 & N2 & H). cbn [app]. change (rgx_split plus 0 cur (c :: l ++ s))
    with (match sep_length plus (c :: l ++ s) with Some n => rev cur :: rgx_split plus (pred n) [] (l ++ s) | None => rgx_split plus 0 (c :: cur) (l ++ s) end).
  rewrite (sep_line plus c _ N1 N2), IH by exact H. cbn [rev]. now rewrite <- app_assoc.
Qed.
Lemma split_lf_one cur s : rgx_split false 0 cur (LF :: s) = rev cur :: rgx_split false 0 [] s.
Proof. reflexivity. Qed.
Fixpoint lfs (s : str) : nat := match s with c :: s' => if Ascii.eqb c LF then S (lfs s') else 0 | [] => 0 end.
Lemma lfs_len s : length (take_while (Ascii.eqb LF) s) = lfs s.
Proof. induction s as [|c s IH]; [reflexivity|]. cbn [take_while lfs]. rewrite Ascii.eqb_sym. destruct (Ascii.eqb c LF); [cbn [length]; now rewrite IH|reflexivity]. Qed.
Lemma split_lf_plus cur s : rgx_split true 0 cur (LF :: s) = rev cur :: rgx_split true (lfs s) [] s.
Proof.
  cbn [rgx_split]. unfold sep_length. cbn [take_while]. change (Ascii.eqb CR LF) with false. cbn [length skipn]. cbn [take_while]. change (Ascii.eqb LF LF) with true.
  cbn [length plus pred]. now rewrite lfs_len.
Qed.
Lemma read_false ls : ls <> [] -> Forall one_line ls -> forall cur, rgx_split false 0 cur (join [LF] ls) = match ls with [] => [] | l :: ls' => (rev cur ++ l) :: ls' end.
Proof.
  intros Ne F. induction F as [|l ls H F IH]; [congruence|]. intros cur. destruct ls as [|l' ls].
  - change (join [LF] [l]) with l. rewrite <- (app_nil_r l) at 1. rewrite split_line by exact H. cbn [rgx_split]. now rewrite rev_app_distr, rev_involutive.
  - change (join [LF] (l :: l' :: ls)) with (l ++ LF :: join [LF] (l' :: ls)). rewrite split_line by exact H. rewrite split_lf_one, IH by discriminate.
    rewrite rev_app_distr, rev_involutive. reflexivity.
Qed.
(** Empty lines are left out, except at the end. *)
Fixpoint inner (ls : list str) : list str :=
  match ls with
  | [] => []
  | [l] => [l]
  | l :: ls' => match l with [] => inner ls' | _ => l :: inner ls' end
  end.
Lemma inner_cons l l' ls : inner (l :: l' :: ls) = match l with [] => inner (l' :: ls) | _ => l :: inner (l' :: ls) end.
Proof. reflexivity. Qed.
Lemma read_true ls : Forall one_line ls -> ls <> [] ->
  (forall cur, rgx_split true 0 cur (join [LF] ls) = match ls with [] => [] | [l] => [rev cur ++ l] | l :: ls' => (rev cur ++ l) :: inner ls' end) /\
  rgx_split true (lfs (join [LF] ls)) [] (join [LF] ls) = inner ls.
Proof.
  intros F. induction F as [|l ls H F IH]; intros Ne; [congruence|]. destruct ls as [|l' ls].
  - change (join [LF] [l]) with l. split.
    + intros cur. rewrite <- (app_nil_r l) at 1. rewrite split_line by exact H. cbn [rgx_split]. now rewrite rev_app_distr, rev_involutive.
    + destruct l as [|c l]; [reflexivity|]. pose proof H as H'. apply one_line_cons in H' as (N & _ & _). cbn [lfs]. rewrite N.
      rewrite <- (app_nil_r (c :: l)) at 1. rewrite split_line by exact H. cbn [rgx_split]. now rewrite app_nil_r, rev_involutive.
  - change (join [LF] (l :: l' :: ls)) with (l ++ LF :: join [LF] (l' :: ls)). destruct IH as [IH1 IH2]; [discriminate|]. split.
    + intros cur. rewrite split_line by exact H. rewrite split_lf_plus, IH2, rev_app_distr, rev_involutive. reflexivity.
    + rewrite inner_cons. destruct l as [|c l].
      * cbn [app lfs]. change (Ascii.eqb LF LF) with true. exact IH2.
      * pose proof H as H'. apply one_line_cons in H' as (N & _ & _). change (lfs ((c :: l) ++ LF :: join [LF] (l' :: ls))) with (if Ascii.eqb c LF then S (lfs (l ++ LF :: join [LF] (l' :: ls))) else 0). rewrite N.
        rewrite split_line by exact H. rewrite split_lf_plus, IH2, app_nil_r, rev_involutive. reflexivity.
Qed.
Theorem read_spec o s ls : lines_of s ls -> read_config_file o s = if o_ignore_blank o then match ls with [] => [] | [l] => [l] | l :: ls' => l :: inner ls' end else ls.
Proof.
  intros L. destruct (lines_one _ _ L) as [Ne F]. unfold read_config_file. rewrite (universal_lines _ _ L). destruct (o_ignore_blank o).
  - rewrite (proj1 (read_true ls F Ne)). reflexivity.
  - rewrite (read_false ls Ne F). now destruct ls.
Qed.
(** Every text consists of lines. *)
Lemma lines_exist s : exists ls, lines_of s ls.
Proof.
  assert (G : forall n s, length s <= n -> exists ls, lines_of s ls); [|now apply (G (length s))].
  clear s. induction n as [|n IH]; intros s L.
  - destruct s; [|cbn in L; lia]. exists [[]]. constructor. split; intros [].
  - assert (S0 : forall s, (exists l r, s = l ++ r /\ one_line l /\ match r with [] => True | c :: _ => c = LF \/ c = CR end)).
    { clear. induction s as [|c s (l & r & -> & H & Hr)]; [exists [], []; repeat split; intros []|]. destruct (Ascii.eqb c LF) eqn:E1; [apply Ascii.eqb_eq in E1; exists [], (c :: l ++ r); repeat split; auto; intros []|].
      destruct (Ascii.eqb c CR) eqn:E2; [apply Ascii.eqb_eq in E2; exists [], (c :: l ++ r); repeat split; auto; intros []|]. exists (c :: l), r. split; [reflexivity|]. split; [now apply one_line_cons|exact Hr]. }
    destruct (S0 s) as (l & r & -> & H & Hr). destruct r as [|c r]; [exists [l]; rewrite app_nil_r; now constructor|]. rewrite app_length in L. cbn [length] in L.
    destruct Hr as [-> | ->].
    + destruct (IH r) as (ls & K); [lia|]. exists (l :: ls). apply (lo_line l [LF] r ls); auto; [now left|discriminate].
    + destruct r as [|c r].
      * exists [l; []]. apply (lo_line l [CR] [] [[]]); auto; [right; now right|discriminate|constructor; split; intros []].
      * destruct (Ascii.eqb c LF) eqn:E.
        -- apply Ascii.eqb_eq in E as ->. destruct (IH r) as (ls & K); [cbn [length] in L; lia|]. exists (l :: ls). apply (lo_line l [CR; LF] r ls); auto; [right; now left|discriminate].
        -- destruct (IH (c :: r)) as (ls & K); [lia|]. exists (l :: ls). apply (lo_line l [CR] (c :: r) ls); auto; [right; now right|]. intros _ Q. cbn in Q. injection Q as ->. discriminate E.
Qed.
