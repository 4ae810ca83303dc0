(** The reader of IPv4 texts and the patterns it stands for. *)
From Coq Require Import Ascii String Arith NArith ZArith Bool List Lia.
From Verif Require Import PyStr PyStrFacts PyBase SearchModel IpModel PIpText CfgModel JunosModel JunosFacts IntfSpec IntfFacts IntfRe PyRe PyReFacts PyReTmpl PyReSent PyReLazy PyReGets JunosReModel PJunosRe IpReModel.
Import ListNotations.
Local Open Scope char_scope.

Definition some_digits (d : str) : Prop := d <> [] /\ forallb is_digit d = true.
Definition quad (q : str) : Prop := exists a b c d, some_digits a /\ some_digits b /\ some_digits c /\ some_digits d /\ q = a ++ "." :: b ++ "." :: c ++ "." :: d.
Definition not_digit (s : str) : Prop := match s with [] => True | c :: _ => is_digit c = false end.

(** ** The model's reader *)
Lemma take_digits_cut d s : forallb is_digit d = true -> not_digit s -> take_digits (d ++ s) = (d, s).
Proof.
  intros F St. induction d as [|c d IH]; cbn [app].
  - destruct s as [|c s]; [reflexivity|]. cbn [take_digits]. unfold not_digit in St. now rewrite St.
  - cbn [forallb] in F. apply andb_true_iff in F as (C & F). cbn [take_digits]. now rewrite C, (IH F).
Qed.
Lemma take_digits_split s : forallb is_digit (fst (take_digits s)) = true /\ not_digit (snd (take_digits s)).
Proof.
  induction s as [|c s (F & St)]; [now split|]. cbn [take_digits]. destruct (is_digit c) eqn:C; [|now split].
  destruct (take_digits s) as [d r]. cbn [fst snd forallb] in *. now rewrite C.
Qed.
Lemma take_dot d s : some_digits d -> take_digits_dot (d ++ "." :: s) = Some (d ++ ["."], s).
Proof. intros (N0 & F). unfold take_digits_dot. rewrite take_digits_cut by (try exact F; reflexivity). destruct d; [congruence|]. reflexivity. Qed.
Lemma dot_take s x r : take_digits_dot s = Some (x, r) -> exists d, some_digits d /\ s = d ++ "." :: r /\ x = d ++ ["."].
Proof.
  unfold take_digits_dot. pose proof (take_digits_eq s) as E. pose proof (take_digits_split s) as (F & _). destruct (take_digits s) as [[|y d] [|c r']]; try discriminate. cbn [fst snd] in *.
  destruct (Ascii.eqb_spec c ".") as [->|]; [|discriminate]. intros [= <- <-]. exists (y :: d). split; [split; [discriminate|exact F]|]. auto.
Qed.
Lemma quad_take q s : quad q -> not_digit s -> take_quad (q ++ s) = Some (q, s).
Proof.
  intros (a & b & c & d & A0 & B0 & C0 & (ND & FD) & ->) St. unfold take_quad. rewrite <- app_assoc. cbn [app]. rewrite take_dot by assumption. rewrite <- app_assoc. cbn [app]. rewrite take_dot by assumption.
  rewrite <- app_assoc. cbn [app]. rewrite take_dot by assumption. rewrite take_digits_cut by assumption. destruct d as [|y d]; [congruence|]. now rewrite <- !app_assoc.
Qed.
Lemma take_quad_some s q r : take_quad s = Some (q, r) -> quad q /\ s = q ++ r /\ not_digit r.
Proof.
  intros E. split; [|split; [now apply take_quad_eq|]]; unfold take_quad in E; destruct (take_digits_dot s) as [[a s1]|] eqn:E1; try discriminate E; destruct (take_digits_dot s1) as [[b s2]|] eqn:E2; try discriminate E;
    destruct (take_digits_dot s2) as [[c s3]|] eqn:E3; try discriminate E; pose proof (take_digits_split s3) as (F & St); destruct (take_digits s3) as [[|y d] s4]; try discriminate E; injection E as <- <-.
  - apply dot_take in E1 as (a' & A0 & _ & ->). apply dot_take in E2 as (b' & B0 & _ & ->). apply dot_take in E3 as (c' & C0 & _ & ->).
    exists a', b', c', (y :: d). refine (conj A0 (conj B0 (conj C0 (conj (conj _ F) _)))); [discriminate|]. now rewrite <- !app_assoc.
  - exact St.
Qed.
Lemma quad_head q : quad q -> exists c r, q = c :: r /\ is_digit c = true.
Proof.
  intros (a & b & c & d & (N0 & F) & _ & _ & _ & ->). destruct a as [|y a]; [congruence|]. cbn [forallb] in F. apply andb_true_iff in F as (Y & _). eexists. eexists. split; [reflexivity|exact Y].
Qed.
Lemma quad_dot q : quad q -> In "." q.
Proof. intros (a & b & c & d & _ & _ & _ & _ & ->). rewrite in_app_iff. right. now left. Qed.

(** ** The patterns *)
Definition digits_re : re := rplus true (RSet dg).
Definition quad_re (e : re -> re) : re := RCat digits_re (RCat (chr ".") (RCat digits_re (RCat (chr ".") (RCat digits_re (RCat (chr ".") (e digits_re)))))).
Definition quad0 : re := quad_re (fun r => r).
Definition v4_re : re := RAlt (RCat RBol (RCat (RGrp 1 quad0) REol))
  (RAlt (RCat RBol (RCat (RGrp 2 quad0) (RCat (RGrp 3 (RAlt (rplus true (RSet sp)) (chr "/"))) (RCat (RGrp 4 quad0) REol))))
        (RCat RBol (RCat (RCat (RStar true (RSet sp)) (RCat (RGrp 5 quad0) (RCat (RCat (chr "/") (RGrp 6 digits_re)) (RStar true (RSet sp))))) REol))).
Definition v4_names : list (str * nat) := [(lit "masklen", 6); (lit "v4addr_prefixlen", 5); (lit "netmask", 4); (lit "v4addr_netmask", 2); (lit "v4addr_nomask", 1)].
Lemma v4_reads : compile false v4_pattern = Some (v4_re, (6, v4_names)).
Proof. vm_compute. reflexivity. Qed.
Lemma len_reads : compile false (lit "^\d+$") = Some (RCat RBol (RCat digits_re REol), (0, [])).
Proof. vm_compute. reflexivity. Qed.
Lemma mask_reads : compile false (lit "^\d+\.\d+\.\d+\.\d+$") = Some (RCat RBol (quad_re (fun r => RCat r REol)), (0, [])).
Proof. vm_compute. reflexivity. Qed.
Lemma any_reads : compile false (lit "\d+\.\d+\.\d+\.\d+") = Some (quad0, (0, [])).
Proof. vm_compute. reflexivity. Qed.

Lemma M_digits i s c i' s' c' : M digits_re i s c i' s' c' <-> exists d, s = d ++ s' /\ some_digits d /\ i' = i + length d /\ c' = c.
Proof.
  unfold digits_re. rewrite M_plus_iff. split.
  - intros (d & -> & N0 & F & -> & ->). apply all_dg in F. exists d. repeat split; auto.
  - intros (d & -> & (N0 & F) & -> & ->). exists d. apply all_dg in F. repeat split; auto.
Qed.
Lemma M_quad (e : re -> re) i s c i' s' c' : (forall i s c i' s' c', M (e digits_re) i s c i' s' c' <-> exists d, s = d ++ s' /\ some_digits d /\ i' = i + length d /\ c' = c) ->
  M (quad_re e) i s c i' s' c' <-> exists q, s = q ++ s' /\ quad q /\ i' = i + length q /\ c' = c.
Proof.
  intros He. unfold quad_re. split.
  - intros HM. apply M_cat_iff in HM as (i1 & s1 & c1 & HM & HM2). apply M_digits in HM as (a & -> & A0 & -> & ->). apply M_cat_iff in HM2 as (i2 & s2 & c2 & HM & HM2). apply M_chr_iff in HM as (-> & -> & ->).
    apply M_cat_iff in HM2 as (i1 & s3 & c1 & HM & HM2). apply M_digits in HM as (b & -> & B0 & -> & ->). apply M_cat_iff in HM2 as (i2 & s2 & c2 & HM & HM2). apply M_chr_iff in HM as (-> & -> & ->).
    apply M_cat_iff in HM2 as (i1 & s4 & c1 & HM & HM2). apply M_digits in HM as (g & -> & C0 & -> & ->). apply M_cat_iff in HM2 as (i2 & s2' & c2 & HM & HM2). apply M_chr_iff in HM as (-> & -> & ->).
    apply He in HM2 as (d & -> & D0 & -> & ->). exists (a ++ "." :: b ++ "." :: g ++ "." :: d). split; [rewrite <- !app_assoc; cbn [app]; rewrite <- !app_assoc; cbn [app]; now rewrite <- !app_assoc|].
    split; [exists a, b, g, d; auto 6|]. split; [|reflexivity]. rewrite !app_length. cbn [length]. rewrite !app_length. cbn [length]. rewrite !app_length. cbn [length]. lia.
  - intros (q & -> & (a & b & g & d & A0 & B0 & C0 & D0 & ->) & -> & ->). rewrite <- !app_assoc. cbn [app]. rewrite <- !app_assoc. cbn [app]. rewrite <- !app_assoc. cbn [app].
    eapply M_cat; [apply M_digits; exists a; auto|]. eapply M_cat; [apply M_chr_iff; auto|]. eapply M_cat; [apply M_digits; exists b; auto|]. eapply M_cat; [apply M_chr_iff; auto|].
    eapply M_cat; [apply M_digits; exists g; auto|]. eapply M_cat; [apply M_chr_iff; auto|]. apply He. exists d. split; [reflexivity|]. split; [assumption|]. split; [|reflexivity].
    rewrite !app_length. cbn [length]. rewrite !app_length. cbn [length]. rewrite !app_length. cbn [length]. lia.
Qed.
Lemma M_quad0 i s c i' s' c' : M quad0 i s c i' s' c' <-> exists q, s = q ++ s' /\ quad q /\ i' = i + length q /\ c' = c.
Proof. apply M_quad. intros. apply M_digits. Qed.
Lemma M_qgrp n i s c i' s' c' : M (RGrp n quad0) i s c i' s' c' <-> exists q, s = q ++ s' /\ quad q /\ i' = i + length q /\ c' = (n, q) :: c.
Proof.
  rewrite M_grp_iff. split.
  - intros (w & c1 & -> & -> & -> & HM). apply M_quad0 in HM as (q & E & Q0 & _ & ->). apply app_inv_tail in E as <-. now exists w.
  - intros (q & -> & Q0 & -> & ->). exists q, c. repeat split. apply M_quad0. now exists q.
Qed.

Definition v4_shape (s : str) (c : caps) : Prop :=
  (quad s /\ c = [(1, s)]) \/
  (exists a g m, s = a ++ g ++ m /\ quad a /\ quad m /\ (g = ["/"] \/ g <> [] /\ white g) /\ c = [(4, m); (3, g); (2, a)]) \/
  (exists a d, s = a ++ "/" :: d /\ quad a /\ some_digits d /\ c = [(6, d); (5, a)]).
Lemma v4_shaped s u v i s' c : tidy s -> s = u ++ v -> M v4_re (length u) v [] i s' c -> v4_shape s c.
Proof.
  intros Ts E HM. unfold v4_shape. apply M_alt_iff in HM as [HM|HM]; [|apply M_alt_iff in HM as [HM|HM]].
  - left. apply M_cat_iff in HM as (i1 & s1 & c1 & HM & HM2). apply M_bol_iff in HM as (U & -> & -> & ->). destruct u; [|discriminate U]. cbn [app] in E. subst v.
    apply M_cat_iff in HM2 as (i2 & s2 & c2 & HM & HM2). apply M_qgrp in HM as (q & -> & Q0 & _ & ->). apply M_eol_iff in HM2 as (Z & _ & -> & ->).
    assert (Gz : [] ++ s2 = []) by (apply (tidy_end _ q [] [] s2 Ts); auto; reflexivity). cbn in Gz. subst s2. rewrite app_nil_r. auto.
  - right. left. apply M_cat_iff in HM as (i1 & s1 & c1 & HM & HM2). apply M_bol_iff in HM as (U & -> & -> & ->). destruct u; [|discriminate U]. cbn [app] in E. subst v.
    apply M_cat_iff in HM2 as (i2 & s2 & c2 & HM & HM2). apply M_qgrp in HM as (a & -> & Q0 & _ & ->). apply M_cat_iff in HM2 as (i3 & s3 & c3 & HM & HM2). apply M_grp_iff in HM as (g & c4 & -> & _ & -> & HM).
    assert (Hg : c4 = [(2, a)] /\ (g = ["/"] \/ g <> [] /\ white g)).
    { apply M_alt_iff in HM as [HM|HM].
      - apply M_plus_iff in HM as (w & E & NW & Hw & _ & ->). apply app_inv_tail in E as <-. apply all_sp in Hw. auto.
      - apply M_chr_iff in HM as (E & _ & ->). apply (app_inv_tail _ g ["/"]) in E as ->. auto. }
    destruct Hg as (-> & Hg). apply M_cat_iff in HM2 as (i4 & s4 & c5 & HM2 & HM3). apply M_qgrp in HM2 as (m & -> & Q1 & _ & ->). apply M_eol_iff in HM3 as (Z & _ & -> & ->).
    assert (Gz : [] ++ s4 = []) by (apply (tidy_end _ (a ++ g) m [] s4 Ts); [now rewrite <- app_assoc|reflexivity|assumption]). cbn in Gz. subst s4. rewrite app_nil_r. exists a, g, m. auto 6.
  - right. right. apply M_cat_iff in HM as (i1 & s1 & c1 & HM & HM2). apply M_bol_iff in HM as (U & -> & -> & ->). destruct u; [|discriminate U]. cbn [app] in E. subst v.
    apply M_cat_iff in HM2 as (i2 & s2 & c2 & HM & HME). apply M_eol_iff in HME as (Z & _ & -> & ->). apply M_cat_iff in HM as (i3 & s3 & c3 & HM & HM2). apply M_star_iff in HM as (g & -> & Hg & _ & ->). apply all_sp in Hg.
    pose proof (tidy_head _ _ Ts Hg) as ->. cbn [app] in *. apply M_cat_iff in HM2 as (i4 & s4 & c4 & HM & HM2). apply M_qgrp in HM as (a & -> & Q0 & _ & ->).
    apply M_cat_iff in HM2 as (i5 & s5 & c5 & HM & HM2). apply M_cat_iff in HM as (i6 & s6 & c6 & HM & HM3). apply M_chr_iff in HM as (-> & _ & ->). apply M_grp_iff in HM3 as (d & c7 & -> & _ & -> & HM3).
    apply M_digits in HM3 as (d' & E & D0 & _ & ->). apply app_inv_tail in E as <-. apply M_star_iff in HM2 as (h & -> & Hh & _ & ->). apply all_sp in Hh.
    assert (Gz : h ++ s2 = []) by (apply (tidy_end _ (a ++ ["/"]) d h s2 Ts); [now rewrite <- app_assoc|assumption|assumption]). rewrite Gz, app_nil_r. exists a, d. auto.
Qed.
Lemma shape_M s c : v4_shape s c -> exists i s' c', M v4_re 0 s [] i s' c'.
Proof.
  intros [(Q0 & _)|[(a & g & m & -> & Q0 & Q1 & Hg & _)|(a & d & -> & Q0 & D0 & _)]].
  - exists (length s), [], [(1, s)]. apply M_left. eapply M_cat; [constructor|]. eapply M_cat; [apply M_qgrp; exists s; rewrite app_nil_r; now repeat split|]. apply M_eol_iff. auto.
  - exists (0 + length a + length g + length m), [], [(4, m); (3, g); (2, a)]. apply M_right, M_left. eapply M_cat; [constructor|].
    eapply M_cat; [apply M_qgrp; exists a; now repeat split|]. eapply M_cat; [apply M_grp_iff; exists g, [(2, a)]; refine (conj eq_refl (conj eq_refl (conj eq_refl _)))|].
    + apply M_alt_iff. destruct Hg as [->|(NG & Hg)]; [right; apply M_chr_iff; repeat split; cbn; lia|left]. apply M_plus_iff. exists g. apply all_sp in Hg. now repeat split.
    + eapply M_cat; [apply M_qgrp; exists m; rewrite app_nil_r; now repeat split|]. apply M_eol_iff. auto.
  - exists (0 + length a + 1 + length d), [], [(6, d); (5, a)]. apply M_right, M_right. eapply M_cat; [constructor|]. eapply M_cat with (i1 := 0 + length a + 1 + length d) (s1 := []) (c1 := [(6, d); (5, a)]); [|apply M_eol_iff; auto].
    eapply M_cat; [apply M_star_iff; exists []; repeat split; constructor|]. cbn [length]. eapply M_cat; [apply M_qgrp; exists a; now repeat split|].
    eapply M_cat with (i1 := 0 + length a + 1 + length d) (s1 := []) (c1 := [(6, d); (5, a)]); [|apply M_star_iff; exists []; split; [reflexivity|]; split; [apply Forall_nil|]; split; [cbn; lia|reflexivity]]. eapply M_cat; [apply M_chr_iff; auto|].
    apply M_grp_iff. exists d, [(5, a)]. rewrite app_nil_r. refine (conj eq_refl (conj _ (conj eq_refl _))); [cbn; lia|]. apply M_digits. exists d. rewrite app_nil_r. repeat split; [apply D0|apply D0|cbn; lia].
Qed.

(** ** Both *)
Lemma found_len d : some_digits d -> found_in "^\d+$" d = true.
Proof.
  intros D0. unfold found_in. destruct (rx_find (pattern false (lit "^\d+$")) d) as [m|] eqn:F; [reflexivity|]. exfalso. cbn [rx_find pattern] in F. rewrite len_reads in F.
  destruct (search (RCat RBol (RCat digits_re REol)) d) as [[? ?]|] eqn:Se; [discriminate F|]. apply (search_none _ _ Se [] d (0 + length d) [] [] eq_refl).
  eapply M_cat; [constructor|]. eapply M_cat; [apply M_digits; exists d; rewrite app_nil_r; repeat split; apply D0|]. apply M_eol_iff. auto.
Qed.
Lemma found_mask q : quad q -> found_in "^\d+\.\d+\.\d+\.\d+$" q = true.
Proof.
  intros (a & b & g & d & A0 & B0 & C0 & D0 & E). unfold found_in. destruct (rx_find (pattern false (lit "^\d+\.\d+\.\d+\.\d+$")) q) as [m|] eqn:F; [reflexivity|]. exfalso. cbn [rx_find pattern] in F. rewrite mask_reads in F.
  match type of F with match search ?r _ with _ => _ end = _ => destruct (search r q) as [[? ?]|] eqn:Se; [discriminate F|] end. subst q.
  eapply (search_none _ _ Se [] _ _ [] [] eq_refl).
  eapply M_cat; [constructor|]. unfold quad_re. eapply M_cat; [apply M_digits; exists a; auto|]. eapply M_cat; [apply M_chr_iff; auto|]. eapply M_cat; [apply M_digits; exists b; auto|]. eapply M_cat; [apply M_chr_iff; auto|].
  eapply M_cat; [apply M_digits; exists g; auto|]. eapply M_cat; [apply M_chr_iff; auto|]. eapply M_cat; [apply M_digits; exists d; rewrite app_nil_r; auto|]. apply M_eol_iff. auto.
Qed.
Lemma found_any q : quad q -> found_in "\d+\.\d+\.\d+\.\d+" q = true.
Proof.
  intros Q0. unfold found_in. destruct (rx_find (pattern false (lit "\d+\.\d+\.\d+\.\d+")) q) as [m|] eqn:F; [reflexivity|]. exfalso. cbn [rx_find pattern] in F. rewrite any_reads in F.
  destruct (search quad0 q) as [[? ?]|] eqn:Se; [discriminate F|]. apply (search_none _ _ Se [] q (0 + length q) [] [] eq_refl). apply M_quad0. exists q. rewrite app_nil_r. auto.
Qed.
Lemma digits_strip d : some_digits d -> strip d = d.
Proof.
  intros (N0 & F). destruct d as [|c r]; [congruence|]. destruct (@exists_last _ (c :: r)) as (u & y & E); [discriminate|]. 
  pose proof (strip_inside [] c r u y []) as K. cbn [app] in K. rewrite app_nil_r in K. rewrite E in F at 1. rewrite forallb_app in F. apply andb_true_iff in F as (Fu & Fy). cbn in Fy. rewrite andb_true_r in Fy.
  apply K; try reflexivity; [|now apply digit_space|exact E]. apply digit_space. destruct u as [|z u]; cbn in E; injection E as -> _; [assumption|]. cbn [forallb] in Fu. now apply andb_true_iff in Fu.
Qed.
Lemma quad_strip q : quad q -> strip q = q.
Proof.
  intros (a & b & g & d & (NA & FA) & _ & _ & (ND & FD) & ->). destruct a as [|c a]; [congruence|]. destruct (@exists_last _ d ND) as (u & y & ->). cbn [app].
  pose proof (strip_inside [] c (a ++ "." :: b ++ "." :: g ++ "." :: u ++ [y]) ((c :: a) ++ "." :: b ++ "." :: g ++ "." :: u) y []) as K. cbn [app] in K. rewrite app_nil_r in K.
  apply K; try reflexivity.
  - apply digit_space. cbn [forallb] in FA. now apply andb_true_iff in FA.
  - apply digit_space. rewrite forallb_app in FD. apply andb_true_iff in FD as (_ & FD). cbn in FD. now rewrite andb_true_r in FD.
  - rewrite <- !app_assoc. cbn [app]. rewrite <- !app_assoc. cbn [app]. now rewrite <- !app_assoc.
Qed.
Lemma get_v4 m nm k : option_map snd (find (fun x => str_eqb (fst x) (lit nm)) v4_names) = Some (S k) -> named v4_pattern (lit nm) m = nth k (m_groups m) None.
Proof. intros F. exact (named_of _ _ _ (lit nm) m k v4_reads F). Qed.
Lemma not_empty (s : str) : s <> [] -> is_empty s = false. Proof. now destruct s. Qed.
Lemma quad_nonempty q : quad q -> q <> []. Proof. intros Q0 ->. now apply quad_head in Q0 as (? & ? & ? & _). Qed.
(** On text without white space around it, the reader of IPv4 addresses does what the patterns of the source say. *)
Lemma split_same s : tidy s -> split_v4_re s = split_v4 s.
Proof.
  intros Ts. unfold split_v4_re. cbv zeta. destruct (rx_find (pattern false v4_pattern) s) as [m|] eqn:F.
  - rewrite !(get_v4 m "v4addr_nomask" 0), !(get_v4 m "v4addr_netmask" 1), !(get_v4 m "v4addr_prefixlen" 4), !(get_v4 m "netmask" 3), !(get_v4 m "masklen" 5) by reflexivity.
    cbn [rx_find pattern] in F. rewrite v4_reads in F. destruct (search v4_re s) as [[x c]|] eqn:Se; [|discriminate F]. injection F as <-. cbn [m_groups].
    apply search_some in Se as (u & v & i & s' & E & HM & _). apply (v4_shaped s u v i s' c Ts E) in HM.
    destruct HM as [(Q0 & ->)|[(a & g & mk & Es & Q0 & Q1 & Hg & ->)|(a & d & Es & Q0 & D0 & ->)]]; cbn [fst snd map seq cap Nat.eqb nth or_empty app is_empty andb negb].
    + change (found_in "^\d+$" (strip (lit "32"))) with true. change (found_in "^\d+\.\d+\.\d+\.\d+$" (strip [])) with false. cbn [is_empty andb negb app]. rewrite app_nil_r, (found_any _ Q0).
      unfold split_v4. pose proof (quad_take s [] Q0 I) as E0. rewrite app_nil_r in E0. now rewrite E0.
    + rewrite (not_empty mk) by now apply quad_nonempty. cbn [andb negb]. rewrite (quad_strip _ Q1), (found_mask _ Q1). change (found_in "^\d+$" (strip [])) with false. cbn [is_empty andb negb app].
      rewrite (not_empty mk) by now apply quad_nonempty. cbn [andb negb]. rewrite !app_nil_r, (found_any _ Q0). unfold split_v4. rewrite Es.
      pose proof (quad_take mk [] Q1 I) as E1. rewrite app_nil_r in E1. destruct Hg as [->|(NG & Hg)].
      * rewrite (quad_take a) by (try assumption; reflexivity). cbn [app]. rewrite Ascii.eqb_refl, E1. reflexivity.
      * destruct g as [|z g]; [congruence|]. unfold white in Hg. cbn [forallb] in Hg. apply andb_true_iff in Hg as (Z & Hg). cbn [app].
        assert (Zd : is_digit z = false) by (destruct (is_digit z) eqn:K; [apply digit_space in K; congruence|reflexivity]).
        rewrite (quad_take a) by assumption. destruct (Ascii.eqb_spec z "/") as [->|_]; [discriminate Z|]. rewrite Z, lstrip_app_space by exact Hg.
        destruct (quad_head _ Q1) as (y & r & -> & Y). cbn [lstrip]. rewrite (digit_space _ Y). now rewrite E1.
    + rewrite (not_empty d) by apply D0. cbn [andb negb]. rewrite (digits_strip _ D0), (found_len _ D0). change (found_in "^\d+\.\d+\.\d+\.\d+$" (strip [])) with false. cbn [is_empty andb negb app].
      rewrite (found_any _ Q0). unfold split_v4. rewrite Es, (quad_take a) by (try assumption; reflexivity). rewrite Ascii.eqb_refl, take_quad_digits by apply D0.
      unfold all_digits. destruct d as [|y d]; [now destruct D0|]. now rewrite (proj2 D0).
  - cbn [is_empty andb app]. change (found_in "\d+\.\d+\.\d+\.\d+" []) with false. cbn iota. destruct (split_v4 s) as [[a mk]|] eqn:E; [|reflexivity]. exfalso.
    assert (Sh : exists c, v4_shape s c).
    { unfold split_v4 in E. destruct (take_quad s) as [[q r]|] eqn:Eq; [|discriminate E]. apply take_quad_some in Eq as (Q0 & -> & St). destruct r as [|z r].
      - rewrite app_nil_r. exists [(1, q)]. left. auto.
      - revert E. destruct (Ascii.eqb_spec z "/") as [->|Nz]; intros E.
        + assert (K : take_quad r = Some (mk, []) \/ all_digits r = true) by (destruct (take_quad r) as [[m' [|? ?]]|]; [left; injection E as _ ->; reflexivity|right; destruct (all_digits r); [reflexivity|discriminate E]|right; destruct (all_digits r); [reflexivity|discriminate E]]).
          destruct K as [K|K].
          * apply take_quad_some in K as (Q1 & -> & _). rewrite app_nil_r. eexists. right. left. exists q, ["/"], mk. repeat split; auto.
          * eexists. right. right. exists q, r. refine (conj eq_refl (conj Q0 (conj _ eq_refl))). unfold all_digits in K. destruct r; [discriminate K|]. split; [discriminate|exact K].
        + destruct (is_space z) eqn:Z; [|discriminate E]. destruct (take_quad (lstrip r)) as [[m' [|? ?]]|] eqn:Em; try discriminate E. apply take_quad_some in Em as (Q1 & El & _). rewrite app_nil_r in El.
          destruct (lstrip_suffix r) as (g & Er & Wg). rewrite El in Er. subst r. eexists. right. left. exists q, (z :: g), m'. repeat split; auto. right. split; [discriminate|]. unfold white. cbn [forallb]. now rewrite Z, Wg. }
    destruct Sh as (c & Sh). apply shape_M in Sh as (i & s' & c' & HM). cbn [rx_find pattern] in F. rewrite v4_reads in F. destruct (search v4_re s) as [[? ?]|] eqn:Se; [discriminate F|].
    exact (search_none _ _ Se [] s i s' c' eq_refl HM).
Qed.
Theorem C49_patterns : forall s, split_v4_re (strip s) = split_v4 (strip s).
Proof. intros s. apply split_same, strip_tidy. Qed.
Print Assumptions C49_patterns.
Example C49_patterns_ex : split_v4_re (strip (lit " 10.0.0.1  255.0.0.0 ")) = Some (lit "10.0.0.1", lit "255.0.0.0") /\ split_v4_re (lit "10.0.0.1/8") = Some (lit "10.0.0.1", lit "8") /\
  split_v4_re (lit "10.0.0.1 8") = None /\ split_v4_re (lit "010.0.0.1") = Some (lit "010.0.0.1", lit "32").
Proof. vm_compute. repeat split. Qed.
