(** Templates that are sentences: words between white space. *)
From Coq Require Import Ascii String Arith NArith ZArith Bool List Lia.
From Verif Require Import PyStr PyStrFacts PyBase SearchModel PyRe PyReFacts PyReTmpl IntfSpec IosSpec.
Import ListNotations.
Local Open Scope char_scope.

Definition sp : cset := mkSet false false [CSpace].
Definition dg : cset := mkSet false false [CDigit].
Definition ns : cset := mkSet false false [CNotSpace].
Definition dot : cset := mkSet true false [CRange "010" "010"].

Lemma in_sp c : in_set sp c = is_space c.
Proof. unfold in_set. cbn [cs_neg cs_icase cs_items existsb cls_has sp dg ns]. now rewrite orb_false_r, xorb_false_l. Qed.
Lemma in_dg c : in_set dg c = is_digit c.
Proof. unfold in_set. cbn [cs_neg cs_icase cs_items existsb cls_has sp dg ns]. now rewrite orb_false_r, xorb_false_l. Qed.
Lemma in_ns c : in_set ns c = negb (is_space c).
Proof. unfold in_set. cbn [cs_neg cs_icase cs_items existsb cls_has sp dg ns]. now rewrite orb_false_r, xorb_false_l. Qed.
Lemma digit_nonspace c : is_digit c = true -> is_space c = false.
Proof.
  unfold is_digit, is_space. destruct c as [[] [] [] [] [] [] [] []]; vm_compute; congruence.
Qed.
Lemma all_in_iff q f w : (forall c, in_set q c = f c) -> all_in q w <-> forallb f w = true.
Proof.
  intros E. unfold all_in. induction w as [|x w IH]; cbn [forallb]; [split; auto|]. rewrite andb_true_iff, <- IH, <- E. split.
  - inversion 1; auto.
  - intros [A B]. constructor; auto.
Qed.
Lemma all_sp w : all_in sp w <-> white w. Proof. apply all_in_iff, in_sp. Qed.
Lemma all_dg w : all_in dg w <-> forallb is_digit w = true. Proof. apply all_in_iff, in_dg. Qed.
Lemma all_ns w : all_in ns w <-> forallb (fun c => negb (is_space c)) w = true. Proof. apply all_in_iff, in_ns. Qed.

(** ** Slots *)

Inductive slot :=
| W (w : str)             (* this word *)
| N (n : nat)             (* digits, as a group *)
| A                       (* a word *)
| G (n : nat)             (* a word, as a group *)
| Q                       (* a dotted quad *)
| H (n : nat)             (* a dotted quad, as a group *)
| J (v w : str)           (* two words with one white character between them *)
| L (n : nat) (w : str)   (* this word, as a group *)
| X (n : nat) (w : str)         (* a word that begins so, as a group *)
| Y (n : nat) (v w : str)       (* two words with white space between them, as a group *)
| K1 (n : nat) (u v w : str)    (* three words with one white character between them; the last is a group *)
| K3 (n : nat) (u v w : str)    (* the same; all is the group *)
| V (n : nat) (u v : str).      (* the same; the last is any word *)

Definition quad_items : list item := [Run dg true; Lit ["."]; Run dg true; Lit ["."]; Run dg true; Lit ["."]; Run dg true].
Definition items (k : slot) : list item :=
  match k with
  | W w => [Lit w]
  | N n => [Grp n [Run dg true]]
  | A => [Run ns true]
  | G n => [Grp n [Run ns true]]
  | Q => quad_items
  | H n => [Grp n quad_items]
  | J v w => [Lit v; One sp; Lit w]
  | L n w => [Grp n [Lit w]]
  | X n w => [Grp n [Lit w; Run ns false]]
  | Y n v w => [Grp n [Lit v; Run sp true; Lit w]]
  | K1 n u v w => [Lit u; One sp; Lit v; One sp; Grp n [Lit w]]
  | K3 n u v w => [Grp n [Lit u; One sp; Lit v; One sp; Lit w]]
  | V n u v => [Lit u; One sp; Lit v; One sp; Grp n [Run ns true]]
  end.
Definition fits (k : slot) (t : str) : Prop :=
  match k with
  | W w | L _ w => t = w
  | N _ => t <> [] /\ forallb is_digit t = true
  | A | G _ => word t
  | Q | H _ => quad t
  | J v w => joined v w t
  | X _ w => exists r, forallb (fun c => negb (is_space c)) r = true /\ t = w ++ r
  | Y _ v w => exists g, gap g /\ t = v ++ g ++ w
  | K1 _ u v w | K3 _ u v w => joined3 u v w t
  | V _ u v => exists w, word w /\ joined3 u v w t
  end.
Definition cap1 (k : slot) (t : str) : caps := match k with
  | N n | G n | H n | L n _ | X n _ | Y n _ _ | K3 n _ _ _ => [(n, t)]
  | K1 n _ _ w => [(n, w)]
  | V n u v => [(n, skipn (length u + 1 + length v + 1) t)]
  | _ => []
  end.
Fixpoint caps_of (ks : list slot) (ws : list str) (c : caps) : caps :=
  match ks, ws with
  | k :: ks, w :: ws => caps_of ks ws (cap1 k w ++ c)
  | _, _ => c
  end.
Fixpoint sent (ks : list slot) : list item :=
  match ks with
  | [] => []
  | [k] => items k
  | k :: r => items k ++ Run sp true :: sent r
  end.
(** The words given begin with characters that are not white. *)
Definition nonwhite_head (w : str) : bool := match w with [] => false | c :: _ => negb (is_space c) end.
Definition proper (k : slot) : bool := match k with W w | L _ w | J w _ | X _ w | K1 _ w _ _ | K3 _ w _ _ | V _ w _ => nonwhite_head w | Y _ v w => nonwhite_head v && nonwhite_head w | _ => true end.
(** The text after the last word does not continue a run. *)
Fixpoint ends_before (ks : list slot) (s : str) : Prop :=
  match ks with
  | [] => True
  | [N _] | [Q] | [H _] => no_more is_digit s
  | [A] | [G _] | [X _ _] | [V _ _ _] => no_more (fun c => negb (is_space c)) s
  | _ :: r => ends_before r s
  end.

Lemma stops_iff q f s : (forall c, in_set q c = f c) -> stops q s <-> no_more f s.
Proof. intros E. destruct s; cbn; [tauto|]. now rewrite E. Qed.
Lemma quad_head t : quad t -> nonwhite_head t = true.
Proof.
  intros (a & b & c & d & -> & F). inversion F as [|? ? [F1 F2]]; subst. destruct a; [congruence|]. cbn in *.
  apply andb_true_iff in F2 as [F2 _]. now rewrite (digit_nonspace _ F2).
Qed.
Lemma fits_head k t : proper k = true -> fits k t -> nonwhite_head t = true.
Proof.
  destruct k; cbn [proper fits]; intros P F.
  - now subst.
  - destruct F as [F1 F2]. destruct t; [congruence|]. cbn in *. apply andb_true_iff in F2 as [F2 _]. now rewrite (digit_nonspace _ F2).
  - destruct F as [F1 F2]. destruct t; [congruence|]. cbn in *. now apply andb_true_iff in F2 as [F2 _].
  - destruct F as [F1 F2]. destruct t; [congruence|]. cbn in *. now apply andb_true_iff in F2 as [F2 _].
  - now apply quad_head.
  - now apply quad_head.
  - destruct F as (c & _ & ->). now destruct v.
  - now subst.
  - destruct F as (r & _ & ->). now destruct w.
  - destruct F as (g & _ & ->). apply andb_true_iff in P as [P _]. now destruct v.
  - destruct F as (a & b & _ & _ & ->). now destruct u.
  - destruct F as (a & b & _ & _ & ->). now destruct u.
  - destruct F as (w & _ & a & b & _ & _ & ->). now destruct u.
Qed.

Lemma skip_V (u v w : str) x y : skipn (length u + 1 + length v + 1) (u ++ [x] ++ v ++ [y] ++ w) = w.
Proof.
  replace (u ++ [x] ++ v ++ [y] ++ w) with ((u ++ [x] ++ v ++ [y]) ++ w) by (rewrite <- !app_assoc; cbn [app]; rewrite <- ?app_assoc; reflexivity).
  replace (length u + 1 + length v + 1) with (length (u ++ [x] ++ v ++ [y])) by (rewrite ?app_length; cbn [length]; rewrite ?app_length; cbn [length]; lia).
  now rewrite skipn_app, skipn_all, Nat.sub_diag.
Qed.
Lemma D_quad b T t s s' c c' : quad t -> (b = true -> no_more is_digit s) -> D b T s s' c c' -> D b (quad_items ++ T) (t ++ s) s' c c'.
Proof.
  intros (x & y & z & u & -> & F) K HD. inversion F as [|? ? [X1 X2] F']; subst. inversion F' as [|? ? [Y1 Y2] F1]; subst.
  inversion F1 as [|? ? [Z1 Z2] F2]; subst. inversion F2 as [|? ? [U1 U2] _]; subst. unfold quad_items. cbn [app].
  replace ((x ++ "." :: y ++ "." :: z ++ "." :: u) ++ s) with (x ++ ["."] ++ y ++ ["."] ++ z ++ ["."] ++ u ++ s)
    by (rewrite <- !app_assoc; cbn [app]; now rewrite <- !app_assoc; cbn [app]; rewrite <- !app_assoc).
  apply all_dg in X2, Y2, Z2, U2.
  do 3 (apply D_run; [assumption|auto|reflexivity|]; apply D_lit).
  apply D_run; auto. intros B. apply (stops_iff _ _ _ in_dg). auto.
Qed.
Lemma D_quad_inv b T s s' c c' : D b (quad_items ++ T) s s' c c' -> exists t r, s = t ++ r /\ quad t /\ D b T r s' c c'.
Proof.
  intros HD. unfold quad_items in HD. cbn [app] in HD.
  inversion HD as [| |? ? ? x r1 ? ? ? X1 X2 _ K1| | | | | | |]; subst. inversion K1 as [|? ? ? ? ? ? K2| | | | | | | |]; subst. clear HD K1.
  inversion K2 as [| |? ? ? y r2 ? ? ? Y1 Y2 _ K3| | | | | | |]; subst. inversion K3 as [|? ? ? ? ? ? K4| | | | | | | |]; subst. clear K2 K3.
  inversion K4 as [| |? ? ? z r3 ? ? ? Z1 Z2 _ K5| | | | | | |]; subst. inversion K5 as [|? ? ? ? ? ? K6| | | | | | | |]; subst. clear K4 K5.
  inversion K6 as [| |? ? ? u r4 ? ? ? U1 U2 _ K7| | | | | | |]; subst. apply all_dg in X1, Y1, Z1, U1.
  exists (x ++ "." :: y ++ "." :: z ++ "." :: u), r4. split; [|split; [|assumption]].
  - rewrite <- !app_assoc. cbn [app]. now rewrite <- !app_assoc; cbn [app]; rewrite <- !app_assoc.
  - exists x, y, z, u. split; [reflexivity|]. repeat constructor; auto.
Qed.
Lemma D_items b k T t s s' c c' : proper k = true -> fits k t -> (b = true -> ends_before [k] s) -> D b T s s' (cap1 k t ++ c) c' -> D b (items k ++ T) (t ++ s) s' c c'.
Proof.
  destruct k; cbn [fits cap1 items app ends_before]; intros HW F S HH.
  - subst. now constructor.
  - destruct F as [F1 F2]. apply (D_grp b n [Run dg true] T t s s' c c c'); [|exact HH]. constructor; auto.
    + now apply all_dg.
    + intros E. apply (stops_iff _ _ _ in_dg). auto.
    + constructor.
  - destruct F as [F1 F2]. constructor; auto.
    + now apply all_ns.
    + intros E. apply (stops_iff _ _ _ in_ns). auto.
  - destruct F as [F1 F2]. apply (D_grp b n [Run ns true] T t s s' c c c'); [|exact HH]. constructor; auto.
    + now apply all_ns.
    + intros E. apply (stops_iff _ _ _ in_ns). auto.
    + constructor.
  - eapply D_quad; eauto.
  - apply (D_grp b n quad_items T t s s' c c c'); [|exact HH]. pose proof (D_quad b [] t s s c c F S) as K. apply K. constructor.
  - destruct F as (x & X & ->). rewrite <- !app_assoc. constructor. cbn [app]. constructor; [now rewrite in_sp|]. now constructor.
  - subst. apply (D_grp b n [Lit w] T w s s' c c c'); [|exact HH]. constructor. constructor.
  - destruct F as (r & R0 & ->). apply (D_grp b n _ T (w ++ r) s s' c c c'); [|exact HH]. rewrite <- app_assoc. constructor. apply D_run.
    + now apply all_ns.
    + discriminate.
    + intros E. apply (stops_iff _ _ _ in_ns). auto.
    + constructor.
  - destruct F as (g & [G1 G2] & ->). apply (D_grp b n _ T (v ++ g ++ w) s s' c c c'); [|exact HH]. rewrite <- ?app_assoc. constructor. apply D_run; auto.
    + now apply all_sp.
    + intros E. apply (stops_iff _ _ _ in_sp). cbn in HW. apply andb_true_iff in HW as [_ HW]. destruct w as [|y w]; [discriminate|]. cbn in *. now destruct (is_space y).
    + constructor. constructor.
  - destruct F as (x & y & X1 & Y1 & ->). rewrite <- ?app_assoc. cbn [app].
    apply D_lit, D_one; [now rewrite in_sp|]. apply D_lit, D_one; [now rewrite in_sp|].
    apply (D_grp b n [Lit w] T w s s' c c c'); [|exact HH]. constructor. constructor.
  - destruct F as (x & y & X1 & Y1 & ->). apply (D_grp b n _ T _ s s' c c c'); [|exact HH]. rewrite <- ?app_assoc. cbn [app].
    rewrite <- ?app_assoc. cbn [app]. apply D_lit, D_one; [now rewrite in_sp|]. apply D_lit, D_one; [now rewrite in_sp|]. constructor. constructor.
  - destruct F as (w & [F1 F2] & x & y & X1 & Y1 & ->).
    rewrite skip_V in HH.
    rewrite <- ?app_assoc. cbn [app]. rewrite <- ?app_assoc. cbn [app].
    apply D_lit, D_one; [now rewrite in_sp|]. apply D_lit, D_one; [now rewrite in_sp|].
    apply (D_grp b n [Run ns true] T w s s' c c c'); [|exact HH]. apply D_run; auto.
    + now apply all_ns.
    + intros E. apply (stops_iff _ _ _ in_ns). auto.
    + constructor.
Qed.
Lemma D_run_inv b q o w s c c1 : D b [Run q o] (w ++ s) s c c1 -> all_in q w /\ (o = true -> w <> []) /\ c1 = c.
Proof.
  remember (w ++ s) as z eqn:E. intros H. inversion H as [| |? ? ? v r ? ? ? K1 K2 K3 K4| | | | | | |]; subst. inversion K4; subst.
  match goal with E : _ ++ _ = _ ++ _ |- _ => apply app_inv_tail in E; subst end. auto.
Qed.
Lemma D_lit_inv b l w s c c1 : D b [Lit l] (w ++ s) s c c1 -> w = l /\ c1 = c.
Proof.
  remember (w ++ s) as z eqn:E. intros H. inversion H as [|? ? ? ? ? ? K1| | | | | | | |]; subst. inversion K1; subst.
  match goal with E : _ ++ _ = _ ++ _ |- _ => apply app_inv_tail in E; subst end. auto.
Qed.
Lemma D_lit_eq b w T s s' c c' : D b (Lit w :: T) s s' c c' -> exists r, s = w ++ r /\ D b T r s' c c'.
Proof. intros H. inversion H; subst. eauto. Qed.
Lemma D_run_eq b q o T s s' c c' : D b (Run q o :: T) s s' c c' -> exists w r, s = w ++ r /\ all_in q w /\ (o = true -> w <> []) /\ D b T r s' c c'.
Proof. intros H. inversion H; subst. eexists _, _. eauto. Qed.
Lemma D_one_eq b q T s s' c c' : D b (One q :: T) s s' c c' -> exists x r, s = x :: r /\ in_set q x = true /\ D b T r s' c c'.
Proof. intros H. inversion H; subst. eexists _, _. eauto. Qed.
Lemma D_nil_eq b s s' c c' : D b [] s s' c c' -> s' = s /\ c' = c.
Proof. intros H. inversion H; subst. auto. Qed.
Lemma D_grp_eq b n U T s s' c c' : D b (Grp n U :: T) s s' c c' -> exists w r c1, s = w ++ r /\ D b U s r c c1 /\ D b T r s' ((n, w) :: c1) c'.
Proof. intros H. inversion H; subst. eexists _, _, _. eauto. Qed.
Lemma D_items_inv b k T s s' c c' : D b (items k ++ T) s s' c c' ->
  exists t r, s = t ++ r /\ fits k t /\ D b T r s' (cap1 k t ++ c) c'.
Proof.
  destruct k; cbn [fits cap1 items app]; intros H.
  - inversion H; subst. eauto.
  - inversion H as [| | | |? ? ? w r ? ? c1 ? H1 H2| | | | |]; subst. apply D_run_inv in H1 as (K1 & K2 & ->). exists w, r. apply all_dg in K1. auto.
  - inversion H as [| |? ? ? v r ? ? ? K1 K2 K3 K4| | | | | | |]; subst. apply all_ns in K1. exists v, r. repeat split; auto.
  - inversion H as [| | | |? ? ? w r ? ? c1 ? H1 H2| | | | |]; subst. apply D_run_inv in H1 as (K1 & K2 & ->). exists w, r. apply all_ns in K1. repeat split; auto.
  - now apply D_quad_inv.
  - inversion H as [| | | |? ? ? w r ? ? c1 ? H1 H2| | | | |]; subst. rewrite <- (app_nil_r quad_items) in H1. remember (w ++ r) as z eqn:E.
    apply D_quad_inv in H1 as (t & r' & -> & Q' & H1). inversion H1; subst. apply app_inv_tail in E. subst. exists w, r. auto.
  - inversion H as [|? ? ? ? ? ? H1| | | | | | | |]; subst. inversion H1 as [| | |? ? x ? ? ? ? X H2| | | | | |]; subst. inversion H2 as [|? ? r ? ? ? H3| | | | | | | |]; subst.
    exists (v ++ [x] ++ w), r. rewrite <- !app_assoc. repeat split; auto. exists x. rewrite in_sp in X. auto.
  - inversion H as [| | | |? ? ? w0 r ? ? c1 ? H1 H2| | | | |]; subst. apply D_lit_inv in H1 as (-> & ->). exists w, r. auto.
  - apply D_grp_eq in H as (w0 & r & c1 & E & H1 & H2). apply D_lit_eq in H1 as (r1 & E1 & H1). apply D_run_eq in H1 as (x & r2 & E2 & B1 & _ & H1).
    apply D_nil_eq in H1 as (E3 & ->). subst r1 r. rewrite E1, app_assoc in E. apply app_inv_tail in E. subst w0.
    exists (w ++ x), r2. apply all_ns in B1. rewrite <- app_assoc. repeat split; auto. now exists x.
  - apply D_grp_eq in H as (w0 & r & c1 & E & H1 & H2). apply D_lit_eq in H1 as (r1 & E1 & H1). apply D_run_eq in H1 as (x & r2 & E2 & B1 & B2 & H1).
    apply D_lit_eq in H1 as (r3 & E4 & H1). apply D_nil_eq in H1 as (E3 & ->). subst r2 r1 r. rewrite E1, (app_assoc x), app_assoc in E. apply app_inv_tail in E. subst w0.
    exists (v ++ x ++ w), r3. apply all_sp in B1. rewrite <- !app_assoc. repeat split; auto. exists x. repeat split; auto.
  - apply D_lit_eq in H as (r1 & -> & H). apply D_one_eq in H as (x & r2 & -> & X1 & H). apply D_lit_eq in H as (r3 & -> & H). apply D_one_eq in H as (y & r4 & -> & Y1 & H).
    inversion H as [| | | |? ? ? w0 r ? ? c1 ? H1 H2| | | | |]; subst. apply D_lit_inv in H1 as (-> & ->).
    exists (u ++ [x] ++ v ++ [y] ++ w), r. rewrite in_sp in X1, Y1. split; [rewrite <- !app_assoc; cbn [app]; rewrite <- ?app_assoc; reflexivity|].
    split; [now exists x, y|exact H2].
  - apply D_grp_eq in H as (w0 & r & c1 & E & H1 & H2). apply D_lit_eq in H1 as (r1 & E1 & H). apply D_one_eq in H as (x & r2 & E2 & X1 & H).
    apply D_lit_eq in H as (r3 & E3 & H). apply D_one_eq in H as (y & r4 & E4 & Y1 & H). apply D_lit_eq in H as (r5 & E5 & H). apply D_nil_eq in H as (E6 & ->). subst r4 r3 r2 r1 r.
    exists (u ++ [x] ++ v ++ [y] ++ w), r5. rewrite in_sp in X1, Y1.
    assert (E' : (u ++ [x] ++ v ++ [y] ++ w) ++ r5 = w0 ++ r5) by (rewrite <- E, E1, <- ?app_assoc; cbn [app]; rewrite <- ?app_assoc; reflexivity).
    rewrite E'. apply app_inv_tail in E'. subst w0. split; [assumption|]. split; [now exists x, y|exact H2].
  - apply D_lit_eq in H as (r1 & -> & H). apply D_one_eq in H as (x & r2 & -> & X1 & H). apply D_lit_eq in H as (r3 & -> & H). apply D_one_eq in H as (y & r4 & -> & Y1 & H).
    inversion H as [| | | |? ? ? w r ? ? c1 ? H1 H2| | | | |]; subst. apply D_run_inv in H1 as (B1 & B2 & ->).
    exists (u ++ [x] ++ v ++ [y] ++ w), r. rewrite in_sp in X1, Y1. apply all_ns in B1. split; [rewrite <- !app_assoc; cbn [app]; rewrite <- ?app_assoc; reflexivity|].
    split; [exists w; split; [split; auto|now exists x, y]|]. now rewrite skip_V.
Qed.

Lemma sent_cons k k' r : sent (k :: k' :: r) = items k ++ Run sp true :: sent (k' :: r).
Proof. reflexivity. Qed.
Lemma gap_not_continue g p k : gap g -> ends_before [k] (g ++ p).
Proof.
  intros [W1 W2]. destruct g as [|x g]; [congruence|]. unfold white in W1. cbn in W1. apply andb_true_iff in W1 as [W1 _].
  assert (ND : is_digit x = false) by (destruct (is_digit x) eqn:E; [apply digit_nonspace in E; congruence|reflexivity]).
  destruct k; cbn; auto; now rewrite W1.
Qed.
Lemma sent_fwd ks : forall ws p T s s' c c', Forall2 fits ks ws -> phrase ws p -> forallb proper ks = true -> ends_before ks s ->
  D true T s s' (caps_of ks ws c) c' -> D true (sent ks ++ T) (p ++ s) s' c c'.
Proof.
  induction ks as [|k ks IH]; intros ws p T s s' c c' F P Q E H; inversion F as [|? t ? ts F1 F2]; subst.
  - inversion P.
  - cbn [forallb] in Q. apply andb_true_iff in Q as [Q1 Q2]. destruct ks as [|k' ks].
    + inversion F2; subst. inversion P as [|? ? ? ? ? Z]; subst; [|inversion Z]. apply D_items; auto.
    + rewrite sent_cons, <- app_assoc. cbn [app]. inversion P as [? Z|? g ? p' G1 P']; subst; [inversion F2|].
      assert (E' : ends_before (k' :: ks) s) by (destruct k; exact E). rewrite <- !app_assoc. apply D_items; auto.
      * intros _. now apply gap_not_continue.
      * destruct G1 as [G1 G2]. constructor; auto; [now apply all_sp| |eapply IH; eauto]. intros _. apply (stops_iff _ _ _ in_sp).
        assert (N0 : nonwhite_head p' = true).
        { inversion F2 as [|? t' ? ts' F3 F4]; subst. cbn [forallb] in Q2. apply andb_true_iff in Q2 as [Q2 _]. pose proof (fits_head _ _ Q2 F3) as N1.
          inversion P'; subst; [exact N1|]. destruct t'; [discriminate|exact N1]. }
        destruct p' as [|y p']; [discriminate|]. cbn in *. now destruct (is_space y).
Qed.
Lemma sent_shape ks : forall T s s' c c', ks <> [] -> D false (sent ks ++ T) s s' c c' ->
  exists ws p r, s = p ++ r /\ phrase ws p /\ Forall2 fits ks ws /\ D false T r s' (caps_of ks ws c) c'.
Proof.
  induction ks as [|k ks IH]; intros T s s' c c' NE H; [congruence|]. destruct ks as [|k' ks].
  - apply D_items_inv in H as (t & r & -> & F & H). exists [t], t, r. repeat split; auto. constructor.
  - rewrite sent_cons, <- app_assoc in H. apply D_items_inv in H as (t & r & -> & F & H). cbn [app] in H.
    inversion H as [| |? ? ? g r' ? ? ? K1 K2 K3 K4| | | | | | |]; subst. apply IH in K4 as (ws & p & r & -> & P & F2 & K4); [|discriminate].
    exists (t :: ws), (t ++ g ++ p), r. rewrite <- ?app_assoc. repeat split; auto. constructor; auto. split; [now apply all_sp|auto].
Qed.

(** Words of a phrase, the last one taken as far as it goes. *)
Lemma extend_one k t e : fits k t -> exists t' e', t ++ e = t' ++ e' /\ fits k t' /\ ends_before [k] e'.
Proof.
  assert (X0 : forall f : ascii -> bool, exists d e', e = d ++ e' /\ forallb f d = true /\ no_more f e').
  { intros f. induction e as [|x e (d & e' & E & F & G0)]; [now exists [], []|]. destruct (f x) eqn:Fx.
    - exists (x :: d), e'. cbn. now rewrite E, Fx.
    - exists [], (x :: e). cbn. now rewrite Fx. }
  assert (NE : forall (a b : str), a <> [] -> a ++ b <> []) by (intros [|]; [congruence|discriminate]).
  destruct k; intros F; try (exists t, e; split; [reflexivity|]; split; [exact F|exact I]); cbn [fits] in F.
  - destruct (X0 is_digit) as (d & e' & -> & E1 & E2), F as [F1 F2]. exists (t ++ d), e'. rewrite <- app_assoc. repeat split; auto. rewrite forallb_app. now rewrite F2.
  - destruct (X0 (fun c => negb (is_space c))) as (d & e' & -> & E1 & E2), F as [F1 F2]. exists (t ++ d), e'. rewrite <- app_assoc. repeat split; auto.
    rewrite forallb_app. now rewrite F2.
  - destruct (X0 (fun c => negb (is_space c))) as (d & e' & -> & E1 & E2), F as [F1 F2]. exists (t ++ d), e'. rewrite <- app_assoc. repeat split; auto.
    rewrite forallb_app. now rewrite F2.
  - destruct (X0 is_digit) as (d & e' & -> & E1 & E2), F as (a & b & c & u & -> & F). exists (a ++ "." :: b ++ "." :: c ++ "." :: u ++ d), e'.
    split; [|split; [|exact E2]].
    + rewrite <- ?app_assoc. cbn [app]. now rewrite <- ?app_assoc; cbn [app]; rewrite <- ?app_assoc; cbn [app]; rewrite <- ?app_assoc.
    + exists a, b, c, (u ++ d). split; [reflexivity|]. inversion F as [|? ? F0 Fa]; subst. inversion Fa as [|? ? F1 Fb]; subst. inversion Fb as [|? ? F2 Fc]; subst.
      inversion Fc as [|? ? [F3 F4] _]; subst. repeat (constructor; auto). rewrite forallb_app. now rewrite F4.
  - destruct (X0 is_digit) as (d & e' & -> & E1 & E2), F as (a & b & c & u & -> & F). exists (a ++ "." :: b ++ "." :: c ++ "." :: u ++ d), e'.
    split; [|split; [|exact E2]].
    + rewrite <- ?app_assoc. cbn [app]. now rewrite <- ?app_assoc; cbn [app]; rewrite <- ?app_assoc; cbn [app]; rewrite <- ?app_assoc.
    + exists a, b, c, (u ++ d). split; [reflexivity|]. inversion F as [|? ? F0 Fa]; subst. inversion Fa as [|? ? F1 Fb]; subst. inversion Fb as [|? ? F2 Fc]; subst.
      inversion Fc as [|? ? [F3 F4] _]; subst. repeat (constructor; auto). rewrite forallb_app. now rewrite F4.
  - destruct (X0 (fun c => negb (is_space c))) as (d & e' & -> & E1 & E2), F as (r & F1 & ->). exists (w ++ r ++ d), e'. rewrite <- ?app_assoc.
    repeat split; auto. exists (r ++ d). split; [|reflexivity]. rewrite forallb_app. now rewrite F1.
  - destruct (X0 (fun c => negb (is_space c))) as (d & e' & -> & E1 & E2), F as (w & [F1 F2] & x & y & X1 & Y1 & ->). exists (u ++ [x] ++ v ++ [y] ++ w ++ d), e'.
    split; [rewrite <- ?app_assoc; cbn [app]; rewrite <- ?app_assoc; cbn [app]; now rewrite <- ?app_assoc|]. split; [|exact E2].
    exists (w ++ d). split; [split; [now apply NE|rewrite forallb_app; now rewrite F2]|now exists x, y].
Qed.
Lemma extend_last ks : forall ws p e, Forall2 fits ks ws -> phrase ws p ->
  exists ws' p' e', p ++ e = p' ++ e' /\ phrase ws' p' /\ Forall2 fits ks ws' /\ ends_before ks e'.
Proof.
  induction ks as [|k ks IH]; intros ws p e F P; inversion F as [|? t ? ts F1 F2]; subst; [inversion P|].
  inversion P as [? Z1|? g ? p' G1 P']; subst.
  - inversion F2; subst. destruct (extend_one k p e F1) as (t' & e' & E1 & E2 & E3). exists [t'], t', e'. repeat split; auto. constructor.
  - destruct (IH ts p' e F2 P') as (ws' & q & e' & E1 & E2 & E3 & E4). exists (t :: ws'), (t ++ g ++ q), e'. rewrite <- !app_assoc, E1.
    repeat split; auto; [now constructor|]. destruct ks as [|k' ks]; [inversion E3; subst; inversion E2|]. destruct k; exact E4.
Qed.

(** ** Whole lines *)

Inductive tail := Strict | Loose | Open.
Definition tail_items (k : tail) : list item := match k with Strict => [End] | Loose => [Run sp false; End] | Open => [] end.
(** [inner]: indentation is required *)
Definition line_T (inner : bool) (ks : list slot) (k : tail) : list item := Run sp inner :: sent ks ++ tail_items k.
Definition lead_ok (inner : bool) : str -> Prop := if inner then gap else white.
(** What may come after the last word. *)
Definition tail_ok (ks : list slot) (k : tail) (e : str) : Prop :=
  match k with Strict => line_end e | Loose => white e | Open => ends_before ks e end.

Lemma last_end ks : forall e, white e -> ends_before ks e.
Proof.
  induction ks as [|k ks IH]; intros e HW; [exact I|]. destruct ks as [|k' ks]; [|destruct k; now apply IH].
  destruct e as [|x e]; [now destruct k|]. apply (gap_not_continue (x :: e) [] k). now split.
Qed.
Lemma line_end_white e : line_end e -> white e.
Proof. intros [-> | ->]; reflexivity. Qed.
Lemma tail_ends ks k e : tail_ok ks k e -> ends_before ks e.
Proof. destruct k; cbn; intros HE; [apply last_end; now apply line_end_white|now apply last_end|assumption]. Qed.

Theorem line_fwd p n b ks k t ws : reads p (line_T b ks k) n -> forallb proper ks = true -> Forall2 fits ks ws -> line_of (lead_ok b) (tail_ok ks k) ws t ->
  exists m, rx_find (pattern false p) t = Some (mkMatch m (map (fun j => cap j (caps_of ks ws [])) (seq 1 n))).
Proof.
  intros R PR F (i & q & e & -> & WI & P & E).
  assert (HD : exists s', D true (line_T b ks k) (i ++ q ++ e) s' [] (caps_of ks ws [])).
  { assert (H' : exists s', D true (tail_items k) e s' (caps_of ks ws []) (caps_of ks ws [])).
    { destruct k; cbn [tail_items tail_ok] in *.
      - exists e. constructor; [exact E|constructor].
      - exists []. rewrite <- (app_nil_r e) at 1. apply D_run; [now apply all_sp|discriminate|intros _; exact I|constructor; [now left|constructor]].
      - exists e. constructor. }
    destruct H' as (s' & H'). exists s'. unfold line_T. apply D_run.
    - apply all_sp. destruct b; [apply WI|exact WI].
    - intros ->. apply WI.
    - intros _. apply (stops_iff _ _ _ in_sp). inversion F as [|k0 t0 ks0 ts0 F1 F2]; subst; [inversion P|].
      cbn [forallb] in PR. apply andb_true_iff in PR as [Q1 _]. pose proof (fits_head _ _ Q1 F1) as N1. destruct t0 as [|y t0]; [discriminate|].
      inversion P; subst; cbn in *; now destruct (is_space y).
    - eapply sent_fwd; eauto. now apply tail_ends in E. }
  destruct HD as (s' & HD). eapply reads_some; eauto.
Qed.
Lemma white_app a b : white (a ++ b) <-> white a /\ white b.
Proof. unfold white. rewrite forallb_app, andb_true_iff. tauto. Qed.
Theorem line_shape p n b ks k t m : reads p (line_T b ks k) n -> ks <> [] -> rx_find (pattern false p) t = Some m ->
  exists ws, Forall2 fits ks ws /\ line_of (lead_ok b) (tail_ok ks k) ws t.
Proof.
  intros R NE HM. apply (reads_shape _ _ _ _ _ R) in HM as (s' & c & HD & _). unfold line_T in HD.
  inversion HD as [| |? ? ? i r ? ? ? K1 K2 K3 K4| | | | | | |]; subst. apply sent_shape in K4 as (ws & q & e & -> & P & F & K4); [|assumption].
  apply all_sp in K1. assert (LD : lead_ok b i) by (destruct b; [now split; auto|exact K1]). destruct k; cbn [tail_items] in K4.
  - inversion K4 as [| | | | |? ? ? ? ? E| | | |]; subst. exists ws. split; [exact F|]. exists i, q, e. auto.
  - inversion K4 as [| |? ? ? w r ? ? ? L1 L2 L3 L4| | | | | | |]; subst. inversion L4 as [| | | | |? ? ? ? ? E| | | |]; subst. exists ws. split; [exact F|].
    exists i, q, (w ++ r). repeat split; auto. apply white_app. apply all_sp in L1. split; [exact L1|now apply line_end_white].
  - destruct (extend_last ks ws q e F P) as (ws' & q' & e' & -> & P' & F' & E'). exists ws'. split; [exact F'|]. exists i, q', e'. auto.
Qed.
