(** Lazy repetition, and greedy repetition that has to give something back. *)
From Coq Require Import Ascii String Arith NArith ZArith Bool List Lia.
From Verif Require Import PyStr PyStrFacts PyBase SearchModel PyRe PyReFacts PyReTmpl.
Import ListNotations.
Local Open Scope char_scope.

(** ** Whether there is a match does not depend on laziness *)

Fixpoint greed (r : re) : re :=
  match r with
  | RCat a b => RCat (greed a) (greed b)
  | RAlt a b => RAlt (greed a) (greed b)
  | RStar _ a => RStar true (greed a)
  | RGrp n a => RGrp n (greed a)
  | r => r
  end.
Lemma greed_fwd r i s c i' s' c' : M r i s c i' s' c' -> M (greed r) i s c i' s' c'.
Proof. induction 1; cbn [greed] in *; try (now apply M_right); econstructor; eauto. Qed.
Lemma greed_bwd r : forall i s c i' s' c', M (greed r) i s c i' s' c' -> M r i s c i' s' c'.
Proof.
  induction r as [|q|a IHa b IHb|a IHa b IHb|g a IH|n a IH| |]; intros i s c i' s' c' H; cbn [greed] in H; auto.
  - inversion H; subst. econstructor; eauto.
  - inversion H; subst; [apply M_left|apply M_right]; auto.
  - remember (RStar true (greed a)) as r eqn:E. induction H; try discriminate; injection E as -> ->; [constructor|econstructor; eauto].
  - inversion H; subst. constructor. auto.
Qed.
Lemma found_greedy r s T : greed r = RCat RBol (den T) -> (search r s <> None <-> exists s' c, D false T s s' [] c).
Proof.
  intros E. split.
  - intros NE. destruct (search r s) as [[m c]|] eqn:F; [|congruence]. apply search_some in F as (u & v & i' & s' & -> & HM & _).
    apply greed_fwd in HM. rewrite E in HM. apply M_cat_iff in HM as (i1 & s1 & c1 & B & C). apply M_bol_iff in B as (U & -> & -> & ->).
    destruct u; [|discriminate]. apply shape in C. cbn [app]. eauto.
  - intros (s' & c & HD) N0. apply unshape with (i := 0) in HD.
    refine (search_none _ _ N0 [] s _ _ _ eq_refl _). apply greed_bwd. rewrite E. eapply M_cat; [constructor|exact HD].
Qed.

(** ** Which match is found *)

(** Lazy: the shortest run after which the rest matches. *)
Lemma lazy_first {R} q s c (k : nat -> str -> caps -> option R) x : forall w i, all_in q w ->
  (forall w1 w2, w = w1 ++ w2 -> w2 <> [] -> k (i + length w1) (w2 ++ s) c = None) -> k (i + length w) s c = Some x ->
  mat (RStar false (RSet q)) i (w ++ s) c k = Some x.
Proof.
  intros w i F N0 K. rewrite mat_star, app_length. generalize (length s) as extra. intros extra. revert i N0 K.
  induction F as [|y w Y F IH]; intros i N0 K; cbn [length app] in *.
  - rewrite Nat.add_0_r in K. destruct extra; cbn [Nat.add star_loop]; cbv zeta; now rewrite K.
  - cbn [Nat.add star_loop]. cbv zeta. pose proof (N0 [] (y :: w) eq_refl) as Z. cbn [length app] in Z. rewrite Nat.add_0_r in Z. rewrite Z by discriminate.
    rewrite set_step by assumption. replace (Nat.eqb (S i) i) with false by (symmetry; apply Nat.eqb_neq; lia). apply IH.
    + intros w1 w2 -> NE. rewrite Nat.add_succ_comm. now apply (N0 (y :: w1) w2).
    + now rewrite Nat.add_succ_comm.
Qed.
Lemma lazy_plus_first {R} q s c (k : nat -> str -> caps -> option R) x y w i : all_in q (y :: w) ->
  (forall w1 w2, w = w1 ++ w2 -> w2 <> [] -> k (i + length (y :: w1)) (w2 ++ s) c = None) -> k (i + length (y :: w)) s c = Some x ->
  mat (rplus false (RSet q)) i ((y :: w) ++ s) c k = Some x.
Proof.
  intros F N0 K. inversion F as [|? ? Y F']; subst. unfold rplus. rewrite mat_cat. cbn [app]. rewrite set_step by assumption. apply lazy_first; auto.
  - intros w1 w2 E NE. rewrite Nat.add_succ_comm. now apply N0.
  - now rewrite Nat.add_succ_comm.
Qed.
(** Greedy: the longest run after which the rest matches. *)
Lemma star_best {R} q s c (k : nat -> str -> caps -> option R) x : forall w i, all_in q w ->
  (forall u s1, s = u ++ s1 -> u <> [] -> all_in q u -> k (i + length w + length u) s1 c = None) -> k (i + length w) s c = Some x ->
  mat (RStar true (RSet q)) i (w ++ s) c k = Some x.
Proof.
  assert (Z : forall f s i, (forall u s1, s = u ++ s1 -> u <> [] -> all_in q u -> k (i + length u) s1 c = None) ->
    star_loop (mat (RSet q)) true k f i s c = k i s c).
  { induction f as [|f IH]; intros s0 i N0; [reflexivity|]. rewrite loop_S. destruct s0 as [|y s0]; [reflexivity|]. destruct (in_set q y) eqn:Y.
    - rewrite set_step by assumption. replace (Nat.eqb (S i) i) with false by (symmetry; apply Nat.eqb_neq; lia). rewrite IH.
      + pose proof (N0 [y] s0 eq_refl) as E. cbn [length] in E. rewrite Nat.add_1_r in E. rewrite E; [reflexivity|discriminate|repeat constructor; exact Y].
      + intros u s1 -> NE F. rewrite Nat.add_succ_comm. apply (N0 (y :: u) s1 eq_refl); [discriminate|now constructor].
    - now rewrite set_stops. }
  intros w i F N0 K. rewrite mat_star, app_length. generalize (length s) as extra. intros extra. revert i N0 K.
  induction F as [|y w Y F IH]; intros i N0 K; cbn [length app Nat.add] in *.
  - rewrite Nat.add_0_r in *. now rewrite Z.
  - rewrite loop_S, set_step by assumption. replace (Nat.eqb (S i) i) with false by (symmetry; apply Nat.eqb_neq; lia).
    rewrite IH; [reflexivity| |now rewrite Nat.add_succ_comm]. intros u s1 E NE FU. rewrite Nat.add_succ_comm. now apply N0.
Qed.
Lemma plus_best {R} q s c (k : nat -> str -> caps -> option R) x w i : w <> [] -> all_in q w ->
  (forall u s1, s = u ++ s1 -> u <> [] -> all_in q u -> k (i + length w + length u) s1 c = None) -> k (i + length w) s c = Some x ->
  mat (rplus true (RSet q)) i (w ++ s) c k = Some x.
Proof.
  intros NE F N0 K. destruct F as [|y w Y F]; [congruence|]. unfold rplus. rewrite mat_cat. cbn [app]. rewrite set_step by assumption. cbn [length] in *. apply star_best; auto.
  - intros u s1 E NU FU. rewrite Nat.add_succ_comm. now apply N0.
  - now rewrite Nat.add_succ_comm.
Qed.
(** The rest cannot match. *)
Lemma mat_none {R} r i s c (k : nat -> str -> caps -> option R) : (forall i' s' c', ~ M r i s c i' s' c') -> mat r i s c k = None.
Proof. intros N0. destruct (mat r i s c k) eqn:E; [|reflexivity]. apply mat_sound in E as (i' & s' & c' & HM & _). now apply N0 in HM. Qed.
(** The pattern text [p] is read as [r] at the beginning of the text, with [n] groups. *)
Definition reads_re (p : str) (r : re) (n : nat) : Prop :=
  option_map (fun x => (fst x, fst (snd x))) (compile false p) = Some (RCat RBol r, n).
Lemma re_found p r n t m c : reads_re p r n -> match_at r 0 t = Some (m, c) ->
  rx_find (pattern false p) t = Some (mkMatch m (map (fun j => cap j c) (seq 1 n))).
Proof.
  unfold reads_re, pattern. cbn [rx_find]. destruct (compile false p) as [[r' e]|]; [|discriminate]. cbn [option_map fst snd]. intros [= -> <-] H. now rewrite search_bol, H.
Qed.
Lemma re_shape p r n t m : reads_re p r n -> rx_find (pattern false p) t = Some m ->
  exists i s c, M r 0 t [] i s c /\ m_groups m = map (fun j => cap j c) (seq 1 n).
Proof.
  unfold reads_re, pattern. cbn [rx_find]. destruct (compile false p) as [[r' e]|]; [|discriminate]. cbn [option_map fst snd]. intros [= -> <-] H.
  destruct (search (RCat RBol r) t) as [[u c]|] eqn:X; [|discriminate]. injection H as <-. apply bol_some in X as (i & s & HM & _). eauto.
Qed.
Lemma re_none p r n t : reads_re p r n -> (forall i s c, ~ M r 0 t [] i s c) -> rx_find (pattern false p) t = None.
Proof.
  unfold reads_re, pattern. cbn [rx_find]. destruct (compile false p) as [[r' e]|]; [|discriminate]. cbn [option_map fst snd]. intros [= -> <-] H. now rewrite bol_none.
Qed.
Lemma re_found_greedy p r T n t : reads_re p r n -> greed r = den T -> (rx_find (pattern false p) t <> None <-> exists s' c, D false T t s' [] c).
Proof.
  unfold reads_re, pattern. cbn [rx_find]. destruct (compile false p) as [[r' e]|]; [|discriminate]. cbn [option_map fst snd]. intros [= -> <-] H.
  rewrite <- (found_greedy (RCat RBol r)) by (cbn [greed]; now rewrite H). destruct (search _ t) as [[? ?]|]; split; congruence.
Qed.
