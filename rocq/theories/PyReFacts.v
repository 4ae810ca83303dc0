(** Facts about the matcher: it finds a match exactly if there is one. *)
From Coq Require Import Ascii String Arith NArith ZArith Bool List Lia.
From Verif Require Import PyStr PyStrFacts PyBase SearchModel PyRe.
Import ListNotations.
Local Open Scope char_scope.

(** [M r i s c i' s' c']: from index [i], rest [s] and captures [c], the expression [r]
    can lead to [i'], [s'], [c']. *)
Inductive M : re -> nat -> str -> caps -> nat -> str -> caps -> Prop :=
| M_eps i s c : M REps i s c i s c
| M_set q i x s c : in_set q x = true -> M (RSet q) i (x :: s) c (S i) s c
| M_cat a b i s c i1 s1 c1 i2 s2 c2 : M a i s c i1 s1 c1 -> M b i1 s1 c1 i2 s2 c2 -> M (RCat a b) i s c i2 s2 c2
| M_left a b i s c i1 s1 c1 : M a i s c i1 s1 c1 -> M (RAlt a b) i s c i1 s1 c1
| M_right a b i s c i1 s1 c1 : M b i s c i1 s1 c1 -> M (RAlt a b) i s c i1 s1 c1
| M_stop g a i s c : M (RStar g a) i s c i s c
| M_more g a i s c i1 s1 c1 i2 s2 c2 : M a i s c i1 s1 c1 -> i1 <> i -> M (RStar g a) i1 s1 c1 i2 s2 c2 ->
    M (RStar g a) i s c i2 s2 c2
| M_grp n a i s c i1 s1 c1 : M a i s c i1 s1 c1 -> M (RGrp n a) i s c i1 s1 ((n, firstn (i1 - i) s) :: c1)
| M_bol s c : M RBol 0 s c 0 s c
| M_eol i c : M REol i [] c i [] c
| M_eol' i c : M REol i ["010"] c i ["010"] c.

Lemma M_consumes r i s c i' s' c' : M r i s c i' s' c' -> exists w, s = w ++ s' /\ i' = i + length w.
Proof.
  induction 1; try (exists []; split; [reflexivity|cbn; lia]); try assumption.
  - exists [x]. cbn. split; [reflexivity|lia].
  - destruct IHM1 as (w & -> & ->), IHM2 as (v & -> & ->). exists (w ++ v). rewrite <- app_assoc, app_length. split; [reflexivity|lia].
  - destruct IHM1 as (w & -> & ->), IHM2 as (v & -> & ->). exists (w ++ v). rewrite <- app_assoc, app_length. split; [reflexivity|lia].
Qed.

Lemma loop_cases {R} body g (k : nat -> str -> caps -> option R) fuel i s c x : star_loop body g k fuel i s c = Some x ->
  k i s c = Some x \/ exists f, fuel = S f /\ body i s c (fun i' s' c' => if Nat.eqb i' i then None else star_loop body g k f i' s' c') = Some x.
Proof.
  destruct fuel as [|f]; cbn [star_loop]; cbv zeta; destruct g; auto.
  - destruct (k i s c); [auto|discriminate].
  - destruct (body i s c _) eqn:E; [|auto]. intros [= <-]. right. now exists f.
  - destruct (k i s c); [auto|]. intros H. right. now exists f.
Qed.
Lemma loop_stop {R} body g (k : nat -> str -> caps -> option R) fuel i s c : k i s c <> None -> star_loop body g k fuel i s c <> None.
Proof.
  intros H. destruct fuel as [|f]; cbn [star_loop]; cbv zeta; destruct g; try destruct (body i s c _); destruct (k i s c); congruence.
Qed.
Lemma loop_more {R} body g (k : nat -> str -> caps -> option R) f i s c :
  body i s c (fun i' s' c' => if Nat.eqb i' i then None else star_loop body g k f i' s' c') <> None -> star_loop body g k (S f) i s c <> None.
Proof.
  intros H. cbn [star_loop]. cbv zeta. destruct g; destruct (body i s c _); destruct (k i s c); congruence.
Qed.

Lemma mat_sound {R} r : forall i s c (k : nat -> str -> caps -> option R) x, mat r i s c k = Some x ->
  exists i' s' c', M r i s c i' s' c' /\ k i' s' c' = Some x.
Proof.
  induction r as [|q|a IHa b IHb|a IHa b IHb|g a IH|n a IH| |]; intros i s c k x H; cbn [mat] in H.
  - exists i, s, c. split; [constructor|assumption].
  - destruct s as [|y s]; [discriminate|]. destruct (in_set q y) eqn:E; [|discriminate]. exists (S i), s, c. split; [now constructor|assumption].
  - apply IHa in H as (i1 & s1 & c1 & A & H). apply IHb in H as (i2 & s2 & c2 & B & H). exists i2, s2, c2. split; [|assumption]. eapply M_cat; eassumption.
  - destruct (mat a i s c k) eqn:E.
    + injection H as <-. apply IHa in E as (i1 & s1 & c1 & A & E). exists i1, s1, c1. split; [now apply M_left|assumption].
    + apply IHb in H as (i1 & s1 & c1 & A & H). exists i1, s1, c1. split; [now apply M_right|assumption].
  - revert H. generalize (length s) as fuel. intros fuel. revert i s c.
    induction fuel as [|f IHf]; intros i s c H; apply loop_cases in H as [D|(f' & E & D)]; try (exists i, s, c; split; [constructor|assumption]); try discriminate.
    injection E as <-. apply IH in D as (i1 & s1 & c1 & A & D). destruct (Nat.eqb i1 i) eqn:E; [discriminate|]. apply Nat.eqb_neq in E.
    apply IHf in D as (i2 & s2 & c2 & B & D). exists i2, s2, c2. split; [|assumption]. eapply M_more; eassumption.
  - apply IH in H as (i1 & s1 & c1 & A & H). exists i1, s1, ((n, firstn (i1 - i) s) :: c1). split; [now constructor|assumption].
  - destruct (Nat.eqb i 0) eqn:E; [|discriminate]. apply Nat.eqb_eq in E as ->. exists 0, s, c. split; [constructor|assumption].
  - destruct s as [|y [|z s]]; [|destruct (Ascii.eqb y "010") eqn:E|]; try discriminate.
    + exists i, [], c. split; [constructor|assumption].
    + apply Ascii.eqb_eq in E as ->. exists i, ["010"], c. split; [constructor|assumption].
Qed.

Lemma mat_complete {R} r : forall i s c i' s' c', M r i s c i' s' c' ->
  forall k : nat -> str -> caps -> option R, k i' s' c' <> None -> mat r i s c k <> None.
Proof.
  induction r as [|q|a IHa b IHb|a IHa b IHb|g a IH|n a IH| |]; intros i s c i' s' c' H k K; cbn [mat].
  - now inversion H; subst.
  - inversion H as [|? ? ? ? ? E| | | | | | | | |]; subst. now rewrite E.
  - inversion H; subst. eapply IHa; [eassumption|]. eapply IHb; eassumption.
  - inversion H; subst.
    + destruct (mat a i s c k) eqn:E; [discriminate|]. eapply IHa in E; eauto. 
    + destruct (mat a i s c k) eqn:E; [discriminate|]. eapply IHb; eassumption.
  - assert (G : forall fuel, length s <= fuel -> star_loop (mat a) g k fuel i s c <> None); [|now apply G].
    remember (RStar g a) as r eqn:E. revert E. induction H as [| | | | | |g' a' i s c i1 s1 c1 i2 s2 c2 A _ N B IHB| | | |]; intros E fuel L; try discriminate.
    + now apply loop_stop.
    + injection E as -> ->. destruct (M_consumes _ _ _ _ _ _ _ A) as (w & -> & ->). destruct w as [|y w]; [cbn in N; lia|].
      destruct fuel as [|f]; [cbn in L; lia|]. apply loop_more. eapply IH; [exact A|].
      destruct (Nat.eqb (i + length (y :: w)) i) eqn:E; [apply Nat.eqb_eq in E; cbn in E; lia|].
      apply IHB; auto. rewrite app_length in L. cbn in L. lia.
  - inversion H; subst. eapply IH; eassumption.
  - inversion H; subst. assumption.
  - inversion H; subst; assumption.
Qed.

(** ** Searching *)

(** [search] finds a match exactly if some index has one. *)
Lemma search_from_sound r s : forall i m c, search_from r i s = Some (m, c) ->
  exists u v i' s', s = u ++ v /\ M r (i + length u) v [] i' s' c /\ m = firstn (i' - (i + length u)) v /\
    (forall u' v', s = u' ++ v' -> length u' < length u -> match_at r (i + length u') v' = None).
Proof.
  induction s as [|x s IH]; intros i m c H; cbn [search_from] in H.
  - destruct (match_at r i []) as [[m' c']|] eqn:E; [|discriminate]. injection H as -> ->.
    apply mat_sound in E as (i' & s' & c1 & A & E). injection E as <- ->. exists [], [], i', s'. cbn [length]. rewrite Nat.add_0_r. repeat split; auto.
    intros u' v' _ L. lia.
  - destruct (match_at r i (x :: s)) as [[m' c']|] eqn:E.
    + injection H as -> ->. apply mat_sound in E as (i' & s' & c1 & A & E). injection E as <- ->. exists [], (x :: s), i', s'. cbn [length].
      rewrite Nat.add_0_r. repeat split; auto. intros u' v' _ L. lia.
    + apply IH in H as (u & v & i' & s' & -> & A & -> & F). exists (x :: u), v, i', s'. cbn [length]. rewrite <- Nat.add_succ_comm.
      repeat split; auto. intros [|y u'] v' K L; cbn [length].
      * rewrite Nat.add_0_r. cbn in K. now rewrite <- K.
      * cbn in K. injection K as <- K. rewrite <- Nat.add_succ_comm. apply F; [assumption|]. cbn in L. lia.
Qed.
Lemma match_at_complete r i s i' s' c' : M r i s [] i' s' c' -> match_at r i s <> None.
Proof. intros H. eapply mat_complete; [exact H|discriminate]. Qed.
Lemma search_from_complete r u : forall i v i' s' c', M r (i + length u) v [] i' s' c' -> search_from r i (u ++ v) <> None.
Proof.
  induction u as [|x u IH]; intros i v i' s' c' H; cbn [length app] in *.
  - rewrite Nat.add_0_r in H. apply match_at_complete in H. destruct v; cbn [search_from]; destruct (match_at r i _); congruence.
  - cbn [search_from]. destruct (match_at r i _); [discriminate|]. eapply IH. rewrite Nat.add_succ_comm. exact H.
Qed.
Lemma search_none r s : search r s = None -> forall u v i' s' c', s = u ++ v -> ~ M r (length u) v [] i' s' c'.
Proof. intros H u v i' s' c' -> A. now apply (search_from_complete r u 0 v i' s' c') in A. Qed.
Lemma search_some r s m c : search r s = Some (m, c) ->
  exists u v i' s', s = u ++ v /\ M r (length u) v [] i' s' c /\ m = firstn (i' - length u) v.
Proof. intros H. apply search_from_sound in H as (u & v & i' & s' & E & A & F & _). now exists u, v, i', s'. Qed.

(** Anchored expressions are tried at the beginning only. *)
Lemma search_bol r s : search (RCat RBol r) s =
  match match_at r 0 s with Some m => Some m | None => None end.
Proof.
  assert (F : forall s i, search_from (RCat RBol r) (S i) s = None).
  { clear. induction s as [|x s IH]; intros i; cbn [search_from match_at mat Nat.eqb]; [reflexivity|]. apply IH. }
  unfold search. destruct s as [|x s]; cbn [search_from]; unfold match_at; cbn [mat Nat.eqb]; destruct (mat r 0 _ _ _); try reflexivity. apply F.
Qed.
(** If every match of an anchored expression gives the same captures, those are found. *)
Lemma bol_unique r s c0 : (exists i' s', M r 0 s [] i' s' c0) -> (forall i' s' c, M r 0 s [] i' s' c -> c = c0) ->
  exists m, search (RCat RBol r) s = Some (m, c0).
Proof.
  intros (i' & s' & A) U. rewrite search_bol. pose proof (match_at_complete _ _ _ _ _ _ A) as N.
  destruct (match_at r 0 s) as [[m c]|] eqn:E; [|congruence]. exists m. apply mat_sound in E as (i1 & s1 & c1 & B & E). injection E as <- <-.
  now rewrite (U _ _ _ B).
Qed.
Lemma bol_none r s : (forall i' s' c, ~ M r 0 s [] i' s' c) -> search (RCat RBol r) s = None.
Proof.
  intros H. rewrite search_bol. destruct (match_at r 0 s) as [[m c]|] eqn:E; [|reflexivity]. apply mat_sound in E as (i1 & s1 & c1 & B & _). now apply H in B.
Qed.
Lemma bol_some r s m c : search (RCat RBol r) s = Some (m, c) -> exists i' s', M r 0 s [] i' s' c /\ m = firstn i' s.
Proof.
  rewrite search_bol. destruct (match_at r 0 s) as [[m' c']|] eqn:E; [|discriminate]. intros [= -> ->].
  apply mat_sound in E as (i1 & s1 & c1 & B & E). injection E as <- <-. exists i1, s1. now rewrite Nat.sub_0_r.
Qed.

(** ** Shapes *)

Lemma M_cat_iff a b i s c i2 s2 c2 : M (RCat a b) i s c i2 s2 c2 <-> exists i1 s1 c1, M a i s c i1 s1 c1 /\ M b i1 s1 c1 i2 s2 c2.
Proof. split; [intros H; inversion H; subst; eauto|intros (? & ? & ? & ? & ?); eapply M_cat; eassumption]. Qed.
Lemma M_alt_iff a b i s c i2 s2 c2 : M (RAlt a b) i s c i2 s2 c2 <-> M a i s c i2 s2 c2 \/ M b i s c i2 s2 c2.
Proof. split; [intros H; inversion H; subst; auto|intros [H|H]; [now apply M_left|now apply M_right]]. Qed.
Lemma M_eps_iff i s c i2 s2 c2 : M REps i s c i2 s2 c2 <-> i2 = i /\ s2 = s /\ c2 = c.
Proof. split; [intros H; now inversion H|intros (-> & -> & ->); constructor]. Qed.
Lemma M_set_iff q i s c i2 s2 c2 : M (RSet q) i s c i2 s2 c2 <-> exists x, s = x :: s2 /\ in_set q x = true /\ i2 = S i /\ c2 = c.
Proof. split; [intros H; inversion H; subst; eauto|intros (x & -> & E & -> & ->); now constructor]. Qed.
Lemma M_grp_iff n a i s c i2 s2 c2 : M (RGrp n a) i s c i2 s2 c2 <->
  exists w c1, s = w ++ s2 /\ i2 = i + length w /\ c2 = (n, w) :: c1 /\ M a i s c i2 s2 c1.
Proof.
  split.
  - intros H; inversion H as [| | | | | | |? ? ? ? ? ? ? ? A| | |]; subst. destruct (M_consumes _ _ _ _ _ _ _ A) as (w & -> & ->). exists w, c1.
    replace (i + length w - i) with (length w) by lia. rewrite firstn_app, firstn_all, Nat.sub_diag. cbn. rewrite app_nil_r. auto.
  - intros (w & c1 & -> & -> & -> & A). replace w with (firstn (i + length w - i) (w ++ s2)) at 3; [now constructor|].
    replace (i + length w - i) with (length w) by lia. rewrite firstn_app, firstn_all, Nat.sub_diag. cbn. now rewrite app_nil_r.
Qed.
Lemma M_eol_iff i s c i2 s2 c2 : M REol i s c i2 s2 c2 <-> (s = [] \/ s = ["010"]) /\ i2 = i /\ s2 = s /\ c2 = c.
Proof. split; [intros H; inversion H; subst; auto|intros ([-> | ->] & -> & -> & ->); constructor]. Qed.
Lemma M_bol_iff i s c i2 s2 c2 : M RBol i s c i2 s2 c2 <-> i = 0 /\ i2 = 0 /\ s2 = s /\ c2 = c.
Proof. split; [intros H; inversion H; subst; auto|intros (-> & -> & -> & ->); constructor]. Qed.

(** A run of characters of a set. *)
Definition all_in (q : cset) (w : str) : Prop := Forall (fun x => in_set q x = true) w.
Lemma M_star_iff g q i s c i2 s2 c2 : M (RStar g (RSet q)) i s c i2 s2 c2 <->
  exists w, s = w ++ s2 /\ all_in q w /\ i2 = i + length w /\ c2 = c.
Proof.
  split.
  - remember (RStar g (RSet q)) as r eqn:E. intros H. revert E.
    induction H as [| | | | |g' a' i s c|g' a' i s c i1 s1 c1 i2 s2 c2 A _ N B IHB| | | |]; intros E; try discriminate.
    + exists []. cbn. repeat split; [constructor|lia].
    + injection E as -> ->. apply M_set_iff in A as (x & -> & K & -> & ->). destruct (IHB eq_refl) as (w & -> & F & -> & ->).
      exists (x :: w). cbn [length]. repeat split; [now constructor|lia].
  - intros (w & -> & F & -> & ->). revert i. induction F as [|x w K F IH]; intros i; cbn [app length].
    + rewrite Nat.add_0_r. constructor.
    + eapply M_more; [constructor; exact K|lia|]. rewrite <- Nat.add_succ_comm. apply IH.
Qed.
Lemma M_plus_iff g q i s c i2 s2 c2 : M (rplus g (RSet q)) i s c i2 s2 c2 <->
  exists w, s = w ++ s2 /\ w <> [] /\ all_in q w /\ i2 = i + length w /\ c2 = c.
Proof.
  unfold rplus. rewrite M_cat_iff. split.
  - intros (i1 & s1 & c1 & A & B). apply M_set_iff in A as (x & -> & K & -> & ->). apply M_star_iff in B as (w & -> & F & -> & ->).
    exists (x :: w). cbn [length]. repeat split; [discriminate|now constructor|lia].
  - intros (w & -> & N & F & -> & ->). destruct F as [|x w K F]; [congruence|]. exists (S i), (w ++ s2), c. cbn [app length]. split; [now constructor|].
    apply M_star_iff. exists w. repeat split; [assumption|lia].
Qed.

(** The characters of a word, then more. *)
Definition chr (x : ascii) : re := RSet (mkSet false false [CRange x x]).
Fixpoint chars (w : str) (r : re) : re := match w with [] => r | x :: w' => RCat (chr x) (chars w' r) end.
Lemma in_chr x y : in_set (mkSet false false [CRange x x]) y = true <-> y = x.
Proof.
  unfold in_set. cbn [cs_neg cs_icase cs_items existsb cls_has]. rewrite orb_false_r, xorb_false_l, andb_true_iff, !N.leb_le. unfold code. split.
  - intros [A B]. assert (E : N_of_ascii y = N_of_ascii x) by lia.
    now rewrite <- (ascii_N_embedding y), E, ascii_N_embedding.
  - intros ->. lia.
Qed.
Lemma M_chr_iff x i s c i2 s2 c2 : M (chr x) i s c i2 s2 c2 <-> s = x :: s2 /\ i2 = S i /\ c2 = c.
Proof.
  unfold chr. rewrite M_set_iff. split; [intros (y & -> & E & -> & ->); apply in_chr in E as ->; auto|].
  intros (-> & -> & ->). exists x. repeat split. now apply in_chr.
Qed.
Lemma M_chars_iff w r i s c i2 s2 c2 : M (chars w r) i s c i2 s2 c2 <-> exists s1, s = w ++ s1 /\ M r (i + length w) s1 c i2 s2 c2.
Proof.
  revert i s. induction w as [|x w IH]; intros i s; cbn [chars length app].
  - rewrite Nat.add_0_r. split; [intros H; now exists s|now intros (s1 & -> & H)].
  - rewrite M_cat_iff. split.
    + intros (i1 & s1 & c1 & A & B). apply M_chr_iff in A as (-> & -> & ->). apply IH in B as (s0 & -> & B). exists s0. split; [reflexivity|].
      now rewrite <- Nat.add_succ_comm.
    + intros (s1 & -> & B). exists (S i), (w ++ s1), c. split; [now apply M_chr_iff|]. apply IH. exists s1. split; [reflexivity|]. now rewrite Nat.add_succ_comm.
Qed.
