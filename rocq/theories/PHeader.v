(** C86: the header of a difference. *)
From Coq Require Import Ascii String Arith NArith ZArith Bool List Lia Sorting.Sorted Permutation.
From Verif Require Import PyStr PyStrFacts PyBase PyBaseFacts CfgModel MutModel JunosModel TreeSpec TreeProofs TreePost TreeRel TreeWorld BraceSpec TreeFull WorldSpec CommitMain TreeMain DiffModel DiffSpec DiffFacts DiffFacts2 PDiff HeaderModel HeaderSpec.
Import ListNotations.
Local Open Scope nat_scope.

Lemma word_eqb_iff a b : word_eqb a b = true <-> a = b.
Proof. destruct a, b; cbn; split; intros H; try reflexivity; discriminate H. Qed.
Lemma changed_acc f v xs : forall n, fold_left (fun n x => if word_eqb (f x) v then n + 1 else n) xs n = n + changed f v xs.
Proof.
  unfold changed. induction xs as [|x xs IH]; intros n; cbn [fold_left]; [lia|]. rewrite (IH (if word_eqb (f x) v then n + 1 else n)), (IH (if word_eqb (f x) v then 0 + 1 else 0)).
  destruct (word_eqb (f x) v); lia.
Qed.
Lemma changed_cons f v x xs : changed f v (x :: xs) = (if word_eqb (f x) v then 1 else 0) + changed f v xs.
Proof. unfold changed at 1. cbn [fold_left]. rewrite changed_acc. destruct (word_eqb (f x) v); reflexivity. Qed.
Lemma changed_count f v (P : nat -> Prop) xs : (forall x, In x xs -> (f x = v <-> P x)) -> count_of P xs (changed f v xs).
Proof.
  induction xs as [|x xs IH]; intros H; [constructor|]. rewrite changed_cons. pose proof (H x (or_introl eq_refl)) as Hx.
  assert (R : count_of P xs (changed f v xs)) by (apply IH; intros y Hy; apply H; now right).
  destruct (word_eqb (f x) v) eqn:E.
  - apply word_eqb_iff in E. cbn [Nat.add]. constructor; [now apply Hx|exact R].
  - cbn [Nat.add]. constructor; [|exact R]. intros K. apply Hx, word_eqb_iff in K. congruence.
Qed.
Lemma start_shift f v xs : forall i, (start_of f v i xs = 0 /\ forall x, In x xs -> f x <> v) \/
  (exists pre x post, xs = pre ++ x :: post /\ f x = v /\ (forall y, In y pre -> f y <> v) /\ start_of f v i xs = i + S (length pre)).
Proof.
  induction xs as [|x xs IH]; intros i; cbn [start_of]; [left; split; [reflexivity|intros x []]|].
  destruct (word_eqb (f x) v) eqn:E.
  - right. apply word_eqb_iff in E. exists [], x, xs. split; [reflexivity|]. split; [exact E|]. split; [intros y []|]. cbn [length]. lia.
  - assert (N : f x <> v) by (intros K; apply word_eqb_iff in K; congruence). destruct (IH (S i)) as [[E0 A]|(pre & y & post & -> & Ey & A & S0)].
    + left. split; [exact E0|]. intros y [<-|Hy]; auto.
    + right. exists (x :: pre), y, post. split; [reflexivity|]. split; [exact Ey|]. split; [intros z [<-|Hz]; auto|]. rewrite S0. cbn [length]. lia.
Qed.
Lemma start_first f v (P : nat -> Prop) xs : (forall x, In x xs -> (f x = v <-> P x)) -> first_at P xs (start_of f v 0 xs).
Proof.
  intros H. destruct (start_shift f v xs 0) as [[E A]|(pre & x & post & -> & Ex & A & S0)].
  - left. split; [exact E|]. intros x Hx K. apply (A x Hx). now apply H.
  - right. exists pre, x, post. split; [reflexivity|]. split; [apply H; [apply in_elt|exact Ex]|]. split; [|exact S0].
    intros y Hy K. apply (A y Hy). apply H; [apply in_app_iff; now left|exact K].
Qed.

Section Marks.
  Variables (hash : str -> Z) (wb wa : world) (bb ba : nat) (lb la : list str).
  Hypotheses (Lb : loaded wb bb lb) (La : loaded wa ba la).
  Hypotheses (Db : Forall (fun l => no_digit_start l = true) lb) (Da : Forall (fun l => no_digit_start l = true) la).
  Hypothesis NC : no_collision hash (map squeezed (lb ++ la)).
  Notation vb := (normal_texts wb).
  Notation va := (normal_texts wa).

  Lemma marks : exists fb fa, mark_after hash vb va (w_conf va) (fun _ => Remove) (fun _ => Unknown) = Ok (fb, fa) /\
    (forall y, In y (w_conf wa) -> (fa y = Add <-> only_in wa wb y)) /\
    (forall x, In x (w_conf wb) -> only_in wb wa x -> fb x = Remove) /\
    (all_different wb -> forall x, In x (w_conf wb) -> (fb x = Remove <-> only_in wb wa x)).
  Proof.
    assert (Sa : StronglySorted lt (w_conf va)) by (rewrite (v_conf wa ba la La); apply (conf_sorted wa ba la La)).
    destruct (mark_after_spec hash vb va (gen vb) (gen va) (ids hash vb) (ids hash va)) with (todo := w_conf va) (done := @nil nat)
      (fb := fun _ : nat => Remove) (fa := fun _ : nat => Unknown) as (fb & fa & E & I & M1 & M2 & M3); try (now intros y []); try reflexivity.
    - intros x Hx. destruct (gen_b wb bb lb Lb x Hx) as (A & B & C). repeat split; auto. intros y Hy. now apply C.
    - exact (gen_a wa ba la La).
    - exact (ids_b hash wb bb lb Lb).
    - exact (ids_a hash wa ba la La).
    - exact Sa.
    - split; [now right|]. intros _ y K. discriminate K.
    - exists fb, fa. split; [exact E|].
      pose proof (v_conf wb bb lb Lb) as Cb. pose proof (v_conf wa ba la La) as Ca.
      assert (KeepA : forall x, In x (w_conf wb) -> fb x = Keep -> has_line wa (path wb x)).
      { intros x Hx K. destruct (proj2 I (gen_closed wb bb lb Lb Db) x K) as (e & a & He & Ha & Eq & Ie). rewrite Cb in He. rewrite Ca in Ha.
        destruct (path_up wb bb lb Lb Db e x He Ie) as (q & Q). rewrite (same_ids hash wb wa bb ba lb la Lb La Db Da NC e a He Ha Eq) in Q.
        destruct (path_down wa ba la La Da a _ _ Ha Q) as (y & Hy & Ey); [now apply (path_ne wb bb lb)|]. apply (has_line_iff wa ba la La Da). eauto. }
      assert (UncB : forall y, In y (w_conf wa) -> fa y = Unchanged -> has_line wb (path wa y)).
      { intros y Hy K. rewrite <- Ca in Hy. destruct (M3 y Hy K) as (a & Ha & (c & Hc & Ec) & Iy). rewrite Ca in *. rewrite Cb in Hc.
        destruct (path_up wa ba la La Da a y Ha Iy) as (q & Q). rewrite <- (same_ids hash wb wa bb ba lb la Lb La Db Da NC c a Hc Ha Ec) in Q.
        destruct (path_down wb bb lb Lb Db c _ _ Hc Q) as (x & Hx & Ex); [now apply (path_ne wa ba la)|]. apply (has_line_iff wb bb lb Lb Db). eauto. }
      assert (OnlyB : forall x, In x (w_conf wb) -> (only_in wb wa x <-> ~ has_line wa (path wb x))).
      { intros x Hx. split; [intros (p & A & N); apply (path_iff wb bb lb Lb Db x p Hx) in A; now subst p|]. intros N. exists (path wb x). split; [now apply (path_ancestry wb bb lb)|exact N]. }
      assert (OnlyA : forall y, In y (w_conf wa) -> (only_in wa wb y <-> ~ has_line wb (path wa y))).
      { intros y Hy. split; [intros (p & A & N); apply (path_iff wa ba la La Da y p Hy) in A; now subst p|]. intros N. exists (path wa y). split; [now apply (path_ancestry wa ba la)|exact N]. }
      assert (Match : forall x y, In x (w_conf wb) -> In y (w_conf wa) -> path wb x = path wa y -> ids hash vb x = ids hash va y).
      { intros x y Hx Hy P. now rewrite (path_ids hash wb bb lb Lb Db x Hx), (path_ids hash wa ba la La Da y Hy), P. }
      split; [|split].
      + intros y Hy. rewrite (OnlyA y Hy). pose proof Hy as Hy'. rewrite <- Ca in Hy'. split.
        * intros K HB. apply (has_line_iff wb bb lb Lb Db) in HB as (x & Hx & Ex).
          destruct (M2 y Hy') as [U _]; [exists x; split; [now rewrite Cb|now apply Match]|]. congruence.
        * intros NB. destruct (M1 y Hy') as [U|U]; [|exact U]. destruct NB. now apply UncB.
      + intros x Hx O. apply (OnlyB x Hx) in O. destruct (proj1 I x) as [K|K]; [|exact K]. destruct O. now apply KeepA.
      + intros AD x Hx. rewrite (OnlyB x Hx). split.
        * intros K HA. apply (has_line_iff wa ba la La Da) in HA as (y & Hy & Ey). pose proof Hy as Hy'. rewrite <- Ca in Hy'.
          destruct (M2 y Hy') as [_ (c & Fc & Kc)]; [exists x; split; [now rewrite Cb|now apply Match]|].
          destruct Fc as (pre & post & Ec & Ic & _). assert (Hc : In c (w_conf wb)) by (rewrite <- Cb, Ec; apply in_elt).
          assert (x = c); [|congruence]. apply (AD x c (path wb x) Hx Hc); [now apply (path_ancestry wb bb lb)|].
          apply (path_iff wb bb lb Lb Db c); [exact Hc|]. rewrite (same_ids hash wb wa bb ba lb la Lb La Db Da NC c y Hc Hy Ic). now symmetry.
        * intros NA. destruct (proj1 I x) as [K|K]; [|exact K]. destruct NA. now apply KeepA.
  Qed.
End Marks.

Lemma load_two (P : str -> Prop) o before after : Forall P (before ++ after) -> Forall P (input_lines o before) /\ Forall P (input_lines o after).
Proof. intros F. apply Forall_app in F as [F1 F2]. split; now apply Forall_input. Qed.
Lemma collision_two hash o before after : no_collision hash (map squeezed (before ++ after)) -> no_collision hash (map squeezed (input_lines o before ++ input_lines o after)).
Proof.
  intros NC. assert (Sub : forall s, In s (map squeezed (input_lines o before ++ input_lines o after)) -> In s (map squeezed (before ++ after))).
  { intros s Hs. apply in_map_iff in Hs as (l & <- & Hl). apply in_map. apply in_app_iff in Hl as [Hl|Hl]; apply in_input in Hl; apply in_app_iff; auto. }
  intros s t Hs Ht. apply NC; auto.
Qed.
Lemma count_unique {A} (P : A -> Prop) xs n : count_of P xs n -> forall m, count_of P xs m -> n = m.
Proof. induction 1; intros m M; inversion M; subst; try reflexivity; try contradiction; auto. Qed.
Lemma count_le {A} (P Q0 : A -> Prop) xs n : count_of P xs n -> forall m, (forall x, In x xs -> P x -> Q0 x) -> count_of Q0 xs m -> n <= m.
Proof.
  induction 1 as [|x xs n Px C IH|x xs n Px C IH]; intros m H M; [lia| |].
  - inversion M as [|? ? k K M'|? ? k K M']; subst; [apply le_n_S, IH; auto; intros y Hy; apply H; now right|]. destruct K. apply H; [now left|exact Px].
  - inversion M as [|? ? k K M'|? ? k K M']; subst.
    + apply Nat.le_le_succ_r, IH; auto. intros y Hy. apply H. now right.
    + apply IH; auto. intros y Hy. apply H. now right.
Qed.

(** The header of a difference: the first two lines name the sides and the time.  The third has,
    after "+", how many lines of the later configuration are only there and which of its lines,
    counted from 1, is the first of these (0 if there is none).  The two numbers after "-" say the
    same of the earlier configuration when no two of its lines are the same line in the same
    place; otherwise at least these are counted.  The contents follow; without a header there are
    only the contents. *)
Theorem C86_header : forall hash now sy ignore_blank before after wb wa,
  let o := mkOpts (lit "!") ignore_blank sy in
  sy = Ios \/ sy = Nxos -> parse o before = Ok wb -> parse o after = Ok wa ->
  Forall (fun l => no_digit_start l = true) (before ++ after) ->
  no_collision hash (map squeezed (before ++ after)) ->
  exists ds n s n' s', hdiff hash sy ignore_blank before after = Ok ds /\
    unified_diffs hash now true sy ignore_blank before after = Ok (three now n s n' s' ++ unified ds) /\
    unified_diffs hash now false sy ignore_blank before after = Ok (unified ds) /\
    count_of (only_in wa wb) (w_conf wa) n' /\ first_at (only_in wa wb) (w_conf wa) s' /\
    (all_different wb -> count_of (only_in wb wa) (w_conf wb) n /\ first_at (only_in wb wa) (w_conf wb) s) /\
    (forall m, count_of (only_in wb wa) (w_conf wb) m -> m <= n).
Proof.
  intros hash now sy ib before after wb wa o Sy Pb Pa Nd NC.
  destruct (parse_loaded _ _ _ Pb) as [Lb _]. destruct (parse_loaded _ _ _ Pa) as [La _].
  destruct (load_two _ o _ _ Nd) as [Nb Na]. pose proof (collision_two hash o before after NC) as NC'.
  destruct (marks hash wb wa 0 0 _ _ Lb La Nb Na NC') as (fb & fa & M & A & B & C).
  destruct (C24_lines hash sy ib before after wb wa Sy Pb Pa Nd NC) as (ds & _ & H & _).
  pose proof (v_conf wb _ _ Lb) as Cb. pose proof (v_conf wa _ _ La) as Ca.
  exists ds, (changed fb Remove (w_conf wb)), (start_of fb Remove 0 (w_conf wb)), (changed fa Add (w_conf wa)), (start_of fa Add 0 (w_conf wa)).
  split; [exact H|]. 
  assert (U : forall h, unified_diffs hash now h sy ib before after =
    Ok ((if h then header now fb fa (w_conf (normal_texts wb)) (w_conf (normal_texts wa)) else []) ++ unified ds)).
  { intros h. unfold unified_diffs. fold o. rewrite H. destruct Sy as [-> | ->]; rewrite Pb; cbn [bind]; rewrite Pa; cbn [bind]; rewrite M; reflexivity. }
  split; [rewrite U, Cb, Ca; reflexivity|]. split; [apply U|].
  split; [now apply changed_count|]. split; [now apply start_first|]. split.
  - intros AD. specialize (C AD). split; [now apply changed_count|now apply start_first].
  - intros m Cm. eapply (count_le _ (fun x => fb x = Remove)); [exact Cm|exact B|]. apply changed_count. reflexivity.
Qed.
Print Assumptions C86_header.

Lemma count_list {A} (P : A -> Prop) xs n : count_of P xs n -> exists ys, length ys = n /\ (NoDup xs -> NoDup ys) /\ forall y, In y ys <-> In y xs /\ P y.
Proof.
  induction 1 as [|x xs n Px C (ys & L & N & I)|x xs n Px C (ys & L & N & I)].
  - exists []. split; [reflexivity|]. split; [auto|]. intros y; split; [intros []|intros [[] _]].
  - exists (x :: ys). split; [cbn; now rewrite L|]. split.
    + intros ND. inversion ND; subst. constructor; [|now apply N]. intros K. apply I in K as [K _]. contradiction.
    + intros y. cbn [In]. rewrite I. split; [intros [<-|[K1 K2]]; auto|]. intros [[<-|K1] K2]; auto.
  - exists ys. split; [exact L|]. split; [intros ND; inversion ND; auto|]. intros y. rewrite I. cbn [In]. split; [intros [K1 K2]; auto|]. intros [[<-|K1] K2]; [contradiction|auto].
Qed.
Lemma same_length {A B} (R : A -> B -> Prop) : forall (xs : list A) (ys : list B), NoDup xs -> NoDup ys ->
  (forall x, In x xs -> exists y, In y ys /\ R x y) -> (forall y, In y ys -> exists x, In x xs /\ R x y) ->
  (forall x y y', R x y -> R x y' -> y = y') -> (forall x x' y, In x xs -> In x' xs -> R x y -> R x' y -> x = x') -> length xs = length ys.
Proof.
  induction xs as [|x xs IH]; intros ys N1 N2 F G U V.
  - destruct ys as [|y ys]; [reflexivity|]. destruct (G y (or_introl eq_refl)) as (x & [] & _).
  - destruct (F x (or_introl eq_refl)) as (y & Hy & Rxy). apply in_split in Hy as (a & b & ->). inversion N1 as [|? ? N3 N4]; subst. apply NoDup_remove in N2 as [N5 N6].
    rewrite app_length. cbn [length]. rewrite Nat.add_succ_r. f_equal. rewrite <- app_length. apply IH; auto.
    + intros z Hz. destruct (F z (or_intror Hz)) as (y' & Hy' & R'). exists y'. split; [|exact R']. apply in_app_iff in Hy' as [K|[K|K]]; [apply in_app_iff; auto| |apply in_app_iff; auto].
      subst y'. destruct N3. rewrite (V x z y); auto; [now left|now right].
    + intros y' Hy'. destruct (G y') as (z & [<-|Hz] & R'); [apply in_app_iff in Hy' as [K|K]; apply in_app_iff; [auto|right; now right]| |eauto].
      destruct N6. now rewrite (U _ _ _ Rxy R').
    + intros z z' y' Hz Hz'. apply V; now right.
Qed.

Definition begins (c : ascii) (l : str) : bool := match l with x :: _ => Ascii.eqb x c | [] => false end.
Lemma signs_shown s es : length (filter (begins (sign_char s)) (map shown es)) = length (map snd (filter (fun e => match fst e, s with Plus, Plus | Minus, Minus | Same, Same => true | _, _ => false end) es)).
Proof. rewrite map_length. induction es as [|[t p] es IH]; [reflexivity|]. cbn [map filter shown begins fst sign_char]. destruct t, s; cbn; try (apply f_equal); exact IH. Qed.
Lemma sign_list s es : NoDup (map snd es) -> NoDup (map snd (filter (fun e : sign * list str => match fst e, s with Plus, Plus | Minus, Minus | Same, Same => true | _, _ => false end) es)) /\
  forall p, In p (map snd (filter (fun e => match fst e, s with Plus, Plus | Minus, Minus | Same, Same => true | _, _ => false end) es)) <-> In (s, p) es.
Proof.
  intros N. assert (I : forall p, In p (map snd (filter (fun e => match fst e, s with Plus, Plus | Minus, Minus | Same, Same => true | _, _ => false end) es)) <-> In (s, p) es).
  { intros p. rewrite in_map_iff. split.
    - intros ([t q] & <- & K). apply filter_In in K as [K1 K2]. cbn in *. destruct t, s; try discriminate K2; exact K1.
    - intros K. exists (s, p). split; [reflexivity|]. apply filter_In. split; [exact K|]. now destruct s. }
  split; [|exact I]. clear I. induction es as [|[t p] es IH]; [constructor|]. cbn [map snd] in N. inversion N as [|? ? N1 N2]; subst. cbn [filter fst].
  assert (K : forall b : bool, NoDup (map snd (if b then (t, p) :: filter (fun e : sign * list str => match fst e, s with Plus, Plus | Minus, Minus | Same, Same => true | _, _ => false end) es else
    filter (fun e : sign * list str => match fst e, s with Plus, Plus | Minus, Minus | Same, Same => true | _, _ => false end) es))).
  { intros [|]; [|now apply IH]. cbn [map snd]. constructor; [|now apply IH]. intros K. apply N1. apply in_map_iff in K as (e & E & K). apply filter_In in K as [K _]. apply in_map_iff. eauto. }
  destruct t, s; first [apply (K true)|apply (K false)].
Qed.
Lemma side_count w w' b lines n es s : loaded w b lines -> all_different w -> NoDup (map snd es) ->
  (forall p, In (s, p) es <-> has_line w p /\ ~ has_line w' p) -> (forall x, In x (w_conf w) -> exists p, ancestry w x p) ->
  count_of (only_in w w') (w_conf w) n -> length (filter (begins (sign_char s)) (map shown es)) = n.
Proof.
  intros HL AD N I An C. rewrite signs_shown. destruct (sign_list s es N) as [N1 N2]. destruct (count_list _ _ _ C) as (ys & <- & Ny & Iy).
  assert (Nc : NoDup (w_conf w)).
  { pose proof (conf_sorted w b lines HL) as S0. clear -S0. induction S0 as [|x l S0 IH F]; constructor; auto. intros K. rewrite Forall_forall in F. specialize (F x K). lia. }
  symmetry. apply (same_length (fun x p => ancestry w x p)); auto.
  - intros x Hx. apply Iy in Hx as [Hx (p & A & NH)]. exists p. split; [|exact A]. apply N2, I. split; [now exists x|exact NH].
  - intros p Hp. apply N2, I in Hp as [(x & Hx & A) NH]. exists x. split; [|exact A]. apply Iy. split; [exact Hx|]. now exists p.
  - intros x p q A1 A2. eapply ancestry_fun; eauto.
  - intros x y p Hx Hy A1 A2. apply Iy in Hx as [Hx _]. apply Iy in Hy as [Hy _]. eapply AD; eauto.
Qed.
(** When no configuration has the same line twice in the same place, the header counts the lines
    of the contents that begin with "-" and with "+". *)
Theorem C86_contents : forall hash now sy ignore_blank before after wb wa,
  let o := mkOpts (lit "!") ignore_blank sy in
  sy = Ios \/ sy = Nxos -> parse o before = Ok wb -> parse o after = Ok wa ->
  Forall (fun l => no_digit_start l = true) (before ++ after) ->
  no_collision hash (map squeezed (before ++ after)) -> all_different wb -> all_different wa ->
  exists out s s', unified_diffs hash now false sy ignore_blank before after = Ok out /\
    unified_diffs hash now true sy ignore_blank before after =
      Ok (three now (length (filter (begins "-"%char) out)) s (length (filter (begins "+"%char) out)) s' ++ out).
Proof.
  intros hash now sy ib before after wb wa o Sy Pb Pa Nd NC ADb ADa.
  destruct (C86_header hash now sy ib before after wb wa Sy Pb Pa Nd NC) as (ds & n & s & n' & s' & H & U1 & U2 & C1 & _ & C2 & _).
  destruct (C2 ADb) as [C3 _]. destruct (C24_lines hash sy ib before after wb wa Sy Pb Pa Nd NC) as (ds' & es & H' & Es & _ & N & R & _).
  rewrite H in H'. injection H' as <-. exists (unified ds), s, s'. split; [exact U2|].
  destruct (parse_loaded _ _ _ Pb) as [Lb _]. destruct (parse_loaded _ _ _ Pa) as [La _]. destruct (load_two _ o _ _ Nd) as [Nb Na].
  assert (S1 : length (filter (begins "-"%char) (unified ds)) = n).
  { rewrite Es. apply (side_count wb wa 0 _ n es Minus Lb ADb N (R Minus)); [|exact C3]. intros x Hx. exists (path wb x). now apply (path_ancestry wb _ _ Lb Nb). }
  assert (S2 : length (filter (begins "+"%char) (unified ds)) = n').
  { rewrite Es. apply (side_count wa wb 0 _ n' es Plus La ADa N (R Plus)); [|exact C1]. intros x Hx. exists (path wa x). now apply (path_ancestry wa _ _ La Na). }
  rewrite S1, S2. exact U1.
Qed.
Print Assumptions C86_contents.

(** A configuration and itself: no line is counted, when no line is twice in the same place. *)
Theorem C86_same : forall hash now sy ignore_blank c w,
  let o := mkOpts (lit "!") ignore_blank sy in
  sy = Ios \/ sy = Nxos -> parse o c = Ok w -> Forall (fun l => no_digit_start l = true) c ->
  no_collision hash (map squeezed c) -> all_different w ->
  exists out, unified_diffs hash now false sy ignore_blank c c = Ok out /\
    unified_diffs hash now true sy ignore_blank c c = Ok (three now 0 0 0 0 ++ out).
Proof.
  intros hash now sy ib c w o Sy P Nd NC AD.
  assert (Nd2 : Forall (fun l => no_digit_start l = true) (c ++ c)) by now apply Forall_app.
  assert (NC2 : no_collision hash (map squeezed (c ++ c))).
  { rewrite map_app. intros s t Hs Ht. apply NC; [apply in_app_iff in Hs as [K|K]; exact K|apply in_app_iff in Ht as [K|K]; exact K]. }
  destruct (C86_header hash now sy ib c c w w Sy P P Nd2 NC2) as (ds & n & s & n' & s' & H & U1 & U2 & C1 & F1 & C2 & _). destruct (C2 AD) as [C3 F3].
  exists (unified ds). split; [exact U2|]. rewrite U1.
  assert (NO : forall x, In x (w_conf w) -> ~ only_in w w x) by (intros x Hx (p & A & K); apply K; now exists x).
  assert (Z0 : forall k, count_of (only_in w w) (w_conf w) k -> k = 0).
  { intros k Ck. destruct (count_list _ _ _ Ck) as (ys & <- & _ & I). destruct ys as [|y ys]; [reflexivity|]. exfalso. destruct (proj1 (I y) (or_introl eq_refl)) as [K1 K2]. now apply (NO y). }
  assert (Z1 : forall k, first_at (only_in w w) (w_conf w) k -> k = 0).
  { intros k [[-> _]|(pre & x & post & E & K & _)]; [reflexivity|]. exfalso. apply (NO x); [rewrite E; apply in_elt|exact K]. }
  now rewrite (Z0 n C3), (Z0 n' C1), (Z1 s F3), (Z1 s' F1).
Qed.
Print Assumptions C86_same.

(** ** Cases *)
Definition differs_b (w : world) : bool :=
  forallb (fun x => forallb (fun y => if path_eq_dec (path w x) (path w y) then Nat.eqb x y else true) (w_conf w)) (w_conf w).
Lemma differs_ok o lines w : parse o lines = Ok w -> Forall (fun l => no_digit_start l = true) lines -> differs_b w = true -> all_different w.
Proof.
  intros P Nd D x y p Hx Hy A B. destruct (parse_loaded _ _ _ P) as [HL _]. pose proof (Forall_input o _ _ Nd) as Nd'.
  apply (path_iff w _ _ HL Nd' x p Hx) in A. apply (path_iff w _ _ HL Nd' y p Hy) in B. unfold differs_b in D. rewrite forallb_forall in D. specialize (D x Hx).
  rewrite forallb_forall in D. specialize (D y Hy). destruct (path_eq_dec _ _) as [_|K]; [now apply Nat.eqb_eq|]. congruence.
Qed.
Definition noon : str := lit "2023-01-01 12:00:00".
Example C86_ex : Forall (fun l => no_digit_start l = true) (day1 ++ day2) /\ no_collision toy_hash (map squeezed (day1 ++ day2)) /\
  (exists wb wa, parse (mkOpts (lit "!") true Ios) day1 = Ok wb /\ parse (mkOpts (lit "!") true Ios) day2 = Ok wa /\ all_different wb /\ all_different wa) /\
  unified_diffs toy_hash noon true Ios true day1 day2 = Ok (map lit ["--- /tmp/before 2023-01-01 12:00:00"; "+++ /tmp/after  2023-01-01 12:00:00"; "@@ -2,1 +5,1 @@";
    "-hostname a"; " interface Gi0/1"; "+ mtu 1400"; "+ description up"; "  ip address 10.0.0.1 255.255.255.0"; "- shutdown"; " interface Gi0/2"; "  shutdown"; "+hostname b"; "+line con 0"; "+ stopbits 1"]%string).
Proof.
  destruct C24_case as (A & B & (wb & wa & Pb & Pa) & _). split; [exact A|]. split; [exact B|]. split; [|vm_compute; reflexivity].
  exists wb, wa. split; [exact Pb|]. split; [exact Pa|]. apply Forall_app in A as [A1 A2].
  split; [apply (differs_ok _ _ _ Pb A1)|apply (differs_ok _ _ _ Pa A2)].
  - assert (K : match parse (mkOpts (lit "!") true Ios) day1 with Ok w => differs_b w = true | Err _ => True end) by (vm_compute; reflexivity). now rewrite Pb in K.
  - assert (K : match parse (mkOpts (lit "!") true Ios) day2 with Ok w => differs_b w = true | Err _ => True end) by (vm_compute; reflexivity). now rewrite Pa in K.
Qed.

(** ** What fails *)
(** In the unified format the third line has the number of the first line before the number of
    lines.  Here the two are the other way round: where
    two lines from the third on are removed it says "-2,3" and not "-3,2". *)
Theorem C86_format_refuted : exists before after out,
  unified_diffs toy_hash noon true Ios true before after = Ok out /\ 
  before = map lit ["hostname a"; "line con 0"; "ip http server"; "ip http port 80"]%string /\ after = map lit ["hostname a"; "line con 0"]%string /\
  nth 2 out [] = lit "@@ -2,3 +0,0 @@" /\ nth 2 out [] <> lit "@@ -3,2 +0,0 @@".
Proof. eexists _, _, _. split; [|split; [reflexivity|split; [reflexivity|]]]; [vm_compute; reflexivity|]. split; [vm_compute; reflexivity|]. intros K. vm_compute in K. discriminate K. Qed.
Print Assumptions C86_format_refuted.
(** A line that is twice in the same place, such as a comment, is counted as removed although
    the contents do not remove it, even when the two configurations are the same. *)
Theorem C86_twice_refuted : exists c,
  unified_diffs toy_hash noon true Ios true c c = Ok (three noon 1 4 0 0 ++ map (fun l => " "%char :: lit l) ["hostname a"; "!"; "line con 0"]%string).
Proof. exists (map lit ["hostname a"; "!"; "line con 0"; "!"]%string). vm_compute. reflexivity. Qed.
Print Assumptions C86_twice_refuted.
(** For another syntax the contents are empty, and the header says that every line of the earlier
    configuration is removed and that none is added. *)
Theorem C86_other_syntax_refuted : forall hash now ignore_blank before after wb wa,
  parse (mkOpts (lit "!") ignore_blank Asa) before = Ok wb -> parse (mkOpts (lit "!") ignore_blank Asa) after = Ok wa -> w_conf wb <> [] ->
  unified_diffs hash now true Asa ignore_blank before after = Ok (three now (length (w_conf wb)) 1 0 0).
Proof.
  intros hash now ib before after wb wa Pb Pa NE.
  destruct (parse_loaded _ _ _ Pb) as [Lb _]. destruct (parse_loaded _ _ _ Pa) as [La _].
  unfold unified_diffs, hdiff. rewrite Pb. cbn [bind]. rewrite Pa. cbn [bind fst snd unified map]. rewrite app_nil_r, (v_conf wb _ _ Lb), (v_conf wa _ _ La). unfold header, three, hunk, show_n.
  assert (C1 : forall xs, changed (fun _ => Remove) Remove xs = length xs) by (induction xs as [|x xs IH]; [reflexivity|]; rewrite changed_cons, IH; reflexivity).
  assert (C2 : forall xs, changed (fun _ => Unknown) Add xs = 0) by (induction xs as [|x xs IH]; [reflexivity|]; rewrite changed_cons, IH; reflexivity).
  assert (S2 : forall xs i, start_of (fun _ => Unknown) Add i xs = 0) by (induction xs as [|x xs IH]; intros i; [reflexivity|]; apply IH).
  rewrite C1, C2, S2. destruct (w_conf wb) as [|x xs]; [congruence|]. reflexivity.
Qed.
Print Assumptions C86_other_syntax_refuted.
