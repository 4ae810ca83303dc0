(** Facts about hexadecimal groups and the texts of IPv6 addresses. *)
From Coq Require Import Ascii String Arith NArith ZArith Bool List Lia.
From Verif Require Import PyStr PyStrFacts PyBase PyBaseFacts PwModel IpModel IpSpec IpFacts PIpText PyRe Ip6TextModel Ip6TextSpec.
Import ListNotations.
Local Open Scope char_scope.
Local Open Scope Z_scope.

(** ** Digits *)

Lemma hex_val_digit c d : hex_val c = Some d <-> hex_digit c d.
Proof.
  unfold hex_digit. split.
  - destruct c as [[] [] [] [] [] [] [] []]; cbn; intros K; try discriminate K; injection K as <-; (split; [lia|]); ((left; reflexivity) || (right; reflexivity)).
  - intros [R [K|K]]; assert (C : d = 0 \/ d = 1 \/ d = 2 \/ d = 3 \/ d = 4 \/ d = 5 \/ d = 6 \/ d = 7 \/ d = 8 \/ d = 9 \/ d = 10 \/ d = 11 \/ d = 12 \/ d = 13 \/ d = 14 \/ d = 15) by lia;
      repeat destruct C as [-> |C]; try subst d; cbn in K; injection K as <-; reflexivity.
Qed.
Lemma hex_acc_snoc s c : forall acc, hex_acc acc (s ++ [c]) = match hex_acc acc s with Some x => match hex_val c with Some d => Some (16 * x + d) | None => None end | None => None end.
Proof. induction s as [|x s IH]; intros acc; cbn [app hex_acc]; [reflexivity|]. destruct (hex_val x); [apply IH|reflexivity]. Qed.
Lemma hex_number_nonnil s v : hex_number s v -> s <> [].
Proof. intros []; [discriminate|]. now destruct s0. Qed.
Lemma int_hex_number s v : int_hex s = Some v <-> hex_number s v.
Proof.
  assert (K : forall s v, s <> [] -> (hex_acc 0 s = Some v <-> hex_number s v)).
  { clear. intros s. induction s as [|c s IH] using rev_ind; intros v NE; [congruence|]. rewrite hex_acc_snoc. destruct s as [|x s].
    - cbn [hex_acc app]. split.
      + destruct (hex_val c) as [d|] eqn:E; [|discriminate]. intros [= <-]. apply hex_val_digit in E. now constructor.
      + intros HN. inversion HN as [c' d HD E|s' v' c' d HN' HD E]; subst.
        * apply hex_val_digit in HD. rewrite HD. f_equal.
        * apply hex_number_nonnil in HN'. destruct s' as [|y s']; [congruence|]. destruct s'; discriminate E.
    - split.
      + destruct (hex_acc 0 (x :: s)) as [u|] eqn:E; [|discriminate]. destruct (hex_val c) as [d|] eqn:Ec; [|discriminate]. intros [= <-]. apply hn_more; [apply IH; [discriminate|reflexivity]|now apply hex_val_digit].
      + intros HN. inversion HN as [c' d HD E|s' v' c' d HN' HD E]; subst.
        * destruct s; discriminate.
        * change (s' ++ [c'] = (x :: s) ++ [c]) in E. apply app_inj_tail in E as [-> ->]. apply IH in HN'; [|discriminate]. rewrite HN'. apply hex_val_digit in HD. now rewrite HD. }
  destruct s as [|c s]; [split; [discriminate|intros HN; now apply hex_number_nonnil in HN]|]. cbn [int_hex]. apply K. discriminate.
Qed.
Lemma hex_number_chars s v : hex_number s v -> forallb is_hex s = true.
Proof.
  induction 1 as [c d H|s v c d _ IH H]; [|rewrite forallb_app, IH]; cbn; unfold is_hex; apply hex_val_digit in H; now rewrite H.
Qed.
Lemma hex_number_range s v : hex_number s v -> 0 <= v < 16 ^ Z.of_nat (length s).
Proof.
  induction 1 as [c d [H _]|s v c d _ IH [H _]]; [cbn; lia|]. rewrite app_length. cbn [length]. rewrite Nat2Z.inj_add, Z.pow_add_r by lia. change (16 ^ Z.of_nat 1) with 16. lia.
Qed.
Lemma parse_hextet_iff s v : parse_hextet s = Some v <-> hextet s v.
Proof.
  unfold parse_hextet, hextet. rewrite <- int_hex_number. split.
  - destruct (forallb is_hex s); [|discriminate]. cbn [negb]. destruct (Nat.ltb_spec 4 (length s)); [discriminate|]. auto.
  - intros [HN L]. rewrite (hex_number_chars s v) by now apply int_hex_number. cbn [negb]. destruct (Nat.ltb_spec 4 (length s)); [lia|exact HN].
Qed.
Lemma hextet_range h v : hextet h v -> 0 <= v < 65536.
Proof.
  intros [HN L]. apply hex_number_range in HN. change 65536 with (16 ^ 4). split; [apply HN|]. eapply Z.lt_le_trans; [apply HN|]. apply Z.pow_le_mono_r; lia.
Qed.
Lemma hextet_nonnil h v : hextet h v -> h <> [].
Proof. intros [HN _]. exact (hex_number_nonnil _ _ HN). Qed.

(** ** Writing a group *)
Lemma hex_low_digit d : 0 <= d < 16 -> hex_digit (hex_low d) d /\ lower_char (hex_low d) = hex_low d /\ (hex_low d = "0" <-> d = 0).
Proof.
  intros R. assert (C : d = 0 \/ d = 1 \/ d = 2 \/ d = 3 \/ d = 4 \/ d = 5 \/ d = 6 \/ d = 7 \/ d = 8 \/ d = 9 \/ d = 10 \/ d = 11 \/ d = 12 \/ d = 13 \/ d = 14 \/ d = 15) by lia.
  repeat destruct C as [-> |C]; try subst d; (split; [split; [lia|left; reflexivity]|]; split; [reflexivity|]; split; [|]; intros K; try discriminate K; reflexivity).
Qed.
Lemma strip_first c r : c <> "0" -> strip_zeros (c :: r) = c :: r.
Proof. intros NE. destruct c as [[] [] [] [] [] [] [] []]; try reflexivity. congruence. Qed.
Lemma strip_second c a b : c <> "0" -> strip_zeros ["0"; c; a; b] = [c; a; b].
Proof. intros NE. destruct c as [[] [] [] [] [] [] [] []]; try reflexivity. congruence. Qed.
Lemma strip_third c b : c <> "0" -> strip_zeros ["0"; "0"; c; b] = [c; b].
Proof. intros NE. destruct c as [[] [] [] [] [] [] [] []]; try reflexivity. congruence. Qed.
Lemma show_hex_plain n : 0 <= n < 65536 -> plain (show_hex n) n.
Proof.
  intros R. unfold show_hex, hex4.
  assert (E3 : n / 4096 mod 16 = n / 4096). { apply Z.mod_small. split; [apply Z.div_pos; lia|apply Z.div_lt_upper_bound; lia]. } rewrite E3.
  set (a := n / 4096). set (b := n / 256 mod 16). set (c := n / 16 mod 16). set (d := n mod 16).
  assert (Ra : 0 <= a < 16) by (split; [apply Z.div_pos; lia|apply Z.div_lt_upper_bound; lia]).
  assert (Rb : 0 <= b < 16) by (apply Z.mod_pos_bound; lia). assert (Rc : 0 <= c < 16) by (apply Z.mod_pos_bound; lia). assert (Rd : 0 <= d < 16) by (apply Z.mod_pos_bound; lia).
  assert (En : n = ((a * 16 + b) * 16 + c) * 16 + d).
  { unfold a, b, c, d. pose proof (Z.div_mod n 16 ltac:(lia)). pose proof (Z.div_mod (n / 16) 16 ltac:(lia)). pose proof (Z.div_mod (n / 256) 16 ltac:(lia)).
    replace (n / 256) with (n / 16 / 16) in * by (rewrite Z.div_div by lia; reflexivity). replace (n / 4096) with (n / 16 / 16 / 16) by (rewrite !Z.div_div by lia; reflexivity). lia. }
  clearbody a b c d. clear E3. subst n. clear R.
  destruct (hex_low_digit a Ra) as (Da & La & Za). destruct (hex_low_digit b Rb) as (Db & Lb & Zb). destruct (hex_low_digit c Rc) as (Dc & Lc & Zc). destruct (hex_low_digit d Rd) as (Dd & Ld & Zd).
  assert (N1 : hex_number [hex_low d] d) by now constructor.
  assert (N2 : hex_number [hex_low c; hex_low d] (16 * c + d)) by (apply (hn_more [hex_low c] c); [now constructor|exact Dd]).
  assert (N3 : hex_number [hex_low b; hex_low c; hex_low d] (16 * (16 * b + c) + d)) by (apply (hn_more [hex_low b; hex_low c]); [apply (hn_more [hex_low b]); [now constructor|exact Dc]|exact Dd]).
  assert (N4 : hex_number [hex_low a; hex_low b; hex_low c; hex_low d] (16 * (16 * (16 * a + b) + c) + d)) by (apply (hn_more [hex_low a; hex_low b; hex_low c]); [apply (hn_more [hex_low a; hex_low b]); [apply (hn_more [hex_low a]); [now constructor|exact Db]|exact Dc]|exact Dd]).
  destruct (Z.eq_dec a 0) as [-> |NA]; [|rewrite strip_first by tauto].
  - change (hex_low 0) with "0" in *. destruct (Z.eq_dec b 0) as [-> |NB]; [|rewrite strip_second by tauto].
    + change (hex_low 0) with "0" in *. destruct (Z.eq_dec c 0) as [-> |NC]; [|rewrite strip_third by tauto].
      * change (hex_low 0) with "0" in *. change (strip_zeros _) with [hex_low d]. split; [split; [exact N1|cbn; lia]|]. split; [unfold lower; cbn [map]; now rewrite Ld|]. cbn [hd]. destruct (Z.eq_dec d 0) as [-> |ND]; [now left|right; tauto].
      * split; [split; [replace (_ + d) with (16 * c + d) by lia; exact N2|cbn; lia]|]. split; [unfold lower; cbn [map]; now rewrite Lc, Ld|]. right. cbn [hd]. tauto.
    + split; [split; [replace (_ + d) with (16 * (16 * b + c) + d) by lia; exact N3|cbn; lia]|]. split; [unfold lower; cbn [map]; now rewrite Lb, Lc, Ld|]. right. cbn [hd]. tauto.
  - split; [split; [replace (_ + d) with (16 * (16 * (16 * a + b) + c) + d) by lia; exact N4|cbn; lia]|]. split; [unfold lower; cbn [map]; now rewrite La, Lb, Lc, Ld|]. right. cbn [hd]. tauto.
Qed.
Lemma show_hex_hextet n : 0 <= n < 65536 -> hextet (show_hex n) n.
Proof. intros R. apply (show_hex_plain n R). Qed.
Lemma show_hex_zero n : 0 <= n < 65536 -> (show_hex n = ["0"] <-> n = 0).
Proof.
  intros R. split; [|now intros ->]. intros E. pose proof (show_hex_hextet n R) as [HN _]. rewrite E in HN. apply int_hex_number in HN. cbn in HN. injection HN as HN. lia.
Qed.

(** ** The eight groups of an address *)
Lemma value_app a b : value (a ++ b) = fold_left (fun x v => x * 65536 + v) b (value a).
Proof. apply fold_left_app. Qed.
Lemma value_from l : forall a, fold_left (fun x v => x * 65536 + v) l a = a * 65536 ^ Z.of_nat (length l) + value l.
Proof.
  unfold value. induction l as [|v l IH]; intros a; cbn [fold_left length]; [change (Z.of_nat 0) with 0; rewrite Z.pow_0_r; lia|].
  rewrite IH, (IH (0 * 65536 + v)). replace (Z.of_nat (S (length l))) with (1 + Z.of_nat (length l)) by lia. rewrite Z.pow_add_r by lia. lia.
Qed.
Lemma value_zeros n : value (repeat 0 n) = 0.
Proof. unfold value. induction n as [|n IH]; [reflexivity|]. cbn [repeat fold_left]. exact IH. Qed.
Lemma value_cons v l : value (v :: l) = v * 65536 ^ Z.of_nat (length l) + value l.
Proof. unfold value at 1. cbn [fold_left]. now rewrite value_from. Qed.
Lemma value_range l : Forall (fun v => 0 <= v < 65536) l -> 0 <= value l < 65536 ^ Z.of_nat (length l).
Proof.
  induction 1 as [|v l R _ IH]; [cbn; lia|]. rewrite value_cons. cbn [length]. replace (Z.of_nat (S (length l))) with (1 + Z.of_nat (length l)) by lia. rewrite Z.pow_add_r by lia. nia.
Qed.
Lemma hextets_range n : Forall (fun v => 0 <= v < 65536) (hextets n).
Proof. unfold hextets. apply Forall_forall. intros v. rewrite in_map_iff. intros (i & <- & _). apply Z.mod_pos_bound. lia. Qed.
Lemma value_hextets n : 0 <= n < 2 ^ 128 -> value (hextets n) = n.
Proof.
  intros R. unfold hextets, value. cbn [map fold_left].
  assert (S0 : forall i, 0 <= i -> n / 65536 ^ (i + 1) * 65536 + n / 65536 ^ i mod 65536 = n / 65536 ^ i).
  { intros i Hi. rewrite Z.pow_add_r, <- Z.div_div by (lia || apply Z.pow_nonzero; lia). rewrite Z.pow_1_r. pose proof (Z.div_mod (n / 65536 ^ i) 65536 ltac:(lia)). lia. }
  assert (E7 : n / 65536 ^ 7 mod 65536 = n / 65536 ^ 7). { apply Z.mod_small. split; [apply Z.div_pos; lia|]. apply Z.div_lt_upper_bound; [lia|]. change (65536 ^ 7 * 65536) with (2 ^ 128). lia. }
  rewrite E7. rewrite Z.mul_0_l, Z.add_0_l.
  rewrite (S0 6 ltac:(lia) : n / 65536 ^ 7 * 65536 + _ = _), (S0 5 ltac:(lia) : n / 65536 ^ 6 * 65536 + _ = _), (S0 4 ltac:(lia) : n / 65536 ^ 5 * 65536 + _ = _), (S0 3 ltac:(lia) : n / 65536 ^ 4 * 65536 + _ = _),
    (S0 2 ltac:(lia) : n / 65536 ^ 3 * 65536 + _ = _), (S0 1 ltac:(lia) : n / 65536 ^ 2 * 65536 + _ = _), (S0 0 ltac:(lia) : n / 65536 ^ 1 * 65536 + _ = _). rewrite Z.pow_0_r. apply Z.div_1_r.
Qed.

Lemma F2_len {A B} {R : A -> B -> Prop} {l m} : Forall2 R l m -> length l = length m.
Proof. induction 1; cbn; congruence. Qed.

(** ** Reading the parts between colons *)
Lemma read_hextets_iff l : forall acc v, read_hextets acc l = Ok v <-> exists vs, Forall2 hextet l vs /\ v = fold_left (fun x w => x * 65536 + w) vs acc.
Proof.
  induction l as [|s l IH]; intros acc v; cbn [read_hextets].
  - split; [intros [= <-]; exists []; split; [constructor|reflexivity]|]. intros (vs & F & ->). inversion F. reflexivity.
  - split.
    + destruct (parse_hextet s) as [w|] eqn:E; [|discriminate]. intros K. apply IH in K as (vs & F & ->). exists (w :: vs). split; [constructor; [now apply parse_hextet_iff|exact F]|reflexivity].
    + intros (vs & F & ->). inversion F as [|? w ? vs' F0 F1]; subst. apply parse_hextet_iff in F0. rewrite F0. apply IH. eauto.
Qed.
Lemma value_gap a n b : value (a ++ repeat 0 n ++ b) = fold_left (fun x w => x * 65536 + w) b (value a * 65536 ^ Z.of_nat n).
Proof. rewrite !value_app, fold_left_app. f_equal. rewrite value_from, value_zeros, repeat_length. lia. Qed.

Definition pad (l : list str) : list str := match l with [] => [[]] | _ => l end.
Lemma pad_nonnil l : pad l <> [].
Proof. now destruct l. Qed.
Lemma join_cat (c : str) a b : a <> [] -> b <> [] -> join c (a ++ b) = join c a ++ c ++ join c b.
Proof.
  intros NA NB. induction a as [|x a IH]; [congruence|]. destruct a as [|y a].
  - cbn [app]. destruct b as [|z b]; [congruence|]. cbn [join]. reflexivity.
  - cbn [app] in *. cbn [join]. cbn [join] in IH. rewrite IH by discriminate. now rewrite !app_assoc.
Qed.
Lemma join_pad c l : join c (pad l) = join c l.
Proof. now destruct l. Qed.
Lemma join_gap hi lo : join [":"%char] (pad hi ++ [[]] ++ pad lo) = join [":"%char] hi ++ lit "::" ++ join [":"%char] lo.
Proof.
  rewrite join_cat, join_pad by (try apply pad_nonnil; discriminate). f_equal. rewrite join_cat, join_pad by (try apply pad_nonnil; discriminate). reflexivity.
Qed.
Lemma find_skip_full l : forall i r f, Forall (fun p => p <> []) l -> r <> [] -> find_skip i (l ++ r) f = find_skip (i + length l) r f.
Proof.
  induction l as [|p l IH]; intros i r f F NR; [now rewrite Nat.add_0_r|]. inversion F as [|? ? F0 F1]; subst.
  assert (E : exists x y, l ++ r = x :: y) by (destruct (l ++ r) eqn:E; [apply app_eq_nil in E as [_ ->]; congruence|eauto]). destruct E as (x & y & E).
  cbn [app length]. rewrite E. change (find_skip i (p :: x :: y) f) with (match p with [] => match f with Some _ => Err AddressErr | None => find_skip (S i) (x :: y) (Some i) end | _ :: _ => find_skip (S i) (x :: y) f end).
  destruct p as [|c p]; [congruence|]. rewrite <- E, IH by assumption. f_equal. lia.
Qed.
Lemma find_skip_one i p f : find_skip i [p] f = Ok f.
Proof. reflexivity. Qed.
Lemma find_skip_all i l f : Forall (fun p => p <> []) l -> find_skip i l f = Ok f.
Proof.
  intros F. destruct l as [|p l]; [reflexivity|]. destruct (@exists_last _ (p :: l) ltac:(discriminate)) as (a & x & E). rewrite E in *. apply Forall_app in F as [F _]. rewrite find_skip_full by (assumption || discriminate). reflexivity.
Qed.

Lemma find_skip_some i l k : find_skip i l None = Ok (Some k) -> exists a r, l = a ++ [] :: r /\ r <> [] /\ k = (i + length a)%nat.
Proof.
  revert i. induction l as [|p l IH]; intros i K; [discriminate K|]. destruct l as [|q l]; [discriminate K|].
  change (match p with [] => find_skip (S i) (q :: l) (Some i) | _ :: _ => find_skip (S i) (q :: l) None end = Ok (Some k)) in K. destruct p as [|c p].
  - exists [], (q :: l). split; [reflexivity|]. split; [discriminate|].
    assert (U : forall j l f x, find_skip j l (Some f) = Ok x -> x = Some f).
    { clear. intros j l. revert j. induction l as [|p l IH]; intros j f x; [now intros [= <-]|]. destruct l as [|q l]; [now intros [= <-]|].
      change (match p with [] => Err AddressErr | _ :: _ => find_skip (S j) (q :: l) (Some f) end = Ok x -> x = Some f). destruct p; [discriminate|]. apply IH. }
    apply U in K. injection K as ->. cbn. lia.
  - apply IH in K as (a & r & E & NR & ->). exists ((c :: p) :: a), r. split; [now rewrite E|]. split; [exact NR|]. cbn. lia.
Qed.

(** What is done with the parts once an IPv4 suffix is gone *)
Definition body (parts : list str) : result Z :=
  if (9 <? length parts)%nat then Err AddressErr
  else
    do skip <- find_skip 1 (tl parts) None;
    let first := nothing (hd [] parts) in
    let final := nothing (last parts []) in
    match skip with
    | Some k =>
        let hi := if first then (k - 1)%nat else k in
        let lo := if final then (length parts - k - 1 - 1)%nat else (length parts - k - 1)%nat in
        if first && negb (hi =? 0)%nat then Err AddressErr
        else if final && negb (lo =? 0)%nat then Err AddressErr
        else if (8 <=? hi + lo)%nat then Err AddressErr
        else
          do a <- read_hextets 0%Z (firstn hi parts);
          read_hextets (a * 65536 ^ Z.of_nat (8 - (hi + lo)))%Z (lastn lo parts)
    | None =>
        if negb (length parts =? 8)%nat then Err AddressErr
        else if first then Err AddressErr
        else if final then Err AddressErr
        else read_hextets 0%Z parts
    end.
Lemma addr6_body s : addr6 s = if nothing s then Err AddressErr else if (length (split_on ":" s) <? 3)%nat then Err AddressErr else do parts <- expand_v4 (split_on ":" s); body parts.
Proof. reflexivity. Qed.

Inductive read_as : list str -> Z -> Prop :=
| ra_full l vs : Forall2 hextet l vs -> length vs = 8%nat -> read_as l (value vs)
| ra_short hi a lo b n : Forall2 hextet hi a -> Forall2 hextet lo b -> (length a + n + length b = 8)%nat -> (1 <= n)%nat ->
    read_as (pad hi ++ [[]] ++ pad lo) (value (a ++ repeat 0 n ++ b)).

Lemma hextets_full l vs : Forall2 hextet l vs -> Forall (fun p => p <> []) l.
Proof. induction 1 as [|h v l vs F _ IH]; constructor; [exact (hextet_nonnil _ _ F)|exact IH]. Qed.
Lemma nothing_false s : s <> [] -> nothing s = false.
Proof. now destruct s. Qed.
Lemma last_pad_app l lo : last (l ++ pad lo) [] = last lo [] .
Proof.
  destruct lo as [|x lo]; cbn [pad]; [apply last_last|]. destruct (@exists_last _ (x :: lo) ltac:(discriminate)) as (a & y & ->). now rewrite app_assoc, !last_last.
Qed.
Lemma last_full l d : l <> [] -> Forall (fun p : str => p <> []) l -> last l d <> [].
Proof. intros NL F. destruct (@exists_last _ l NL) as (a & y & ->). rewrite last_last. apply Forall_app in F as [_ F]. now inversion F. Qed.

Lemma body_reads P v : read_as P v -> body P = Ok v.
Proof.
  intros [l vs F L8|hi a lo b n Fa Fb LN N1].
  - pose proof (hextets_full _ _ F) as FF. pose proof (F2_len F) as LL. rewrite L8 in LL. unfold body. rewrite LL. cbn [Nat.ltb Nat.leb].
    destruct l as [|p l]; [discriminate LL|]. cbn [tl hd]. inversion FF as [|? ? F0 F1]; subst. rewrite find_skip_all by exact F1. cbn [bind Nat.eqb negb]. rewrite (nothing_false p F0).
    rewrite nothing_false by (apply last_full; [discriminate|exact FF]). apply read_hextets_iff. exists vs. now split.
  - pose proof (hextets_full _ _ Fa) as FFa. pose proof (hextets_full _ _ Fb) as FFb. pose proof (F2_len Fa) as La. pose proof (F2_len Fb) as Lb.
    assert (LP : length (pad lo) = match lo with [] => 1%nat | _ => length lo end) by now destruct lo.
    assert (SK : find_skip 1 (tl (pad hi ++ [[]] ++ pad lo)) None = Ok (Some (length (pad hi)))).
    { destruct (pad hi) as [|p h] eqn:EP; [now apply pad_nonnil in EP|]. cbn [app tl]. rewrite find_skip_full; [|destruct hi; injection EP as <- <-; [constructor|now inversion FFa]|destruct lo; discriminate].
      cbn [length Nat.add]. destruct lo as [|x lo]; [reflexivity|]. cbn [pad app].
      change (find_skip (S (length h)) ([] :: x :: lo) None) with (find_skip (S (S (length h))) (x :: lo) (Some (S (length h)))). now apply find_skip_all. }
    unfold body. rewrite SK. cbn [bind].
    assert (EL : last (pad hi ++ [[]] ++ pad lo) [] = last lo []) by (rewrite app_assoc; apply last_pad_app). rewrite EL.
    unfold str in *. rewrite !app_length. cbn [length]. rewrite LP.
    assert (RD : forall h l, (h = length hi)%nat -> (l = length lo)%nat -> (do a <- read_hextets 0 hi; read_hextets (a * 65536 ^ Z.of_nat (8 - (h + l))) lo) = Ok (value (a ++ repeat 0 n ++ b))).
    { intros h l -> ->. rewrite (proj2 (read_hextets_iff hi 0 (value a))) by (exists a; split; [exact Fa|reflexivity]). cbn [bind]. apply read_hextets_iff. exists b. split; [exact Fb|]. rewrite value_gap. repeat f_equal. lia. }
    assert (FN : firstn (length hi) (pad hi ++ [[]] ++ pad lo) = hi).
    { destruct hi as [|x hi]; [reflexivity|]. cbn [pad]. rewrite firstn_app, firstn_all, Nat.sub_diag. cbn [firstn]. apply app_nil_r. }
    assert (LN' : lastn (length lo) (pad hi ++ [[]] ++ pad lo) = lo).
    { unfold lastn. destruct lo as [|x lo].
      - cbn [length]. rewrite Nat.sub_0_r, skipn_all. reflexivity.
      - cbn [pad]. rewrite app_assoc, app_length, Nat.add_sub, skipn_app, skipn_all, Nat.sub_diag. reflexivity. }
    destruct hi as [|x hi]; destruct lo as [|y lo]; cbn [pad length] in *.
    + cbn in La, Lb. cbn [hd app last nothing]. cbn -[Z.pow read_hextets value]. change (read_hextets 0 []) with (@Ok Z 0). specialize (RD 0%nat 0%nat eq_refl eq_refl). exact RD.
    + replace (hd [] ([[]] ++ [[]] ++ y :: lo)) with (@nil ascii) by reflexivity. cbn [nothing]. rewrite nothing_false by (apply last_full; [discriminate|exact FFb]).
      destruct (Nat.ltb_spec 9 (1 + (1 + S (length lo)))); [lia|]. cbn [Nat.sub Nat.eqb negb andb]. destruct (Nat.leb_spec 8 (0 + (1 + (1 + S (length lo)) - 1 - 1))); [lia|].
      replace (1 + (1 + S (length lo)) - 1 - 1)%nat with (S (length lo)) by lia. unfold str in *. rewrite FN, LN'. now apply RD.
    + replace (hd [] ((x :: hi) ++ [[]] ++ [[]])) with x by reflexivity. inversion FFa as [|? ? F0 F1]; subst. rewrite (nothing_false x F0). cbn [last nothing andb].
      destruct (Nat.ltb_spec 9 (S (length hi) + (1 + 1))); [lia|]. replace (S (length hi) + (1 + 1) - S (length hi) - 1 - 1)%nat with 0%nat by lia. cbn [Nat.eqb negb]. destruct (Nat.leb_spec 8 (S (length hi) + 0)); [lia|].
      unfold str in *. rewrite FN, LN'. now apply RD.
    + replace (hd [] ((x :: hi) ++ [[]] ++ y :: lo)) with x by reflexivity. inversion FFa as [|? ? F0 F1]; subst. rewrite (nothing_false x F0). rewrite (nothing_false (last (y :: lo) [])) by (apply last_full; [discriminate|exact FFb]). cbn [andb].
      destruct (Nat.ltb_spec 9 (S (length hi) + (1 + S (length lo)))); [lia|]. replace (S (length hi) + (1 + S (length lo)) - S (length hi) - 1)%nat with (S (length lo)) by lia.
      destruct (Nat.leb_spec 8 (S (length hi) + S (length lo))); [lia|]. unfold str in *. rewrite FN, LN'. now apply RD.
Qed.
Lemma body_sound P v : (3 <= length P)%nat -> body P = Ok v -> read_as P v.
Proof.
  intros L3 K. unfold body in K. destruct (Nat.ltb_spec 9 (length P)); [discriminate K|]. destruct P as [|p0 P]; [cbn in L3; lia|]. cbn [tl hd] in K.
  destruct (find_skip 1 P None) as [[k|]|e] eqn:SK; cbn [bind] in K; [| |discriminate K].
  - apply find_skip_some in SK as (a & r & -> & NR & ->).
    set (h := if nothing p0 then (1 + length a - 1)%nat else (1 + length a)%nat) in *. set (lo := if nothing (last (p0 :: a ++ [] :: r) []) then _ else _) in *.
    destruct (nothing p0 && negb (h =? 0)%nat) eqn:C1; [discriminate K|]. destruct (nothing (last (p0 :: a ++ [] :: r) []) && negb (lo =? 0)%nat) eqn:C2; [discriminate K|]. destruct (Nat.leb_spec 8 (h + lo)); [discriminate K|].
    destruct (read_hextets 0 (firstn h (p0 :: a ++ [] :: r))) as [u|e] eqn:R1; cbn [bind] in K; [|discriminate K].
    apply read_hextets_iff in R1 as (va & Fa & Eu). apply read_hextets_iff in K as (vb & Fb & ->).
    assert (ER : last (p0 :: a ++ [] :: r) [] = last r []). { destruct (exists_last NR) as (r' & z & ->). rewrite last_last. change (p0 :: a ++ [] :: r' ++ [z]) with ((p0 :: a) ++ ([] :: r') ++ [z]). now rewrite app_assoc, last_last. }
    assert (LT : length (p0 :: a ++ [] :: r) = (S (length a) + S (length r))%nat) by (cbn [length]; rewrite app_length; cbn; lia).
    assert (EL : lo = if nothing (last r []) then (length r - 1)%nat else length r) by (unfold lo; rewrite ER, LT; destruct (nothing (last r [])); lia). rewrite ER in C2. clearbody lo. clear ER LT.
    assert (HI : exists hi, pad hi = p0 :: a /\ firstn h (p0 :: a ++ [] :: r) = hi /\ h = length hi).
    { destruct p0 as [|c p0]; cbn [nothing] in *.
      - cbn [andb] in C1. apply negb_false_iff, Nat.eqb_eq in C1. subst h. exists []. destruct a; [|cbn in C1; lia]. split; [reflexivity|]. now split.
      - exists ((c :: p0) :: a). split; [reflexivity|]. subst h. split; [|reflexivity]. cbn [Nat.add firstn]. f_equal. rewrite firstn_app, firstn_all, Nat.sub_diag. apply app_nil_r. }
    assert (LO : exists l, pad l = r /\ lastn lo (p0 :: a ++ [] :: r) = l /\ lo = length l).
    { destruct (exists_last NR) as (r' & z & ->). rewrite last_last in *. destruct z as [|c z]; cbn [nothing] in *.
      - cbn [andb] in C2. apply negb_false_iff, Nat.eqb_eq in C2. exists []. rewrite C2 in *. rewrite app_length in EL. assert (length r' = 0)%nat by (cbn in EL; lia). destruct r'; [|discriminate]. split; [reflexivity|]. split; [|reflexivity].
        unfold lastn. now rewrite Nat.sub_0_r, skipn_all.
      - exists (r' ++ [c :: z]). split; [now destruct r'|]. split; [|exact EL].
        rewrite EL. unfold lastn. change (p0 :: a ++ [] :: r' ++ [c :: z]) with ((p0 :: a) ++ ([[]] ++ (r' ++ [c :: z]))). rewrite app_assoc.
        rewrite app_length, Nat.add_sub, skipn_app, skipn_all, Nat.sub_diag. reflexivity. }
    destruct HI as (hi & E1 & E2 & E3), LO as (l & E4 & E5 & E6). rewrite E2 in Fa. rewrite E5 in Fb. subst u. rewrite E3, E6 in *.
    replace (p0 :: a ++ [] :: r) with (pad hi ++ [[]] ++ pad l) by (rewrite E1, E4; reflexivity).
    pose proof (F2_len Fa) as La. pose proof (F2_len Fb) as Lb.
    change (fold_left (fun x w => x * 65536 + w) va 0) with (value va). rewrite <- value_gap. apply ra_short; try assumption; lia.
  - destruct (Nat.eqb_spec (length (p0 :: P)) 8) as [E8|]; [|discriminate K]. cbn [negb] in K. destruct (nothing p0); [discriminate K|]. destruct (nothing (last (p0 :: P) [])); [discriminate K|].
    apply read_hextets_iff in K as (vs & F & ->). apply ra_full; [exact F|]. now rewrite <- (F2_len F).
Qed.

(** ** The whole reader *)
Lemma addr4_quad t q : addr4 t = Ok q <-> dotted_quad t q.
Proof.
  split.
  - unfold addr4. intros E. pose proof (join_split_on "." t) as J. destruct (split_on "." t) as [|a [|b [|c [|d [|e l]]]]]; try discriminate E.
    destruct (parse_octet a) as [a'|] eqn:Ea; [|discriminate E]. destruct (parse_octet b) as [b'|] eqn:Eb; [|discriminate E].
    destruct (parse_octet c) as [c'|] eqn:Ec; [|discriminate E]. destruct (parse_octet d) as [d'|] eqn:Ed; [|discriminate E].
    injection E as <-. apply parse_octet_sound in Ea as [-> Ha], Eb as [-> Hb], Ec as [-> Hc], Ed as [-> Hd].
    exists a', b', c', d'. rewrite J. repeat (split; [lia|]). now split.
  - intros (a & b & c & d & Ra & Rb & Rc & Rd & -> & ->). unfold addr4.
    rewrite split_on_join; [|discriminate|repeat (constructor; [apply show_Z_nodigit_char; [lia|reflexivity]|]); constructor]. rewrite !parse_octet_show by lia. reflexivity.
Qed.
Lemma quad_range t q : dotted_quad t q -> 0 <= q < 2 ^ 32.
Proof. intros (a & b & c & d & Ra & Rb & Rc & Rd & _ & ->). lia. Qed.
Lemma quad_dot t q : dotted_quad t q -> existsb (Ascii.eqb ".") t = true /\ has_char ":" t = false.
Proof.
  intros (a & b & c & d & Ra & Rb & Rc & Rd & -> & _). cbn [join]. split.
  - rewrite !existsb_app. cbn. now rewrite orb_true_r.
  - rewrite !has_char_app, !show_Z_nodigit_char by (reflexivity || lia). reflexivity.
Qed.
Lemma hextet_chars h v : hextet h v -> existsb (Ascii.eqb ".") h = false /\ has_char ":" h = false.
Proof.
  intros [HN _]. apply hex_number_chars in HN. rewrite forallb_forall in HN. split.
  - apply not_true_iff_false. intros E. apply existsb_exists in E as (c & I & E). apply Ascii.eqb_eq in E. subst c. now apply HN in I.
  - apply not_true_iff_false. intros E. apply existsb_exists in E as (c & I & E). apply Ascii.eqb_eq in E. subst c. now apply HN in I.
Qed.
Lemma hextets_nocolon l vs : Forall2 hextet l vs -> Forall (fun w => has_char ":" w = false) l.
Proof. induction 1 as [|h v l vs F _ IH]; constructor; [apply (hextet_chars _ _ F)|exact IH]. Qed.
Lemma groups_nocolon l vs : groups l vs -> Forall (fun w => has_char ":" w = false) l.
Proof. intros [l' vs' F|l' vs' t q F Q]; [exact (hextets_nocolon _ _ F)|]. apply Forall_app. split; [exact (hextets_nocolon _ _ F)|]. constructor; [apply (quad_dot _ _ Q)|constructor]. Qed.
Lemma pad_nocolon l : Forall (fun w => has_char ":" w = false) l -> Forall (fun w => has_char ":" w = false) (pad l).
Proof. intros F. destruct l; [|exact F]. constructor; [reflexivity|constructor]. Qed.
Lemma halves q : 0 <= q < 2 ^ 32 -> 0 <= q / 65536 < 65536 /\ 0 <= q mod 65536 < 65536.
Proof. intros R. split; [split; [apply Z.div_pos; lia|apply Z.div_lt_upper_bound; lia]|apply Z.mod_pos_bound; lia]. Qed.
Lemma expand_hex l vs x : Forall2 hextet l vs -> expand_v4 (x ++ pad l) = Ok (x ++ pad l).
Proof.
  intros F. unfold expand_v4. rewrite last_pad_app. destruct l as [|h l]; [reflexivity|].
  destruct (@exists_last _ (h :: l) ltac:(discriminate)) as (a & y & E). rewrite E in *. rewrite last_last. apply Forall2_app_inv_l in F as (v1 & v2 & _ & F & _). inversion F as [|? ? ? ? F0 ?]; subst. now rewrite (proj1 (hextet_chars _ _ F0)).
Qed.
Lemma expand_quad x t q : dotted_quad t q -> expand_v4 (x ++ [t]) = Ok (x ++ [show_hex (q / 65536); show_hex (q mod 65536)]).
Proof. intros Q. unfold expand_v4. rewrite last_last. rewrite (proj1 (quad_dot _ _ Q)). apply addr4_quad in Q. rewrite Q, removelast_last. reflexivity. Qed.
Lemma halves_hextets l vs q : Forall2 hextet l vs -> 0 <= q < 2 ^ 32 -> Forall2 hextet (l ++ [show_hex (q / 65536); show_hex (q mod 65536)]) (vs ++ [q / 65536; q mod 65536]).
Proof. intros F R. destruct (halves q R). apply Forall2_app; [exact F|]. constructor; [now apply show_hex_hextet|]. constructor; [now apply show_hex_hextet|constructor]. Qed.
Lemma groups_expand x l vs : groups l vs -> exists l', expand_v4 (x ++ pad l) = Ok (x ++ pad l') /\ Forall2 hextet l' vs /\ (l <> [] -> l' <> []).
Proof.
  intros [l0 vs0 F|l0 vs0 t q F Q].
  - exists l0. split; [exact (expand_hex _ _ _ F)|]. now split.
  - exists (l0 ++ [show_hex (q / 65536); show_hex (q mod 65536)]). split; [|split; [apply halves_hextets; [exact F|exact (quad_range _ _ Q)]|intros _; now destruct l0]].
    replace (pad (l0 ++ [t])) with (l0 ++ [t]) by now destruct l0. replace (pad (l0 ++ [show_hex (q / 65536); show_hex (q mod 65536)])) with (l0 ++ [show_hex (q / 65536); show_hex (q mod 65536)]) by now destruct l0.
    rewrite !app_assoc. apply expand_quad, Q.
Qed.
Lemma addr6_parts P : (3 <= length P)%nat -> Forall (fun w => has_char ":" w = false) P -> addr6 (join [":"%char] P) = do P' <- expand_v4 P; body P'.
Proof.
  intros L3 F. rewrite addr6_body, split_on_join by (exact F || (destruct P; [cbn in L3; lia|discriminate])). destruct (Nat.ltb_spec (length P) 3); [lia|].
  destruct P as [|a [|b P]]; [cbn in L3; lia|cbn in L3; lia|]. cbn [join]. destruct a; reflexivity.
Qed.
Theorem addr6_reads t v : v6_text t v -> addr6 t = Ok v.
Proof.
  intros [l vs G L8|hi a lo b n Fa G LN N1].
  - destruct (groups_expand [] l vs G) as (l' & E & F & NE). assert (L7 : (7 <= length l)%nat). { destruct G as [l0 vs0 F0|l0 vs0 t0 q F0 Q]; [rewrite (F2_len F0); lia|]. rewrite app_length in *. rewrite (F2_len F0). cbn in *. lia. }
    rewrite addr6_parts by (exact (groups_nocolon _ _ G) || lia). replace (pad l) with l in E by (destruct l; [cbn in L7; lia|reflexivity]). cbn [app] in E. rewrite E. cbn [bind].
    replace (pad l') with l' by (destruct l'; [exfalso; apply NE; [now destruct l|reflexivity]|reflexivity]). apply body_reads. now apply ra_full.
  - destruct (groups_expand (pad hi ++ [[]]) lo b G) as (l' & E & F & NE). rewrite <- join_gap. rewrite addr6_parts.
    + rewrite <- app_assoc in E. unfold str in *. rewrite E. cbn [bind]. rewrite <- app_assoc. apply body_reads. now apply ra_short.
    + rewrite !app_length. cbn [length]. destruct hi, lo; cbn; lia.
    + apply Forall_app. split; [apply pad_nocolon, (hextets_nocolon _ _ Fa)|]. constructor; [reflexivity|]. apply pad_nocolon, (groups_nocolon _ _ G).
Qed.
Theorem addr6_sound t v : addr6 t = Ok v -> v6_text t v.
Proof.
  intros K. rewrite addr6_body in K. destruct (nothing t); [discriminate K|]. destruct (Nat.ltb_spec (length (split_on ":" t)) 3) as [|L3]; [discriminate K|].
  rewrite <- (join_split_on ":" t). set (P := split_on ":" t) in *. clearbody P. destruct (expand_v4 P) as [P'|e] eqn:EX; cbn [bind] in K; [|discriminate K].
  unfold expand_v4 in EX. destruct (existsb (Ascii.eqb ".") (last P [])) eqn:DOT.
  - destruct (addr4 (last P [])) as [q|] eqn:A4; [|discriminate EX]. apply addr4_quad in A4. injection EX as <-.
    assert (NP : P <> []) by (destruct P; [cbn in L3; lia|discriminate]). destruct (exists_last NP) as (I & t0 & ->). rewrite last_last in *. rewrite removelast_last in K.
    pose proof (halves q (quad_range _ _ A4)) as [R1 R2]. pose proof (show_hex_hextet _ R1) as X1. pose proof (show_hex_hextet _ R2) as X2.
    apply body_sound in K; [|rewrite app_length in *; cbn in *; lia]. inversion K as [l vs F L8 E1 E2|hi a lo b n Fa Fb LN N1 E1 E2].
    + subst l. apply Forall2_app_inv_l in F as (v1 & v2 & F1 & F2 & ->). inversion F2 as [|? y1 ? ? G1 F3]; subst. inversion F3 as [|? y2 ? ? G2 F4]; subst. inversion F4; subst.
      apply parse_hextet_iff in X1, X2, G1, G2. rewrite X1 in G1. rewrite X2 in G2. injection G1 as <-. injection G2 as <-. apply v6_full; [now apply gr_v4|exact L8].
    + assert (LO : exists lo1, lo = lo1 ++ [show_hex (q / 65536); show_hex (q mod 65536)] /\ I = pad hi ++ [[]] ++ lo1).
      { assert (NN : forall r, hextet [] r -> False) by (intros r Hr; now apply hextet_nonnil in Hr).
        assert (E3 : (pad hi ++ [[]]) ++ pad lo = (I ++ [show_hex (q / 65536)]) ++ [show_hex (q mod 65536)]) by (rewrite <- !app_assoc; exact E1). clear E1. destruct lo as [|x lo].
        - cbn [pad] in E3. apply app_inj_tail in E3 as [_ E3]. rewrite <- E3 in X2. now apply NN in X2.
        - destruct (@exists_last _ (x :: lo) ltac:(discriminate)) as (lo1 & y & EL). cbn [pad] in E3. rewrite EL, app_assoc in E3. apply app_inj_tail in E3 as [E3 ->]. destruct lo1 as [|z lo1].
          + rewrite app_nil_r in E3. apply app_inj_tail in E3 as [_ E3]. rewrite <- E3 in X1. now apply NN in X1.
          + destruct (@exists_last _ (z :: lo1) ltac:(discriminate)) as (lo2 & w & EL2). rewrite EL2, app_assoc in E3. apply app_inj_tail in E3 as [E3 ->]. exists lo2. split; [rewrite EL, EL2, <- app_assoc; reflexivity|]. now rewrite <- E3, <- app_assoc. }
      destruct LO as (lo1 & -> & ->). apply Forall2_app_inv_l in Fb as (v1 & v2 & F1 & F2 & Eb). inversion F2 as [|? y1 ? ? G1 F3]; subst. inversion F3 as [|? y2 ? ? G2 F4]; subst. inversion F4; subst.
      apply parse_hextet_iff in X1, X2, G1, G2. rewrite X1 in G1. rewrite X2 in G2. injection G1 as <-. injection G2 as <-.
      replace ((pad hi ++ [[]] ++ lo1) ++ [t0]) with (pad hi ++ [[]] ++ pad (lo1 ++ [t0])) by (rewrite <- !app_assoc; now destruct lo1). rewrite join_gap. apply v6_short; try assumption. now apply gr_v4.
  - injection EX as <-. apply body_sound in K; [|exact L3]. inversion K as [l vs F L8 E1 E2|hi a lo b n Fa Fb LN N1 E1 E2]; subst.
    + apply v6_full; [now apply gr_hex|exact L8].
    + rewrite join_gap. apply v6_short; try assumption. now apply gr_hex.
Qed.
Theorem addr6_iff t v : addr6 t = Ok v <-> v6_text t v.
Proof. split; [apply addr6_sound|apply addr6_reads]. Qed.
