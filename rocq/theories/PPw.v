(** Properties of type-7 passwords. *)
From Coq Require Import Ascii String Arith NArith ZArith Bool List Lia.
From Verif Require Import PyStr PyStrFacts PyBase PwModel.
Import ListNotations.
Local Open Scope char_scope.

(** ** Specification: the type-7 encoding of IOS *)

Definition key7 : str := lit "dsfd;kfoA,.iyewrkldJKDHSUBsgvca69834ncxv9873254k;fg87".
Definition hex_digit (n : N) : ascii := nth (N.to_nat n) (lit "0123456789ABCDEF") "0".
Definition dec_digit (n : nat) : ascii := nth n (lit "0123456789") "0".

(** The [i]-th character, with salt [s], is written as two hexadecimal digits of
    its exclusive-or with the key character at [(s + i) mod 53]. *)
Fixpoint encode7_body (s : nat) (pw : str) : str :=
  match pw with
  | [] => []
  | c :: pw' =>
      let v := N.lxor (code c) (code (nth (s mod 53) key7 "0")) in
      hex_digit (v / 16) :: hex_digit (v mod 16) :: encode7_body (S s) pw'
  end.
Definition encode7 (salt : nat) (pw : str) : str :=
  dec_digit (salt / 10) :: dec_digit (salt mod 10) :: encode7_body salt pw.

(** ** Proofs *)

Lemma xlat_key i : i < 53 -> nth i xlat 0%Z = Z.of_N (code (nth i key7 "0")).
Proof.
  intros H. assert (A : forallb (fun i => Z.eqb (nth i xlat 0%Z) (Z.of_N (code (nth i key7 "0")))) (seq 0 53) = true)
    by (vm_compute; reflexivity).
  rewrite forallb_forall in A. specialize (A i). rewrite in_seq in A. apply Z.eqb_eq. apply A. lia.
Qed.

Lemma hex_val_digit n : (n < 16)%N -> hex_val (hex_digit n) = Some (Z.of_N n).
Proof.
  intros H. assert (A : forallb (fun i => match hex_val (hex_digit (N.of_nat i)) with
      Some z => Z.eqb z (Z.of_nat i) | None => false end) (seq 0 16) = true) by (vm_compute; reflexivity).
  rewrite forallb_forall in A. specialize (A (N.to_nat n)). rewrite in_seq, N2Nat.id in A.
  destruct (hex_val (hex_digit n)); [|discriminate A; lia]. f_equal. specialize (A ltac:(lia)). apply Z.eqb_eq in A. lia.
Qed.

Lemma lxor_bound a b : (a < 256)%N -> (b < 256)%N -> (N.lxor a b < 256)%N.
Proof.
  intros Ha Hb. destruct (N.eq_dec (N.lxor a b) 0) as [->|Hz]; [lia|].
  change 256%N with (2 ^ 8)%N in *. apply N.log2_lt_pow2; [lia|].
  pose proof (N.log2_lxor a b) as L.
  assert (La : (N.log2 a < 8)%N) by (destruct (N.eq_dec a 0) as [->|]; [cbn; lia|apply N.log2_lt_pow2; lia]).
  assert (Lb : (N.log2 b < 8)%N) by (destruct (N.eq_dec b 0) as [->|]; [cbn; lia|apply N.log2_lt_pow2; lia]).
  lia.
Qed.

Lemma code_bound c : (code c < 256)%N.
Proof. apply N_ascii_bounded. Qed.

Lemma no_newline_hex n : (n < 16)%N -> Ascii.eqb (hex_digit n) "010" = false.
Proof.
  intros H. assert (A : forallb (fun i => negb (Ascii.eqb (hex_digit (N.of_nat i)) "010")) (seq 0 16) = true)
    by (vm_compute; reflexivity).
  rewrite forallb_forall in A. specialize (A (N.to_nat n)). rewrite in_seq, N2Nat.id in A.
  specialize (A ltac:(lia)). now apply negb_true_iff in A.
Qed.

Lemma body_split s c pw : exists v, (v < 256)%N /\ N.lxor v (code (nth (s mod 53) key7 "0")) = code c /\
  encode7_body s (c :: pw) = hex_digit (v / 16) :: hex_digit (v mod 16) :: encode7_body (S s) pw.
Proof.
  exists (N.lxor (code c) (code (nth (s mod 53) key7 "0"))). split; [apply lxor_bound; apply code_bound|].
  split; [|reflexivity]. now rewrite N.lxor_assoc, N.lxor_nilpotent, N.lxor_0_r.
Qed.

Lemma div16 v : (v < 256)%N -> (v / 16 < 16)%N /\ (v mod 16 < 16)%N.
Proof. intros H. split; [apply N.div_lt_upper_bound; lia|apply N.mod_lt; lia]. Qed.

Lemma to_newline_body s pw : to_newline (encode7_body s pw) = encode7_body s pw.
Proof.
  revert s; induction pw as [|c pw IH]; intros s; [reflexivity|].
  destruct (body_split s c pw) as (v & Hv & _ & ->). destruct (div16 v Hv) as [H1 H2].
  cbn [to_newline]. now rewrite !no_newline_hex, IH.
Qed.

Lemma lxor_Z a b : Z.lxor (Z.of_N a) (Z.of_N b) = Z.of_N (N.lxor a b).
Proof. destruct a, b; reflexivity. Qed.

Lemma decrypt_body pw : forall s z, (z mod 53 = Z.of_nat (s mod 53))%Z ->
  decrypt_loop z (encode7_body s pw) = Ok pw.
Proof.
  induction pw as [|c pw IH]; intros s z Hz; [reflexivity|].
  destruct (body_split s c pw) as (v & Hv & Hx & ->). destruct (div16 v Hv) as [H1 H2].
  cbn [decrypt_loop]. unfold int16. rewrite !hex_val_digit by assumption.
  replace (16 * Z.of_N (v / 16) + Z.of_N (v mod 16))%Z with (Z.of_N v).
  2:{ rewrite (N.div_mod v 16) at 1 by lia. rewrite N2Z.inj_add, N2Z.inj_mul. reflexivity. }
  rewrite Hz, Nat2Z.id, xlat_key by (apply Nat.mod_upper_bound; lia).
  rewrite lxor_Z, Hx. replace (Z.of_N (code c) <? 0)%Z with false by (symmetry; apply Z.ltb_ge; lia).
  rewrite (IH (S s) (z + 1)%Z).
  - cbn [bind]. rewrite N2Z.id. unfold code. now rewrite ascii_N_embedding.
  - rewrite Nat2Z.inj_mod, Nat2Z.inj_succ. rewrite Nat2Z.inj_mod in Hz. unfold Z.succ.
    change (Z.of_nat 53) with 53%Z in *.
    rewrite (Z.add_mod z 1 53), (Z.add_mod (Z.of_nat s) 1 53) by lia. now rewrite Hz.
Qed.

Lemma even_body s pw : Nat.even (length (encode7_body s pw)) = true.
Proof. revert s; induction pw as [|c pw IH]; intros s; [reflexivity|]. cbn [encode7_body length Nat.even]. apply IH. Qed.

Lemma py_int_two n : n < 100 -> py_int [dec_digit (n / 10); dec_digit (n mod 10)] = Some (Z.of_nat n).
Proof.
  intros H. assert (A : forallb (fun i => match py_int [dec_digit (i / 10); dec_digit (i mod 10)] with
      Some z => Z.eqb z (Z.of_nat i) | None => false end) (seq 0 100) = true) by (vm_compute; reflexivity).
  rewrite forallb_forall in A. specialize (A n). rewrite in_seq in A. specialize (A ltac:(lia)).
  destruct (py_int _); [|discriminate]. apply Z.eqb_eq in A. now f_equal.
Qed.

Lemma dec_digit_nl n : n < 100 -> Ascii.eqb (dec_digit (n / 10)) "010" || Ascii.eqb (dec_digit (n mod 10)) "010" = false.
Proof.
  intros H. assert (A : forallb (fun n => negb (Ascii.eqb (dec_digit (n / 10)) "010" || Ascii.eqb (dec_digit (n mod 10)) "010")) (seq 0 100) = true)
    by (vm_compute; reflexivity).
  rewrite forallb_forall in A. specialize (A n). rewrite in_seq in A. specialize (A ltac:(lia)). now apply negb_true_iff in A.
Qed.

(** ** C28 *)

Theorem C28_decrypt_inverts : forall salt pw, salt < 100 -> pw <> [] -> decrypt (encode7 salt pw) = Ok pw.
Proof.
  intros salt pw Hs Hp. unfold decrypt, encode7. cbn [length Nat.even]. rewrite even_body, dec_digit_nl by exact Hs.
  rewrite to_newline_body, py_int_two by exact Hs. destruct (encode7_body salt pw) as [|a e] eqn:E.
  { destruct pw; [contradiction|discriminate]. }
  rewrite <- E. apply decrypt_body. symmetry. apply Nat2Z.inj_mod.
Qed.
Print Assumptions C28_decrypt_inverts.

(** The salt only counts modulo the length of the key. *)
Theorem C28_salt_mod : forall s s' e, (s mod 53 = s' mod 53)%Z -> decrypt_loop s e = decrypt_loop s' e.
Proof.
  intros s s' e. revert s s'. assert (G : forall n e, length e <= n -> forall s s', (s mod 53 = s' mod 53)%Z -> decrypt_loop s e = decrypt_loop s' e).
  { induction n as [|n IH]; intros [|a [|b e']] Hl s s' H; try reflexivity; cbn [length] in Hl; [lia|].
    cbn [decrypt_loop]. rewrite H. destruct (int16 a b); [|reflexivity].
    destruct (Z.lxor _ _ <? 0)%Z; [reflexivity|]. rewrite (IH e' ltac:(lia) (s + 1)%Z (s' + 1)%Z); [reflexivity|].
    rewrite (Z.add_mod s), (Z.add_mod s') by lia. now rewrite H. }
  intros s s' H. now apply (G (length e)).
Qed.
Print Assumptions C28_salt_mod.

(** Every text made of two decimal digits and hexadecimal pairs is decoded, to
    as many characters as there are pairs: the key is never read outside. *)
Definition is_hex (c : ascii) : Prop := exists n, (n < 16)%N /\ hex_val c = Some (Z.of_N n).
Theorem C28_wellformed_total : forall salt pairs, salt < 100 -> pairs <> [] ->
  Forall (fun p => is_hex (fst p) /\ is_hex (snd p)) pairs ->
  exists pw, decrypt (dec_digit (salt / 10) :: dec_digit (salt mod 10) :: flat_map (fun p => [fst p; snd p]) pairs) = Ok pw /\
    length pw = length pairs.
Proof.
  intros salt pairs Hs Hne HF. unfold decrypt.
  assert (Hnl : forall c, is_hex c -> Ascii.eqb c "010" = false).
  { intros c (n & _ & H). destruct (Ascii.eqb_spec c "010") as [->|]; [discriminate|reflexivity]. }
  assert (Ee : Nat.even (length (flat_map (fun p : ascii * ascii => [fst p; snd p]) pairs)) = true).
  { clear. induction pairs as [|p l IH]; [reflexivity|exact IH]. }
  cbn [length Nat.even]. rewrite Ee, dec_digit_nl by exact Hs.
  assert (Et : to_newline (flat_map (fun p : ascii * ascii => [fst p; snd p]) pairs) = flat_map (fun p => [fst p; snd p]) pairs).
  { clear - HF Hnl. induction HF as [|p l [H1 H2] _ IH]; [reflexivity|]. cbn [flat_map app to_newline]. now rewrite !Hnl, IH. }
  rewrite Et, py_int_two by exact Hs.
  destruct (flat_map (fun p : ascii * ascii => [fst p; snd p]) pairs) as [|x y] eqn:E.
  { destruct pairs; [contradiction|discriminate]. }
  rewrite <- E. clear - HF. generalize (Z.of_nat salt) as z. induction HF as [|[a b] l [H1 H2] _ IH]; intros z.
  - exists []. split; reflexivity.
  - cbn [fst snd] in *. destruct H1 as (m & Hm & Em), H2 as (n & Hn & En).
    cbn [flat_map app fst snd decrypt_loop]. unfold int16. rewrite Em, En.
    assert (B : (0 <= nth (Z.to_nat (z mod 53)) xlat 0)%Z).
    { rewrite xlat_key; [lia|]. pose proof (Z.mod_pos_bound z 53). lia. }
    destruct (Z.lxor _ _ <? 0)%Z eqn:Q.
    { apply Z.ltb_lt in Q. assert (0 <= Z.lxor (16 * Z.of_N m + Z.of_N n) (nth (Z.to_nat (z mod 53)) xlat 0))%Z; [|lia].
      apply Z.lxor_nonneg. lia. }
    destruct (IH (z + 1)%Z) as (pw & -> & Hl). cbn [bind]. eexists. split; [reflexivity|]. cbn [length]. now rewrite Hl.
Qed.
Print Assumptions C28_wellformed_total.

(** Texts of odd length give the empty password. *)
Theorem C28_odd_length : forall ep, Nat.even (length ep) = false -> decrypt ep = Ok [].
Proof. intros ep H. unfold decrypt. now rewrite H. Qed.
Print Assumptions C28_odd_length.

(** The empty password cannot be decoded. *)
Theorem C28_empty_refuted : forall salt, salt < 100 -> decrypt (encode7 salt []) = Err AttributeErr.
Proof. intros salt H. unfold decrypt, encode7. cbn [length Nat.even encode7_body to_newline]. now rewrite dec_digit_nl. Qed.
Print Assumptions C28_empty_refuted.

Example C28_ex : decrypt (lit "060506324F41") = Ok (lit "cisco") /\
  encode7 6 (lit "cisco") = lit "060506324F41" /\
  decrypt (encode7 52 (lit "a password of more than fifty-three characters, so that the key wraps around")) =
  Ok (lit "a password of more than fifty-three characters, so that the key wraps around").
Proof. vm_compute. repeat split; reflexivity. Qed.
