(** Facts about the address model. *)
From Coq Require Import Ascii String Arith NArith ZArith Bool List Lia.
From Verif Require Import PyStr PyStrFacts PyBase PwModel IpModel IpSpec.
Import ListNotations.
Local Open Scope char_scope.
Local Open Scope Z_scope.

Lemma all_ones_ones W : all_ones W = Z.ones W.
Proof. unfold all_ones. now rewrite Z.ones_equiv, Z.sub_1_r. Qed.

Lemma testbit_high a W i : 0 <= W -> 0 <= a < 2 ^ W -> W <= i -> Z.testbit a i = false.
Proof. intros HW H Hi. rewrite <- (Z.mod_small a (2 ^ W)) by lia. apply Z.mod_pow2_bits_high. lia. Qed.

Lemma net_of_div W ip p : 0 <= p <= W -> 0 <= ip < 2 ^ W ->
  net_of W ip p = ip / 2 ^ (W - p) * 2 ^ (W - p).
Proof.
  intros Hp Hip. unfold net_of, netmask_int. rewrite all_ones_ones.
  rewrite <- Z.shiftr_div_pow2, <- Z.shiftl_mul_pow2 by lia.
  apply Z.bits_inj'. intros i Hi.
  rewrite Z.land_spec, Z.lxor_spec, Z.shiftr_spec by lia.
  rewrite !Z.testbit_ones_nonneg by lia.
  destruct (Z.leb_spec W i) as [H1|H1].
  { rewrite (testbit_high ip W i) by lia. rewrite Z.shiftl_spec, Z.shiftr_spec by lia.
    replace (i - (W - p) + (W - p)) with i by lia. now rewrite (testbit_high ip W i) by lia. }
  rewrite Z.shiftl_spec by lia.
  destruct (Z.ltb_spec i W); [|lia].
  destruct (Z.ltb_spec (i + p) W) as [H2|H2].
  - rewrite andb_false_r. now rewrite (Z.testbit_neg_r (Z.shiftr ip (W - p)) (i - (W - p))) by lia.
  - rewrite Z.shiftr_spec by lia. replace (i - (W - p) + (W - p)) with i by lia. apply andb_true_r.
Qed.

Lemma show_Z_nodigit_char c z : 0 <= z -> is_digit c = false -> has_char c (show_Z z) = false.
Proof.
  intros Hz Hc. apply has_char_false. intros Hi.
  assert (D : forallb is_digit (show_Z z) = true).
  { destruct z; try lia; [reflexivity|apply show_N_digits]. }
  rewrite forallb_forall in D. rewrite (D c Hi) in Hc. discriminate.
Qed.

Lemma forallb_Z_range (f : Z -> bool) (n : nat) z :
  forallb (fun i => f (Z.of_nat i)) (seq 0 n) = true -> 0 <= z < Z.of_nat n -> f z = true.
Proof.
  intros H Hz. rewrite forallb_forall in H. specialize (H (Z.to_nat z)). rewrite in_seq, Z2Nat.id in H by lia.
  apply H. lia.
Qed.

Lemma parse_octet_show v : 0 <= v < 256 -> parse_octet (show_Z v) = Some v.
Proof.
  intros Hv.
  assert (A : (match parse_octet (show_Z v) with Some x => x =? v | None => false end) = true).
  { apply (forallb_Z_range (fun v => match parse_octet (show_Z v) with Some x => x =? v | None => false end) 256); [vm_compute; reflexivity|lia]. }
  destruct (parse_octet (show_Z v)); [|discriminate]. apply Z.eqb_eq in A. now subst.
Qed.

Lemma octets_value n : 0 <= n < 2 ^ 32 ->
  ((n / 16777216 mod 256 * 256 + n / 65536 mod 256) * 256 + n / 256 mod 256) * 256 + n mod 256 = n.
Proof. intros H. change (2 ^ 32) with 4294967296 in H. Z.div_mod_to_equations. lia. Qed.

Lemma split_dotted n : split_on "." (dotted n) =
  map show_Z [n / 16777216 mod 256; n / 65536 mod 256; n / 256 mod 256; n mod 256].
Proof.
  unfold dotted. apply split_on_join; [discriminate|].
  repeat constructor; apply show_Z_nodigit_char; try reflexivity; apply Z.mod_pos_bound; lia.
Qed.

Lemma addr4_dotted n : 0 <= n < 2 ^ 32 -> addr4 (dotted n) = Ok n.
Proof.
  intros H. unfold addr4. rewrite split_dotted. cbn [map].
  rewrite !parse_octet_show by (apply Z.mod_pos_bound; lia). now rewrite octets_value.
Qed.

Lemma dotted_noslash n : has_char "/" (dotted n) = false.
Proof.
  unfold dotted. cbn [map join].
  rewrite !has_char_app, !show_Z_nodigit_char by (try reflexivity; apply Z.mod_pos_bound; lia). reflexivity.
Qed.

Lemma make_netmask_show p : 0 <= p <= 32 -> make_netmask (show_Z p) = Ok p.
Proof.
  intros H.
  assert (A : (match make_netmask (show_Z p) with Ok x => x =? p | Err _ => false end) = true).
  { apply (forallb_Z_range (fun p => match make_netmask (show_Z p) with Ok x => x =? p | Err _ => false end) 33); [vm_compute; reflexivity|lia]. }
  destruct (make_netmask (show_Z p)); [|discriminate]. apply Z.eqb_eq in A. now subst.
Qed.

Lemma network4_mask n m : 0 <= n < 2 ^ 32 -> has_char "/" m = false ->
  network4 (dotted n ++ "/" :: m) = (do p <- make_netmask m; Ok (net_of 32 n p, p)).
Proof.
  intros Hn Hm. unfold network4.
  rewrite split_on_app by apply dotted_noslash.
  rewrite split_on_nochar by exact Hm. rewrite addr4_dotted by exact Hn. reflexivity.
Qed.

Lemma network4_text n p : 0 <= n < 2 ^ 32 -> 0 <= p <= 32 ->
  network4 (dotted n ++ "/" :: show_Z p) = Ok (net_of 32 n p, p).
Proof.
  intros Hn Hp. rewrite network4_mask, make_netmask_show; try assumption; [reflexivity|].
  apply show_Z_nodigit_char; [lia|reflexivity].
Qed.

Lemma sum_dotted n : 0 <= n < 2 ^ 32 -> sum_digits py_int 256 1 (rev (split_on "." (dotted n))) = Ok n.
Proof.
  intros H. rewrite split_dotted. cbn [map rev app sum_digits]. rewrite !py_int_show_Z. cbn [bind].
  f_equal. rewrite <- (octets_value n H) at 5. ring.
Qed.

Lemma as_decimal4_ok o : 0 <= ip_int o < 2 ^ 32 -> as_decimal4 o = Ok (ip_int o).
Proof. apply sum_dotted. Qed.

Lemma pow_pos W p : 0 <= p <= W -> 0 < 2 ^ (W - p).
Proof. intros H. apply Z.pow_pos_nonneg; lia. Qed.

Lemma first_bounds W ip p : 0 <= p <= W -> first W ip p <= ip < first W ip p + 2 ^ (W - p).
Proof.
  intros H. pose proof (pow_pos W p H) as K. unfold first.
  pose proof (Z.div_mod ip (2 ^ (W - p)) ltac:(lia)). pose proof (Z.mod_pos_bound ip (2 ^ (W - p)) K). lia.
Qed.

Lemma first_range W ip p : 0 <= p <= W -> 0 <= ip < 2 ^ W ->
  0 <= first W ip p /\ first W ip p + 2 ^ (W - p) <= 2 ^ W.
Proof.
  intros H Hi. pose proof (pow_pos W p H) as K. unfold first.
  assert (E : 2 ^ W = 2 ^ p * 2 ^ (W - p)) by (rewrite <- Z.pow_add_r by lia; f_equal; lia).
  split.
  - apply Z.mul_nonneg_nonneg; [apply Z.div_pos; lia|lia].
  - assert (Q : ip / 2 ^ (W - p) < 2 ^ p) by (apply Z.div_lt_upper_bound; lia). nia.
Qed.

Lemma block_unique W p a m : 0 <= p <= W -> m * 2 ^ (W - p) <= a < m * 2 ^ (W - p) + 2 ^ (W - p) -> a / 2 ^ (W - p) = m.
Proof. intros H Hb. pose proof (pow_pos W p H). symmetry. apply Z.div_unique with (r := a - m * 2 ^ (W - p)); lia. Qed.

Lemma first_first W ip p : 0 <= p <= W -> first W (first W ip p) p = first W ip p.
Proof. intros H. unfold first at 1 3. f_equal. pose proof (pow_pos W p H). unfold first. apply Z.div_mul. lia. Qed.

(** Two blocks: the longer prefix is inside the shorter one or apart from it. *)
Lemma block_nested W p a b q : 0 <= p <= q -> q <= W ->
  a / 2 ^ (W - q) = b / 2 ^ (W - q) -> a / 2 ^ (W - p) = b / 2 ^ (W - p).
Proof.
  intros Hp Hq E.
  assert (S : 2 ^ (W - p) = 2 ^ (W - q) * 2 ^ (q - p)) by (rewrite <- Z.pow_add_r by lia; f_equal; lia).
  assert (0 < 2 ^ (W - q)) by (apply Z.pow_pos_nonneg; lia). assert (0 < 2 ^ (q - p)) by (apply Z.pow_pos_nonneg; lia).
  rewrite S, <- !Z.div_div by lia. now rewrite E.
Qed.

(** ** The objects of the specification *)

Lemma obj_net W ip p : valid W ip p -> {| ip_int := ip; ip_net := net_of W ip p; ip_plen := p |} = obj W ip p.
Proof. intros [H1 H2]. unfold obj, first. now rewrite net_of_div. Qed.

Lemma network_obj ip p : valid 32 ip p -> network (obj 32 ip p) = Ok (first 32 ip p, p).
Proof.
  intros [H1 H2]. unfold network, net_text, obj. cbn [ip_net ip_plen].
  pose proof (first_range 32 ip p H2 H1). pose proof (pow_pos 32 p H2).
  rewrite network4_text by lia. rewrite net_of_div by lia. change (_ * _) with (first 32 (first 32 ip p) p).
  now rewrite first_first.
Qed.

Lemma cidr_net_obj ip p : valid 32 ip p -> as_cidr_net (obj 32 ip p) = Ok (dotted (first 32 ip p) ++ "/" :: show_Z p).
Proof. intros H. unfold as_cidr_net. now rewrite network_obj. Qed.

Lemma dec4 ip p : valid 32 ip p -> as_decimal4 (obj 32 ip p) = Ok ip.
Proof. intros [H _]. now apply as_decimal4_ok. Qed.

Lemma net4 ip p : valid 32 ip p -> as_decimal_network4 (obj 32 ip p) = Ok (first 32 ip p).
Proof.
  intros H. unfold as_decimal_network4. rewrite cidr_net_obj by exact H. cbn [bind].
  rewrite split_on_app by apply dotted_noslash. cbn [hd].
  apply sum_dotted. destruct H as [H1 H2]. pose proof (first_range 32 ip p H2 H1). pose proof (pow_pos 32 p H2). lia.
Qed.

Lemma bcast4 ip p : valid 32 ip p -> as_decimal_broadcast4 (obj 32 ip p) = Ok (first 32 ip p + (2 ^ (32 - p) - 1)).
Proof. intros H. unfold as_decimal_broadcast4. now rewrite net4. Qed.

Lemma set_prefix_obj4 ip p m : valid 32 ip p -> valid 32 ip m ->
  set_prefixlen4 (obj 32 ip p) (show_Z m) = Ok (obj 32 ip m).
Proof.
  intros [H1 H2] [_ H3]. unfold set_prefixlen4, obj. cbn [ip_int]. rewrite network4_text by lia. cbn [bind fst snd].
  unfold first. now rewrite net_of_div.
Qed.

(** IPv6 text *)

Lemma hex_acc_hex4 acc n : 0 <= n < 65536 -> hex_acc acc (hex4 n) = Some (65536 * acc + n).
Proof.
  intros H.
  assert (D : forall m, 0 <= m < 16 -> hex_val (hex_low m) = Some m).
  { intros m Hm.
    assert (A : (match hex_val (hex_low m) with Some x => x =? m | None => false end) = true).
    { apply (forallb_Z_range (fun m => match hex_val (hex_low m) with Some x => x =? m | None => false end) 16); [vm_compute; reflexivity|lia]. }
    destruct (hex_val (hex_low m)); [|discriminate]. apply Z.eqb_eq in A. now subst. }
  unfold hex4. cbn [hex_acc]. rewrite !D by (apply Z.mod_pos_bound; lia). f_equal.
  Z.div_mod_to_equations. lia.
Qed.

Lemma hex_low_colon m : 0 <= m < 16 -> Ascii.eqb ":" (hex_low m) = false.
Proof.
  intros Hm. apply negb_true_iff.
  apply (forallb_Z_range (fun m => negb (Ascii.eqb ":" (hex_low m))) 16); [vm_compute; reflexivity|lia].
Qed.

Lemma hex4_nocolon n : has_char ":" (hex4 n) = false.
Proof.
  unfold hex4, has_char. cbn [existsb]. rewrite !hex_low_colon by (apply Z.mod_pos_bound; lia). reflexivity.
Qed.

Lemma int_hex_hex4 n : 0 <= n < 65536 -> int_hex (hex4 n) = Some n.
Proof. intros H. unfold int_hex. change (hex4 n) with (hex4 n). rewrite hex_acc_hex4 by exact H. reflexivity. Qed.

Lemma base_split (b n : Z) (k : nat) : 0 < b -> 0 <= n < b ^ Z.of_nat (S k) ->
  n = n mod b + b * (n / b) /\ 0 <= n / b < b ^ Z.of_nat k.
Proof.
  intros Hb Hn. rewrite Nat2Z.inj_succ, Z.pow_succ_r in Hn by lia. split.
  - rewrite Z.add_comm. apply Z.div_mod. lia.
  - split; [apply Z.div_pos; lia|]. apply Z.div_lt_upper_bound; lia.
Qed.

Lemma groups_value n : 0 <= n < 2 ^ 128 ->
  n / 65536 ^ 0 mod 65536 * 1 + (n / 65536 ^ 1 mod 65536 * 65536 + (n / 65536 ^ 2 mod 65536 * 65536 ^ 2 +
  (n / 65536 ^ 3 mod 65536 * 65536 ^ 3 + (n / 65536 ^ 4 mod 65536 * 65536 ^ 4 + (n / 65536 ^ 5 mod 65536 * 65536 ^ 5 +
  (n / 65536 ^ 6 mod 65536 * 65536 ^ 6 + (n / 65536 ^ 7 mod 65536 * 65536 ^ 7 + 0))))))) = n.
Proof.
  intros H.
  assert (S : forall i, 0 <= i -> n / 65536 ^ i = n / 65536 ^ i mod 65536 + 65536 * (n / 65536 ^ (i + 1))).
  { intros i Hi. rewrite Z.pow_add_r, <- Z.div_div by lia. change (65536 ^ 1) with 65536.
    rewrite Z.add_comm. apply Z.div_mod. lia. }
  assert (L : n / 65536 ^ 8 = 0) by (apply Z.div_small; change (65536 ^ 8) with (2 ^ 128); lia).
  assert (E0 : n / 65536 ^ 0 = n / 65536 ^ 0 mod 65536 + 65536 * (n / 65536 ^ 1)) by (exact (S 0 ltac:(lia))).
  assert (E1 : n / 65536 ^ 1 = n / 65536 ^ 1 mod 65536 + 65536 * (n / 65536 ^ 2)) by (exact (S 1 ltac:(lia))).
  assert (E2 : n / 65536 ^ 2 = n / 65536 ^ 2 mod 65536 + 65536 * (n / 65536 ^ 3)) by (exact (S 2 ltac:(lia))).
  assert (E3 : n / 65536 ^ 3 = n / 65536 ^ 3 mod 65536 + 65536 * (n / 65536 ^ 4)) by (exact (S 3 ltac:(lia))).
  assert (E4 : n / 65536 ^ 4 = n / 65536 ^ 4 mod 65536 + 65536 * (n / 65536 ^ 5)) by (exact (S 4 ltac:(lia))).
  assert (E5 : n / 65536 ^ 5 = n / 65536 ^ 5 mod 65536 + 65536 * (n / 65536 ^ 6)) by (exact (S 5 ltac:(lia))).
  assert (E6 : n / 65536 ^ 6 = n / 65536 ^ 6 mod 65536 + 65536 * (n / 65536 ^ 7)) by (exact (S 6 ltac:(lia))).
  assert (E7 : n / 65536 ^ 7 = n / 65536 ^ 7 mod 65536 + 65536 * (n / 65536 ^ 8)) by (exact (S 7 ltac:(lia))).
  clear S. rewrite L in E7.
  assert (Z0 : n / 65536 ^ 0 = n) by (change (65536 ^ 0) with 1; apply Z.div_1_r).
  rewrite Z0 in *.
  revert E0. generalize (n mod 65536). intros g0.
  revert E1 E2 E3 E4 E5 E6 E7.
  generalize (n / 65536 ^ 1 mod 65536) (n / 65536 ^ 2 mod 65536) (n / 65536 ^ 3 mod 65536) (n / 65536 ^ 4 mod 65536)
    (n / 65536 ^ 5 mod 65536) (n / 65536 ^ 6 mod 65536) (n / 65536 ^ 7 mod 65536).
  generalize (n / 65536 ^ 1) (n / 65536 ^ 2) (n / 65536 ^ 3) (n / 65536 ^ 4) (n / 65536 ^ 5) (n / 65536 ^ 6) (n / 65536 ^ 7).
  intros. change (65536 ^ 2) with 4294967296. change (65536 ^ 3) with 281474976710656.
  change (65536 ^ 4) with 18446744073709551616. change (65536 ^ 5) with 1208925819614629174706176.
  change (65536 ^ 6) with 79228162514264337593543950336. change (65536 ^ 7) with 5192296858534827628530496329220096.
  lia.
Qed.

Lemma sum_exploded n : 0 <= n < 2 ^ 128 -> sum_digits int_hex 65536 1 (rev (split_on ":" (exploded6 n))) = Ok n.
Proof.
  intros H. unfold exploded6. rewrite split_on_join; [|discriminate|repeat constructor; apply hex4_nocolon].
  cbn [map rev app sum_digits]. rewrite !int_hex_hex4 by (apply Z.mod_pos_bound; lia). cbn [bind].
  f_equal. rewrite <- (groups_value n H) at 9. ring.
Qed.

Lemma dec6 ip p : valid 128 ip p -> as_decimal6 (obj 128 ip p) = Ok ip.
Proof. intros [H _]. now apply sum_exploded. Qed.
Lemma net6 ip p : valid 128 ip p -> as_decimal_network6 (obj 128 ip p) = Ok (first 128 ip p).
Proof.
  intros [H1 H2]. apply sum_exploded. cbn [ip_net obj].
  pose proof (first_range 128 ip p H2 H1). pose proof (pow_pos 128 p H2). lia.
Qed.
Lemma maxint6 ip p : valid 128 ip p -> as_decimal_maxint6 (obj 128 ip p) = Ok (first 128 ip p + (2 ^ (128 - p) - 1)).
Proof. intros H. unfold as_decimal_maxint6. now rewrite net6. Qed.

Lemma set_prefix_obj6 ip p m : valid 128 ip p -> valid 128 ip m ->
  set_prefixlen6 (obj 128 ip p) m = Ok (obj 128 ip m).
Proof.
  intros [H1 H2] [_ H3]. unfold set_prefixlen6. replace (0 <=? m) with true by lia. replace (m <=? 128) with true by lia.
  cbn [andb ip_int obj]. now rewrite obj_net.
Qed.
