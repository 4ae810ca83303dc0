(** C76: other forms, masks, members and classes of address objects. *)
From Coq Require Import Ascii String Arith NArith ZArith Bool List Lia Sorted.
From Verif Require Import PyStr PyStrFacts PyBase PyBaseFacts IpModel IpSpec IpFacts PIp PIpText Ip6TextModel Ip6TextSpec Ip6Facts PIp6Text AttrModel AttrSpec.
Import ListNotations.
Local Open Scope char_scope.
Local Open Scope Z_scope.

(** ** Numbers as texts *)
Lemma hex_low_nth d : 0 <= d < 16 -> nth_error (lit "0123456789abcdef") (Z.to_nat d) = Some (hex_low d).
Proof. intros H. unfold hex_low. apply nth_error_nth'. cbn. lia. Qed.
Lemma radix_spells b : 2 <= b <= 16 -> forall f n, 0 <= n < 2 ^ Z.of_nat f -> f <> O -> spells b (radix_text f b n) n.
Proof.
  intros B. induction f as [|f IH]; intros n Rn NF; [congruence|]. cbn [radix_text]. pose proof (Z.mod_pos_bound n b ltac:(lia)) as MB. destruct (Z.ltb_spec n b) as [L|L].
  - cbn [app]. rewrite Z.mod_small by lia. constructor; [lia|apply hex_low_nth; lia].
  - rewrite (Z.div_mod n b) at 3 by lia. rewrite Nat2Z.inj_succ, Z.pow_succ_r in Rn by lia.
    assert (D : 0 <= n / b < 2 ^ Z.of_nat f). { split; [apply Z.div_pos; lia|]. apply Z.div_lt_upper_bound; [lia|]. assert (0 < 2 ^ Z.of_nat f) by (apply Z.pow_pos_nonneg; lia). nia. }
    constructor; [|exact MB|apply hex_low_nth; lia]. apply IH; [exact D|]. intros ->. change (2 ^ Z.of_nat 0) with 1 in D. assert (1 <= n / b) by (apply Z.div_le_lower_bound; lia). lia.
Qed.
Lemma in_radix_spells b n : 2 <= b <= 16 -> 0 <= n -> spells b (in_radix b n) n.
Proof.
  intros B Rn. unfold in_radix. apply radix_spells; [exact B| |discriminate]. split; [exact Rn|]. rewrite Nat2Z.inj_succ, Z2Nat.id by apply Z.log2_nonneg.
  destruct (Z.eq_dec n 0) as [->|NZ]; [reflexivity|]. apply Z.log2_spec. lia.
Qed.
Lemma zero_spells b k s v : 2 <= b -> spells b s v -> spells b (zeros k ++ s) v.
Proof.
  intros B Sp. induction k as [|k IH]; [exact Sp|]. change (zeros (S k) ++ s) with ("0"%char :: (zeros k ++ s)). generalize dependent (zeros k ++ s). intros u Su. clear Sp. induction Su as [c d D N0|u w c d Su IH D N0].
  - change ["0"%char; c] with (["0"%char] ++ [c]). replace d with (b * 0 + d) by lia. constructor; [constructor; [lia|reflexivity]|exact D|exact N0].
  - rewrite app_comm_cons. constructor; auto.
Qed.
Lemma radix_length b : 2 <= b -> forall k f n, 0 <= n < b ^ Z.of_nat k -> k <> O -> (length (radix_text f b n) <= k)%nat.
Proof.
  intros B. induction k as [|k IH]; intros f n Rn NK; [congruence|]. destruct f as [|f]; [cbn; lia|]. cbn [radix_text]. rewrite app_length. cbn [length]. destruct (Z.ltb_spec n b) as [L|L]; [cbn; lia|].
  rewrite Nat2Z.inj_succ, Z.pow_succ_r in Rn by lia. assert (D : 0 <= n / b < b ^ Z.of_nat k) by (split; [apply Z.div_pos; lia|apply Z.div_lt_upper_bound; lia]).
  assert (1 <= n / b) by (apply Z.div_le_lower_bound; lia). destruct k as [|k]; [change (b ^ Z.of_nat 0) with 1 in D; lia|]. specialize (IH f (n / b) D ltac:(discriminate)). lia.
Qed.
Lemma fill_spells b w n : 2 <= b <= 16 -> 0 <= n < b ^ Z.of_nat w -> w <> O -> spells b (zero_fill w (in_radix b n)) n /\ length (zero_fill w (in_radix b n)) = w.
Proof.
  intros B Rn NW. split; [apply zero_spells; [lia|]; apply in_radix_spells; lia|]. unfold zero_fill, zeros. rewrite app_length, repeat_length. pose proof (radix_length b ltac:(lia) w (S (Z.to_nat (Z.log2 n))) n Rn NW). unfold in_radix. lia.
Qed.
(** The number a text spells is determined. *)
Lemma digit_inj (d d' : Z) (b b' : Z) (c : ascii) : 0 <= d < b -> 0 <= d' < b' -> nth_error (lit "0123456789abcdef") (Z.to_nat d) = Some c -> nth_error (lit "0123456789abcdef") (Z.to_nat d') = Some c -> d = d'.
Proof.
  intros R R' E E'. assert (ND : NoDup (lit "0123456789abcdef")). { cbn. repeat (constructor; [cbn; intuition discriminate|]). constructor. }
  assert (K : Z.to_nat d = Z.to_nat d'). { rewrite NoDup_nth_error in ND. apply ND; [apply nth_error_Some; now rewrite E|now rewrite E, E']. } lia.
Qed.
Lemma spells_unique b s v v' : spells b s v -> spells b s v' -> v = v'.
Proof.
  intros Sp. revert v'. induction Sp as [c d D N0|s v c d Sp IH D N0]; intros v' Sp'; inversion Sp' as [c' d' D' N0' E|s' w c' d' Sp'' D' N0' E]; subst.
  - now apply (digit_inj d v' b b c).
  - exfalso. destruct s' as [|x s']; [inversion Sp'' as [|s0 ? ? ? ? ? ? E0]; now destruct s0|]. destruct s'; discriminate E.
  - exfalso. destruct s as [|x s]; [inversion Sp as [|s0 ? ? ? ? ? ? E0]; now destruct s0|]. destruct s; discriminate E.
  - apply app_inj_tail in E as [-> ->]. rewrite (IH _ Sp''). f_equal. now apply (digit_inj d d' b b c).
Qed.
Lemma spells_head b : 2 <= b <= 16 -> forall f n, 0 < n < 2 ^ Z.of_nat f -> hd "0"%char (radix_text f b n) <> "0"%char.
Proof.
  intros B. induction f as [|f IH]; intros n Rn; [change (2 ^ Z.of_nat 0) with 1 in Rn; lia|]. cbn [radix_text]. destruct (Z.ltb_spec n b) as [L|L].
  - cbn [app hd]. rewrite Z.mod_small by lia. intros E. assert (K : n = 0); [|lia]. apply (digit_inj n 0 b b "0"%char); try lia; [|reflexivity]. rewrite (hex_low_nth n) by lia. now rewrite E.
  - rewrite Nat2Z.inj_succ, Z.pow_succ_r in Rn by lia. assert (1 <= n / b) by (apply Z.div_le_lower_bound; lia).
    assert (D : 0 < n / b < 2 ^ Z.of_nat f). { split; [lia|]. apply Z.div_lt_upper_bound; [lia|]. assert (0 < 2 ^ Z.of_nat f) by (apply Z.pow_pos_nonneg; lia). nia. }
    specialize (IH (n / b) D). destruct (radix_text f b (n / b)) as [|c r]; [now contradiction IH|exact IH].
Qed.
Lemma hex_text n : 0 <= n -> exists t, py_hex n = lit "0x" ++ t /\ spells 16 t n /\ (n = 0 /\ t = lit "0" \/ n <> 0 /\ hd "0"%char t <> "0"%char).
Proof.
  intros Rn. exists (in_radix 16 n). split; [reflexivity|]. split; [apply in_radix_spells; lia|]. destruct (Z.eq_dec n 0) as [->|NZ]; [left; now split|]. right. split; [exact NZ|]. apply spells_head; [lia|]. split; [lia|].
  rewrite Nat2Z.inj_succ, Z2Nat.id by apply Z.log2_nonneg. apply Z.log2_spec. lia.
Qed.
Lemma octets_of f n : octet_texts f (split_on "." (dotted n)) = Ok (map f [n / 16777216 mod 256; n / 65536 mod 256; n / 256 mod 256; n mod 256]).
Proof. rewrite split_dotted. cbn [map octet_texts]. rewrite !py_int_show_Z. reflexivity. Qed.
Lemma octets_combine n : 0 <= n < 2 ^ 32 -> combine 256 [n / 16777216 mod 256; n / 65536 mod 256; n / 256 mod 256; n mod 256] = n.
Proof. intros R. unfold combine. cbn [fold_left]. rewrite <- (octets_value n R) at 5. ring. Qed.
Lemma parts_octets b w n : 2 <= b <= 16 -> 256 <= b ^ Z.of_nat w -> 0 <= n < 2 ^ 32 ->
  parts_of b 256 w (map (fun v => zero_fill w (in_radix b v)) [n / 16777216 mod 256; n / 65536 mod 256; n / 256 mod 256; n mod 256]) n.
Proof.
  intros B BW R. assert (NW : w <> O) by (intros ->; change (b ^ Z.of_nat 0) with 1 in BW; lia). eexists. split; [|split; [|exact (octets_combine n R)]].
  - cbn [map]. repeat (constructor; [apply fill_spells; [exact B| |exact NW]; match goal with |- 0 <= ?x mod 256 < _ => pose proof (Z.mod_pos_bound x 256 ltac:(lia)); lia end|]). constructor.
  - repeat (constructor; [apply Z.mod_pos_bound; lia|]). constructor.
Qed.

Fixpoint bytes_value (l : str) : list Z := match l with [] => [] | c :: r => Z.of_N (N_of_ascii c) :: bytes_value r end.
Lemma bytes_app a b : bytes_value (a ++ b) = bytes_value a ++ bytes_value b.
Proof. induction a as [|c a IH]; [reflexivity|]. cbn. now rewrite IH. Qed.
Lemma big_endian_value k : forall n, 0 <= n < 256 ^ Z.of_nat k -> length (big_endian k n) = k /\ combine 256 (bytes_value (big_endian k n)) = n.
Proof.
  induction k as [|k IH]; intros n Rn; [change (256 ^ Z.of_nat 0) with 1 in Rn; split; [reflexivity|cbn; lia]|]. cbn [big_endian]. rewrite Nat2Z.inj_succ, Z.pow_succ_r in Rn by lia.
  assert (D : 0 <= n / 256 < 256 ^ Z.of_nat k) by (split; [apply Z.div_pos; lia|apply Z.div_lt_upper_bound; lia]). destruct (IH _ D) as [L0 V]. rewrite app_length, L0. cbn [length]. split; [lia|].
  rewrite bytes_app. unfold combine in *. rewrite fold_left_app, V. cbn [bytes_value fold_left]. pose proof (Z.mod_pos_bound n 256 ltac:(lia)) as MB. rewrite N_ascii_embedding by lia. rewrite Z2N.id by lia. rewrite Z.mul_comm. symmetry. apply Z.div_mod. lia.
Qed.
(** In every form the address can be read. *)
Theorem C76_forms4 : forall ip p, valid 32 ip p ->
  (exists t, as_hex4 (obj 32 ip p) = Ok (lit "0x" ++ t) /\ spells 16 t ip /\ (ip = 0 /\ t = lit "0" \/ ip <> 0 /\ hd "0"%char t <> "0"%char)) /\
  (exists l, as_hex_tuple4 (obj 32 ip p) = Ok l /\ parts_of 16 256 2 l ip) /\
  (exists l, as_binary_tuple4 (obj 32 ip p) = Ok l /\ parts_of 2 256 8 l ip) /\
  (length (packed 4 (obj 32 ip p)) = 4%nat /\ combine 256 (bytes_value (packed 4 (obj 32 ip p))) = ip) /\
  (exists l, as_zeropadded_network (obj 32 ip p) = Ok (join ["."%char] l ++ "/"%char :: show_Z p) /\ parts_of 10 256 3 l (first 32 ip p)).
Proof.
  intros ip p V. pose proof V as [R RP]. split; [|split; [|split; [|split]]].
  - unfold as_hex4. rewrite dec4 by exact V. cbn [bind]. destruct (hex_text ip ltac:(lia)) as (t & -> & K). exists t. now split.
  - eexists. split; [apply octets_of|]. apply parts_octets; [lia|reflexivity || (cbn; lia)|exact R].
  - eexists. split; [apply octets_of|]. apply parts_octets; [lia|cbn; lia|exact R].
  - apply big_endian_value. exact R.
  - pose proof (IpFacts.first_range 32 ip p RP R) as FR. assert (FR' : 0 <= first 32 ip p < 2 ^ 32) by (pose proof (pow_pos 32 p RP); lia). unfold as_zeropadded_network. rewrite cidr_net_obj by exact V. cbn [bind]. rewrite split_on_app by apply dotted_noslash. cbn [hd]. rewrite octets_of. cbn [bind ip_plen obj].
    set (n := first 32 ip p) in *. exists (map (fun v => zero_fill 3 (show_Z v)) [n / 16777216 mod 256; n / 65536 mod 256; n / 256 mod 256; n mod 256]). split; [reflexivity|].
    assert (K : forall v, 0 <= v < 256 -> show_Z v = in_radix 10 v). { intros v Rv. apply str_eqb_eq. apply (forallb_Z_range (fun v => str_eqb (show_Z v) (in_radix 10 v)) 256); [vm_compute; reflexivity|lia]. }
    cbn [map]. rewrite !K by (apply Z.mod_pos_bound; lia). apply (parts_octets 10 3); [lia|cbn; lia|exact FR'].
Qed.
Print Assumptions C76_forms4.
Lemma exploded_parts n : split_on ":" (exploded6 n) = map hex4 (hextets n).
Proof. unfold exploded6. rewrite split_on_join; [|discriminate|repeat constructor; apply hex4_nocolon]. unfold hextets. now rewrite map_map. Qed.
Lemma hex4_spells v : 0 <= v < 65536 -> spells 16 (hex4 v) v.
Proof.
  intros R. assert (E : v = 16 * (16 * (16 * (v / 4096 mod 16) + v / 256 mod 16) + v / 16 mod 16) + v mod 16).
  { rewrite (Z.mod_small (v / 4096)) by (split; [apply Z.div_pos; lia|apply Z.div_lt_upper_bound; lia]). replace (v / 4096) with (v / 256 / 16) by (rewrite Z.div_div by lia; reflexivity). replace (v / 256) with (v / 16 / 16) by (rewrite Z.div_div by lia; reflexivity).
    rewrite <- (Z.div_mod (v / 16 / 16) 16) by lia. rewrite <- (Z.div_mod (v / 16) 16) by lia. apply Z.div_mod. lia. }
  rewrite E at 2. unfold hex4. change [hex_low (v / 4096 mod 16); hex_low (v / 256 mod 16); hex_low (v / 16 mod 16); hex_low (v mod 16)] with ((([hex_low (v / 4096 mod 16)] ++ [hex_low (v / 256 mod 16)]) ++ [hex_low (v / 16 mod 16)]) ++ [hex_low (v mod 16)]).
  assert (MB : forall x, 0 <= x mod 16 < 16) by (intros x; apply Z.mod_pos_bound; lia).
  repeat (apply sp_more; [|apply MB|apply hex_low_nth, MB]). apply sp_one; [apply MB|apply hex_low_nth, MB].
Qed.
Theorem C76_forms6 : forall ip p, valid 128 ip p ->
  (exists t, as_hex6 (obj 128 ip p) = Ok (lit "0x" ++ t) /\ spells 16 t ip /\ (ip = 0 /\ t = lit "0" \/ ip <> 0 /\ hd "0"%char t <> "0"%char)) /\
  (length (as_hex_tuple6 (obj 128 ip p)) = 8%nat /\ parts_of 16 65536 4 (as_hex_tuple6 (obj 128 ip p)) ip) /\
  (exists l, as_binary_tuple6 (obj 128 ip p) = Ok l /\ length l = 8%nat /\ parts_of 2 65536 16 l ip) /\
  (length (packed 16 (obj 128 ip p)) = 16%nat /\ combine 256 (bytes_value (packed 16 (obj 128 ip p))) = ip).
Proof.
  intros ip p V. pose proof V as [R RP]. pose proof (hextets_range ip) as HR. pose proof (value_hextets ip R) as HV. split; [|split; [|split]].
  - unfold as_hex6. rewrite dec6 by exact V. cbn [bind]. destruct (hex_text ip (proj1 R)) as (t & -> & K). exists t. now split.
  - unfold as_hex_tuple6. cbn [ip_int obj]. rewrite exploded_parts. split; [reflexivity|]. exists (hextets ip). split; [|now split].
    clear HV. induction HR as [|v l Rv F IH]; [constructor|]. constructor; [|exact IH]. split; [now apply hex4_spells|reflexivity].
  - unfold as_binary_tuple6, as_hex_tuple6. cbn [ip_int obj]. rewrite exploded_parts.
    assert (K : forall l, Forall (fun v => 0 <= v < 65536) l -> group_bits (map hex4 l) = Ok (map (fun v => zero_fill 16 (in_radix 2 v)) l)).
    { induction 1 as [|v l Rv F IH]; [reflexivity|]. cbn [map group_bits]. rewrite int_hex_hex4 by exact Rv. rewrite IH. reflexivity. }
    rewrite K by exact HR. eexists. split; [reflexivity|]. split; [reflexivity|]. exists (hextets ip). split; [|now split]. clear HV K. induction HR as [|v l Rv F IH]; [constructor|]. constructor; [|exact IH]. apply fill_spells; [lia|exact Rv|discriminate].
  - apply big_endian_value. exact R.
Qed.
Print Assumptions C76_forms6.
(** So two addresses with the same hexadecimal text are the same. *)
Theorem C76_hex_distinguishes : forall ip p jp q, valid 32 ip p -> valid 32 jp q -> as_hex4 (obj 32 ip p) = as_hex4 (obj 32 jp q) -> ip = jp.
Proof.
  intros ip p jp q V V' E. destruct (C76_forms4 ip p V) as [(t & Et & St & _) _], (C76_forms4 jp q V') as [(u & Eu & Su & _) _]. rewrite Et, Eu in E. injection E as <-. exact (spells_unique 16 t ip jp St Su).
Qed.
Print Assumptions C76_hex_distinguishes.

(** ** Masks *)
Lemma hostmask_ones W o : 0 <= ip_plen o <= W -> hostmask W o = Z.ones (W - ip_plen o).
Proof.
  intros RP. unfold hostmask, netmask, netmask_int. rewrite all_ones_ones. rewrite (Z.lxor_comm (Z.ones W) (Z.shiftr _ _)), Z.lxor_assoc, Z.lxor_nilpotent, Z.lxor_0_r.
  rewrite Z.shiftr_div_pow2 by lia. apply Z.ones_div_pow2. lia.
Qed.
Lemma land_net W m ip p : 0 <= p <= W -> 0 <= m <= W - p -> Z.land (first W ip p) (Z.ones m) = 0.
Proof.
  intros RP RM. rewrite Z.land_ones by lia. unfold first. replace (2 ^ (W - p)) with (2 ^ (W - p - m) * 2 ^ m) at 2 by (rewrite <- Z.pow_add_r by lia; f_equal; lia).
  rewrite Z.mul_assoc. apply Z.mod_mul. apply Z.pow_nonzero; lia.
Qed.
Lemma last_obj W ip p : valid W ip p -> last_address W (obj W ip p) = first W ip p + (2 ^ (W - p) - 1).
Proof.
  intros [R RP]. unfold last_address. rewrite hostmask_ones by exact RP. cbn [ip_net ip_plen obj]. pose proof (land_net W (W - p) ip p RP ltac:(lia)) as L0.
  rewrite <- (Z.lxor_lor _ _ L0), <- (Z.add_nocarry_lxor _ _ L0). f_equal. rewrite Z.ones_equiv. lia.
Qed.
Lemma netmask_obj W ip p : valid W ip p -> netmask W (obj W ip p) = 2 ^ W - 2 ^ (W - p).
Proof.
  intros [R RP]. unfold netmask. cbn [ip_plen obj]. assert (PW : 0 < 2 ^ W) by (apply Z.pow_pos_nonneg; lia). assert (RO : 0 <= 2 ^ W - 1 < 2 ^ W) by lia.
  pose proof (net_of_div W (2 ^ W - 1) p RP RO) as E. unfold net_of in E.
  assert (K : Z.land (2 ^ W - 1) (netmask_int W p) = netmask_int W p).
  { change (2 ^ W - 1) with (all_ones W). unfold netmask_int. rewrite all_ones_ones. rewrite Z.shiftr_div_pow2, Z.ones_div_pow2 by lia. apply Z.bits_inj'. intros i Hi. rewrite Z.land_spec, Z.lxor_spec, !Z.testbit_ones_nonneg by lia.
    destruct (Z.ltb_spec i W), (Z.ltb_spec i (W - p)); try reflexivity. lia. }
  rewrite <- K, E. assert (S0 : 2 ^ W = 2 ^ p * 2 ^ (W - p)) by (rewrite <- Z.pow_add_r by lia; f_equal; lia). pose proof (pow_pos W p RP) as PP. assert (PQ : 0 < 2 ^ p) by (apply Z.pow_pos_nonneg; lia).
  assert (D : (2 ^ W - 1) / 2 ^ (W - p) = 2 ^ p - 1). { symmetry. apply (Z.div_unique _ _ _ (2 ^ (W - p) - 1)); [lia|]. rewrite S0. ring. } rewrite D, S0. ring.
Qed.
(** The netmask has the leading ones, the host mask the rest; an address is in the network if and only
    if it agrees with the object under the netmask; the broadcast address is the last one. *)
Theorem C76_masks : forall W ip p, valid W ip p ->
  netmask W (obj W ip p) = 2 ^ W - 2 ^ (W - p) /\ hostmask W (obj W ip p) = 2 ^ (W - p) - 1 /\
  (forall a, 0 <= a < 2 ^ W -> (in_net W ip p a <-> Z.land a (netmask W (obj W ip p)) = Z.land ip (netmask W (obj W ip p)))) /\
  in_net W ip p (last_address W (obj W ip p)) /\ (forall a, in_net W ip p a -> ip_net (obj W ip p) <= a <= last_address W (obj W ip p)) /\ in_net W ip p (ip_net (obj W ip p)) /\
  broadcast4 (obj W ip p) = Ok (last_address 32 (obj W ip p)) /\ broadcast6 (obj W ip p) = Err NotImplementedErr.
Proof.
  intros W ip p V. pose proof V as [R RP]. pose proof (pow_pos W p RP) as PP. rewrite last_obj by exact V. split; [now apply netmask_obj|]. split; [rewrite hostmask_ones by exact RP; cbn [ip_plen obj]; rewrite Z.ones_equiv; lia|]. split.
  - intros a Ra. pose proof (net_of_div W a p RP Ra) as Ea. pose proof (net_of_div W ip p RP R) as Ei. unfold net_of in Ea, Ei. unfold netmask. cbn [ip_plen obj]. rewrite Ea, Ei. unfold in_net. split; [intros [_ ->]; reflexivity|].
    intros E. split; [exact Ra|]. apply Z.mul_reg_r in E; [exact E|lia].
  - split; [rewrite in_net_interval by exact V; lia|]. split; [intros a Ia; rewrite in_net_interval in Ia by exact V; exact Ia|]. split; [rewrite in_net_interval by exact V; cbn [ip_net obj]; lia|]. now split.
Qed.
Print Assumptions C76_masks.

(** ** Running through a network *)
Lemma seq_sorted k : forall s, StronglySorted lt (seq s k).
Proof. induction k as [|k IH]; intros s; constructor; [apply IH|]. apply Forall_forall. intros i Hi. apply in_seq in Hi. lia. Qed.
Lemma map_sorted (f : nat -> Z) l : (forall i j, (i < j)%nat -> f i < f j) -> StronglySorted lt l -> StronglySorted Z.lt (map f l).
Proof. intros F. induction 1 as [|i l SS IH Fa]; cbn; constructor; [exact IH|]. apply Forall_forall. intros z Hz. apply in_map_iff in Hz as (j & <- & Hj). apply F. rewrite Forall_forall in Fa. now apply Fa. Qed.
(** A loop over an object meets every address of its network once, in order, and no other. *)
Theorem C76_iterates : forall W ip p, valid W ip p ->
  (forall a, In a (iterate W (obj W ip p)) <-> in_net W ip p a) /\ StronglySorted Z.lt (iterate W (obj W ip p)) /\
  Z.of_nat (length (iterate W (obj W ip p))) = 2 ^ (W - p).
Proof.
  intros W ip p V. pose proof V as [R RP]. pose proof (pow_pos W p RP) as PP. unfold iterate. rewrite last_obj by exact V. cbn [ip_net obj].
  replace (first W ip p + (2 ^ (W - p) - 1) + 1 - first W ip p) with (2 ^ (W - p)) by lia. split; [|split].
  - intros a. rewrite in_net_interval by exact V. rewrite in_map_iff. split.
    + intros (i & <- & Hi). apply in_seq in Hi. lia.
    + intros B. exists (Z.to_nat (a - first W ip p)). split; [lia|]. apply in_seq. lia.
  - apply map_sorted; [lia|apply seq_sorted].
  - rewrite map_length, seq_length. lia.
Qed.
Print Assumptions C76_iterates.
(** [next(object)] fails on every object. *)
Theorem C76_next_refuted : ~ exists W ip p a, valid W ip p /\ next (obj W ip p) = Ok a.
Proof. intros (W & ip & p & a & _ & E). discriminate E. Qed.
Print Assumptions C76_next_refuted.

(** ** Classes *)
Definition block (W : Z) (b : Z * Z) : Prop := 0 <= snd b <= W /\ 0 <= fst b < 2 ^ W /\ first W (fst b) (snd b) = fst b.
Lemma in_block_range W b a : block W b -> 0 <= a < 2 ^ W -> (in_block W b a = true <-> in_range W b a).
Proof.
  intros (RQ & RB & FB) Ra. unfold in_block, in_range. rewrite Z.eqb_eq. pose proof (net_of_div W a (snd b) RQ Ra) as E. unfold net_of in E. rewrite E. unfold first in FB. pose proof (pow_pos W (snd b) RQ) as PP. split.
  - intros E1. split; [exact Ra|]. rewrite <- FB in E1. apply Z.mul_reg_r in E1; [exact E1|lia].
  - intros [_ ->]. exact FB.
Qed.
Lemma range_interval W b a : block W b -> (in_range W b a <-> fst b <= a < fst b + 2 ^ (W - snd b)).
Proof.
  intros (RQ & RB & FB). assert (V : valid W (fst b) (snd b)) by now split. pose proof (in_net_interval W (fst b) (snd b) a V) as K. unfold in_net in K. unfold in_range. rewrite K, FB. lia.
Qed.
Lemma ends_in W ip p : valid W ip p -> in_net W ip p (first W ip p) /\ in_net W ip p (last_address W (obj W ip p)) /\ 0 <= first W ip p < 2 ^ W /\ 0 <= last_address W (obj W ip p) < 2 ^ W.
Proof.
  intros V. pose proof V as [R RP]. pose proof (pow_pos W p RP) as PP. pose proof (IpFacts.first_range W ip p RP R) as FR. rewrite last_obj by exact V. rewrite !in_net_interval by exact V. lia.
Qed.
Lemma both_blocks W b ip p : block W b -> valid W ip p ->
  (in_block W b (first W ip p) && in_block W b (last_address W (obj W ip p)) = true <-> all_of W ip p (in_range W b)).
Proof.
  intros BB V. destruct (ends_in W ip p V) as (I1 & I2 & R1 & R2). rewrite andb_true_iff, !in_block_range by assumption. split.
  - intros [E1 E2] a Ia. rewrite range_interval in * by exact BB. rewrite in_net_interval in Ia by exact V. rewrite last_obj in E2 by exact V. lia.
  - intros AL. split; now apply AL.
Qed.
Lemma both_all W b ip p : block W b -> valid W ip p -> (both W (in_block W b) (obj W ip p) = true <-> all_of W ip p (fun a => fst b <= a < fst b + 2 ^ (W - snd b))).
Proof.
  intros BB V. unfold both. cbn [ip_net obj]. rewrite both_blocks by assumption. unfold all_of. split; intros K a Ia; [apply range_interval|apply range_interval]; auto.
Qed.
Ltac block_ok := split; [cbn; lia|split; [vm_compute; split; [intros K; discriminate K|reflexivity]|vm_compute; reflexivity]].
(** An IPv4 object is multicast, or reserved, if and only if every address of its network is. *)
Theorem C76_classes4 : forall ip p, valid 32 ip p ->
  (is_multicast4 (obj 32 ip p) = true <-> all_of 32 ip p (fun a => v4 224 0 0 0 <= a <= v4 239 255 255 255)) /\
  (is_reserved4 (obj 32 ip p) = true <-> all_of 32 ip p (fun a => v4 240 0 0 0 <= a)).
Proof.
  intros ip p V. split.
  - unfold is_multicast4. rewrite both_all by (try block_ok; exact V). change (fst (block4 "224.0.0.0/4")) with (v4 224 0 0 0). change (2 ^ (32 - snd (block4 "224.0.0.0/4"))) with 268435456. unfold v4, all_of. split; intros K a Ia; specialize (K a Ia); lia.
  - unfold is_reserved4. rewrite both_all by (try block_ok; exact V). change (fst (block4 "240.0.0.0/4")) with (v4 240 0 0 0). change (2 ^ (32 - snd (block4 "240.0.0.0/4"))) with 268435456. unfold v4, all_of. split; intros K a Ia; specialize (K a Ia); destruct Ia as [Ra _]; lia.
Qed.
Print Assumptions C76_classes4.
Lemma div_interval a m c : 0 < m -> (c * m <= a < c * m + m <-> a / m = c).
Proof.
  intros M. split; [intros B; symmetry; apply (Z.div_unique _ _ _ (a - c * m)); lia|]. intros <-. pose proof (Z.div_mod a m ltac:(lia)). pose proof (Z.mod_pos_bound a m M). lia.
Qed.
(** The classes of IPv6 objects: the addresses beginning with 11111111, 1111111010 and 1111111011, and
    the address zero *)
Theorem C76_classes6 : forall ip p, valid 128 ip p ->
  (is_multicast6 (obj 128 ip p) = true <-> all_of 128 ip p (fun a => a / 2 ^ 120 = 255)) /\
  (is_link_local6 (obj 128 ip p) = true <-> all_of 128 ip p (fun a => a / 2 ^ 118 = 1018)) /\
  (is_site_local6 (obj 128 ip p) = true <-> all_of 128 ip p (fun a => a / 2 ^ 118 = 1019)) /\
  (is_unspecified6 (obj 128 ip p) = true <-> ip = 0 /\ p = 128).
Proof.
  intros ip p V. split; [|split; [|split]].
  - unfold is_multicast6. rewrite both_all by (try block_ok; exact V). change (fst (block6 "ff00::/8")) with (255 * 2 ^ 120). change (128 - snd (block6 "ff00::/8")) with 120. unfold all_of. split; intros K a Ia; specialize (K a Ia); apply div_interval; (exact K || reflexivity).
  - unfold is_link_local6. rewrite both_all by (try block_ok; exact V). change (fst (block6 "fe80::/10")) with (1018 * 2 ^ 118). change (128 - snd (block6 "fe80::/10")) with 118. unfold all_of. split; intros K a Ia; specialize (K a Ia); apply div_interval; (exact K || reflexivity).
  - unfold is_site_local6. rewrite both_all by (try block_ok; exact V). change (fst (block6 "fec0::/10")) with (1019 * 2 ^ 118). change (128 - snd (block6 "fec0::/10")) with 118. unfold all_of. split; intros K a Ia; specialize (K a Ia); apply div_interval; (exact K || reflexivity).
  - unfold is_unspecified6, both. rewrite last_obj by exact V. cbn [ip_net obj]. rewrite andb_true_iff, !Z.eqb_eq. pose proof V as [R RP]. split.
    + intros [E1 E2]. rewrite E1 in E2. assert (P1 : 2 ^ (128 - p) = 2 ^ 0) by (change (2 ^ 0) with 1; lia). apply Z.pow_inj_r in P1; [|lia|lia|lia]. assert (Ep : p = 128) by lia. subst p. unfold first in E1. change (2 ^ (128 - 128)) with 1 in E1. rewrite Z.div_1_r in E1. lia.
    + intros [-> ->]. split; reflexivity.
Qed.
Print Assumptions C76_classes6.
Lemma both_private W nets exc ip p : Forall (block W) nets -> Forall (block W) exc -> valid W ip p ->
  (private W nets exc (obj W ip p) = true <->
   Exists (fun b => all_of W ip p (in_range W b)) nets /\
   Forall (fun b => ~ in_range W b (first W ip p) /\ ~ in_range W b (last_address W (obj W ip p))) exc).
Proof.
  intros FN FE V. destruct (ends_in W ip p V) as (I1 & I2 & R1 & R2). unfold private. cbn [ip_net obj]. rewrite andb_true_iff, existsb_exists, forallb_forall, Exists_exists, Forall_forall. rewrite Forall_forall in FN, FE.
  assert (A1 : (exists x, In x nets /\ in_block W x (first W ip p) && in_block W x (last_address W (obj W ip p)) = true) <-> (exists x, In x nets /\ all_of W ip p (in_range W x))).
  { split; intros (x & Ix & K); exists x; (split; [exact Ix|]); apply (both_blocks W x ip p (FN x Ix) V); exact K. }
  assert (A2 : forall x, In x exc -> (negb (in_block W x (first W ip p)) && negb (in_block W x (last_address W (obj W ip p))) = true <-> ~ in_range W x (first W ip p) /\ ~ in_range W x (last_address W (obj W ip p)))).
  { intros x Ix. rewrite andb_true_iff, !negb_true_iff. rewrite <- !in_block_range by auto. rewrite !not_true_iff_false. reflexivity. }
  rewrite A1. split; intros [K1 K2]; (split; [exact K1|]); intros x Ix; apply A2; auto.
Qed.
Ltac blocks_ok := repeat (constructor; [block_ok|]); constructor.
(** An object is private if and only if its whole network lies in one of the private networks and its
    first and last address are no exceptions. *)
Theorem C76_private4 : forall ip p, valid 32 ip p ->
  (is_private4 (obj 32 ip p) = true <->
   Exists (fun b => all_of 32 ip p (in_range 32 b)) private_blocks4 /\
   Forall (fun b => ~ in_range 32 b (first 32 ip p) /\ ~ in_range 32 b (last_address 32 (obj 32 ip p))) global_blocks4).
Proof.
  intros ip p V. unfold is_private4. change private_nets4 with (id private_nets4). replace (id private_nets4) with private_blocks4 by (vm_compute; reflexivity). replace exceptions4 with global_blocks4 by (vm_compute; reflexivity).
  apply both_private; [| |exact V]; blocks_ok.
Qed.
Print Assumptions C76_private4.
Theorem C76_private6 : forall ip p, valid 128 ip p ->
  (is_private6 (obj 128 ip p) = true <->
   Exists (fun b => all_of 128 ip p (in_range 128 b)) private_blocks6 /\
   Forall (fun b => ~ in_range 128 b (first 128 ip p) /\ ~ in_range 128 b (last_address 128 (obj 128 ip p))) global_blocks6).
Proof.
  intros ip p V. unfold is_private6. replace private_nets6 with private_blocks6 by (vm_compute; reflexivity). replace exceptions6 with global_blocks6 by (vm_compute; reflexivity).
  apply both_private; [| |exact V]; blocks_ok.
Qed.
Print Assumptions C76_private6.
Definition reserved_heads : list (Z * Z) :=
  [(0, 8); (256, 8); (512, 7); (1024, 6); (2048, 5); (4096, 4); (16384, 3); (24576, 3); (32768, 3); (40960, 3); (49152, 3); (57344, 4); (61440, 5); (63488, 6); (65024, 9)].
Lemma head_block m q a : 0 <= q <= 16 -> 0 <= m < 65536 -> block 128 (m * 2 ^ 112, q) -> (in_range 128 (m * 2 ^ 112, q) a <-> m <= a / 2 ^ 112 < m + 2 ^ (16 - q)).
Proof.
  intros RQ RM BB. rewrite range_interval by exact BB. cbn [fst snd]. replace (2 ^ (128 - q)) with (2 ^ (16 - q) * 2 ^ 112) by (rewrite <- Z.pow_add_r by lia; f_equal; lia). rewrite <- Z.mul_add_distr_r.
  set (t := m + 2 ^ (16 - q)) in *. assert (PM : 0 < 2 ^ 112) by reflexivity. generalize dependent (2 ^ 112). intros M BB PM. pose proof (Z.div_mod a M ltac:(lia)) as E. pose proof (Z.mod_pos_bound a M PM) as B. split.
  - intros [L1 L2]. split; [apply Z.div_le_lower_bound; lia|apply Z.div_lt_upper_bound; lia].
  - intros [L1 L2]. split; nia.
Qed.
Lemma reserved_unassigned a : 0 <= a < 2 ^ 128 -> (existsb (fun b => in_block 128 b a) reserved_nets6 = true <-> unassigned a).
Proof.
  intros Ra. replace reserved_nets6 with (map (fun h => (fst h * 2 ^ 112, snd h)) reserved_heads) by (vm_compute; reflexivity). rewrite existsb_exists.
  assert (RH : 0 <= a / 2 ^ 112) by (apply Z.div_pos; [lia|reflexivity]).
  assert (FB : Forall (fun h => 0 <= snd h <= 16 /\ 0 <= fst h < 65536 /\ block 128 (fst h * 2 ^ 112, snd h)) reserved_heads).
  { repeat (constructor; [split; [cbn; lia|split; [cbn; lia|block_ok]]|]). constructor. }
  assert (E : (exists x, In x (map (fun h => (fst h * 2 ^ 112, snd h)) reserved_heads) /\ in_block 128 x a = true) <-> Exists (fun h => fst h <= a / 2 ^ 112 < fst h + 2 ^ (16 - snd h)) reserved_heads).
  { rewrite Exists_exists. rewrite Forall_forall in FB. split.
    - intros (x & Ix & K). apply in_map_iff in Ix as (h & <- & Ih). destruct (FB h Ih) as (Q1 & Q2 & Q3). exists h. split; [exact Ih|]. apply head_block; [assumption..|]. now apply in_block_range.
    - intros (h & Ih & K). destruct (FB h Ih) as (Q1 & Q2 & Q3). exists (fst h * 2 ^ 112, snd h). split; [apply in_map_iff; now exists h|]. apply in_block_range; [assumption..|]. now apply head_block. }
  rewrite E. unfold unassigned, reserved_heads. clear E FB Ra. generalize dependent (a / 2 ^ 112). intros h RH. cbv zeta.
  repeat rewrite Exists_cons. rewrite Exists_nil. cbn [fst snd].
  change (2 ^ (16 - 8)) with 256. change (2 ^ (16 - 7)) with 512. change (2 ^ (16 - 6)) with 1024. change (2 ^ (16 - 5)) with 2048. change (2 ^ (16 - 4)) with 4096. change (2 ^ (16 - 3)) with 8192. change (2 ^ (16 - 9)) with 128. lia.
Qed.
(** An IPv6 object is reserved if and only if the first and the last address of its network are
    unassigned. *)
Theorem C76_reserved6 : forall ip p, valid 128 ip p ->
  (is_reserved6 (obj 128 ip p) = true <-> unassigned (first 128 ip p) /\ unassigned (last_address 128 (obj 128 ip p))).
Proof.
  intros ip p V. destruct (ends_in 128 ip p V) as (_ & _ & R1 & R2). unfold is_reserved6, both. cbn [ip_net obj]. rewrite andb_true_iff, !reserved_unassigned by assumption. reflexivity.
Qed.
Print Assumptions C76_reserved6.
(** A single address: the classes are those of the address. *)
Lemma single W ip a : valid W ip W -> (in_net W ip W a <-> a = ip).
Proof. intros V. rewrite in_net_interval by exact V. unfold first. rewrite Z.sub_diag. change (2 ^ 0) with 1. rewrite Z.div_1_r. lia. Qed.
Theorem C76_single_address : forall ip, 0 <= ip < 2 ^ 32 ->
  (is_multicast4 (obj 32 ip 32) = true <-> v4 224 0 0 0 <= ip <= v4 239 255 255 255) /\
  (is_reserved4 (obj 32 ip 32) = true <-> v4 240 0 0 0 <= ip) /\
  (is_private4 (obj 32 ip 32) = true <-> Exists (fun b => in_range 32 b ip) private_blocks4 /\ ip <> v4 192 0 0 9 /\ ip <> v4 192 0 0 10).
Proof.
  intros ip R. assert (V : valid 32 ip 32) by (split; [exact R|lia]). assert (F : first 32 ip 32 = ip) by (unfold first; change (2 ^ (32 - 32)) with 1; rewrite Z.div_1_r; lia).
  assert (AL : forall P, all_of 32 ip 32 P <-> P ip). { intros P. unfold all_of. split; [intros K; apply K; now apply single|]. intros K a Ia. apply single in Ia as ->; [exact K|exact V]. }
  destruct (C76_classes4 ip 32 V) as [K1 K2]. rewrite !AL in K1, K2. split; [exact K1|]. split; [exact K2|]. rewrite (C76_private4 ip 32 V). rewrite last_obj by exact V. rewrite F. change (2 ^ (32 - 32) - 1) with 0. rewrite Z.add_0_r.
  assert (EX : Exists (fun b => all_of 32 ip 32 (in_range 32 b)) private_blocks4 <-> Exists (fun b => in_range 32 b ip) private_blocks4). { rewrite !Exists_exists. split; intros (b & Ib & K); exists b; (split; [exact Ib|]); first [exact (proj1 (AL _) K) | exact (proj2 (AL _) K)]. }
  rewrite EX. unfold global_blocks4. rewrite !Forall_cons_iff. rewrite !range_interval by block_ok. cbn [fst snd]. change (2 ^ (32 - 32)) with 1. set (P := Exists _ _). generalize (v4 192 0 0 9), (v4 192 0 0 10). intros x y. split.
  - intros (HP & (H1 & _) & (H2 & _) & _). split; [exact HP|]. lia.
  - intros (HP & H1 & H2). split; [exact HP|]. repeat split; try constructor; lia.
Qed.
Print Assumptions C76_single_address.
(** For networks the answers are not those of all addresses: the network ::/1 is reserved, although
    2000:: in it is not. *)
Theorem C76_reserved_means_all_refuted : exists ip p a, valid 128 ip p /\ is_reserved6 (obj 128 ip p) = true /\ in_net 128 ip p a /\ ~ unassigned a.
Proof.
  exists 0, 1, (8192 * 2 ^ 112). split; [split; [split; [lia|reflexivity]|lia]|]. split; [vm_compute; reflexivity|]. split; [split; [split; [intros K; discriminate K|reflexivity]|vm_compute; reflexivity]|].
  unfold unassigned. rewrite Z.div_mul by discriminate. cbv zeta. lia.
Qed.
Print Assumptions C76_reserved_means_all_refuted.
(** 192.0.0.8/29 is private, although 192.0.0.9 is not. *)
Theorem C76_private_means_all_refuted : exists ip p a, valid 32 ip p /\ is_private4 (obj 32 ip p) = true /\ in_net 32 ip p a /\ is_private4 (obj 32 a 32) = false.
Proof. exists (v4 192 0 0 8), 29, (v4 192 0 0 9). repeat split; try (vm_compute; congruence); vm_compute; reflexivity. Qed.
Print Assumptions C76_private_means_all_refuted.
(** The class is that of the network: 224.0.0.5/3 is not multicast, although the address is. *)
Theorem C76_class_of_the_address_refuted : exists ip p, valid 32 ip p /\ v4 224 0 0 0 <= ip <= v4 239 255 255 255 /\ is_multicast4 (obj 32 ip p) = false.
Proof. exists (v4 224 0 0 5), 3. repeat split; try (vm_compute; congruence); vm_compute; reflexivity. Qed.
Print Assumptions C76_class_of_the_address_refuted.

Example ex_forms4 : as_hex4 (obj 32 (v4 10 1 200 3) 22) = Ok (lit "0xa01c803") /\
  as_hex_tuple4 (obj 32 (v4 10 1 200 3) 22) = Ok [lit "0a"; lit "01"; lit "c8"; lit "03"] /\
  as_binary_tuple4 (obj 32 (v4 10 1 200 3) 22) = Ok [lit "00001010"; lit "00000001"; lit "11001000"; lit "00000011"] /\
  as_zeropadded_network (obj 32 (v4 10 1 203 3) 22) = Ok (lit "010.001.200.000/22") /\ netmask 32 (obj 32 (v4 10 1 200 3) 22) = v4 255 255 252 0 /\
  hostmask 32 (obj 32 (v4 10 1 200 3) 22) = v4 0 0 3 255 /\ broadcast4 (obj 32 (v4 10 1 200 3) 22) = Ok (v4 10 1 203 255) /\ valid 32 (v4 10 1 200 3) 22.
Proof. repeat split; vm_compute; (reflexivity || congruence). Qed.
Example ex_forms6 : as_hex_tuple6 (obj 128 (v6 [8193;3512;0;0;0;0;0;1]) 64) = [lit "2001"; lit "0db8"; lit "0000"; lit "0000"; lit "0000"; lit "0000"; lit "0000"; lit "0001"] /\
  as_hex6 (obj 128 (v6 [0;0;0;0;0;0;16;31]) 64) = Ok (lit "0x10001f") /\ is_private6 (obj 128 (v6 [8193;3512;0;0;0;0;0;1]) 64) = true /\ is_private6 (obj 128 (v6 [8193;32;0;0;0;0;0;1]) 128) = false /\
  is_link_local6 (obj 128 (v6 [65152;0;0;0;0;0;0;1]) 64) = true /\ is_multicast6 (obj 128 (v6 [65282;0;0;0;0;0;0;1]) 128) = true /\ is_reserved6 (obj 128 (v6 [16384;0;0;0;0;0;0;0]) 3) = true.
Proof. repeat split; vm_compute; reflexivity. Qed.
Example ex_iterate : iterate 32 (obj 32 (v4 10 0 0 6) 30) = [v4 10 0 0 4; v4 10 0 0 5; v4 10 0 0 6; v4 10 0 0 7].
Proof. vm_compute. reflexivity. Qed.
Example ex_classes4 : is_multicast4 (obj 32 (v4 224 0 0 5) 24) = true /\ is_reserved4 (obj 32 (v4 250 0 0 0) 8) = true /\ is_private4 (obj 32 (v4 172 20 1 1) 16) = true /\ is_private4 (obj 32 (v4 172 20 1 1) 8) = false.
Proof. repeat split; vm_compute; reflexivity. Qed.
