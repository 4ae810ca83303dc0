(** C80: ip_factory, check_valid_ipaddress and the setters of the prefix length. *)
From Coq Require Import Ascii String Arith NArith ZArith Bool List Lia.
From Verif Require Import PyStr PyStrFacts PyBase PyBaseFacts PwModel SearchModel IpModel IpSpec IpFacts PIpText IosSpec IosFacts FactoryFacts JunosFacts Ip6TextModel Ip6TextSpec Ip6Facts Ip6Show Ip6Re PIp6Text IpFactoryModel IpFactorySpec.
Import ListNotations.
Local Open Scope char_scope.
Local Open Scope Z_scope.

(** ** Masks *)

Lemma rz k : forall n, 0 <= n -> n = n / 2 ^ right_zeros k n * 2 ^ right_zeros k n.
Proof.
  induction k as [|k IH]; intros n N0; cbn [right_zeros]; [rewrite Z.pow_0_r, Z.div_1_r; lia|]. destruct (Z.odd n) eqn:E; [rewrite Z.pow_0_r, Z.div_1_r; lia|].
  pose proof (Z.div2_odd n) as D. rewrite E in D. cbn [Z.b2z] in D. rewrite Z.add_0_r in D. assert (H0 : 0 <= Z.div2 n) by (rewrite Z.div2_div; apply Z.div_pos; lia). specialize (IH _ H0). pose proof (right_zeros_range k (Z.div2 n)) as R. set (t := right_zeros k (Z.div2 n)) in *.
  rewrite Z.pow_add_r by lia. change (2 ^ 1) with 2. pose proof (Z.pow_pos_nonneg 2 t ltac:(lia) ltac:(lia)). rewrite D at 2. rewrite Z.mul_comm with (n := 2) (m := Z.div2 n). rewrite (Z.mul_comm 2 (2 ^ t)). rewrite Z.div_mul_cancel_r by lia. lia.
Qed.
Lemma prefix_sound n p : 0 <= n < 2 ^ 32 -> prefix_from_int n = Some p -> 0 <= p <= 32 /\ n = 2 ^ 32 - 2 ^ (32 - p).
Proof.
  intros R. unfold prefix_from_int. pose proof (right_zeros_range 32 n) as RZ. change (Z.of_nat 32) with 32 in RZ. pose proof (rz 32 n ltac:(lia)) as E. set (t := right_zeros 32 n) in *. clearbody t.
  destruct (Z.eqb_spec (Z.shiftr n t) (2 ^ (32 - t) - 1)) as [ES|]; [|discriminate]. intros EP. assert (p = 32 - t) by congruence. subst p. clear EP. split; [lia|]. rewrite Z.shiftr_div_pow2 in ES by lia. rewrite E, ES. replace (32 - (32 - t)) with t by lia.
  rewrite Z.mul_sub_distr_r, <- Z.pow_add_r by lia. replace (32 - t + t) with 32 by lia. lia.
Qed.
Lemma lxor_ones n : 0 <= n < 2 ^ 32 -> Z.lxor n (all_ones 32) = 2 ^ 32 - 1 - n.
Proof.
  intros R. unfold all_ones. replace (2 ^ 32 - 1) with (Z.ones 32) by reflexivity.
  assert (L : Z.land n (Z.ones 32) = n) by (rewrite Z.land_ones by lia; apply Z.mod_small; lia).
  assert (E0 : Z.land n (Z.lxor n (Z.ones 32)) = 0). { apply Z.bits_inj'. intros i Hi. rewrite Z.land_spec, Z.lxor_spec, Z.bits_0. destruct (Z.testbit n i) eqn:B; [|reflexivity]. rewrite <- L in B. rewrite Z.land_spec in B. apply andb_prop in B as [_ ->]. reflexivity. }
  pose proof (Z.add_nocarry_lxor n (Z.lxor n (Z.ones 32)) E0) as A. rewrite <- Z.lxor_assoc, Z.lxor_nilpotent, Z.lxor_0_l in A. lia.
Qed.
Lemma quad_iff t q : dotted_quad t q <-> t = dotted q /\ 0 <= q < 2 ^ 32.
Proof.
  split; intros H0; [now apply addr4_sound, addr4_quad|]. destruct H0 as [-> R]. apply addr4_quad. now apply addr4_dotted.
Qed.
Lemma netmask_iff m p : make_netmask m = Ok p <-> mask_text m p.
Proof.
  split.
  - intros E. pose proof (make_netmask_range m p E) as R. split; [exact R|]. unfold make_netmask in E.
    assert (K : match addr4 m with Err _ => Err ValueError | Ok n => match prefix_from_int n with Some p => Ok p | None => match prefix_from_int (Z.lxor n (all_ones 32)) with Some p => Ok p | None => Err ValueError end end end = Ok p -> dotted_quad m (2 ^ 32 - 2 ^ (32 - p)) \/ 1 <= p <= 31 /\ dotted_quad m (2 ^ (32 - p) - 1)).
    { clear E. destruct (addr4 m) as [n|] eqn:A; [|discriminate]. destruct (addr4_sound m n A) as [-> RN]. apply addr4_quad in A. destruct (prefix_from_int n) as [q|] eqn:P.
      - intros E. assert (q = p) by congruence. subst q. apply prefix_sound in P as [_ P]; [|exact RN]. left. rewrite <- P. exact A.
      - destruct (prefix_from_int (Z.lxor n (all_ones 32))) as [q|] eqn:P2; [|discriminate]. intros E. assert (q = p) by congruence. subst q. rewrite lxor_ones in P2 by exact RN. apply prefix_sound in P2 as [_ P2]; [|lia]. right.
        assert (EN : n = 2 ^ (32 - p) - 1) by lia. assert (p <> 0). { intros ->. change (2 ^ (32 - 0) - 1) with 4294967295 in EN. rewrite EN in P. vm_compute in P. discriminate. } assert (p <> 32). { intros ->. change (2 ^ (32 - 32) - 1) with 0 in EN. rewrite EN in P. vm_compute in P. discriminate. }
        split; [lia|]. rewrite <- EN. exact A. }
    destruct (all_digits m) eqn:AD; [|right; now apply K]. destruct (Z.leb_spec (Z.of_N (digits_val m)) 32); [|right; now apply K]. left. unfold all_digits in AD. destruct m as [|c m]; [discriminate|]. split; [discriminate|]. split; [exact AD|congruence].
  - intros [R [(N0 & D & E)|[Q|[R2 Q]]]].
    + unfold make_netmask. assert (all_digits m = true) as -> by (destruct m; [congruence|exact D]). rewrite E. destruct (Z.leb_spec p 32); [reflexivity|lia].
    + apply quad_iff in Q as [-> RQ]. rewrite make_netmask_dotted by exact RQ. fold (mask_of p). now rewrite mask_prefix.
    + apply quad_iff in Q as [-> RQ]. rewrite make_netmask_dotted by exact RQ. fold (wildcard_of p). destruct (wildcard_prefix p R2) as [-> ->]. reflexivity.
Qed.

(** ** Texts of IPv4 addresses *)

Definition v4_char (c : ascii) : bool := is_digit c || Ascii.eqb c "." || Ascii.eqb c "/".
Lemma dotted_chars n : forallb v4_char (dotted n) = true /\ dotted n <> [].
Proof.
  split; [|destruct (dotted_head n) as (a & t & -> & _); discriminate]. apply forallb_forall. intros c Ic. unfold v4_char. destruct (dotted_nosp n c Ic) as [-> | ->]; reflexivity.
Qed.
Lemma mask_chars m p : mask_text m p -> forallb v4_char m = true /\ m <> [] /\ has_char "/" m = false.
Proof.
  intros [_ [(N0 & D & E)|[Q|[_ Q]]]].
  - split; [|split; [exact N0|]]. { rewrite forallb_forall in *. intros c Ic. unfold v4_char. now rewrite (D c Ic). } apply has_char_false. intros Ic. rewrite forallb_forall in D. apply D in Ic. discriminate.
  - apply quad_iff in Q as [-> _]. split; [apply dotted_chars|]. split; [apply dotted_chars|apply dotted_noslash].
  - apply quad_iff in Q as [-> _]. split; [apply dotted_chars|]. split; [apply dotted_chars|apply dotted_noslash].
Qed.
Lemma v4_chars s ip p : text_v4 s ip p -> forallb v4_char s = true /\ s <> [].
Proof.
  intros (a & Q & H0). apply quad_iff in Q as [-> _]. destruct (dotted_chars ip) as [C N0]. destruct H0 as [[-> _]|(m & -> & MT)]; [auto|]. split; [|destruct (dotted ip); [congruence|discriminate]]. rewrite forallb_app, C. cbn. apply (mask_chars m p MT).
Qed.
Lemma v4_word s ip p : text_v4 s ip p -> word s.
Proof.
  intros H0. apply v4_chars in H0 as [C N0]. split; [exact N0|]. rewrite forallb_forall in *. intros c Ic. specialize (C c Ic). destruct c as [[] [] [] [] [] [] [] []]; try discriminate C; reflexivity.
Qed.
Lemma v4_nochar s ip p c : text_v4 s ip p -> v4_char c = false -> has_char c s = false.
Proof. intros H0 E. apply v4_chars in H0 as [C _]. apply has_char_false. intros Ic. rewrite forallb_forall in C. apply C in Ic. congruence. Qed.
Lemma net4_inv ip m x : network4 (dotted ip ++ "/" :: m) = Ok x -> 0 <= ip < 2 ^ 32 -> exists p, make_netmask m = Ok p /\ x = (net_of 32 ip p, p).
Proof.
  unfold network4. rewrite split_on_app by apply dotted_noslash. pose proof (join_split_on "/" m) as J. intros E R. pose proof (split_on_nonnil "/" m) as NN. destruct (split_on "/" m) as [|m' [|? ?]]; [congruence| |discriminate]. cbn in J. subst m'. rewrite addr4_dotted in E by exact R. cbn [bind] in E. destruct (make_netmask m) as [p|]; [|discriminate]. cbn [bind] in E. exists p. split; [reflexivity|congruence].
Qed.
Lemma net4_text s : (forall ip p, text_v4 s ip p -> network4 s = Ok (net_of 32 ip p, p)) /\ (forall x, network4 s = Ok x -> exists ip p, text_v4 s ip p).
Proof.
  split.
  - intros ip p (a & Q & H0). apply quad_iff in Q as [-> R]. destruct H0 as [[-> ->]|(m & -> & MT)].
    + unfold network4. rewrite split_on_nochar by apply dotted_noslash. rewrite addr4_dotted by exact R. cbn [bind]. rewrite net_of_div by lia. change (2 ^ (32 - 32)) with 1. rewrite Z.div_1_r, Z.mul_1_r. reflexivity.
    + rewrite network4_mask by (first [exact R|apply (mask_chars m p MT)]). apply netmask_iff in MT. rewrite MT. reflexivity.
  - intros x E. unfold network4 in E. pose proof (join_split_on "/" s) as J. destruct (split_on "/" s) as [|a [|m [|? ?]]]; [discriminate| | |discriminate]; cbn in J; subst s; destruct (addr4 a) as [ip|] eqn:A; try discriminate; cbn [bind] in E; apply addr4_quad in A.
    + exists ip, 32, a. auto.
    + destruct (make_netmask m) as [p|] eqn:M0; [|discriminate]. apply netmask_iff in M0. exists ip, p, a. split; [exact A|]. right. exists m. auto.
Qed.

(** ** IPv4Obj of a text, exactly *)

Definition of_split (u : str) : result ipo :=
  match split_v4 u with
  | None => Err AddressErr
  | Some (a, m) => do ip <- addr4 a; do n <- network4 (a ++ "/" :: m); do n' <- network4 (dotted ip ++ "/" :: show_Z (snd n)); Ok {| ip_int := ip; ip_net := fst n'; ip_plen := snd n' |}
  end.
Lemma from_split u ip m p : split_v4 u = Some (dotted ip, m) -> 0 <= ip < 2 ^ 32 -> mask_text m p -> of_split u = Ok (obj 32 ip p).
Proof.
  intros E R MT. unfold of_split. rewrite E, addr4_dotted by exact R. cbn [bind]. rewrite network4_mask by (first [exact R|apply (mask_chars m p MT)]). assert (RP := proj1 MT). apply netmask_iff in MT. rewrite MT. cbn [bind snd].
  rewrite network4_text by lia. cbn [bind fst snd]. rewrite obj_net by (split; lia). reflexivity.
Qed.
Lemma m32 : mask_text (lit "32") 32.
Proof. split; [lia|]. left. split; [discriminate|]. split; reflexivity. Qed.
Lemma quad_dot s q r : take_quad s = Some (q, r) -> In "." q.
Proof.
  unfold take_quad. destruct (take_digits_dot s) as [[a s1]|] eqn:E1; [|discriminate]. assert (Ia : In "." a). { unfold take_digits_dot in E1. destruct (take_digits s) as [[|x d] [|c t]]; try discriminate. destruct (Ascii.eqb c "."); [|discriminate]. injection E1 as <- _. right. apply in_app_iff. right. now left. }
  destruct (take_digits_dot s1) as [[b s2]|]; [|discriminate]. destruct (take_digits_dot s2) as [[c s3]|]; [|discriminate]. destruct (take_digits s3) as [[|x d] s4]; [discriminate|]. intros [= <- _]. apply in_app_iff. now left.
Qed.
Lemma lstrip_parts r : exists g, r = g ++ lstrip r /\ forallb is_space g = true.
Proof.
  induction r as [|c r (g & E & S)]; [now exists []|]. cbn [lstrip]. destruct (is_space c) eqn:C; [|now exists []]. exists (c :: g). cbn. rewrite C. split; [congruence|exact S].
Qed.
Lemma ip4_iff s o : ip4_of_str s = Ok o <-> exists ip p, text_v4_gap (strip s) ip p /\ o = obj 32 ip p.
Proof.
  change (ip4_of_str s) with (of_split (strip s)). generalize (strip s) as u. clear s. intros u. split.
  - intros E. assert (K : exists a m, split_v4 u = Some (a, m) /\ exists ip p, a = dotted ip /\ 0 <= ip < 2 ^ 32 /\ mask_text m p /\ o = obj 32 ip p).
    { unfold of_split in E. destruct (split_v4 u) as [[a m]|] eqn:S; [|discriminate]. exists a, m. split; [reflexivity|]. destruct (addr4 a) as [ip|] eqn:A; [|discriminate]. destruct (addr4_sound a ip A) as [-> R]. cbn [bind] in E. destruct (network4 (dotted ip ++ "/" :: m)) as [x|] eqn:N0; [|discriminate].
      destruct (net4_inv ip m x N0 R) as (p & MK & ->). cbn [bind snd] in E. pose proof (make_netmask_range m p MK) as RP. rewrite network4_text in E by lia. cbn [bind fst snd] in E. rewrite obj_net in E by (split; lia). exists ip, p. split; [reflexivity|]. split; [exact R|]. split; [now apply netmask_iff|congruence]. }
    destruct K as (a & m & S & ip & p & -> & R & MT & ->). exists ip, p. split; [|reflexivity]. assert (Q : dotted_quad (dotted ip) ip) by (now apply quad_iff).
    unfold split_v4 in S. destruct (take_quad u) as [[a [|c r]]|] eqn:TQ; [| |discriminate]; apply take_quad_eq in TQ.
    + injection S as -> <-. rewrite app_nil_r in TQ. subst u. left. exists (dotted ip). split; [exact Q|]. left. split; [reflexivity|]. apply netmask_iff in MT. vm_compute in MT. congruence.
    + destruct (Ascii.eqb_spec c "/") as [->|NC].
      * left. exists (dotted ip). split; [exact Q|]. right. exists m. split; [|exact MT].
        destruct (take_quad r) as [[m' [|? ?]]|] eqn:TR; [injection S as -> ->; apply take_quad_eq in TR; rewrite app_nil_r in TR; subst r; exact TQ| |]; (destruct (all_digits r); [|discriminate]; injection S as -> ->; exact TQ).
      * destruct (is_space c) eqn:SP; [|discriminate]. destruct (take_quad (lstrip r)) as [[m' [|? ?]]|] eqn:TR; try discriminate. injection S as -> ->. pose proof (quad_dot _ _ _ TR) as ID. apply take_quad_eq in TR. rewrite app_nil_r in TR. destruct (lstrip_parts r) as (g & ER & SG). rewrite TR in ER.
        right. exists (dotted ip), (c :: g), m. split; [exact Q|]. split; [discriminate|]. split; [cbn; now rewrite SP|]. split; [rewrite TQ; cbn [app]; do 2 f_equal; exact ER|]. auto.
  - intros (ip & p & H0 & ->). destruct H0 as [(a & Q & H0)|(a & g & m & Q & NG & SG & -> & MT & ID)]; apply quad_iff in Q as [-> R].
    + destruct H0 as [[-> ->]|(m & -> & MT)].
      * apply (from_split _ ip (lit "32") 32); [|exact R|exact m32]. unfold split_v4. rewrite <- (app_nil_r (dotted ip)) at 1. now rewrite take_quad_dotted.
      * apply (from_split _ ip m p); [|exact R|exact MT]. destruct MT as [_ [(N0 & D & E)|[Q|[_ Q]]]].
        -- unfold split_v4. rewrite take_quad_dotted by reflexivity. rewrite Ascii.eqb_refl. rewrite take_quad_digits by exact D. assert (all_digits m = true) as -> by (destruct m; [congruence|exact D]). reflexivity.
        -- apply quad_iff in Q as [-> _]. apply (split_sep ip ["/"]). now left.
        -- apply quad_iff in Q as [-> _]. apply (split_sep ip ["/"]). now left.
    + apply (from_split _ ip m p); [|exact R|exact MT]. destruct MT as [_ [(N0 & D & E)|[Q|[_ Q]]]].
      * rewrite forallb_forall in D. apply D in ID. discriminate.
      * apply quad_iff in Q as [-> _]. apply (split_sep ip g). now right.
      * apply quad_iff in Q as [-> _]. apply (split_sep ip g). now right.
Qed.

(** ** The factory *)

Definition plain4 (ip p : Z) : ipres := if p =? 32 then StdAddr false ip else StdNet false (first 32 ip p) p.
Definition plain6 (n p : Z) : ipres := if p =? 128 then StdAddr true n else StdNet true (first 128 n p) p.
Lemma text_valid s ip p : text_v4 s ip p -> valid 32 ip p.
Proof. intros (a & Q & H0). apply quad_iff in Q as [_ R]. split; [exact R|]. destruct H0 as [[_ ->]|(m & _ & MT)]; [lia|apply MT]. Qed.
Lemma text_reads s ip p : text_v4 s ip p -> ip4_of_str s = Ok (obj 32 ip p).
Proof. intros T0. apply ip4_iff. exists ip, p. split; [|reflexivity]. left. now rewrite strip_word by exact (v4_word _ _ _ T0). Qed.
Lemma std4 ip p : valid 32 ip p -> (if ip_plen (obj 32 ip p) =? 32 then Ok (StdAddr false (ip_int (obj 32 ip p))) else do n <- network (obj 32 ip p); Ok (StdNet false (fst n) (snd n))) = Ok (plain4 ip p).
Proof.
  intros [R RP]. unfold plain4. cbn [ip_plen ip_int obj]. destruct (p =? 32); [reflexivity|]. unfold network, net_text. cbn [ip_net ip_plen obj]. pose proof (IpFacts.first_range 32 ip p RP R) as FR. pose proof (pow_pos 32 p RP).
  rewrite network4_text by lia. cbn [bind fst snd]. rewrite net_of_div by lia. fold (first 32 (first 32 ip p) p). rewrite IpFacts.first_first by exact RP. reflexivity.
Qed.
Lemma get4 s : (exists ip p, text_v4 s ip p /\ forall b, get_ipv4 (VStr s) b = Ok (if b then plain4 ip p else Of4 (obj 32 ip p))) \/
  ((forall ip p, ~ text_v4 s ip p) /\ forall b, get_ipv4 (VStr s) b = Err AddressErr).
Proof.
  unfold get_ipv4. destruct (network4 s) as [x|e] eqn:N0.
  - left. destruct (proj2 (net4_text s) x N0) as (ip & p & T0). exists ip, p. split; [exact T0|]. intros b. cbn [bind]. rewrite (text_reads s ip p T0). cbn [bind]. destruct b; cbn [negb]; [rewrite (std4 ip p (text_valid s ip p T0))|]; reflexivity.
  - right. split; [|reflexivity]. intros ip p T0. rewrite (proj1 (net4_text s) ip p T0) in N0. discriminate.
Qed.
Lemma of6 s o : ip6_of_str s = Ok o -> exists n p, valid 128 n p /\ o = obj 128 n p.
Proof. intros E. destruct (C74_only s o E) as (_ & u & t & v & n & p & _ & T0 & RP & -> & _). exists n, p. split; [|reflexivity]. split; [exact (text_range _ _ T0)|exact RP]. Qed.
Lemma std6 n p : valid 128 n p -> (if ip_plen (obj 128 n p) =? 128 then Ok (StdAddr true (ip_int (obj 128 n p))) else do x <- network6 (as_cidr_net6 (obj 128 n p)); Ok (StdNet true (fst x) (snd x))) = Ok (plain6 n p).
Proof.
  intros V. destruct (V) as [R RP]. unfold plain6. cbn [ip_plen ip_int obj]. destruct (p =? 128); [reflexivity|]. unfold as_cidr_net6. cbn [ip_net ip_plen obj]. pose proof (PIp6Text.first_range n p V) as FV.
  rewrite (network6_text _ _ p (show6_text _ FV) RP). cbn [bind fst snd]. rewrite net_of_div by assumption. fold (first 128 (first 128 n p) p). rewrite IpFacts.first_first by exact RP. reflexivity.
Qed.
Lemma get6 s : (exists n p, valid 128 n p /\ ip6_of_str s = Ok (obj 128 n p) /\ forall b, get_ipv6 (VStr s) b = Ok (if b then plain6 n p else Of6 (obj 128 n p))) \/ (forall b, get_ipv6 (VStr s) b = Err AddressErr).
Proof.
  unfold get_ipv6. destruct (network6_scoped s) as [x|e] eqn:N0; [|now right]. destruct (ip6_of_str s) as [o|e] eqn:E; [|now right]. left. destruct (of6 s o E) as (n & p & V & ->). exists n, p. split; [exact V|]. split; [reflexivity|]. intros b. cbn [bind]. destruct b; cbn [negb]; [rewrite (std6 n p V)|]; reflexivity.
Qed.
Lemma v6_nochar t n c : v6_text t n -> v6_char c = false -> has_char c t = false.
Proof. intros T0 E. apply text_char in T0. apply has_char_false. intros Ic. rewrite forallb_forall in T0. apply T0 in Ic. congruence. Qed.
Lemma v6_colon t n : v6_text t n -> has_char ":" t = true.
Proof. intros T0. apply addr6_reads in T0. destruct (has_char ":" t) eqn:H0; [reflexivity|]. unfold addr6 in T0. rewrite split_on_nochar in T0 by exact H0. destruct (nothing t); discriminate. Qed.
Lemma digits_prefix m p : prefix6 m = Ok p <-> digits m p /\ p <= 128.
Proof.
  unfold prefix6, digits. split.
  - destruct (all_digits m) eqn:A; [|discriminate]. destruct (Z.leb_spec (Z.of_N (digits_val m)) 128); [|discriminate]. intros E. assert (p = Z.of_N (digits_val m)) by congruence. destruct m as [|c m]; [discriminate|]. split; [|lia]. split; [discriminate|]. split; [exact A|auto].
  - intros [(N0 & D & E) L]. assert (all_digits m = true) as -> by (destruct m; [congruence|exact D]). rewrite E. destruct (Z.leb_spec p 128); [reflexivity|lia].
Qed.
Lemma digits_nochar m p c : digits m p -> is_digit c = false -> has_char c m = false.
Proof. intros (_ & D & _) E. apply has_char_false. intros Ic. rewrite forallb_forall in D. apply D in Ic. congruence. Qed.
Lemma net6_text s : has_char "%" s = false -> (forall n p, text_v6 s n p -> exists x, network6_scoped s = Ok x) /\ (forall x, network6_scoped s = Ok x -> exists n p, text_v6 s n p).
Proof.
  intros NP. split.
  - intros n p (a & T0 & H0). unfold network6_scoped, split_scope. destruct H0 as [[-> ->]|(m & -> & D & L)].
    + rewrite split_on_nochar by exact (text_noslash _ _ T0). rewrite split_on_nochar by exact NP. cbn [bind]. rewrite (addr6_reads _ _ T0). cbn [bind]. eauto.
    + rewrite split_on_app by exact (text_noslash _ _ T0). rewrite split_on_nochar by (apply (digits_nochar m p); [exact D|reflexivity]). rewrite split_on_nochar by (apply (v6_nochar _ _ _ T0); reflexivity). cbn [bind]. rewrite (addr6_reads _ _ T0). cbn [bind]. rewrite (proj2 (digits_prefix m p) (conj D L)). cbn [bind]. eauto.
  - intros x E. unfold network6_scoped in E. pose proof (join_split_on "/" s) as J. destruct (split_on "/" s) as [|a [|m [|? ?]]]; [discriminate| | |discriminate]; cbn in J; subst s.
    + unfold split_scope in E. rewrite split_on_nochar in E by exact NP. cbn [bind] in E. destruct (addr6 a) as [n|] eqn:A; [|discriminate]. apply addr6_sound in A. exists n, 128, a. auto.
    + rewrite has_char_app in NP. apply orb_false_iff in NP as [NP _]. unfold split_scope in E. rewrite split_on_nochar in E by exact NP. cbn [bind] in E. destruct (addr6 a) as [n|] eqn:A; [|discriminate]. cbn [bind] in E. destruct (prefix6 m) as [p|] eqn:P; [|discriminate]. apply addr6_sound in A. apply digits_prefix in P as [D L]. exists n, p, a. split; [exact A|]. right. exists m. auto.
Qed.
Lemma v6_reads s n p : text_v6 s n p -> (length s <= 43)%nat -> ip6_of_str s = Ok (obj 128 n p).
Proof.
  intros (t & T0 & X) L. pose proof (text_range _ _ T0) as RN.
  assert (K : exists x, s = t ++ x /\ sfx x /\ (x = [] /\ p = 128 \/ exists m, x = "/" :: m /\ digits m p /\ p <= 128)).
  { destruct X as [[-> ->]|(m & -> & D & LP)]; [exists []; rewrite app_nil_r; split; [reflexivity|]; split; [now left|auto]|exists ("/" :: m); split; [reflexivity|]; split; [right; exists m; split; [split; apply D|reflexivity]|right; eauto]]. }
  clear X. destruct K as (x & -> & SX & X). assert (W : word (t ++ x)).
  { apply word_cat; [exact (text_word _ _ T0)|]. destruct SX as [-> |(d & (_ & D0) & ->)]; [reflexivity|]. cbn. now apply digits_nospace. }
  assert (E : Ip6TextModel.text6 (t ++ x) = Ok (t ++ x)). { unfold Ip6TextModel.text6. destruct (Nat.ltb_spec 43 (length (t ++ x))); [lia|]. unfold pieces. pose proof (one_piece [] (t ++ x) [] eq_refl W eq_refl) as O. cbn [app] in O. rewrite app_nil_r in O. now rewrite O. }
  unfold ip6_of_str. rewrite E. cbn [bind]. rewrite strip_word by exact W. destruct (search6_text t n x T0 SX) as (m & S6 & A6 & M6). rewrite S6, A6, (addr6_reads _ _ T0). cbn [bind]. rewrite M6. destruct X as [[-> ->]|(d & -> & D & LP)].
  - change (lit "128") with (show_Z 128). rewrite (network6_text t n 128 T0 ltac:(lia)). cbn [bind fst snd]. rewrite obj_net by (split; [exact RN|lia]). reflexivity.
  - unfold network6. rewrite split_on_app by exact (text_noslash _ _ T0). rewrite split_on_nochar by (apply (digits_nochar d p); [exact D|reflexivity]). rewrite (addr6_reads _ _ T0). cbn [bind]. rewrite (proj2 (digits_prefix d p) (conj D LP)). cbn [bind fst snd]. destruct D as (_ & _ & EP). rewrite obj_net by (split; [exact RN|lia]). reflexivity.
Qed.

(** ** C80 *)

(** An IPv4 object comes from exactly the texts of an address, alone or with "/" and a length or a
    mask, and it is that address with that length. *)
Theorem C80_v4 : forall s m o, m = Auto \/ m = OnlyV4 ->
  (ip_factory (VStr s) false m = Ok (Of4 o) <-> exists ip p, text_v4 s ip p /\ o = obj 32 ip p).
Proof.
  intros s m o HM. assert (G : get_ipv4 (VStr s) false = Ok (Of4 o) <-> exists ip p, text_v4 s ip p /\ o = obj 32 ip p).
  { destruct (get4 s) as [(ip & p & T0 & E)|[N0 E]].
    - rewrite E. cbn [bind]. split; [intros K; exists ip, p; split; [exact T0|congruence]|]. intros (ip' & p' & T1 & ->). pose proof (text_reads _ _ _ T0) as R0. rewrite (text_reads _ _ _ T1) in R0. congruence.
    - rewrite E. split; [discriminate|]. intros (ip & p & T0 & _). destruct (N0 ip p T0). }
  destruct HM as [-> | ->]; cbn [ip_factory].
  - destruct (has_char ":" s) eqn:HC; [|exact G]. split.
    + intros E. destruct (get6 s) as [(n & p & _ & _ & E6)|E6]; rewrite E6 in E; discriminate.
    + intros (ip & p & T0 & _). rewrite (v4_nochar s ip p ":" T0 eq_refl) in HC. discriminate.
  - rewrite <- G. destruct (get_ipv4 (VStr s) false); cbn; split; congruence.
Qed.
Print Assumptions C80_v4.

(** An IPv6 object comes from exactly the texts (of up to 43 characters, without a scope) of an
    address, alone or with "/" and a length. *)
Theorem C80_v6 : forall s m o, m = Auto \/ m = OnlyV6 -> has_char "%" s = false ->
  (ip_factory (VStr s) false m = Ok (Of6 o) <-> (length s <= 43)%nat /\ exists n p, text_v6 s n p /\ o = obj 128 n p).
Proof.
  intros s m o HM NP. assert (G : get_ipv6 (VStr s) false = Ok (Of6 o) <-> (length s <= 43)%nat /\ exists n p, text_v6 s n p /\ o = obj 128 n p).
  { destruct (net6_text s NP) as [K1 K2]. split.
    - intros E. destruct (get6 s) as [(n & p & V & ES & E6)|E6]; rewrite E6 in E; [|discriminate]. destruct (C74_only s _ ES) as (L & _). split; [exact L|]. assert (exists x, network6_scoped s = Ok x) as (x & EX). { unfold get_ipv6 in E6. specialize (E6 false). destruct (network6_scoped s); [eauto|discriminate]. }
      destruct (K2 x EX) as (n' & p' & T0). exists n', p'. split; [exact T0|]. rewrite (v6_reads s n' p' T0 L) in ES. congruence.
    - intros (L & n & p & T0 & ->). unfold get_ipv6. destruct (K1 n p T0) as (x & ->). cbn [bind]. rewrite (v6_reads s n p T0 L). reflexivity. }
  destruct HM as [-> | ->]; cbn [ip_factory].
  - destruct (has_char ":" s) eqn:HC; [exact G|]. split.
    + intros E. destruct (get4 s) as [(n & p & _ & E4)|[_ E4]]; rewrite E4 in E; discriminate.
    + intros (L & n & p & (t & T0 & X) & _). apply v6_colon in T0. destruct X as [[-> _]|(m0 & -> & _)]; [congruence|]. rewrite has_char_app, T0 in HC. discriminate.
  - rewrite <- G. destruct (get_ipv6 (VStr s) false); cbn; split; congruence.
Qed.
Print Assumptions C80_v6.

(** Any other text raises AddressValueError. *)
Theorem C80_errors : forall s b m, m <> OtherMode -> (exists o, ip_factory (VStr s) b m = Ok o) \/ ip_factory (VStr s) b m = Err AddressErr.
Proof.
  assert (G4 : forall s b, (exists o, get_ipv4 (VStr s) b = Ok o) \/ get_ipv4 (VStr s) b = Err AddressErr) by (intros s b; unfold get_ipv4; match goal with |- context [as_address_error ?x] => destruct x end; cbn; eauto).
  assert (G6 : forall s b, (exists o, get_ipv6 (VStr s) b = Ok o) \/ get_ipv6 (VStr s) b = Err AddressErr) by (intros s b; unfold get_ipv6; match goal with |- context [as_address_error ?x] => destruct x end; cbn; eauto).
  intros s b [| | |] NM; cbn [ip_factory]; [destruct (has_char ":" s); auto| | |congruence].
  - destruct (G4 s b) as [(o & ->)| ->]; cbn; eauto.
  - destruct (G6 s b) as [(o & ->)| ->]; cbn; eauto.
Qed.
Print Assumptions C80_errors.

(** Integers need a version, and stand for the address of that number. *)
Theorem C80_integers : forall n,
  ip_factory (VInt n) false Auto = Err NotImplementedErr /\
  ip_factory (VInt n) false OnlyV4 = (if (0 <=? n) && (n <? 2 ^ 32) then Ok (Of4 (obj 32 n 32)) else Err AddressErr) /\
  ip_factory (VInt n) false OnlyV6 = (if (0 <=? n) && (n <? 2 ^ 128) then Ok (Of6 (obj 128 n 128)) else Err AddressErr).
Proof.
  intros n. split; [reflexivity|]. assert (F : forall W, first W n W = n) by (intros W; unfold first; rewrite Z.sub_diag, Z.pow_0_r, Z.div_1_r; lia). split; cbn [ip_factory]; unfold get_ipv4, get_ipv6.
  - unfold network4_int, ip4_of_int, obj. rewrite F. change (all_ones 32) with 4294967295. replace (n <=? 4294967295) with (n <? 2 ^ 32) by (change (2 ^ 32) with 4294967296; apply eq_true_iff_eq; rewrite Z.ltb_lt, Z.leb_le; lia). destruct ((0 <=? n) && (n <? 2 ^ 32)); reflexivity.
  - unfold network6_int, ip6_of_int, obj, max6, all_ones. rewrite F. replace (n <=? 2 ^ 128 - 1) with (n <? 2 ^ 128) by (apply eq_true_iff_eq; rewrite Z.ltb_lt, Z.leb_le; lia). destruct ((0 <=? n) && (n <? 2 ^ 128)); reflexivity.
Qed.
Print Assumptions C80_integers.

(** With [stdlib] the same arguments give the address, if the length is that of an address, else
    the network. *)
Theorem C80_stdlib : forall v m,
  match ip_factory v false m with
  | Ok (Of4 o) => exists ip p, valid 32 ip p /\ o = obj 32 ip p /\ ip_factory v true m = Ok (if p =? 32 then StdAddr false ip else StdNet false (first 32 ip p) p)
  | Ok (Of6 o) => exists n p, valid 128 n p /\ o = obj 128 n p /\ ip_factory v true m = Ok (if p =? 128 then StdAddr true n else StdNet true (first 128 n p) p)
  | Ok _ => False
  | Err e => ip_factory v true m = Err e
  end.
Proof.
  intros [s|n] m.
  - destruct (get4 s) as [(ip & p & T0 & E4)|[_ E4]], (get6 s) as [(n & q & V & _ & E6)|E6]; destruct m; cbn [ip_factory]; try (destruct (has_char ":" s)); rewrite ?E4, ?E6; cbn [as_address_error]; try reflexivity; try (exists ip, p; split; [exact (text_valid _ _ _ T0)|]; split; reflexivity); try (exists n, q; split; [exact V|]; split; reflexivity).
  - destruct m; cbn [ip_factory]; [reflexivity| | |reflexivity].
    + pose proof (proj1 (proj2 (C80_integers n))) as E. cbn [ip_factory] in E. rewrite E. unfold get_ipv4, network4_int, ip4_of_int. change (all_ones 32) with 4294967295. destruct (Z.leb_spec 0 n), (Z.ltb_spec n (2 ^ 32)); cbn [andb]; change (2 ^ 32) with 4294967296 in *.
      * exists n, 32. split; [split; [change (2 ^ 32) with 4294967296|]; lia|]. split; [reflexivity|]. destruct (Z.leb_spec n 4294967295); [reflexivity|lia].
      * destruct (Z.leb_spec n 4294967295); [lia|reflexivity].
      * reflexivity.
      * reflexivity.
    + pose proof (proj2 (proj2 (C80_integers n))) as E. cbn [ip_factory] in E. rewrite E. unfold get_ipv6, network6_int, ip6_of_int, max6, all_ones. destruct (Z.leb_spec 0 n), (Z.ltb_spec n (2 ^ 128)); cbn [andb].
      * exists n, 128. split; [split; [|]; lia|]. split; [reflexivity|]. destruct (Z.leb_spec n (2 ^ 128 - 1)); [reflexivity|lia].
      * destruct (Z.leb_spec n (2 ^ 128 - 1)); [lia|reflexivity].
      * reflexivity.
      * reflexivity.
Qed.
Print Assumptions C80_stdlib.

(** Setting the length keeps the address and gives the network of that length; what is not a length
    or a mask raises. *)
Theorem C80_set_prefixlen : forall ip p arg o, valid 32 ip p ->
  (set_masklen4 (obj 32 ip p) arg = Ok o <-> exists q, mask_text arg q /\ o = obj 32 ip q) /\
  (forall q, 0 <= q <= 32 -> set_masklen4 (obj 32 ip p) (show_Z q) = Ok (obj 32 ip q) /\ masklen4 (obj 32 ip q) = q) /\
  (forall q o', set_masklen4 (obj 32 ip p) (show_Z q) = Ok o' -> set_masklen4 o' (show_Z p) = Ok (obj 32 ip p)).
Proof.
  intros ip p arg o [R RP]. unfold set_masklen4, masklen4.
  assert (K : forall p' a o', set_prefixlen4 (obj 32 ip p') a = Ok o' <-> exists q, mask_text a q /\ o' = obj 32 ip q).
  { intros p' a o'. unfold set_prefixlen4. cbn [ip_int obj]. split.
    - intros E. destruct (network4 (dotted ip ++ "/" :: a)) as [x|] eqn:N0; [|discriminate]. destruct (net4_inv ip a x N0 R) as (q & MK & ->). pose proof (make_netmask_range a q MK). cbn [bind fst snd] in E. rewrite obj_net in E by (split; lia). exists q. split; [now apply netmask_iff|congruence].
    - intros (q & MT & ->). rewrite network4_mask by (first [exact R|apply (mask_chars a q MT)]). assert (RQ := proj1 MT). apply netmask_iff in MT. rewrite MT. cbn [bind fst snd]. rewrite obj_net by (split; lia). reflexivity. }
  assert (D : forall q, 0 <= q <= 32 -> mask_text (show_Z q) q). { intros q RQ. apply netmask_iff. now apply make_netmask_show. }
  split; [apply K|]. split; [intros q RQ; split; [apply K; exists q; auto|reflexivity]|]. intros q o' E. apply K in E as (q' & _ & ->). apply K. exists p. auto.
Qed.
Print Assumptions C80_set_prefixlen.

(** check_valid_ipaddress: IPv4 texts are answered with themselves, without white space around. *)
Theorem C80_check : forall s t f, check_valid_ipaddress s = Ok (t, f) <-> t = strip s /\ f = 4 /\ exists ip p, text_v4_gap (strip s) ip p.
Proof.
  intros s t f. unfold check_valid_ipaddress. assert (SS : strip (strip s) = strip s) by (unfold strip; rewrite rstrip_lstrip_fix by apply rstrip_idem; apply lstrip_idem). destruct (ip4_of_str (strip s)) as [o|] eqn:E.
  - split; [|intros (-> & -> & _); reflexivity]. intros K. apply ip4_iff in E as (ip & p & T0 & _). rewrite SS in T0. split; [congruence|]. split; [congruence|eauto].
  - split; [discriminate|]. intros (_ & _ & ip & p & T0). rewrite (proj2 (ip4_iff (strip s) (obj 32 ip p))) in E; [discriminate|]. exists ip, p. rewrite SS. auto.
Qed.
Print Assumptions C80_check.
Theorem C80_check_errors : forall s, (exists t, check_valid_ipaddress s = Ok (t, 4)) \/ check_valid_ipaddress s = Err ValueError.
Proof. intros s. unfold check_valid_ipaddress. destruct (ip4_of_str (strip s)); eauto. Qed.
Print Assumptions C80_check_errors.

(** The documentation says IPv6 addresses are valid, too; every one is refused. *)
Theorem C80_check_v6_refuted : forall t n, v6_text t n -> check_valid_ipaddress t = Err ValueError.
Proof.
  intros t n T0. destruct (C80_check_errors t) as [(u & E)|E]; [|exact E]. exfalso. apply C80_check in E as (_ & _ & ip & p & G). rewrite strip_word in G by exact (text_word _ _ T0). pose proof (v6_colon t n T0) as HC.
  destruct G as [T4|(a & g & m & Q & _ & SG & -> & MT & _)]; [rewrite (v4_nochar t ip p ":" T4 eq_refl) in HC; discriminate|].
  apply quad_iff in Q as [-> _]. assert (C : forall c : ascii, v4_char c = true -> c <> ":") by (intros c E ->; discriminate). apply not_false_iff_true in HC. apply HC. apply has_char_false. rewrite !in_app_iff. intros [I0|[I0|I0]].
  - apply (C ":"); [|reflexivity]. destruct (dotted_chars ip) as [F _]. rewrite forallb_forall in F. now apply F.
  - rewrite forallb_forall in SG. apply SG in I0. discriminate.
  - apply (C ":"); [|reflexivity]. destruct (mask_chars m p MT) as [F _]. rewrite forallb_forall in F. now apply F.
Qed.
Print Assumptions C80_check_v6_refuted.

(** With a scope the length that is written is lost. *)
Theorem C80_scope_refuted : network6_scoped (lit "fe80::1%eth0/64") = Ok (first 128 338288524927261089654018896841347694593 64, 64) /\
  ip_factory (VStr (lit "fe80::1%eth0/64")) false Auto = Ok (Of6 (obj 128 338288524927261089654018896841347694593 128)).
Proof. vm_compute. split; reflexivity. Qed.
Print Assumptions C80_scope_refuted.

(** A mask after a blank, which IPv4Obj takes, is refused. *)
Theorem C80_blank_refuted : ip4_of_str (lit "192.0.2.1 255.255.255.0") = Ok (obj 32 3221225985 24) /\ ip_factory (VStr (lit "192.0.2.1 255.255.255.0")) false Auto = Err AddressErr.
Proof. vm_compute. split; reflexivity. Qed.
Print Assumptions C80_blank_refuted.

Example C80_ex : text_v4 (lit "192.0.2.1/0.0.0.255") 3221225985 24 /\ ip_factory (VStr (lit "192.0.2.1/0.0.0.255")) false Auto = Ok (Of4 (obj 32 3221225985 24)) /\
  ip_factory (VStr (lit "192.0.2.1/0.0.0.255")) true Auto = Ok (StdNet false 3221225984 24) /\ ip_factory (VStr (lit "fe80::1/064")) true OnlyV6 = Ok (StdNet true (first 128 338288524927261089654018896841347694593 64) 64) /\
  check_valid_ipaddress (lit " 192.0.2.1 255.255.255.0 ") = Ok (lit "192.0.2.1 255.255.255.0", 4).
Proof.
  split; [|vm_compute; repeat split]. exists (lit "192.0.2.1"). split; [now apply addr4_quad|]. right. exists (lit "0.0.0.255"). split; [reflexivity|]. apply netmask_iff. reflexivity.
Qed.
