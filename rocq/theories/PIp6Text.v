(** C74: IPv6 objects and their texts. *)
From Coq Require Import Ascii String Arith NArith ZArith Bool List Lia.
From Verif Require Import PyStr PyStrFacts PyBase PyBaseFacts PwModel SearchModel IpModel IpSpec IpFacts PIpText IosSpec IosFacts FactoryFacts JunosFacts PyRe PyReFacts PyReTmpl PyReLazy PyReGets PJunosRe PIpRe Ip6TextModel Ip6TextSpec Ip6Facts Ip6Show Ip6Re.
Import ListNotations.
Local Open Scope char_scope.
Local Open Scope Z_scope.

(** ** Characters *)
Definition v6_char (c : ascii) : bool := is_hex c || Ascii.eqb c ":" || Ascii.eqb c ".".
Lemma join_forall (f : ascii -> bool) c l : f c = true -> Forall (fun w : str => forallb f w = true) l -> forallb f (join [c] l) = true.
Proof.
  intros C F. induction F as [|w l Hw F IH]; [reflexivity|]. destruct l as [|w' l]; [exact Hw|]. change (join [c] (w :: w' :: l)) with (w ++ [c] ++ join [c] (w' :: l)). rewrite !forallb_app, Hw, IH. cbn. now rewrite C.
Qed.
Lemma hextets_char l vs : Forall2 hextet l vs -> Forall (fun w : str => forallb v6_char w = true) l.
Proof.
  intros F. apply hextets_hexes in F. apply Forall_forall. intros h Ih. eapply Forall_forall in F as (_ & F & _); [|exact Ih]. rewrite forallb_forall in *. intros x Ix. unfold v6_char. now rewrite (F x Ix).
Qed.
Lemma quad_char t q : dotted_quad t q -> forallb v6_char t = true.
Proof.
  intros (a & b & c & d & Ra & Rb & Rc & Rd & -> & _). apply join_forall; [reflexivity|].
  assert (K : forall z, 0 <= z -> forallb v6_char (show_Z z) = true). { intros z Hz. apply forallb_forall. intros x Ix. pose proof (show_Z_digits z Hz) as F. rewrite forallb_forall in F. unfold v6_char. now rewrite (digit_hex x (F x Ix)). }
  repeat (constructor; [apply K; lia|]). constructor.
Qed.
Lemma groups_char l vs : groups l vs -> Forall (fun w : str => forallb v6_char w = true) l.
Proof. intros [l0 vs0 F|l0 vs0 t q F Q]; [exact (hextets_char _ _ F)|]. apply Forall_app. split; [exact (hextets_char _ _ F)|]. constructor; [exact (quad_char _ _ Q)|constructor]. Qed.
Lemma text_char t n : v6_text t n -> forallb v6_char t = true.
Proof.
  intros [l vs G0 L8|hi a lo b m Fa G0 L8 N1]; [apply join_forall; [reflexivity|exact (groups_char _ _ G0)]|].
  rewrite !forallb_app. rewrite !join_forall; [reflexivity|reflexivity|exact (groups_char _ _ G0)|reflexivity|exact (hextets_char _ _ Fa)].
Qed.
Lemma text_nonnil t n : v6_text t n -> t <> [].
Proof. intros T0 ->. apply addr6_reads in T0. discriminate T0. Qed.
Lemma v6_nospace c : v6_char c = true -> is_space c = false.
Proof. destruct c as [[] [] [] [] [] [] [] []]; intros K; try discriminate K; reflexivity. Qed.
Lemma text_word t n : v6_text t n -> word t.
Proof.
  intros T0. split; [exact (text_nonnil _ _ T0)|]. apply text_char in T0. rewrite forallb_forall in *. intros x Ix. now rewrite (v6_nospace x (T0 x Ix)).
Qed.
Lemma text_noslash t n : v6_text t n -> has_char "/" t = false.
Proof. intros T0. apply text_char in T0. apply has_char_false. intros Ix. rewrite forallb_forall in T0. apply T0 in Ix. discriminate Ix. Qed.
Lemma show_some z : 0 <= z -> some_digits (show_Z z).
Proof. intros Hz. split; [apply show_Z_nonempty|now apply show_Z_digits]. Qed.
Lemma prefix6_show p : 0 <= p <= 128 -> prefix6 (show_Z p) = Ok p.
Proof.
  intros R. assert (A0 : (match prefix6 (show_Z p) with Ok x => x =? p | Err _ => false end) = true).
  { apply (forallb_Z_range (fun p => match prefix6 (show_Z p) with Ok x => x =? p | Err _ => false end) 129); [vm_compute; reflexivity|lia]. }
  destruct (prefix6 (show_Z p)); [|discriminate A0]. apply Z.eqb_eq in A0. now subst.
Qed.
Lemma network6_text t n p : v6_text t n -> 0 <= p <= 128 -> network6 (t ++ "/"%char :: show_Z p) = Ok (net_of 128 n p, p).
Proof.
  intros T0 R. unfold network6. rewrite split_on_app by exact (text_noslash _ _ T0). rewrite split_on_nochar by (apply show_Z_nodigit_char; [lia|reflexivity]).
  rewrite (addr6_reads _ _ T0). cbn [bind]. rewrite prefix6_show by exact R. reflexivity.
Qed.
Lemma value_bound l : Forall (fun v => 0 <= v < 65536) l -> length l = 8%nat -> 0 <= value l < 2 ^ 128.
Proof. intros F L. apply value_range in F. rewrite L in F. exact F. Qed.
Lemma hextets_bound l vs : Forall2 hextet l vs -> Forall (fun v => 0 <= v < 65536) vs.
Proof. induction 1 as [|h v l vs F _ IH]; constructor; [exact (hextet_range _ _ F)|exact IH]. Qed.
Lemma groups_bound l vs : groups l vs -> Forall (fun v => 0 <= v < 65536) vs.
Proof.
  intros [l0 vs0 F|l0 vs0 t q F Q]; [exact (hextets_bound _ _ F)|]. apply Forall_app. split; [exact (hextets_bound _ _ F)|]. destruct (halves q (quad_range _ _ Q)). repeat (constructor; [assumption|]). constructor.
Qed.
Lemma text_range t n : v6_text t n -> 0 <= n < 2 ^ 128.
Proof.
  intros [l vs G0 L8|hi a lo b m Fa G0 L8 N1]; apply value_bound.
  - exact (groups_bound _ _ G0).
  - exact L8.
  - repeat (apply Forall_app; split); [exact (hextets_bound _ _ Fa)| |exact (groups_bound _ _ G0)]. apply Forall_forall. intros x Ix. apply repeat_spec in Ix. lia.
  - rewrite !app_length, repeat_length. lia.
Qed.

(** ** Reading *)
Lemma strip_word w : word w -> strip w = w.
Proof.
  intros [NW F]. destruct w as [|c r]; [congruence|]. destruct (@exists_last _ (c :: r) ltac:(discriminate)) as (u & d & E).
  assert (C : forall x, In x (c :: r) -> is_space x = false) by (intros x Ix; rewrite forallb_forall in F; apply negb_true_iff, F, Ix).
  pose proof (strip_inside [] c r u d [] eq_refl eq_refl (C c ltac:(now left)) (C d ltac:(rewrite E; apply in_or_app; right; now left)) E) as K. cbn [app] in K. rewrite app_nil_r in K. exact K.
Qed.
Lemma ip6_found s t n p x : text6 s = Ok (t ++ x) -> v6_text t n -> (x = [] /\ p = 128 \/ x = "/"%char :: show_Z p /\ 0 <= p <= 128) -> ip6_of_str s = Ok (obj 128 n p).
Proof.
  intros E T0 X. assert (SX : sfx x) by (destruct X as [[-> _]|[-> R]]; [now left|right; exists (show_Z p); split; [apply show_some; lia|reflexivity]]).
  unfold ip6_of_str. rewrite E. cbn [bind]. rewrite strip_word.
  2:{ destruct (text_word _ _ T0) as [NW W]. split; [destruct t; [congruence|discriminate]|]. rewrite forallb_app, W. destruct SX as [-> |(d & (_ & D0) & ->)]; [reflexivity|]. cbn. rewrite forallb_forall in *. intros c Ic. rewrite (digit_space c (D0 c Ic)). reflexivity. }
  destruct (search6_text t n x T0 SX) as (m & S6 & A6 & M6). rewrite S6, A6, (addr6_reads _ _ T0). cbn [bind]. rewrite M6.
  pose proof (text_range _ _ T0) as RN. destruct X as [[-> ->]|[-> R]].
  - change (lit "128") with (show_Z 128). rewrite (network6_text t n 128 T0 ltac:(lia)). cbn [bind fst snd]. rewrite obj_net by (split; [exact RN|lia]). reflexivity.
  - rewrite (network6_text t n p T0 R). cbn [bind fst snd]. rewrite obj_net by (split; [exact RN|lia]). reflexivity.
Qed.
Lemma word_cat a b : word a -> forallb (fun c => negb (is_space c)) b = true -> word (a ++ b).
Proof. intros [NA W] B. split; [destruct a; [congruence|discriminate]|]. now rewrite forallb_app, W. Qed.
Lemma digits_nospace d : forallb is_digit d = true -> forallb (fun c => negb (is_space c)) d = true.
Proof. rewrite !forallb_forall. intros F c Ic. now rewrite (digit_space c (F c Ic)). Qed.
Lemma ends_space e : space e -> word_ends e.
Proof. destruct e as [|c e]; [exact (fun _ => I)|]. unfold space. cbn [forallb]. intros F. apply andb_true_iff in F as [F _]. cbn. now rewrite F. Qed.
Lemma words_space e : space e -> words e = [].
Proof. intros F. unfold words. rewrite <- (app_nil_r e). now rewrite words_aux_space_prefix. Qed.

Lemma one_piece i w e : space i -> word w -> space e -> words (i ++ w ++ e) = [w].
Proof. intros Si W Se. rewrite (words_word i w e Si W (ends_space e Se)). now rewrite words_space. Qed.
Lemma written_text s n p : written s n p -> exists t x, pieces s = [t ++ x] /\ v6_text t n /\ (x = [] /\ p = 128 \/ x = "/"%char :: show_Z p /\ 0 <= p <= 128) \/
  pieces s = [t; show_Z p] /\ v6_text t n /\ x = "/"%char :: show_Z p /\ 0 <= p <= 128.
Proof.
  intros [i t e n0 p0 Si Se T0 R|i t g e n0 p0 Si Sg NG Se T0 R|i t e n0 Si Se T0].
  - exists t, ("/"%char :: show_Z p0). left. split; [|split; [exact T0|right; auto]]. unfold pieces. replace (i ++ t ++ "/"%char :: show_Z p0 ++ e) with (i ++ (t ++ "/"%char :: show_Z p0) ++ e) by now rewrite <- app_assoc.
    rewrite one_piece; [reflexivity|exact Si| |exact Se]. apply word_cat; [exact (text_word _ _ T0)|]. cbn. apply digits_nospace, show_Z_digits. lia.
  - exists t, ("/"%char :: show_Z p0). right. split; [|auto]. unfold pieces.
    assert (EG : word_ends (g ++ show_Z p0 ++ e)). { destruct g as [|c g]; [congruence|]. apply ends_space in Sg. cbn in Sg |- *. exact Sg. }
    rewrite (words_word i t _ Si (text_word _ _ T0) EG). rewrite one_piece; [reflexivity|exact Sg| |exact Se]. split; [apply show_Z_nonempty|apply digits_nospace, show_Z_digits; lia].
  - exists t, []. left. split; [|split; [exact T0|now left]]. unfold pieces. rewrite one_piece; [now rewrite app_nil_r|exact Si|exact (text_word _ _ T0)|exact Se].
Qed.
(** Every text of an object, up to the length the code allows, gives the object it stands for. *)
Theorem C74_reads s n p : written s n p -> (length s <= 43)%nat -> ip6_of_str s = Ok (obj 128 n p).
Proof.
  intros W0 L. destruct (written_text s n p W0) as (t & x & [(P & T0 & X)|(P & T0 & -> & R)]).
  - apply (ip6_found s t n p x); [|exact T0|exact X]. unfold text6. destruct (Nat.ltb_spec 43 (length s)); [lia|]. now rewrite P.
  - apply (ip6_found s t n p ("/"%char :: show_Z p)); [|exact T0|auto]. unfold text6. destruct (Nat.ltb_spec 43 (length s)); [lia|]. now rewrite P.
Qed.
Print Assumptions C74_reads.
(** All the ways of writing: eight groups, "::" in front, inside, at the end, alone, an IPv4 address at the end *)
Example reads_ex : ip6_of_str (lit " 2001:DB8:0:1:1:1:1:1/64 ") = Ok (obj 128 42540766411282592875351010504635121665 64) /\
  ip6_of_str (lit "fe80::1:2 10") = Ok (obj 128 338288524927261089654018896841347760130 10) /\
  ip6_of_str (lit "::ffff:192.0.2.1") = Ok (obj 128 281473902969345 128) /\ ip6_of_str (lit "1::/0") = Ok (obj 128 5192296858534827628530496329220096 0) /\ ip6_of_str (lit "::") = Ok (obj 128 0 128).
Proof. vm_compute. repeat split. Qed.
Lemma hx_text h v : parse_hextet (lit h) = Some v -> hextet (lit h) v.
Proof. apply parse_hextet_iff. Qed.
Example written_ex : written (lit "fe80::1:2 10") 338288524927261089654018896841347760130 10.
Proof.
  apply (wr_gap [] (lit "fe80::1:2") (lit " ") [] 338288524927261089654018896841347760130 10); try reflexivity; [discriminate| |lia].
  apply (v6_short [lit "fe80"] [65152] [lit "1"; lit "2"] [1; 2] 5); [constructor; [now apply hx_text|constructor]|apply gr_hex; constructor; [now apply hx_text|]; constructor; [now apply hx_text|constructor]|reflexivity|lia].
Qed.

(** ** What is read is there *)
Lemma search_unless_sound look r : forall s i m c, search_unless look r i s = Some (m, c) -> exists u v i' s', s = u ++ v /\ M r (i + length u) v [] i' s' c.
Proof.
  induction s as [|x s IH]; intros i m c K; cbn [search_unless] in K.
  - destruct (match_at look i []); [discriminate K|]. destruct (match_at r i []) as [[m' c']|] eqn:E; [|discriminate K]. injection K as -> ->. apply mat_sound in E as (i' & s' & c' & HM & E). injection E as _ ->. exists [], [], i', s'. cbn. rewrite Nat.add_0_r. now split.
  - destruct (match match_at look i (x :: s) with Some _ => None | None => match_at r i (x :: s) end) as [[m' c']|] eqn:E.
    + injection K as -> ->. destruct (match_at look i (x :: s)); [discriminate E|]. apply mat_sound in E as (i' & s' & c' & HM & E). injection E as _ ->. exists [], (x :: s), i', s'. cbn [length]. rewrite Nat.add_0_r. now split.
    + apply IH in K as (u & v & i' & s' & -> & HM). exists (x :: u), v, i', s'. split; [reflexivity|]. cbn [length]. replace (i + S (length u))%nat with (S i + length u)%nat by lia. exact HM.
Qed.
(** Expressions without groups *)
Fixpoint bare (r : re) : bool := match r with REps | RSet _ | RBol | REol => true | RCat a b | RAlt a b => bare a && bare b | RStar _ a => bare a | RGrp _ _ => false end.
Lemma bare_caps r i s c i' s' c' : M r i s c i' s' c' -> bare r = true -> c' = c.
Proof.
  induction 1; cbn [bare]; intros B; try reflexivity; try discriminate B.
  - apply andb_true_iff in B as [B1 B2]. now rewrite IHM2, IHM1.
  - apply andb_true_iff in B as [B1 B2]. auto.
  - apply andb_true_iff in B as [B1 B2]. auto.
  - now rewrite IHM2, IHM1.
Qed.
Lemma alts_caps i s i' s' c : M alts i s [] i' s' c -> exists j w, c = [(j, w)] /\ (j <= 12)%nat.
Proof.
  assert (K : forall j a c', bare a = true -> (j <= 12)%nat -> M (RGrp j a) i s [] i' s' c' -> exists j w, c' = [(j, w)] /\ (j <= 12)%nat).
  { intros j a c' B J HM. apply M_grp_iff in HM as (w & c1 & _ & _ & -> & HM). apply bare_caps in HM; [|exact B]. subst c1. eauto. }
  unfold alts. intros HM. repeat (apply M_alt_iff in HM as [HM|HM]; [revert HM; apply K; [vm_compute; reflexivity|lia]|]). revert HM. apply K; [vm_compute; reflexivity|lia].
Qed.
Lemma mask_caps_of r i s c i' s' c' : M r i s c i' s' c' -> r = mask_re -> cap 1 c' = cap 1 c /\ (cap 14 c' = cap 14 c \/ exists d x y, cap 14 c' = Some d /\ some_digits d /\ s = x ++ "/"%char :: d ++ y \/ cap 14 c' = Some d /\ some_digits d /\ exists z, is_space z = true /\ s = x ++ z :: d ++ y).
Proof.
  induction 1 as [| | | | |g a i s c|g a i s c i1 s1 c1 i2 s2 c2 HA _ N0 HB IH| | | |]; intros E; try discriminate E.
  - split; [reflexivity|now left].
  - specialize (IH E). injection E as -> ->. clear HB. apply M_grp_iff in HA as (w & c3 & -> & -> & -> & HA). apply M_cat_iff in HA as (i3 & s3 & c4 & HA & HA2). apply M_set_iff in HA as (x & E & X & -> & ->). apply M_grp_iff in HA2 as (d & c5 & -> & _ & -> & HA2).
    apply M_digits in HA2 as (d' & E' & D0 & _ & ->). apply app_inv_tail in E' as <-. destruct IH as [I1 I2]. split; [rewrite I1; reflexivity|]. right.
    destruct I2 as [I2|(d1 & x1 & y1 & [(Q1 & Q2 & ->)|(Q1 & Q2 & z & Z & ->)])].
    + cbn in I2. rewrite E. destruct (is_space x) eqn:SX.
      * exists d, [], s1. right. split; [exact I2|]. split; [exact D0|]. exists x. split; [exact SX|reflexivity].
      * exists d, [], s1. left. split; [exact I2|]. split; [exact D0|]. assert (x = "/"%char) as -> by (clear - X SX; destruct x as [[] [] [] [] [] [] [] []]; try discriminate SX; try discriminate X; reflexivity). reflexivity.
    + exists d1, (w ++ x1), y1. left. split; [exact Q1|]. split; [exact Q2|]. now rewrite <- app_assoc.
    + exists d1, (w ++ x1), y1. right. split; [exact Q1|]. split; [exact Q2|]. exists z. split; [exact Z|]. now rewrite <- app_assoc.
Qed.
Lemma search6_some t m : search6 t = Some m -> exists m0 c, search_unless look_re re6 0 t = Some (m0, c) /\ m = mkMatch m0 (map (fun n => cap n c) (seq 1 14)).
Proof. unfold search6. rewrite look_reads, reads6. destruct (search_unless look_re re6 0 t) as [[m0 c]|]; [|discriminate]. intros [= <-]. now exists m0, c. Qed.
Lemma search6_sound t m a : search6 t = Some m -> named pattern6 (lit "addr") m = Some a -> exists u v, t = u ++ a ++ v /\
  (named pattern6 (lit "masklen") m = None \/ exists d, named pattern6 (lit "masklen") m = Some d /\ some_digits d /\ exists x z y, v = x ++ z :: d ++ y).
Proof.
  intros S6. apply search6_some in S6 as (m0 & c & E & ->). rewrite (named_of _ _ _ (lit "addr") _ 0 reads6), (named_of _ _ _ (lit "masklen") _ 13 reads6) by reflexivity.
  cbn [m_groups fst map seq nth]. intros A1. apply search_unless_sound in E as (u & v & i' & s' & -> & HM). unfold re6 in HM. fold alts in HM. apply M_cat_iff in HM as (i1 & s1 & c1 & HM & HM2). apply M_grp_iff in HM as (w & c2 & -> & _ & -> & HM).
  apply alts_caps in HM as (j & w' & -> & J). apply mask_caps_of in HM2 as [I1 I2]; [|reflexivity]. rewrite I1 in A1. cbn in A1. injection A1 as <-. exists u, s1. split; [reflexivity|]. destruct I2 as [I2|(d & x & y & [(Q1 & Q2 & ->)|(Q1 & Q2 & z & _ & ->)])].
  - left. rewrite I2. cbn [cap]. assert (E1 : Nat.eqb 14 j = false) by (apply Nat.eqb_neq; lia). cbn [Nat.eqb] in *. now rewrite E1.
  - right. exists d. split; [exact Q1|]. split; [exact Q2|]. now exists x, "/"%char, y.
  - right. exists d. split; [exact Q1|]. split; [exact Q2|]. now exists x, z, y.
Qed.

Lemma around_slash (u t v a b : str) : has_char "/" t = false -> u ++ t ++ v = a ++ "/"%char :: b ->
  (exists a2, a = u ++ t ++ a2 /\ v = a2 ++ "/"%char :: b) \/ (exists b1, u = a ++ "/"%char :: b1 /\ b = b1 ++ t ++ v).
Proof.
  intros NT E. apply app_eq_app in E as (l & [[-> E]|[-> E]]).
  - destruct l as [|c l]; [|injection E as <- ->; right; now exists l]. cbn [app] in E. left. exists [].
    destruct t as [|c t]; [now rewrite !app_nil_r; cbn [app] in *; rewrite <- E|]. injection E as <- _. discriminate NT.
  - left. apply app_eq_app in E as (l2 & [[-> E]|[-> E]]).
    + destruct l2 as [|c l2].
      * exists []. cbn [app] in E. now rewrite !app_nil_r.
      * injection E as <- E. rewrite has_char_app in NT. cbn in NT. now rewrite orb_true_r in NT.
    + exists l2. split; [reflexivity|exact E].
Qed.
(** The number written after "/" or white space, in decimal *)
Definition decimal (d : str) (p : Z) : Prop := some_digits d /\ Z.of_N (digits_val d) = p.
Local Ltac apps := repeat (rewrite <- !app_assoc; cbn [app]); reflexivity.
Lemma finish6 t n mk o v : v6_text t n -> (do x <- network6 (t ++ "/"%char :: match mk with Some d => d | None => lit "128" end); Ok {| ip_int := n; ip_net := fst x; ip_plen := snd x |}) = Ok o ->
  (mk = None \/ exists d, mk = Some d /\ some_digits d /\ exists x z y, v = x ++ z :: d ++ y) ->
  exists p, 0 <= p <= 128 /\ o = obj 128 n p /\ (p = 128 \/ exists x z d y, v = x ++ z :: d ++ y /\ decimal d p).
Proof.
  intros AD K MK. pose proof (text_noslash _ _ AD) as NS. pose proof (text_range _ _ AD) as RN.
  destruct MK as [-> |(d & -> & D0 & x & z & y & ->)].
  - change (lit "128") with (show_Z 128) in K. rewrite (network6_text t n 128 AD ltac:(lia)) in K. cbn [bind fst snd] in K. rewrite obj_net in K by (split; [exact RN|lia]). injection K as <-. exists 128. split; [lia|]. now auto.
  - unfold network6 in K. rewrite split_on_app in K by exact NS. rewrite split_on_nochar in K by (apply has_char_false; apply digits_not; [apply D0|reflexivity]). rewrite (addr6_reads _ _ AD) in K. cbn [bind] in K.
    unfold prefix6 in K. destruct (all_digits d); cbn [bind] in K; [|discriminate K]. destruct (Z.leb_spec (Z.of_N (digits_val d)) 128); cbn [bind] in K; [|discriminate K]. cbn [fst snd] in K. rewrite obj_net in K by (split; [exact RN|lia]). injection K as <-.
    exists (Z.of_N (digits_val d)). split; [lia|]. split; [reflexivity|]. right. exists x, z, d, y. split; [reflexivity|]. now split.
Qed.
(** Only texts that contain the text of an address are accepted, and the object is that address; the
    prefix length is the number that follows somewhere, or 128. *)
Theorem C74_only s o : ip6_of_str s = Ok o -> (length s <= 43)%nat /\ exists u t v n p, s = u ++ t ++ v /\ v6_text t n /\ 0 <= p <= 128 /\ o = obj 128 n p /\
  (p = 128 \/ exists x d y, v = x ++ d ++ y /\ decimal d p).
Proof.
  intros K. unfold ip6_of_str in K. destruct (text6 s) as [t0|] eqn:E6; cbn [bind] in K; [|discriminate K]. unfold text6 in E6. destruct (Nat.ltb_spec 43 (length s)) as [|L]; [discriminate E6|]. split; [exact L|].
  destruct (search6 (strip t0)) as [m|] eqn:S6; [|discriminate K]. destruct (named pattern6 (lit "addr") m) as [t|] eqn:A6; [|discriminate K].
  destruct (addr6 t) as [n|] eqn:AD; cbn [bind] in K; [|discriminate K]. apply addr6_sound in AD. pose proof (text_noslash _ _ AD) as NS.
  destruct (search6_sound _ _ _ S6 A6) as (u & v & ES & MK). clear S6 A6.
  pose proof (finish6 t n _ o v AD K MK) as RES. clear MK.
  clear K. destruct RES as (p & RP & -> & MK').
  assert (PL : exists u' v', s = u' ++ t ++ v' /\ forall d, some_digits d -> (exists x z y, v = x ++ z :: d ++ y) -> exists x y, v' = x ++ d ++ y).
  { assert (DS : forall d x y, some_digits d -> forall e f, x ++ d ++ y = e ++ "/"%char :: f -> (exists e2, e = x ++ d ++ e2) \/ (exists f1, f = f1 ++ d ++ y)).
    { intros d x y D0 e f E. apply around_slash in E as [(e2 & -> & _)|(f1 & _ & ->)]; [left; now exists e2|right; now exists f1|]. apply has_char_false, digits_not; [apply D0|reflexivity]. }
    unfold pieces in E6. destruct (words s) as [|a [|b [|? ?]]] eqn:EW; try discriminate E6.
    - injection E6 as <-. cbn in ES. destruct u; [|discriminate ES]. apply text_nonnil in AD. destruct t; [congruence|discriminate ES].
    - injection E6 as <-. apply words_inv in EW as (i & e & -> & _ & Wa & _ & _). rewrite (strip_word a Wa) in ES. subst a. exists (i ++ u), (v ++ e). split; [now rewrite <- !app_assoc|]. intros d D0 (x & z & y & ->). exists (x ++ [z]), (y ++ e). apps.
    - injection E6 as <-. apply words_inv in EW as (i & e & -> & _ & Wa & _ & EW). apply words_inv in EW as (g & e2 & -> & _ & Wb & _ & _).
      rewrite strip_word in ES by (apply word_cat; [exact Wa|cbn; apply Wb]). symmetry in ES. apply around_slash in ES as [(a2 & -> & ->)|(b1 & -> & ->)]; [| |exact NS].
      + exists (i ++ u), (a2 ++ g ++ b ++ e2). split; [now rewrite <- !app_assoc|]. intros d D0 (x & z & y & E). change (z :: d ++ y) with ([z] ++ d ++ y) in E. rewrite app_assoc in E. symmetry in E.
        destruct (DS d _ y D0 _ _ E) as [(e3 & ->)|(f1 & ->)]; [exists (x ++ [z]), (e3 ++ g ++ b ++ e2)|exists (a2 ++ g ++ f1), (y ++ e2)]; apps.
      + exists (i ++ a ++ g ++ b1), (v ++ e2). split; [now rewrite <- !app_assoc|]. intros d D0 (x & z & y & ->). exists (x ++ [z]), (y ++ e2). apps. }
  destruct PL as (u' & v' & Es & PD). exists u', t, v', n, p. split; [exact Es|]. split; [exact AD|]. split; [exact RP|]. split; [reflexivity|]. destruct MK' as [-> |(x & z & d & y & Ev & D0)]; [now left|right].
  destruct (PD d (proj1 D0)) as (x' & y' & ->); [eauto|]. now exists x', d, y'.
Qed.
Print Assumptions C74_only.

(** ** Writing *)
Lemma value_inj a : forall b, length a = length b -> Forall (fun v => 0 <= v < 65536) a -> Forall (fun v => 0 <= v < 65536) b -> value a = value b -> a = b.
Proof.
  induction a as [|x a IH]; intros [|y b] L FA FB E; try discriminate L; [reflexivity|]. injection L as L. rewrite !value_cons in E. rewrite <- L in E. inversion FA; subst. inversion FB; subst.
  pose proof (value_range a ltac:(assumption)) as R1. pose proof (value_range b ltac:(assumption)) as R2. rewrite <- L in R2. set (k := 65536 ^ Z.of_nat (length a)) in *.
  assert (x = y) by nia. subst y. f_equal. apply IH; auto. lia.
Qed.
Lemma hextets_value vs : length vs = 8%nat -> Forall (fun v => 0 <= v < 65536) vs -> hextets (value vs) = vs.
Proof. intros L F. apply value_inj; [now rewrite L|apply hextets_range|exact F|]. apply value_hextets, value_bound; assumption. Qed.
(** The text of an object is the address in its canonical form and the prefix length; the text of its
    network is the first address of the network in that form. *)
Theorem C74_writes vs p : length vs = 8%nat -> Forall (fun v => 0 <= v < 65536) vs -> 0 <= p <= 128 ->
  (exists t, canonical vs t /\ as_cidr_addr6 (obj 128 (value vs) p) = t ++ "/"%char :: show_Z p) /\
  (forall ws, length ws = 8%nat -> Forall (fun v => 0 <= v < 65536) ws -> value ws = first 128 (value vs) p -> exists t, canonical ws t /\ as_cidr_net6 (obj 128 (value vs) p) = t ++ "/"%char :: show_Z p).
Proof.
  intros L F RP. split; [exists (show6 (value vs)); split; [rewrite <- (hextets_value vs L F) at 1; apply show6_canonical|reflexivity]|].
  intros ws LW FW E. exists (show6 (value ws)). split; [rewrite <- (hextets_value ws LW FW) at 1; apply show6_canonical|]. unfold as_cidr_net6. cbn [ip_net ip_plen obj]. rewrite <- E. reflexivity.
Qed.
Print Assumptions C74_writes.
Example writes_ex : as_cidr_addr6 (obj 128 (value [8193; 3512; 0; 0; 1; 0; 0; 1]) 64) = lit "2001:db8::1:0:0:1/64" /\ as_cidr_net6 (obj 128 (value [8193; 3512; 0; 0; 1; 0; 0; 1]) 64) = lit "2001:db8::/64" /\
  as_cidr_addr6 (obj 128 (value [8193; 3512; 0; 1; 1; 1; 1; 1]) 64) = lit "2001:db8:0:1:1:1:1:1/64" /\ as_cidr_addr6 (obj 128 (value [1; 0; 0; 2; 0; 0; 0; 3]) 64) = lit "1:0:0:2::3/64".
Proof. vm_compute. repeat split. Qed.

Lemma show_short z : 0 <= z <= 255 -> (length (show_Z z) <= 3)%nat.
Proof.
  intros R. assert (forallb (fun k => (length (show_Z (Z.of_nat k)) <=? 3)%nat) (seq 0 256) = true) as F by (vm_compute; reflexivity).
  rewrite forallb_forall in F. specialize (F (Z.to_nat z)). rewrite Z2Nat.id in F by lia. apply Nat.leb_le, F, in_seq. lia.
Qed.
Lemma first_range n p : valid 128 n p -> 0 <= first 128 n p < 2 ^ 128.
Proof.
  intros [R RP]. unfold first. assert (0 < 2 ^ (128 - p)) by (apply Z.pow_pos_nonneg; lia). pose proof (Z.mul_div_le n (2 ^ (128 - p)) ltac:(lia)) as U. pose proof (Z.div_pos n (2 ^ (128 - p)) ltac:(lia) ltac:(lia)) as Q0.
  rewrite Z.mul_comm. split; [apply Z.mul_nonneg_nonneg; lia|]. apply (Z.le_lt_trans _ n); [exact U|apply R].
Qed.
Lemma reads_shown n p : valid 128 n p -> ip6_of_str (show6 n ++ "/"%char :: show_Z p) = Ok (obj 128 n p).
Proof.
  intros [R RP]. apply C74_reads; [|rewrite app_length; pose proof (show6_length n); pose proof (show_short p ltac:(lia)); cbn [length]; lia].
  pose proof (wr_slash [] (show6 n) [] n p eq_refl eq_refl (show6_text n R) RP) as W0. cbn [app] in W0. rewrite app_nil_r in W0. exact W0.
Qed.
Lemma first_first n p : valid 128 n p -> first 128 (first 128 n p) p = first 128 n p.
Proof. intros [R RP]. unfold first. assert (0 < 2 ^ (128 - p)) by (apply Z.pow_pos_nonneg; lia). rewrite Z.div_mul by lia. reflexivity. Qed.
Lemma prefix6_big q : 128 < q -> prefix6 (show_Z q) = Err ValueError.
Proof.
  intros R. unfold prefix6. rewrite show_Z_all_digits by lia. destruct q as [|q|q]; [lia| |lia]. cbn [show_Z]. rewrite show_N_val. cbn [Z.of_N]. destruct (Z.leb_spec (Z.pos q) 128); [lia|reflexivity].
Qed.
Lemma show_noslash q : has_char "/" (show_Z q) = false.
Proof. destruct q; [reflexivity| |]; cbn [show_Z]; [|cbn [has_char existsb]; change (existsb (Ascii.eqb "/") ?x) with (has_char "/" x); rewrite orb_false_l]; apply has_char_false, digits_not; [apply show_N_digits|reflexivity|apply show_N_digits|reflexivity]. Qed.
Lemma prefix_err o t n q : v6_text t n -> prefix6 (show_Z q) = Err ValueError -> (do x <- network6 (t ++ "/"%char :: show_Z q); Ok {| ip_int := o; ip_net := fst x; ip_plen := snd x |}) = Err ValueError.
Proof. intros T0 E. unfold network6. rewrite split_on_app by exact (text_noslash _ _ T0). rewrite split_on_nochar by apply show_noslash. rewrite (addr6_reads _ _ T0). cbn [bind]. rewrite E. reflexivity. Qed.
(** What is written reads back as the same object, or as the network; the text of an address is
    never too long to be read. *)
Theorem C74_roundtrip n p : valid 128 n p ->
  ip6_of_str (as_cidr_addr6 (obj 128 n p)) = Ok (obj 128 n p) /\ ip6_of_str (as_cidr_net6 (obj 128 n p)) = Ok (obj 128 (first 128 n p) p) /\
  copy6 (obj 128 n p) = Ok (obj 128 n p) /\
  forall q, set_prefixlen6_text (obj 128 n p) q = if (0 <=? q) && (q <=? 128) then Ok (obj 128 n q) else Err ValueError.
Proof.
  intros V. pose proof (first_range n p V) as FR. destruct V as [R RP]. split; [exact (reads_shown n p (conj R RP))|]. split; [exact (reads_shown _ p (conj FR RP))|]. split.
  - unfold copy6, as_cidr_net6. cbn [ip_net ip_plen ip_int obj]. rewrite (network6_text _ _ p (show6_text _ FR) RP). cbn [bind fst snd]. f_equal.
    unfold obj. f_equal. pose proof (obj_net 128 (first 128 n p) p (conj FR RP)) as E. injection E as E. rewrite E. apply first_first. now split.
  - intros q. unfold set_prefixlen6_text. cbn [ip_int obj]. destruct (Z.leb_spec 0 q), (Z.leb_spec q 128); cbn [andb].
    + rewrite (network6_text _ _ q (show6_text _ R) ltac:(lia)). cbn [bind fst snd]. rewrite obj_net by (split; [exact R|lia]). reflexivity.
    + apply (prefix_err n _ n q (show6_text n R)). rewrite prefix6_big by lia. reflexivity.
    + apply (prefix_err n _ n q (show6_text n R)). destruct q; [lia|lia|reflexivity].
    + lia.
Qed.
Print Assumptions C74_roundtrip.

(** ** The representation *)
Lemma dotted_is n : 0 <= n < 2 ^ 32 -> dotted_quad (dotted n) n.
Proof. intros R. apply addr4_quad. now apply addr4_dotted. Qed.
Lemma dotted_len n : (length (dotted n) <= 15)%nat.
Proof.
  unfold dotted. cbn [map join]. pose proof (show_short (n / 16777216 mod 256) ltac:(pose proof (Z.mod_pos_bound (n / 16777216) 256 ltac:(lia)); lia)).
  pose proof (show_short (n / 65536 mod 256) ltac:(pose proof (Z.mod_pos_bound (n / 65536) 256 ltac:(lia)); lia)). pose proof (show_short (n / 256 mod 256) ltac:(pose proof (Z.mod_pos_bound (n / 256) 256 ltac:(lia)); lia)).
  pose proof (show_short (n mod 256) ltac:(pose proof (Z.mod_pos_bound n 256 ltac:(lia)); lia)). repeat (rewrite ?app_length; cbn [length app]). lia.
Qed.
Lemma mapped_text q : 0 <= q < 2 ^ 32 -> v6_text (lit "::ffff:" ++ dotted q) (65535 * 2 ^ 32 + q).
Proof.
  intros R. pose proof (v6_short [] [] ([lit "ffff"] ++ [dotted q]) ([65535] ++ [q / 65536; q mod 65536]) 5 ltac:(constructor)) as V.
  replace (65535 * 2 ^ 32 + q) with (value ([] ++ repeat 0 5 ++ [65535] ++ [q / 65536; q mod 65536])); [apply V; [|reflexivity|lia]|].
  - apply gr_v4; [constructor; [now apply hx_text|constructor]|now apply dotted_is].
  - unfold value. cbn [app repeat fold_left]. pose proof (Z.div_mod q 65536 ltac:(lia)). change (2 ^ 32) with (65536 * 65536). lia.
Qed.
(** The representation of an object shows a text of its address, with the IPv4 address in it when
    there is one (RFC 4291 2.5.5.2), and its prefix length; what it shows reads back as the object. *)
Theorem C74_repr n p : valid 128 n p -> exists t, repr6 (obj 128 n p) = lit "<IPv6Obj " ++ t ++ "/"%char :: show_Z p ++ lit ">" /\ v6_text t n /\
  ip6_of_str (t ++ "/"%char :: show_Z p) = Ok (obj 128 n p) /\
  ((exists q, 0 <= q < 2 ^ 32 /\ n = 65535 * 2 ^ 32 + q /\ exists u, dotted_quad u q /\ t = lit "::ffff:" ++ u) \/ (forall q, 0 <= q < 2 ^ 32 -> n <> 65535 * 2 ^ 32 + q) /\ t = show6 n).
Proof.
  intros [R RP]. unfold repr6, mapped4. cbn [ip_int ip_plen obj]. pose proof (Z.div_mod n (2 ^ 32) ltac:(lia)) as DM. pose proof (Z.mod_pos_bound n (2 ^ 32) ltac:(lia)) as MB.
  destruct (Z.eqb_spec (n / 2 ^ 32) 65535) as [E|E].
  - rewrite E in DM. set (q := n mod 2 ^ 32) in *. exists (lit "::ffff:" ++ dotted q). assert (n = 65535 * 2 ^ 32 + q) as En by lia.
    assert (V : v6_text (lit "::ffff:" ++ dotted q) n) by (rewrite En; apply mapped_text; exact MB).
    split; [reflexivity|]. split; [exact V|]. split.
    + apply C74_reads; [|rewrite !app_length; pose proof (dotted_len q); pose proof (show_short p ltac:(lia)); cbn [length]; change (length (lit "::ffff:")) with 7%nat; lia].
      pose proof (wr_slash [] _ [] n p eq_refl eq_refl V RP) as W0. cbn [app] in W0. rewrite app_nil_r in W0. exact W0.
    + left. exists q. split; [exact MB|]. split; [exact En|]. exists (dotted q). split; [now apply dotted_is|reflexivity].
  - exists (show6 n). split; [reflexivity|]. split; [exact (show6_text n R)|]. split; [exact (reads_shown n p (conj R RP))|]. right. split; [|reflexivity].
    intros q RQ ->. apply E. rewrite Z.div_add_l by lia. rewrite Z.div_small by exact RQ. reflexivity.
Qed.
Print Assumptions C74_repr.
Example repr_ex : repr6 (obj 128 281473902969345 96) = lit "<IPv6Obj ::ffff:192.0.2.1/96>" /\ repr6 (obj 128 1 128) = lit "<IPv6Obj ::1/128>".
Proof. split; reflexivity. Qed.

(** ** What is not so *)
(** A valid text may be refused: this one has 45 characters. *)
Theorem C74_every_text_is_read_refuted : exists s n p, written s n p /\ ip6_of_str s = Err RequirementFailure.
Proof.
  exists (lit "0000:0000:0000:0000:0000:ffff:255.255.255.255"), (value [0; 0; 0; 0; 0; 65535; 65535; 65535]), 128. split; [|reflexivity].
  apply (wr_alone [] (lit "0000:0000:0000:0000:0000:ffff:255.255.255.255") []); [reflexivity|reflexivity|]. apply (v6_full ([lit "0000"; lit "0000"; lit "0000"; lit "0000"; lit "0000"; lit "ffff"] ++ [lit "255.255.255.255"]) ([0; 0; 0; 0; 0; 65535] ++ [4294967295 / 65536; 4294967295 mod 65536])); [|reflexivity].
  apply gr_v4; [repeat (constructor; [now apply hx_text|]); constructor|]. now apply addr4_quad.
Qed.
Print Assumptions C74_every_text_is_read_refuted.
Lemma written_bare s n p : written s n p -> forallb (fun c => negb (is_space c)) s = true -> has_char "/" s = false -> v6_text s n.
Proof.
  intros W0 NS SL. assert (E : forall x : str, space x -> forallb (fun c => negb (is_space c)) x = true -> x = []).
  { intros [|c x] SX N0; [reflexivity|]. unfold space in SX. cbn in SX, N0. apply andb_prop in SX as [SX _]. rewrite SX in N0. discriminate N0. }
  destruct W0 as [i t e n p I0 E0 T0 _|i t g e n p I0 G0 NG E0 T0 _|i t e n I0 E0 T0].
  - rewrite !has_char_app in SL. apply orb_false_iff in SL as [_ SL]. apply orb_false_iff in SL as [_ SL]. discriminate SL.
  - rewrite !forallb_app in NS. apply andb_prop in NS as [_ NS]. apply andb_prop in NS as [_ NS]. apply andb_prop in NS as [NS _]. now rewrite (E g) in NG.
  - rewrite !forallb_app in NS. apply andb_prop in NS as [N1 NS]. apply andb_prop in NS as [_ N2]. rewrite (E i I0 N1), (E e E0 N2), app_nil_r. exact T0.
Qed.
(** Texts that are not the text of an address are accepted when they contain one: a group of five
    digits loses its first, a ninth group is dropped. *)
Theorem C74_only_texts_are_read_refuted :
  ip6_of_str (lit "12345::1") = Ok (obj 128 (value [9029; 0; 0; 0; 0; 0; 0; 1]) 128) /\ (forall n p, ~ written (lit "12345::1") n p) /\
  ip6_of_str (lit "1:2:3:4:5:6:7:8:9") = Ok (obj 128 (value [1; 2; 3; 4; 5; 6; 7; 8]) 128) /\ (forall n p, ~ written (lit "1:2:3:4:5:6:7:8:9") n p) /\
  ip6_of_str (lit "hello") = Err AttributeErr.
Proof.
  assert (NO : forall s, forallb (fun c => negb (is_space c)) s = true -> has_char "/" s = false -> (match addr6 s with Ok _ => False | _ => True end) -> forall n p, ~ written s n p).
  { intros s N0 S0 AE n p W0. apply written_bare in W0; [|exact N0|exact S0]. apply addr6_reads in W0. rewrite W0 in AE. exact AE. }
  split; [vm_compute; reflexivity|]. split; [apply NO; [reflexivity|reflexivity|vm_compute; exact I]|]. split; [vm_compute; reflexivity|]. split; [apply NO; [reflexivity|reflexivity|vm_compute; exact I]|]. vm_compute. reflexivity.
Qed.
Print Assumptions C74_only_texts_are_read_refuted.
