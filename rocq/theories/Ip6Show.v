(** Facts about the way an IPv6 address is written. *)
From Coq Require Import Ascii String Arith NArith ZArith Bool List Lia.
From Verif Require Import PyStr PyStrFacts PyBase PyBaseFacts PwModel IpModel IpSpec IpFacts PyRe Ip6TextModel Ip6TextSpec Ip6Facts.
Import ListNotations.
Local Open Scope char_scope.
Local Open Scope Z_scope.

(** ** The longest run of zeros *)
Record best (vs : list Z) (k n : nat) : Prop := mkBest
  { be_run : run_at vs k n;
    be_most : forall k' n', run_at vs k' n' -> (n' <= n)%nat;
    be_first : forall k', run_at vs k' n -> (k <= k')%nat }.
Record here (vs : list Z) (s : option nat) (n : nat) : Prop := mkHere
  { he_run : forall i, (length vs - n <= i < length vs)%nat -> nth i vs 1 = 0;
    he_len : match s with Some x => (x + n = length vs)%nat | None => n = 0%nat end;
    he_most : forall k' n', run_at vs k' n' -> (k' + n' = length vs)%nat -> (n' <= n)%nat }.

Lemma run_more vs v k n : (k + n <= length vs)%nat -> (run_at (vs ++ [v]) k n <-> run_at vs k n).
Proof.
  intros L. unfold run_at. rewrite app_length. cbn [length]. split; intros [_ R]; (split; [lia|]); intros i Hi; specialize (R i Hi); rewrite app_nth1 in * by lia; exact R.
Qed.
Lemma run_end vs v k n : (k + n = length vs)%nat -> run_at (vs ++ [v]) k (S n) -> v = 0 /\ run_at vs k n.
Proof.
  intros L [_ R]. split.
  - specialize (R (length vs) ltac:(lia)). rewrite app_nth2, Nat.sub_diag in R by lia. exact R.
  - split; [lia|]. intros i Hi. specialize (R i ltac:(lia)). now rewrite app_nth1 in R by lia.
Qed.
Lemma run_cases vs v k n : run_at (vs ++ [v]) k n -> n = 0%nat \/ run_at vs k n \/ exists m, n = S m /\ (k + m = length vs)%nat /\ v = 0 /\ run_at vs k m.
Proof.
  intros R. destruct n as [|m]; [now left|]. right. destruct (Nat.le_gt_cases (k + S m) (length vs)) as [L|L]; [left; now apply run_more in R|].
  right. exists m. assert (E : (k + m = length vs)%nat) by (destruct R as [R _]; rewrite app_length in R; cbn in R; lia). destruct (run_end vs v k m E R). auto.
Qed.
Lemma best_run_spec suf : forall pre bs bl s n, Forall (fun v => 0 <= v < 65536) suf -> best pre bs bl -> (bl = 0%nat -> bs = 0%nat) -> here pre s n ->
  best (pre ++ suf) (fst (best_run (length pre) bs bl s n (map show_hex suf))) (snd (best_run (length pre) bs bl s n (map show_hex suf))).
Proof.
  induction suf as [|v suf IH]; intros pre bs bl s n F B Z0 HE; [cbn; now rewrite app_nil_r|]. inversion F as [|? ? R F']; subst. cbn [map best_run].
  replace (pre ++ v :: suf) with ((pre ++ [v]) ++ suf) by now rewrite <- app_assoc. replace (S (length pre)) with (length (pre ++ [v])) by (rewrite app_length; cbn; lia).
  destruct HE as [HR HL HM]. destruct B as [BR BM BF]. destruct (str_eqb (show_hex v) ["0"]) eqn:EZ.
  - apply str_eqb_eq in EZ. apply show_hex_zero in EZ; [|exact R]. subst v.
    set (x := match s with Some x => x | None => length pre end) in *. assert (EX : (x + n = length pre)%nat) by (destruct s; cbn in *; lia).
    assert (HE' : here (pre ++ [0]) (Some x) (S n)).
    { constructor.
      - rewrite app_length. cbn [length]. intros i Hi. destruct (Nat.eq_dec i (length pre)) as [-> |NE]; [now rewrite app_nth2, Nat.sub_diag by lia|]. rewrite app_nth1 by lia. apply HR. lia.
      - rewrite app_length. cbn. lia.
      - rewrite app_length. cbn [length]. intros k' n' RR E. destruct (run_cases _ _ _ _ RR) as [-> |[[R1 _]|(m & -> & E1 & _ & R1)]]; [lia|lia|]. specialize (HM _ _ R1 E1). lia. }
    assert (RX : run_at (pre ++ [0]) x (S n)). { split; [rewrite app_length; cbn; lia|]. intros i Hi. apply (he_run _ _ _ HE'). rewrite app_length. cbn. lia. }
    destruct (Nat.ltb_spec bl (S n)) as [LT|GE].
    + apply IH; [exact F'| |discriminate|exact HE']. constructor; [exact RX| |].
      * intros k' n' RR. destruct (run_cases _ _ _ _ RR) as [-> |[R1|(m & -> & E1 & _ & R1)]]; [lia|specialize (BM _ _ R1); lia|]. specialize (HM _ _ R1 E1). lia.
      * intros k' RR. destruct (run_cases _ _ _ _ RR) as [E|[R1|(m & E & E1 & _ & R1)]]; [lia|specialize (BM _ _ R1); lia|]. lia.
    + apply IH; [exact F'| |exact Z0|exact HE']. constructor.
      * apply run_more; [apply BR|exact BR].
      * intros k' n' RR. destruct (run_cases _ _ _ _ RR) as [-> |[R1|(m & -> & E1 & _ & R1)]]; [lia|exact (BM _ _ R1)|]. specialize (HM _ _ R1 E1). lia.
      * intros k' RR. destruct (run_cases _ _ _ _ RR) as [E|[R1|(m & E & E1 & _ & R1)]]; [lia|exact (BF _ R1)|]. destruct BR as [BR _]. lia.
  - assert (NZ : v <> 0) by (intros ->; discriminate EZ). apply IH; [exact F'| |exact Z0|].
    + constructor.
      * apply run_more; [apply BR|exact BR].
      * intros k' n' RR. destruct (run_cases _ _ _ _ RR) as [-> |[R1|(m & -> & E1 & EV & R1)]]; [lia|exact (BM _ _ R1)|congruence].
      * intros k' RR. destruct (run_cases _ _ _ _ RR) as [E|[R1|(m & -> & E1 & EV & R1)]]; [rewrite (Z0 E); lia|exact (BF _ R1)|congruence].
    + constructor; [lia|reflexivity|]. intros k' n' RR E. destruct (run_cases _ _ _ _ RR) as [-> |[[R1 _]|(m & -> & E1 & EV & R1)]]; [lia| |congruence]. rewrite app_length in E. cbn in E. lia.
Qed.
Lemma best_run_start vs : Forall (fun v => 0 <= v < 65536) vs -> best vs (fst (best_run 0 0 0 None 0 (map show_hex vs))) (snd (best_run 0 0 0 None 0 (map show_hex vs))).
Proof.
  intros F. apply (best_run_spec vs [] 0 0 None 0 F); [|reflexivity|].
  - constructor; [split; cbn; lia| |intros; lia]. intros k' n' [R _]. cbn in R. lia.
  - constructor; [cbn; lia|reflexivity|]. intros k' n' [R _] _. cbn in R. lia.
Qed.
Lemma show_plain vs : Forall (fun v => 0 <= v < 65536) vs -> Forall2 plain (map show_hex vs) vs.
Proof. induction 1 as [|v vs R _ IH]; constructor; [now apply show_hex_plain|exact IH]. Qed.
Lemma compress_gap l k n : best_run 0 0 0 None 0 l = (k, n) -> (2 <= n)%nat -> (k + n <= length l)%nat -> compress l = pad (firstn k l) ++ [[]] ++ pad (skipn (k + n) l).
Proof.
  intros E N2 L. unfold compress. rewrite E. destruct (Nat.ltb_spec 1 n); [|lia].
  assert (Q : firstn k (if (k + n =? length l)%nat then l ++ [[]] else l) = firstn k l /\ skipn (k + n) (if (k + n =? length l)%nat then l ++ [[]] else l) = pad (skipn (k + n) l)).
  { destruct (Nat.eqb_spec (k + n) (length l)) as [EL|NE].
    - rewrite EL, firstn_app, !skipn_all, skipn_app, skipn_all, Nat.sub_diag. replace (k - length l)%nat with 0%nat by lia. cbn. now rewrite app_nil_r.
    - split; [reflexivity|]. destruct (skipn (k + n) l) eqn:ES; [|reflexivity]. apply (f_equal (@length str)) in ES. rewrite skipn_length in ES. cbn in ES. lia. }
  destruct Q as [-> ->]. destruct k as [|k]; [reflexivity|]. cbn [Nat.eqb]. destruct l as [|x l]; [cbn in L; lia|]. reflexivity.
Qed.
Lemma show_canonical vs : Forall (fun v => 0 <= v < 65536) vs -> canonical vs (join [":"%char] (compress (map show_hex vs))).
Proof.
  intros F. pose proof (best_run_start vs F) as B. destruct (best_run 0 0 0 None 0 (map show_hex vs)) as [k n] eqn:E. cbn [fst snd] in B.
  destruct (Nat.le_gt_cases 2 n) as [N2|N1].
  - rewrite (compress_gap _ k n E N2) by (rewrite map_length; apply B). rewrite join_gap. destruct B as [BR BM BF]. apply ca_short with (k := k) (n := n); try assumption.
    + rewrite firstn_map. apply show_plain. apply Forall_forall. intros v I. eapply Forall_forall in F; [exact F|]. rewrite <- (firstn_skipn k vs). apply in_or_app. now left.
    + rewrite skipn_map. apply show_plain. apply Forall_forall. intros v I. eapply Forall_forall in F; [exact F|]. rewrite <- (firstn_skipn (k + n) vs). apply in_or_app. now right.
  - unfold compress. rewrite E. destruct (Nat.ltb_spec 1 n); [lia|]. apply ca_full; [now apply show_plain|]. intros k' R. apply B in R. lia.
Qed.
Lemma show6_canonical n : canonical (hextets n) (show6 n).
Proof. apply show_canonical, hextets_range. Qed.

(** ** What is written is read *)
Lemma plain_hextets l vs : Forall2 plain l vs -> Forall2 hextet l vs.
Proof. induction 1 as [|h v l vs [P _] _ IH]; constructor; assumption. Qed.
Lemma run_zeros vs : forall k n, run_at vs k n -> vs = firstn k vs ++ repeat 0 n ++ skipn (k + n) vs.
Proof.
  induction vs as [|v vs IH]; intros k n [L R].
  - cbn in L. assert (k = 0%nat) by lia. assert (n = 0%nat) by lia. now subst.
  - destruct k as [|k].
    + destruct n as [|n]; [reflexivity|]. cbn [firstn repeat app Nat.add skipn]. f_equal; [apply (R 0%nat); lia|]. apply (IH 0%nat n). split; [cbn in L; lia|]. intros i Hi. apply (R (S i)). lia.
    + cbn [firstn app Nat.add skipn]. f_equal. apply IH. split; [cbn in L; lia|]. intros i Hi. apply (R (S i)). lia.
Qed.
Lemma canonical_reads vs t : length vs = 8%nat -> canonical vs t -> v6_text t (value vs).
Proof.
  intros L8 [l P _|hi lo k n N2 R _ _ PH PL].
  - apply v6_full; [apply gr_hex, plain_hextets, P|exact L8].
  - rewrite (run_zeros vs k n R) at 1. destruct R as [R _]. apply v6_short; [now apply plain_hextets|apply gr_hex; now apply plain_hextets| |lia]. rewrite firstn_length, skipn_length. lia.
Qed.
Lemma show6_text n : 0 <= n < 2 ^ 128 -> v6_text (show6 n) n.
Proof. intros R. rewrite <- (value_hextets n R) at 2. apply canonical_reads; [reflexivity|apply show6_canonical]. Qed.
Lemma join_len l : Forall (fun h : str => (length h <= 4)%nat) l -> (length (join [":"%char] l) <= 5 * length l - 1)%nat.
Proof.
  induction 1 as [|h l HL F IH]; [cbn; lia|]. destruct l as [|h' l]; [cbn [join length]; lia|]. change (join [":"%char] (h :: h' :: l)) with (h ++ [":"%char] ++ join [":"%char] (h' :: l)). rewrite !app_length. cbn [length] in *. lia.
Qed.
Lemma hextets_len l vs : Forall2 hextet l vs -> Forall (fun h : str => (length h <= 4)%nat) l.
Proof. induction 1 as [|h v l vs [_ P] _ IH]; constructor; assumption. Qed.
Lemma show6_length n : (length (show6 n) <= 39)%nat.
Proof.
  destruct (show6_canonical n) as [l P _|hi lo k m N2 R _ _ PH PL].
  - apply plain_hextets in P. pose proof (F2_len P) as LL. pose proof (join_len l (hextets_len _ _ P)). cbn in LL. lia.
  - apply plain_hextets in PH, PL. pose proof (F2_len PH) as L1. pose proof (F2_len PL) as L2. pose proof (join_len hi (hextets_len _ _ PH)). pose proof (join_len lo (hextets_len _ _ PL)).
    destruct R as [R _]. rewrite firstn_length in L1. rewrite skipn_length in L2. cbn [hextets map length] in *. rewrite !app_length. cbn [lit length]. change (length (lit "::")) with 2%nat. lia.
Qed.
