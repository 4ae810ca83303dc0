(** C79: collapsing networks. *)
From Coq Require Import Ascii String Arith NArith ZArith Bool List Lia Permutation Sorted.
From Verif Require Import PyStr PyStrFacts PyBase IpModel IpSpec IpFacts Ip6TextModel PIp6Text AttrModel PAttr CollapseModel CollapseSpec.
Import ListNotations.
Local Open Scope Z_scope.

Lemma width_pos six : 0 < width six.
Proof. destruct six; reflexivity. Qed.
Lemma pow2_pos k : 0 <= k -> 0 < 2 ^ k.
Proof. intros. apply Z.pow_pos_nonneg; lia. Qed.
Lemma size_pos n : good_net n -> 0 < size n.
Proof. intros [R _]. apply pow2_pos. lia. Qed.
Lemma top n : good_net n -> n_addr n + size n <= 2 ^ width (n_six n).
Proof.
  intros ([R1 R2] & (k & E) & A0). unfold size in *. set (W := width (n_six n)) in *. set (p := n_plen n) in *.
  assert (EW : 2 ^ W = 2 ^ p * 2 ^ (W - p)) by (rewrite <- Z.pow_add_r by lia; f_equal; lia). pose proof (pow2_pos (W - p) ltac:(lia)). rewrite E in *. rewrite EW in *. clear EW. set (s := 2 ^ (W - p)) in *. set (P := 2 ^ p) in *. assert (k < P) by (apply (Z.mul_lt_mono_pos_r s); lia). assert ((k + 1) * s <= P * s) by (apply Z.mul_le_mono_nonneg_r; lia). lia.
Qed.
Lemma mask_val W p : 0 <= p <= W -> netmask_int W p = 2 ^ W - 2 ^ (W - p).
Proof. intros R. apply (netmask_obj W 0 p). split; [pose proof (pow2_pos W ltac:(lia)); lia|exact R]. Qed.
Lemma first_self n : good_net n -> first (width (n_six n)) (n_addr n) (n_plen n) = n_addr n.
Proof. intros G. destruct (G) as (R & (k & E) & A0). unfold first. pose proof (size_pos n G). fold (size n). rewrite E, Z.div_mul by lia. reflexivity. Qed.
Lemma mk_ok n : good_net n -> mk_net (n_six n) (n_addr n) (n_plen n) = Ok n.
Proof.
  intros G. pose proof (first_self n G) as F0. destruct (G) as (R & _ & A0). unfold mk_net, all_ones. pose proof (width_pos (n_six n)).
  replace ((0 <=? n_addr n) && (n_addr n <=? 2 ^ width (n_six n) - 1)) with true by (symmetry; apply andb_true_intro; split; apply Z.leb_le; lia).
  replace ((0 <=? n_plen n) && (n_plen n <=? width (n_six n))) with true by (symmetry; apply andb_true_intro; split; apply Z.leb_le; lia). cbn [negb].
  fold (net_of (width (n_six n)) (n_addr n) (n_plen n)). rewrite net_of_div by lia. unfold first in F0. rewrite F0, Z.eqb_refl. now destruct n.
Qed.
Lemma eqb_iff a b : good_net a -> good_net b -> net_eqb a b = true <-> a = b.
Proof.
  intros (Ra & _ & _) (Rb & _ & _). unfold net_eqb. split.
  - intros E. apply andb_true_iff in E as [E E3]. apply andb_true_iff in E as [E1 E2]. apply eqb_prop in E1. apply Z.eqb_eq in E2, E3.
    destruct a as [sa aa pa], b as [sb ab pb]. cbn [n_six n_addr n_plen] in *. subst sb ab. rewrite !mask_val in E3 by lia.
    assert (2 ^ (width sa - pa) = 2 ^ (width sa - pb)) as E4 by lia. apply Z.pow_inj_r in E4; [|lia..]. f_equal. lia.
  - intros ->. now rewrite eqb_reflx, !Z.eqb_refl.
Qed.
Lemma broadcast_val n : good_net n -> broadcast n = n_addr n + size n - 1.
Proof.
  intros G. pose proof (first_self n G) as F0. destruct (G) as (R & _ & A0).
  pose proof (last_obj (width (n_six n)) (n_addr n) (n_plen n) (conj A0 R)) as L0. unfold last_address, hostmask, netmask in L0. cbn [ip_net ip_plen obj] in L0. rewrite F0 in L0. unfold broadcast, size. rewrite L0. lia.
Qed.

(** ** Larger networks *)

Definition sup (n : net) : net := if n_plen n =? 0 then n else mkNet (n_six n) (n_addr n / (2 * size n) * (2 * size n)) (n_plen n - 1).
Lemma land_shiftl a b k : 0 <= k -> Z.land a (Z.shiftl b k) = Z.shiftl (Z.land (Z.shiftr a k) b) k.
Proof.
  intros K. apply Z.bits_inj'. intros i Hi. rewrite Z.land_spec, !Z.shiftl_spec by lia. destruct (Z.ltb_spec i k).
  - rewrite !(Z.testbit_neg_r _ (i - k)) by lia. apply andb_false_r.
  - rewrite Z.land_spec, Z.shiftr_spec by lia. now replace (i - k + k) with i by lia.
Qed.
Lemma sup_size n : good_net n -> n_plen n <> 0 -> size (sup n) = 2 * size n.
Proof.
  intros (R & _) NZ. unfold sup. destruct (Z.eqb_spec (n_plen n) 0); [congruence|]. unfold size. cbn [n_six n_plen].
  replace (width (n_six n) - (n_plen n - 1)) with (Z.succ (width (n_six n) - n_plen n)) by lia. now rewrite Z.pow_succ_r by lia.
Qed.
Lemma sup_good n : good_net n -> good_net (sup n).
Proof.
  intros G. destruct (Z.eq_dec (n_plen n) 0) as [E|E]; [unfold sup; now rewrite E|]. pose proof (sup_size n G E) as S0. pose proof (size_pos n G) as SP. destruct (G) as (R & (k & Ek) & A0).
  assert (ES : sup n = mkNet (n_six n) (n_addr n / (2 * size n) * (2 * size n)) (n_plen n - 1)) by (unfold sup; now destruct (Z.eqb_spec (n_plen n) 0)).
  split; [rewrite ES; cbn [n_six n_plen]; lia|]. split; [exists (n_addr n / (2 * size n)); rewrite S0, ES; reflexivity|]. rewrite ES. cbn [n_addr n_six].
  pose proof (Z.mul_div_le (n_addr n) (2 * size n) ltac:(lia)). pose proof (Z.div_pos (n_addr n) (2 * size n) ltac:(lia) ltac:(lia)). nia.
Qed.
Lemma supernet_ok n : good_net n -> supernet n = Ok (sup n).
Proof.
  intros G. destruct (Z.eq_dec (n_plen n) 0) as [E|E]; [unfold supernet, sup; now rewrite E|].
  rewrite <- (mk_ok (sup n) (sup_good n G)). unfold supernet, sup. destruct (Z.eqb_spec (n_plen n) 0) as [|_]; [congruence|]. cbn [n_six n_addr n_plen]. f_equal.
  destruct (G) as (R & _ & A0). set (W := width (n_six n)) in *. set (p := n_plen n) in *. rewrite mask_val by lia.
  assert (EM : 2 ^ W - 2 ^ (W - p) = Z.shiftl (Z.ones p) (W - p)).
  { rewrite Z.shiftl_mul_pow2 by lia. rewrite Z.ones_equiv. unfold Z.pred. rewrite Z.mul_add_distr_r, <- Z.pow_add_r by lia. replace (p + (W - p)) with W by lia. lia. }
  rewrite EM, Z.shiftl_shiftl by lia. rewrite land_shiftl by lia. rewrite Z.shiftl_mul_pow2, Z.shiftr_div_pow2, Z.land_ones by lia.
  assert (E2 : 2 * size n = 2 ^ (W - p + 1)). { unfold size. fold W p. replace (W - p + 1) with (Z.succ (W - p)) by lia. now rewrite Z.pow_succ_r by lia. }
  rewrite E2. f_equal. apply Z.mod_small. split; [apply Z.div_pos; [lia|apply pow2_pos; lia]|]. apply Z.div_lt_upper_bound; [apply pow2_pos; lia|].
  rewrite <- Z.pow_add_r by lia. replace (W - p + 1 + p) with (Z.succ W) by lia. rewrite Z.pow_succ_r by lia. lia.
Qed.
Lemma multiples s x y : 0 < s -> (exists k, x = k * s) -> (exists k, y = k * s) -> x < y -> x + s <= y.
Proof. intros P (k & ->) (j & ->) L. assert (k < j) by nia. nia. Qed.
(** Two networks with a common address: the smaller one lies in the larger one. *)
Lemma nested n m a : good_net n -> good_net m -> n_plen m <= n_plen n -> holds n a -> holds m a -> n_addr m <= n_addr n /\ n_addr n + size n <= n_addr m + size m.
Proof.
  intros G1 G2 LE [V1 H1] [V2 H2]. pose proof (size_pos n G1). destruct G1 as (R1 & K1 & A1), G2 as (R2 & (k2 & E2) & A2). assert (EV : n_six m = n_six n) by congruence.
  assert (ES : size m = 2 ^ (n_plen n - n_plen m) * size n). { unfold size. rewrite EV in *. rewrite <- Z.pow_add_r by lia. f_equal. lia. }
  assert (M1 : exists k, n_addr m = k * size n) by (exists (k2 * 2 ^ (n_plen n - n_plen m)); rewrite E2, ES; ring).
  assert (M2 : exists k, n_addr m + size m = k * size n) by (exists ((k2 + 1) * 2 ^ (n_plen n - n_plen m)); rewrite E2, ES; ring).
  split.
  - destruct (Z.le_gt_cases (n_addr m) (n_addr n)) as [|L]; [assumption|]. pose proof (multiples _ _ _ ltac:(eassumption) K1 M1 L). lia.
  - apply multiples; auto. lia.
Qed.
Lemma within n m : n_six n = n_six m -> n_addr m <= n_addr n -> n_addr n + size n <= n_addr m + size m -> forall a, holds n a -> holds m a.
Proof. intros V L1 L2 a [E R]. split; [congruence|lia]. Qed.
Lemma sup_halves n m : good_net n -> good_net m -> sup n = sup m -> n <> m -> forall a, holds (sup n) a <-> holds n a \/ holds m a.
Proof.
  intros G1 G2 E NE a.
  assert (SZ : forall x, n_plen x = 0 -> sup x = x) by (intros x E0; unfold sup; now rewrite E0).
  assert (IN : forall x, good_net x -> holds x a -> holds (sup x) a).
  { intros x G HX. destruct (Z.eq_dec (n_plen x) 0) as [E0|E0]; [now rewrite SZ|]. pose proof (sup_size x G E0) as S0. pose proof (size_pos x G) as SP. destruct HX as [V HX]. destruct (G) as (_ & (k & Ek) & _).
    assert (ES : sup x = mkNet (n_six x) (n_addr x / (2 * size x) * (2 * size x)) (n_plen x - 1)) by (unfold sup; now destruct (Z.eqb_spec (n_plen x) 0)).
    split; [rewrite ES; exact V|]. rewrite S0, ES. cbn [n_addr]. rewrite Ek in *. rewrite Z.div_mul_cancel_r by lia. pose proof (Z.div_mod k 2 ltac:(lia)). pose proof (Z.mod_pos_bound k 2 ltac:(lia)). nia. }
  split.
  - destruct (Z.eq_dec (n_plen n) 0) as [E0|E0]; [rewrite SZ by exact E0; now left|]. destruct (Z.eq_dec (n_plen m) 0) as [E1|E1]; [rewrite E, SZ by exact E1; now right|].
    pose proof (sup_size n G1 E0) as S1. pose proof (sup_size m G2 E1) as S2. rewrite E in S1. assert (ZZ : size n = size m) by lia. pose proof (size_pos n G1) as SP.
    intros [V R]. rewrite E, S1 in R. rewrite <- E in R. unfold sup in E, R, V. destruct (Z.eqb_spec (n_plen n) 0); [congruence|]. destruct (Z.eqb_spec (n_plen m) 0); [congruence|]. pose proof (f_equal n_six E) as EV. pose proof (f_equal n_addr E) as EA. pose proof (f_equal n_plen E) as EP. clear E.
    cbn [n_addr n_six n_plen] in R, V, EV, EA, EP. destruct G1 as (_ & (k & Ek) & _), G2 as (_ & (j & Ej) & _). unfold holds. rewrite <- ZZ in *. rewrite <- EV. rewrite Ek, Ej in *. rewrite !Z.div_mul_cancel_r in * by lia.
    assert (KJ : k <> j). { intros ->. apply NE. destruct n as [sn an pn], m as [sm am pm]. cbn [n_six n_addr n_plen] in *. f_equal; first [congruence|lia]. }
    assert (KD : k / 2 = j / 2) by (apply (Z.mul_reg_r _ _ (2 * size n)); [lia|exact EA]). pose proof (Z.div_mod k 2 ltac:(lia)) as D1. pose proof (Z.mod_pos_bound k 2 ltac:(lia)) as B1.
    pose proof (Z.div_mod j 2 ltac:(lia)) as D2. pose proof (Z.mod_pos_bound j 2 ltac:(lia)) as B2. rewrite <- KD in D2.
    remember (k / 2) as q eqn:Q0. remember (k mod 2) as r eqn:R0. remember (j mod 2) as u eqn:U0. clear Q0 R0 U0 EA KD. remember (size n) as s eqn:S0. clear S0 S1 S2.
    assert (CA : r = 0 /\ u = 1 \/ r = 1 /\ u = 0) by lia.
    destruct CA as [[-> ->]|[-> ->]]; subst k j; destruct (Z.lt_ge_cases (snd a) (2 * (q * s) + s)) as [L1|L1].
    + left. split; [exact V|lia].
    + right. split; [exact V|lia].
    + right. split; [exact V|lia].
    + left. split; [exact V|lia].
  - intros [HX|HX]; [now apply IN|]. rewrite E. now apply IN.
Qed.

(** ** Merging *)

Definition dict_ok (d : dict) : Prop := Forall (fun kv => good_net (snd kv) /\ fst kv = sup (snd kv)) d /\ NoDup (map fst d).
Lemma keys_good d : dict_ok d -> forall x, In x d -> good_net (fst x).
Proof. intros [F _] x I0. rewrite Forall_forall in F. destruct (F x I0) as [G ->]. now apply sup_good. Qed.
Lemma get_some d k v : dict_ok d -> good_net k -> dict_get d k = Some v -> In (k, v) d.
Proof.
  intros OK Gk. pose proof (keys_good d OK) as KG. clear OK. induction d as [|[x w] d IH]; cbn [dict_get]; [discriminate|]. destruct (net_eqb x k) eqn:E.
  - intros E0. injection E0 as ->. apply eqb_iff in E; [|exact (KG (x, v) (or_introl eq_refl))|exact Gk]. subst x. now left.
  - intros E0. right. apply IH; [|exact E0]. intros y I0. apply KG. now right.
Qed.
Lemma get_none d k : dict_ok d -> good_net k -> dict_get d k = None -> ~ In k (map fst d).
Proof.
  intros OK Gk. pose proof (keys_good d OK) as KG. clear OK. induction d as [|[x w] d IH]; cbn [dict_get]; [intros _ []|]. destruct (net_eqb x k) eqn:E; [discriminate|].
  intros E0 [E1|I0]; [cbn in E1; subst x; rewrite (proj2 (eqb_iff k k Gk Gk) eq_refl) in E; discriminate|]. apply IH in E0; [now apply E0|]. intros y I1. apply KG. now right.
Qed.
Lemma del_eq d k v : dict_ok d -> good_net k -> In (k, v) d -> exists a b, d = a ++ (k, v) :: b /\ dict_del d k = a ++ b.
Proof.
  intros OK Gk. pose proof (keys_good d OK) as KG. destruct OK as [_ ND]. induction d as [|[x w] d IH]; [intros []|]. intros I0. cbn [dict_del]. destruct (net_eqb x k) eqn:E.
  - apply eqb_iff in E; [|exact (KG (x, w) (or_introl eq_refl))|exact Gk]. subst x. exists [], d. destruct I0 as [E0|I0]; [injection E0 as ->; now split|].
    exfalso. cbn [map fst] in ND. apply NoDup_cons_iff in ND as [N0 _]. apply N0. change k with (fst (k, v)). now apply in_map.
  - destruct I0 as [E0|I0]; [injection E0 as -> ->; rewrite (proj2 (eqb_iff k k Gk Gk) eq_refl) in E; discriminate|]. apply NoDup_cons_iff in ND as [_ ND].
    destruct (IH ND (fun y I1 => KG y (or_intror I1)) I0) as (a & b & E1 & E2). exists ((x, w) :: a), b. split; [now rewrite E1 at 1|now rewrite E2].
Qed.
Lemma some_app l l' a : some_holds (l ++ l') a <-> some_holds l a \/ some_holds l' a.
Proof. unfold some_holds. split; [intros (n & I0 & H0); apply in_app_iff in I0 as [I0|I0]; eauto|intros [(n & I0 & H0)|(n & I0 & H0)]; exists n; split; auto; apply in_app_iff; auto]. Qed.
Lemma some_cons n l a : some_holds (n :: l) a <-> holds n a \/ some_holds l a.
Proof. unfold some_holds. cbn [In]. split; [intros (m & [<-|I0] & H0); eauto|intros [H0|(m & I0 & H0)]; eauto]. Qed.
Lemma some_nil a : some_holds [] a <-> False.
Proof. split; [intros (n & [] & _)|intros []]. Qed.
Lemma dict_ok_app a b : dict_ok (a ++ b) <-> Forall (fun kv => good_net (snd kv) /\ fst kv = sup (snd kv)) (a ++ b) /\ NoDup (map fst a ++ map fst b).
Proof. unfold dict_ok. now rewrite map_app. Qed.
Lemma merge_ok fuel : forall tm d, Forall good_net tm -> dict_ok d -> (2 * length tm + length d < fuel)%nat ->
  exists d', merge fuel tm d = Ok d' /\ dict_ok d' /\ forall a, some_holds (map snd d') a <-> some_holds (tm ++ map snd d) a.
Proof.
  induction fuel as [|fuel IH]; [lia|]. intros tm d FT OK L0. cbn [merge]. destruct tm as [|n r]; [exists d; repeat split; auto; try apply OK|].
  apply Forall_cons_iff in FT as [Gn FT]. rewrite supernet_ok by exact Gn. cbn [bind]. pose proof (sup_good n Gn) as Gs. cbn [length] in L0. destruct (dict_get d (sup n)) as [v|] eqn:E.
  - apply get_some in E as I0; [|exact OK|exact Gs]. destruct (OK) as [F0 ND]. rewrite Forall_forall in F0. destruct (F0 _ I0) as [Gv Ev]. cbn [fst snd] in Gv, Ev. destruct (net_eqb v n) eqn:EQ; cbn [negb].
    + apply eqb_iff in EQ; [|exact Gv|exact Gn]. subst v. destruct (IH r d FT OK ltac:(lia)) as (d' & E1 & OK1 & H1). exists d'. split; [exact E1|]. split; [exact OK1|]. intros a. rewrite H1. cbn [app]. rewrite some_cons, !some_app.
      split; [tauto|]. intros [HN|HN]; [|exact HN]. right. exists n. split; [|exact HN]. change n with (snd (sup n, n)). now apply in_map.
    + destruct (del_eq d (sup n) v OK Gs I0) as (a & b & -> & Ed). rewrite Ed. assert (NE : v <> n) by (intros ->; rewrite (proj2 (eqb_iff n n Gn Gn) eq_refl) in EQ; discriminate).
      assert (OK' : dict_ok (a ++ b)).
      { split; [apply Forall_forall; intros x Ix; apply F0; apply in_app_iff; apply in_app_iff in Ix as [Ix|Ix]; [now left|right; now right]|]. rewrite map_app in *. cbn [map] in ND. now apply NoDup_remove_1 in ND. }
      rewrite app_length in L0. cbn [length] in L0. destruct (IH (sup n :: r) (a ++ b) ltac:(constructor; assumption) OK' ltac:(cbn [length]; rewrite app_length; lia)) as (d' & E1 & OK1 & H1).
      exists d'. split; [exact E1|]. split; [exact OK1|]. intros x. rewrite H1. rewrite !map_app. cbn [map snd app]. rewrite !some_cons, !some_app, !some_cons.
      rewrite (sup_halves n v Gn Gv Ev (not_eq_sym NE)). tauto.
  - apply get_none in E; [|exact OK|exact Gs].
    assert (OK' : dict_ok (d ++ [(sup n, n)])).
    { destruct OK as [F0 ND]. split; [apply Forall_app; split; [exact F0|]; constructor; [split; [exact Gn|reflexivity]|constructor]|]. rewrite map_app. cbn [map fst]. apply NoDup_Add with (a := sup n) (l := map fst d); [|split; assumption].
      rewrite <- (app_nil_r (map fst d)) at 1. apply Add_app. }
    destruct (IH r _ FT OK' ltac:(rewrite app_length; cbn [length]; lia)) as (d' & E1 & OK1 & H1). exists d'. split; [exact E1|]. split; [exact OK1|]. intros a. rewrite H1, map_app. cbn [map snd app]. rewrite some_cons, !some_app, some_cons, some_nil. tauto.
Qed.

(** ** Sorting *)

Lemma insert_perm {T} (ltb : T -> T -> bool) x l : Permutation (insert ltb x l) (x :: l).
Proof. induction l as [|y l IH]; cbn [insert]; [reflexivity|]. destruct (ltb x y); [reflexivity|]. rewrite IH. apply perm_swap. Qed.
Lemma sorted_perm {T} (ltb : T -> T -> bool) l : Permutation (sorted ltb l) l.
Proof. induction l as [|x l IH]; [reflexivity|]. cbn [sorted fold_right]. rewrite insert_perm. now apply perm_skip. Qed.
Lemma sorted_spec {T} (ltb : T -> T -> bool) (P : T -> Prop) (le : T -> T -> Prop) : (forall x y z, le x y -> le y z -> le x z) ->
  (forall x y, P x -> P y -> ltb x y = true -> le x y) -> (forall x y, P x -> P y -> ltb x y = false -> le y x) -> forall l, Forall P l -> StronglySorted le (sorted ltb l).
Proof.
  intros TR L1 L2. assert (K : forall x l, P x -> Forall P l -> StronglySorted le l -> StronglySorted le (insert ltb x l)).
  { intros x l Px. induction l as [|y l IH]; intros F0 SS; cbn [insert]; [repeat constructor|]. apply Forall_cons_iff in F0 as [Py F0]. apply StronglySorted_inv in SS as [SS FA]. destruct (ltb x y) eqn:E.
    - constructor; [now constructor|]. constructor; [auto|]. rewrite Forall_forall in *. intros z Iz. eapply TR; [apply (L1 x y); auto|auto].
    - constructor; [auto|]. rewrite Forall_forall in *. intros z Iz. apply (Permutation_in _ (insert_perm ltb x l)) in Iz as [<-|Iz]; [now apply L2|now apply FA]. }
  induction l as [|x l IH]; intros F0; [constructor|]. apply Forall_cons_iff in F0 as [Px F0]. cbn [sorted fold_right]. apply K; auto. apply Forall_forall. intros z Iz. apply (Permutation_in _ (sorted_perm ltb l)) in Iz. rewrite Forall_forall in F0. auto.
Qed.
Definition nle (a b : net) : Prop := n_addr a < n_addr b \/ (n_addr a = n_addr b /\ n_plen a <= n_plen b).
Lemma sorted_ok six l : Forall (fun n => good_net n /\ n_six n = six) l -> sorted_nets l = Ok (sorted net_ltb l) /\ StronglySorted nle (sorted net_ltb l).
Proof.
  intros F0. split.
  - destruct l as [|n r]; [reflexivity|]. unfold sorted_nets. replace (forallb _ r) with true; [reflexivity|]. symmetry. apply forallb_forall. intros m Im. apply Forall_cons_iff in F0 as [[_ E] F0]. rewrite Forall_forall in F0. destruct (F0 m Im) as [_ ->]. rewrite E. apply eqb_reflx.
  - apply (sorted_spec net_ltb (fun n => good_net n /\ n_six n = six) nle); [unfold nle; intros; lia| | |exact F0].
    + intros x y [(Rx & _) Ex] [(Ry & _) Ey]. unfold net_ltb, nle. rewrite Ex, Ey in *. destruct (Z.eqb_spec (n_addr x) (n_addr y)) as [E|E]; cbn [negb]; [|rewrite Z.ltb_lt; lia]. destruct (Z.eqb_spec (netmask_int (width six) (n_plen x)) (netmask_int (width six) (n_plen y))) as [|_]; cbn [negb]; [discriminate|].
      rewrite Z.ltb_lt, !mask_val by lia. intros L0. right. split; [exact E|]. assert (L1 : 2 ^ (width six - n_plen y) < 2 ^ (width six - n_plen x)) by lia. apply Z.pow_lt_mono_r_iff in L1; lia.
    + intros x y [(Rx & _) Ex] [(Ry & _) Ey]. unfold net_ltb, nle. rewrite Ex, Ey in *. destruct (Z.eqb_spec (n_addr x) (n_addr y)) as [E|E]; cbn [negb]; [|rewrite Z.ltb_ge; lia]. intros L0. right. split; [now symmetry|].
      assert (L1 : netmask_int (width six) (n_plen y) <= netmask_int (width six) (n_plen x)).
      { destruct (Z.eqb_spec (netmask_int (width six) (n_plen x)) (netmask_int (width six) (n_plen y))) as [E1|_]; cbn [negb] in L0; [lia|]. now apply Z.ltb_ge in L0. }
      rewrite !mask_val in L1 by lia. assert (L2 : 2 ^ (width six - n_plen x) <= 2 ^ (width six - n_plen y)) by lia. apply Z.pow_le_mono_r_iff in L2; lia.
Qed.

(** ** What is subsumed *)

Definition opt (m : option net) : list net := match m with Some x => [x] | None => [] end.
Lemma skip_ok six l : forall last, Forall (fun n => good_net n /\ n_six n = six) (opt last ++ l) -> StronglySorted nle (opt last ++ l) ->
  incl (skip_subsumed last l) l /\ ascending (opt last ++ skip_subsumed last l) /\ forall a, some_holds (opt last ++ skip_subsumed last l) a <-> some_holds (opt last ++ l) a.
Proof.
  induction l as [|n l IH]; intros last F0 SS; cbn [skip_subsumed].
  - split; [apply incl_refl|]. split; [destruct last; cbn; auto|]. reflexivity.
  - assert (K : match last with Some m => broadcast m < broadcast n | None => True end ->
       incl (n :: skip_subsumed (Some n) l) (n :: l) /\ ascending (opt last ++ n :: skip_subsumed (Some n) l) /\ forall a, some_holds (opt last ++ n :: skip_subsumed (Some n) l) a <-> some_holds (opt last ++ n :: l) a).
    { intros B. destruct (IH (Some n)) as (I1 & A1 & H1).
      - destruct last; cbn [opt app] in *; [now apply Forall_inv_tail in F0|exact F0].
      - destruct last; cbn [opt app] in *; [now apply StronglySorted_inv in SS as [SS _]|exact SS].
      - cbn [opt app] in A1, H1. split; [apply incl_cons; [now left|now apply incl_tl]|]. split.
        + destruct last as [m|]; [|exact A1]. cbn [opt app] in *. apply Forall_cons_iff in F0 as [[Gm Em] F0]. apply Forall_cons_iff in F0 as [[Gn En] F0]. apply StronglySorted_inv in SS as [_ FA]. apply Forall_inv in FA.
          rewrite !broadcast_val in B by assumption. cbn [ascending]. split; [|exact A1]. split; [congruence|]. pose proof (size_pos m Gm). pose proof (size_pos n Gn).
          destruct (Z.le_gt_cases (n_addr m + size m) (n_addr n)) as [|L0]; [assumption|]. exfalso.
          assert (HM : holds m (six, n_addr n)) by (split; cbn; [congruence|unfold nle in FA; lia]). assert (HN : holds n (six, n_addr n)) by (split; cbn; [congruence|lia]).
          destruct (Z.le_gt_cases (n_plen m) (n_plen n)) as [LP|LP]; [pose proof (nested n m _ Gn Gm LP HN HM); lia|]. pose proof (nested m n _ Gm Gn ltac:(lia) HM HN). unfold nle in FA. lia.
        + intros a. rewrite !some_app, H1. reflexivity. }
    destruct last as [m|]; [|now apply K]. destruct (Z.leb_spec (broadcast n) (broadcast m)) as [B|B]; [|now apply K].
    cbn [opt app] in *. apply Forall_cons_iff in F0 as [[Gm Em] F0]. apply Forall_cons_iff in F0 as [[Gn En] F0]. apply StronglySorted_inv in SS as [SS FA]. apply Forall_cons_iff in FA as [NL FA]. apply StronglySorted_inv in SS as [SS _].
    destruct (IH (Some m)) as (I1 & A1 & H1); [cbn; constructor; auto|cbn; constructor; auto|]. split; [now apply incl_tl|]. split; [exact A1|]. intros a. cbn [opt app] in H1. rewrite H1, !some_cons.
    rewrite !broadcast_val in B by assumption. split; [tauto|]. intros [HX|[HX|HX]]; auto. left. apply (within n m); auto; [congruence|unfold nle in NL; lia|lia].
Qed.

(** ** The largest networks *)

Lemma maximal out : Forall good_net out -> (forall n m, In n out -> In m out -> sup n = sup m -> n = m) ->
  forall k n, good_net n -> Z.to_nat (width (n_six n) - n_plen n) = k -> (forall a, holds n a -> some_holds out a) -> exists m, In m out /\ forall a, holds n a -> holds m a.
Proof.
  intros F0 NS. rewrite Forall_forall in F0. induction k as [|k IH]; intros n G EK HC.
  all: pose proof (size_pos n G) as SP; assert (H0 : holds n (n_six n, n_addr n)) by (split; cbn; [reflexivity|lia]); destruct (HC _ H0) as (m & Im & Hm); pose proof (F0 m Im) as Gm.
  all: assert (BIG : forall x, In x out -> holds x (n_six n, n_addr n) -> n_plen x <= n_plen n -> exists m, In m out /\ forall a, holds n a -> holds m a) by
    (intros x Ix Hx LE; exists x; split; [exact Ix|]; destruct (nested n x _ G (F0 x Ix) LE H0 Hx); apply within; auto; exact (proj1 Hx)).
  - apply (BIG m Im Hm). destruct G as (R & _), Gm as (Rm & _). pose proof (proj1 Hm) as V. cbn in V. rewrite V in *. lia.
  - destruct (Z.le_gt_cases (n_plen m) (n_plen n)) as [LE|LT]; [exact (BIG m Im Hm LE)|].
    destruct (G) as (R & (j & Ej) & A0). pose proof (top n G) as TP. assert (PW : n_plen n < width (n_six n)) by lia.
    assert (ES : size n = 2 * 2 ^ (width (n_six n) - (n_plen n + 1))). { unfold size. rewrite <- Z.pow_succ_r by lia. f_equal. lia. }
    set (s := 2 ^ (width (n_six n) - (n_plen n + 1))) in *. assert (S0 : 0 < s) by (apply pow2_pos; lia).
    set (h0 := mkNet (n_six n) (n_addr n) (n_plen n + 1)). set (h1 := mkNet (n_six n) (n_addr n + s) (n_plen n + 1)).
    assert (Z0 : size h0 = s) by reflexivity. assert (Z1 : size h1 = s) by reflexivity.
    assert (G0 : good_net h0). { split; [cbn; lia|]. split; [exists (2 * j); rewrite Z0; cbn [n_addr h0]; rewrite Ej, ES; ring|cbn [n_addr n_six h0]; lia]. }
    assert (G1 : good_net h1). { split; [cbn; lia|]. split; [exists (2 * j + 1); rewrite Z1; cbn [n_addr h1]; rewrite Ej, ES; ring|cbn [n_addr n_six h1]; lia]. }
    assert (C0 : forall a, holds h0 a -> some_holds out a). { intros a [V RA]. apply HC. split; [exact V|]. rewrite Z0 in RA. cbn [n_addr h0] in RA. lia. }
    assert (C1 : forall a, holds h1 a -> some_holds out a). { intros a [V RA]. apply HC. split; [exact V|]. rewrite Z1 in RA. cbn [n_addr h1] in RA. lia. }
    destruct (IH h0 G0 ltac:(cbn; lia) C0) as (m0 & I0 & W0). destruct (IH h1 G1 ltac:(cbn; lia) C1) as (m1 & I1 & W1).
    assert (B0 : holds h0 (n_six n, n_addr n)) by (split; [reflexivity|rewrite Z0; cbn; lia]). assert (B1 : holds h1 (n_six n, n_addr n + s)) by (split; [reflexivity|rewrite Z1; cbn; lia]).
    assert (SAME : forall h x b, good_net h -> In x out -> n_six h = n_six n -> n_plen h = n_plen n + 1 -> size h = s -> holds h b -> (forall a, holds h a -> holds x a) -> n_plen x > n_plen n -> x = h).
    { intros h x b Gh Ix Vh Ph Zh Hb Wx GT. pose proof (Wx b Hb) as Hx. pose proof (F0 x Ix) as Gx. assert (Vx : n_six x = n_six n) by (rewrite <- Vh; destruct Hb as [<- _]; destruct Hx as [<- _]; reflexivity).
      assert (L1 : n_plen h <= n_plen x) by lia. destruct (nested x h b Gx Gh L1 Hx Hb) as [N1 N2]. pose proof (size_pos x Gx) as SX.
      assert (W2 : holds h (n_six h, n_addr h)) by (split; cbn; [reflexivity|lia]). assert (W3 : holds h (n_six h, n_addr h + size h - 1)) by (split; cbn; [reflexivity|lia]).
      apply Wx in W2 as [_ W2]. apply Wx in W3 as [_ W3]. cbn [snd] in W2, W3. assert (EA : n_addr x = n_addr h) by lia. assert (EZ : size x = size h) by lia.
      unfold size in EZ. rewrite Vx, Vh in EZ. destruct Gx as (Rx & _), Gh as (Rh & _). rewrite Vx in Rx. rewrite Vh in Rh. apply Z.pow_inj_r in EZ; [|lia..].
      destruct x as [vx ax px], h as [vh ah ph]. cbn [n_six n_addr n_plen] in *. f_equal; [congruence|lia|lia]. }
    destruct (Z.le_gt_cases (n_plen m0) (n_plen n)) as [L0|L0]; [apply (BIG m0 I0); [now apply W0|exact L0]|].
    destruct (Z.le_gt_cases (n_plen m1) (n_plen n)) as [L1|L1].
    + exists m1. split; [exact I1|]. assert (HB : holds n (n_six n, n_addr n + s)) by (split; cbn; [reflexivity|lia]). destruct (nested n m1 _ G (F0 m1 I1) L1 HB (W1 _ B1)). apply within; auto. exact (proj1 (W1 _ B1)).
    + exfalso. pose proof (SAME h0 m0 _ G0 I0 eq_refl eq_refl Z0 B0 W0 ltac:(lia)) as E0. pose proof (SAME h1 m1 _ G1 I1 eq_refl eq_refl Z1 B1 W1 ltac:(lia)) as E1. subst m0 m1.
      assert (ESUP : sup h0 = sup h1).
      { unfold sup. cbn [n_plen h0 h1]. destruct (Z.eqb_spec (n_plen n + 1) 0); [lia|]. fold h0 h1. rewrite Z0, Z1. cbn [n_six n_addr h0 h1]. f_equal. f_equal.
        replace (n_addr n) with (j * (2 * s)) by (rewrite Ej, ES; ring). rewrite Z.div_mul by lia. rewrite Z.div_add_l by lia. rewrite Z.div_small by lia. lia. }
      apply NS in ESUP; auto. apply (f_equal n_addr) in ESUP. cbn in ESUP. lia.
Qed.
Definition same_version (six : bool) (l : list net) : Prop := Forall (fun n => good_net n /\ n_six n = six) l.
Lemma holds_six l six a : same_version six l -> some_holds l a -> fst a = six.
Proof. intros F0 (n & I0 & E & _). unfold same_version in F0. rewrite Forall_forall in F0. destruct (F0 n I0) as [_ <-]. exact E. Qed.
Lemma some_point n l : good_net n -> In n l -> some_holds l (n_six n, n_addr n).
Proof. intros G I0. exists n. split; [exact I0|]. pose proof (size_pos n G). split; cbn; [reflexivity|lia]. Qed.
Lemma some_rev l a : some_holds (rev l) a <-> some_holds l a.
Proof. unfold some_holds. split; intros (n & I0 & H0); exists n; split; auto; [exact (proj2 (in_rev l n) I0)|exact (proj1 (in_rev l n) I0)]. Qed.
Lemma some_perm l l' a : Permutation l l' -> some_holds l a -> some_holds l' a.
Proof. intros P (n & I0 & H0). exists n. split; [now apply (Permutation_in _ P)|exact H0]. Qed.
Lemma internal_ok l : Forall good_net l ->
  (forall six, Forall (fun n => n_six n = six) l -> exists out, collapse_internal l = Ok out /\ summary (some_holds l) out) /\
  ((exists n m, In n l /\ In m l /\ n_six n <> n_six m) -> collapse_internal l = Err TypeErr).
Proof.
  intros F0. unfold collapse_internal.
  destruct (merge_ok (S (2 * length l)) (rev l) []) as (d & E & [FD ND] & HC); [apply Forall_forall; intros x Ix; apply (in_rev l x) in Ix; rewrite Forall_forall in F0; auto|split; constructor|rewrite rev_length; cbn; lia|].
  rewrite E. cbn [bind]. assert (HC' : forall a, some_holds (map snd d) a <-> some_holds l a) by (intros a; rewrite HC, some_app, some_rev; cbn [map]; rewrite some_nil; tauto). clear HC E.
  assert (GV : Forall good_net (map snd d)). { apply Forall_forall. intros x Ix. apply in_map_iff in Ix as (y & <- & Iy). rewrite Forall_forall in FD. now destruct (FD y Iy). }
  assert (NS : forall n m, In n (map snd d) -> In m (map snd d) -> sup n = sup m -> n = m).
  { intros n m In0 Im0 ES. apply in_map_iff in In0 as ([k1 v1] & <- & I1). apply in_map_iff in Im0 as ([k2 v2] & <- & I2). cbn [snd] in *. rewrite Forall_forall in FD. destruct (FD _ I1) as [_ E1]. destruct (FD _ I2) as [_ E2]. cbn [fst snd] in E1, E2.
    assert (EK : k1 = k2) by congruence. rewrite <- EK in I2. clear - ND I1 I2. induction d as [|[k v] d IH]; [destruct I1|]. cbn [map fst] in ND. apply NoDup_cons_iff in ND as [N0 ND].
    destruct I1 as [E1|I1], I2 as [E2|I2]; [congruence|injection E1 as -> ->; exfalso; exact (N0 (in_map fst d _ I2))|injection E2 as -> ->; exfalso; exact (N0 (in_map fst d _ I1))|auto]. }
  split.
  - intros six FS. assert (SV : same_version six (map snd d)).
    { apply Forall_forall. intros x Ix. rewrite Forall_forall in GV. split; [auto|]. assert (SL : same_version six l) by (apply Forall_forall; intros y Iy; rewrite Forall_forall in F0, FS; auto).
      pose proof (some_point x _ (GV x Ix) Ix) as HX. apply HC' in HX. now apply (holds_six _ _ _ SL) in HX. }
    destruct (sorted_ok six _ SV) as [ES SS]. rewrite ES. cbn [bind]. pose proof (sorted_perm net_ltb (map snd d)) as PM. set (v := sorted net_ltb (map snd d)) in *.
    assert (FV : same_version six v). { apply Forall_forall. intros x Ix. apply (Permutation_in _ PM) in Ix. unfold same_version in SV. rewrite Forall_forall in SV. auto. }
    destruct (skip_ok six v None FV SS) as (I1 & A1 & H1). cbn [opt app] in A1, H1. eexists. split; [reflexivity|]. set (out := skip_subsumed None v) in *.
    assert (HO : forall a, some_holds out a <-> some_holds l a). { intros a. rewrite H1, <- HC'. split; apply some_perm; [exact PM|now symmetry]. }
    assert (GO : Forall good_net out). { apply Forall_forall. intros x Ix. apply I1 in Ix. unfold same_version in FV. rewrite Forall_forall in FV. now apply FV. }
    split; [exact GO|]. split; [exact A1|]. split; [exact HO|]. intros n G HC0. apply (maximal out GO) with (k := Z.to_nat (width (n_six n) - n_plen n)); auto.
    + intros x y Ix Iy. apply NS; apply (Permutation_in _ PM); now apply I1.
    + intros a Ha. apply HO. now apply HC0.
  - intros (n & m & In0 & Im0 & NE). rewrite Forall_forall in F0.
    destruct (proj2 (HC' _) (some_point n l (F0 n In0) In0)) as (n' & In1 & Vn & _). destruct (proj2 (HC' _) (some_point m l (F0 m Im0) Im0)) as (m' & Im1 & Vm & _). cbn in Vn, Vm.
    unfold sorted_nets. destruct (map snd d) as [|x r]; [destruct In1|]. destruct (forallb _ r) eqn:FB; [|reflexivity]. exfalso. rewrite forallb_forall in FB.
    assert (AL : forall y, In y (x :: r) -> n_six y = n_six x) by (intros y [<-|Iy]; [reflexivity|]; apply eqb_prop; now apply FB). pose proof (AL n' In1). pose proof (AL m' Im1). congruence.
Qed.

(** ** Ranges of addresses *)

Lemma land_odd a b : Z.land (2 * a + 1) (2 * b + 1) = 2 * Z.land a b + 1.
Proof.
  apply Z.bits_inj'. intros i Hi. rewrite Z.land_spec. destruct (Z.eq_dec i 0) as [->|]; [now rewrite !Z.testbit_odd_0|]. replace i with (Z.succ (i - 1)) by lia. rewrite !Z.testbit_odd_succ by lia. now rewrite Z.land_spec.
Qed.
Lemma land_even a b : Z.land (2 * a) (2 * b) = 2 * Z.land a b.
Proof.
  apply Z.bits_inj'. intros i Hi. rewrite Z.land_spec. destruct (Z.eq_dec i 0) as [->|]; [now rewrite !Z.testbit_even_0|]. replace i with (Z.succ (i - 1)) by lia. rewrite !Z.testbit_even_succ by lia. now rewrite Z.land_spec.
Qed.
Lemma trailing n : 0 < n -> exists k q, 0 <= k /\ n = q * 2 ^ k /\ Z.land (Z.lnot n) (n - 1) = 2 ^ k - 1.
Proof.
  intros P. pose proof (Zlt_0_ind (fun n => 0 < n -> exists k q, 0 <= k /\ n = q * 2 ^ k /\ Z.land (Z.lnot n) (n - 1) = 2 ^ k - 1)) as IND. apply (IND); [|lia|exact P]. clear n P IND.
  intros n IH _ P. destruct (Z.Even_or_Odd n) as [[q E]|[q E]].
  - destruct (IH q ltac:(lia) ltac:(lia)) as (k & r & K & Er & Ek). exists (k + 1), r. split; [lia|]. rewrite Z.pow_add_r by lia. split; [subst n; rewrite Er; ring|].
    replace (Z.lnot n) with (2 * Z.lnot q + 1) by (unfold Z.lnot; lia). replace (n - 1) with (2 * (q - 1) + 1) by lia. rewrite land_odd, Ek. lia.
  - exists 0, n. split; [lia|]. split; [lia|]. replace (Z.lnot n) with (2 * Z.lnot q) by (unfold Z.lnot; lia). replace (n - 1) with (2 * q) by lia. rewrite land_even. rewrite Z.land_comm, Z.land_lnot_diag. reflexivity.
Qed.
Lemma bit_length_ones k : 0 <= k -> bit_length (2 ^ k - 1) = k.
Proof.
  intros K. unfold bit_length. destruct (Z.eqb_spec (2 ^ k - 1) 0) as [E|E].
  - destruct (Z.eq_dec k 0); [now symmetry|]. pose proof (Z.pow_gt_1 2 k ltac:(lia)). lia.
  - assert (k <> 0) by (intros ->; apply E; reflexivity). pose proof (Z.log2_pred_pow2 k ltac:(lia)) as L0. unfold Z.pred in *. replace (2 ^ k - 1) with (2 ^ k + -1) by lia. rewrite L0. lia.
Qed.
Lemma zero_bits_ok n bits : 0 <= n < 2 ^ bits -> 0 <= bits -> 0 <= zero_bits n bits <= bits /\ exists q, n = q * 2 ^ zero_bits n bits.
Proof.
  intros R B. unfold zero_bits. destruct (Z.eqb_spec n 0) as [->|NZ]; [split; [lia|now exists 0]|]. destruct (trailing n ltac:(lia)) as (k & q & K & E & ->). rewrite bit_length_ones by exact K. split; [lia|].
  exists (q * 2 ^ (k - Z.min bits k)). rewrite <- Z.mul_assoc, <- Z.pow_add_r by lia. now replace (k - Z.min bits k + Z.min bits k) with k by lia.
Qed.
Lemma summarize_ok six last fuel : forall f, 0 <= f -> last < 2 ^ width six -> (Z.to_nat (last + 1 - f) < fuel)%nat ->
  exists l, summarize fuel six f last = Ok l /\ same_version six l /\ forall a, some_holds l a <-> fst a = six /\ f <= snd a <= last.
Proof.
  induction fuel as [|fuel IH]; intros f F0 LW LF; [lia|]. cbn [summarize]. destruct (Z.leb_spec f last) as [L0|L0].
  - pose proof (width_pos six) as WP. destruct (zero_bits_ok f (width six) ltac:(lia) ltac:(lia)) as (ZB & q & Eq). assert (EB : bit_length (last - f + 1) - 1 = Z.log2 (last - f + 1)) by (unfold bit_length; destruct (Z.eqb_spec (last - f + 1) 0); lia). rewrite !EB. clear EB.
    cbv zeta. set (b := Z.min (zero_bits f (width six)) (Z.log2 (last - f + 1))). pose proof (Z.log2_nonneg (last - f + 1)) as LN. assert (B0 : 0 <= b <= width six) by lia.
    assert (BP : 2 ^ b <= last - f + 1). { transitivity (2 ^ Z.log2 (last - f + 1)); [apply Z.pow_le_mono_r; lia|]. apply (Z.log2_spec (last - f + 1)). lia. }
    pose proof (pow2_pos b ltac:(lia)) as PB. set (n := mkNet six f (width six - b)). assert (ZN : size n = 2 ^ b) by (unfold size; cbn; f_equal; lia).
    assert (GN : good_net n). { split; [cbn; lia|]. split; [|cbn; lia]. exists (q * 2 ^ (zero_bits f (width six) - b)). rewrite ZN. cbn [n_addr n]. rewrite <- Z.mul_assoc, <- Z.pow_add_r by lia. now replace (zero_bits f (width six) - b + b) with (zero_bits f (width six)) by lia. }
    pose proof (mk_ok n GN) as MK. cbn [n_six n_addr n_plen n] in MK. rewrite MK. cbn [bind]. fold n. rewrite Z.shiftl_1_l. unfold all_ones. destruct (Z.eqb_spec (f + 2 ^ b - 1) (2 ^ width six - 1)) as [E|E].
    + exists [n]. split; [reflexivity|]. split; [constructor; [now split|constructor]|]. intros a. rewrite some_cons, some_nil. unfold holds. rewrite ZN. cbn [n_six n_addr n]. split; [intros [[V R]|[]]|intros [V R]; left]; (split; [exact V|lia]).
    + destruct (IH (f + 2 ^ b) ltac:(lia) LW ltac:(lia)) as (l & El & SV & HL). rewrite El. cbn [bind]. exists (n :: l). split; [reflexivity|]. split; [constructor; [now split|exact SV]|].
      intros a. rewrite some_cons, HL. unfold holds. rewrite ZN. cbn [n_six n_addr n].
      split; [intros [[V R]|[V R]]; (split; [exact V|lia])|]. intros [V R]. destruct (Z.lt_ge_cases (snd a) (f + 2 ^ b)); [left|right]; (split; [exact V|lia]).
  - exists []. split; [reflexivity|]. split; [constructor|]. intros a. rewrite some_nil. split; [intros []|intros [_ R]; lia].
Qed.
Lemma ranges_ok ips : forall f l, f <= l -> StronglySorted Z.lt (l :: ips) ->
  (forall x, (exists r, In r (ranges f l ips) /\ fst r <= x <= snd r) <-> f <= x <= l \/ In x ips) /\
  Forall (fun r => fst r <= snd r /\ f <= fst r /\ In (snd r) (l :: ips) /\ snd r + 1 - fst r <= l + 1 - f + Z.of_nat (length ips)) (ranges f l ips).
Proof.
  induction ips as [|ip r IH]; intros f l L0 SS; cbn [ranges].
  - split; [intros x; split; [intros (y & [<-|[]] & R); now left|intros [R|[]]; exists (f, l); split; [now left|exact R]]|]. constructor; [cbn; repeat split; try lia; now left|constructor].
  - apply StronglySorted_inv in SS as [SS FA]. apply Forall_inv in FA as LI. destruct (Z.eqb_spec ip (l + 1)) as [E|E]; cbn [negb].
    + destruct (IH f ip ltac:(lia) SS) as [H1 H2]. split.
      * intros x. rewrite H1. cbn [In]. split; [intros [R|I0]; [|auto]|intros [R|[<-|I0]]; [left; lia|left; lia|auto]]. destruct (Z.eq_dec x ip); [right; left; congruence|left; lia].
      * eapply Forall_impl; [|exact H2]. cbn [length]. intros y (A1 & A2 & A3 & A4). repeat split; try lia. now right.
    + destruct (IH ip ip ltac:(lia) SS) as [H1 H2]. split.
      * intros x. split.
        -- intros (y & [<-|I0] & R); [now left|]. right. destruct (proj1 (H1 x) (ex_intro _ y (conj I0 R))) as [R1|I1]; [left; lia|now right].
        -- intros [R|[<-|I0]]; [exists (f, l); split; [now left|exact R]| |].
           ++ destruct (proj2 (H1 ip) (or_introl (conj (Z.le_refl _) (Z.le_refl _)))) as (y & I1 & R). exists y. split; [now right|exact R].
           ++ destruct (proj2 (H1 x) (or_intror I0)) as (y & I1 & R). exists y. split; [now right|exact R].
      * constructor; [cbn [fst snd length]; repeat split; try lia; now left|]. eapply Forall_impl; [|exact H2]. cbn [length]. intros y (A1 & A2 & A3 & A4). repeat split; try lia. now right.
Qed.
Lemma summarize_all_ok six fuel rs : Forall (fun r => 0 <= fst r /\ snd r < 2 ^ width six /\ (Z.to_nat (snd r + 1 - fst r) < fuel)%nat) rs ->
  exists l, summarize_all fuel six rs = Ok l /\ same_version six l /\ forall a, some_holds l a <-> fst a = six /\ exists r, In r rs /\ fst r <= snd a <= snd r.
Proof.
  induction rs as [|[f l] rs IH]; intros F0; cbn [summarize_all].
  - exists []. split; [reflexivity|]. split; [constructor|]. intros a. rewrite some_nil. split; [intros []|intros (_ & r & [] & _)].
  - apply Forall_cons_iff in F0 as [(A1 & A2 & A3) F0]. cbn [fst snd] in *. destruct (summarize_ok six l fuel f A1 A2 A3) as (x & Ex & Vx & Hx). destruct (IH F0) as (y & Ey & Vy & Hy). rewrite Ex. cbn [bind]. rewrite Ey. cbn [bind].
    exists (x ++ y). split; [reflexivity|]. split; [now apply Forall_app|]. intros a. rewrite some_app, Hx, Hy. split.
    + intros [[V R]|[V (r & I0 & R)]]; (split; [exact V|]); [exists (f, l); split; [now left|exact R]|exists r; split; [now right|exact R]].
    + intros [V (r & [<-|I0] & R)]; [left; now split|right; split; [exact V|eauto]].
Qed.

(** ** Splitting *)

Definition homog (l : list net) : Prop := forall x y, In x l -> In y l -> n_six x = n_six y.
Definition pr (n : net) : bool * Z := (n_six n, n_addr n).
Definition hosts (l : list net) : list net := filter (fun n => n_plen n =? width (n_six n)) l.
Definition others (l : list net) : list net := filter (fun n => negb (n_plen n =? width (n_six n))) l.
Lemma homog_snoc N n : homog N -> (match rev N with x :: _ => negb (Bool.eqb (n_six x) (n_six n)) | [] => false end = false /\ homog (N ++ [n])) \/
  (match rev N with x :: _ => negb (Bool.eqb (n_six x) (n_six n)) | [] => false end = true /\ exists x, In x N /\ n_six x <> n_six n).
Proof.
  intros HN. destruct N as [|z N0] using rev_ind; [left; split; [reflexivity|]; intros x y [<-|[]] [<-|[]]; reflexivity|]. clear IHN0. rewrite rev_app_distr. cbn [rev app].
  assert (Iz : In z (N0 ++ [z])) by (apply in_app_iff; right; now left). destruct (Bool.eqb (n_six z) (n_six n)) eqn:E; cbn [negb].
  - left. split; [reflexivity|]. apply eqb_prop in E. intros x y Ix Iy. apply in_app_iff in Ix, Iy. assert (K : forall w, In w (N0 ++ [z]) \/ In w [n] -> n_six w = n_six n) by (intros w [Iw|[<-|[]]]; [rewrite <- E; now apply HN|reflexivity]).
    rewrite (K x Ix), (K y Iy). reflexivity.
  - right. split; [reflexivity|]. exists z. split; [exact Iz|]. intros E0. rewrite E0, eqb_reflx in E. discriminate.
Qed.
Lemma split_ok l : forall Hs Ns, homog Hs -> homog Ns ->
  (split_loop (map pr Hs) Ns l = Ok (map pr (Hs ++ hosts l), Ns ++ others l) /\ homog (Hs ++ hosts l) /\ homog (Ns ++ others l)) \/
  (split_loop (map pr Hs) Ns l = Err TypeErr /\ exists x y, In x (Hs ++ Ns ++ l) /\ In y (Hs ++ Ns ++ l) /\ n_six x <> n_six y).
Proof.
  induction l as [|n l IH]; intros Hs Ns HH HN; cbn [split_loop hosts others filter].
  - left. rewrite !app_nil_r. auto.
  - fold (hosts l) (others l). destruct (n_plen n =? width (n_six n)); cbn [negb].
    + assert (EM : match rev (map pr Hs) with x :: _ => negb (Bool.eqb (fst x) (n_six n)) | [] => false end = match rev Hs with x :: _ => negb (Bool.eqb (n_six x) (n_six n)) | [] => false end) by (rewrite <- map_rev; destruct (rev Hs); reflexivity).
      rewrite EM. destruct (homog_snoc Hs n HH) as [[-> HH']|[-> (x & Ix & NE)]].
      * change [(n_six n, n_addr n)] with (map pr [n]). rewrite <- map_app. destruct (IH (Hs ++ [n]) Ns HH' HN) as [(E & H1 & H2)|(E & x & y & Ix & Iy & NE)]; rewrite E.
        -- left. rewrite <- !app_assoc in *. cbn [app] in *. auto.
        -- right. split; [reflexivity|]. exists x, y. assert (P : Permutation ((Hs ++ [n]) ++ Ns ++ l) (Hs ++ Ns ++ n :: l)) by (rewrite <- app_assoc; apply Permutation_app_head; cbn [app]; apply Permutation_middle).
           split; [now apply (Permutation_in _ P)|]. split; [now apply (Permutation_in _ P)|exact NE].
      * right. split; [reflexivity|]. exists x, n. split; [apply in_app_iff; now left|]. split; [apply in_app_iff; right; apply in_app_iff; right; now left|exact NE].
    + destruct (homog_snoc Ns n HN) as [[-> HN']|[-> (x & Ix & NE)]].
      * destruct (IH Hs (Ns ++ [n]) HH HN') as [(E & H1 & H2)|(E & x & y & Ix & Iy & NE)]; rewrite E.
        -- left. rewrite <- !app_assoc in *. cbn [app] in *. auto.
        -- right. split; [reflexivity|]. exists x, y. rewrite <- !app_assoc in Ix, Iy. cbn [app] in Ix, Iy. auto.
      * right. split; [reflexivity|]. exists x, n. split; [apply in_app_iff; right; apply in_app_iff; now left|]. split; [apply in_app_iff; right; apply in_app_iff; right; now left|exact NE].
Qed.
Lemma split_holds l a : some_holds l a <-> some_holds (hosts l) a \/ some_holds (others l) a.
Proof.
  unfold some_holds, hosts, others. split.
  - intros (n & I0 & H0). destruct (n_plen n =? width (n_six n)) eqn:E; [left|right]; exists n; (split; [apply filter_In; rewrite E; auto|exact H0]).
  - intros [(n & I0 & H0)|(n & I0 & H0)]; apply filter_In in I0 as [I0 _]; eauto.
Qed.
Lemma hosts_holds l six a : Forall good_net l -> (forall n, In n (hosts l) -> n_six n = six) -> some_holds (hosts l) a <-> fst a = six /\ In (snd a) (map n_addr (hosts l)).
Proof.
  intros F0 V. rewrite Forall_forall in F0. unfold some_holds. assert (Z1 : forall n, In n (hosts l) -> size n = 1).
  { intros n I0. apply filter_In in I0 as [I0 E]. apply Z.eqb_eq in E. unfold size. rewrite E, Z.sub_diag. reflexivity. }
  split.
  - intros (n & I0 & E & R). rewrite Z1 in R by exact I0. split; [rewrite E; auto|]. replace (snd a) with (n_addr n) by lia. now apply in_map.
  - intros (E & I0). apply in_map_iff in I0 as (n & En & I0). exists n. split; [exact I0|]. split; [rewrite V; auto|]. rewrite Z1 by exact I0. lia.
Qed.
Lemma strict l : NoDup l -> StronglySorted Z.le l -> StronglySorted Z.lt l.
Proof.
  induction l as [|x l IH]; intros ND SS; [constructor|]. apply NoDup_cons_iff in ND as [N0 ND]. apply StronglySorted_inv in SS as [SS FA]. constructor; [auto|]. apply Forall_forall. intros y Iy. rewrite Forall_forall in FA. specialize (FA y Iy).
  assert (x <> y) by (intros ->; auto). lia.
Qed.
Lemma py_ok l : Forall good_net l ->
  (forall six, Forall (fun n => n_six n = six) l -> exists out, py_collapse l = Ok out /\ summary (some_holds l) out) /\
  ((exists n m, In n l /\ In m l /\ n_six n <> n_six m) -> py_collapse l = Err TypeErr).
Proof.
  intros F0. unfold py_collapse. assert (E0 : homog []) by (intros x y []).
  destruct (split_ok l [] [] E0 E0) as [(E & H1 & H2)|(E & x & y & Ix & Iy & NE)]; cbn [map app] in *.
  2:{ rewrite E. cbn [bind]. split; [|reflexivity]. intros six FS. exfalso. rewrite Forall_forall in FS. apply NE. rewrite (FS x Ix), (FS y Iy). reflexivity. }
  rewrite E. cbn [bind]. clear E E0. assert (GO : Forall good_net (others l)) by (apply Forall_forall; intros x Ix; apply filter_In in Ix as [Ix _]; rewrite Forall_forall in F0; auto).
  enough (K : exists addrs, match map pr (hosts l), sorted Z.ltb (nodup Z.eq_dec (map snd (map pr (hosts l)))) with
      | (six, _) :: _, first :: rest => do addrs <- summarize_all (S (length (sorted Z.ltb (nodup Z.eq_dec (map snd (map pr (hosts l))))))) six (ranges first first rest); collapse_internal (addrs ++ others l)
      | _, _ => collapse_internal (others l) end = collapse_internal (addrs ++ others l) /\ Forall good_net addrs /\ forall a, some_holds addrs a <-> some_holds (hosts l) a).
  { destruct K as (addrs & -> & GA & HA). assert (HL : forall a, some_holds (addrs ++ others l) a <-> some_holds l a) by (intros a; rewrite some_app, HA, (split_holds l a); reflexivity).
    assert (GL : Forall good_net (addrs ++ others l)) by (apply Forall_app; now split). destruct (internal_ok _ GL) as [K1 K2]. split.
    - intros six FS. destruct (K1 six) as (out & Eo & (S1 & S2 & S3 & S4)).
      + apply Forall_forall. intros x Ix. rewrite Forall_forall in GL. pose proof (some_point x _ (GL x Ix) Ix) as HX. apply HL in HX. destruct HX as (y & Iy & V & _). cbn in V. rewrite V. rewrite Forall_forall in FS. auto.
      + exists out. split; [exact Eo|]. split; [exact S1|]. split; [exact S2|]. split; [intros a; rewrite S3; apply HL|]. intros n G HC. apply S4; auto. intros a Ha. apply HL. auto.
    - intros (n & m & In0 & Im0 & NE). apply K2. rewrite Forall_forall in F0.
      destruct (proj2 (HL _) (some_point n l (F0 n In0) In0)) as (n' & In1 & Vn & _). destruct (proj2 (HL _) (some_point m l (F0 m Im0) Im0)) as (m' & Im1 & Vm & _). cbn in Vn, Vm. exists n', m'. repeat split; auto. congruence. }
  rewrite map_map. change (fun x => snd (pr x)) with n_addr. set (ips := sorted Z.ltb (nodup Z.eq_dec (map n_addr (hosts l)))).
  assert (PM : Permutation ips (nodup Z.eq_dec (map n_addr (hosts l)))) by apply sorted_perm.
  assert (SS : StronglySorted Z.lt ips).
  { apply strict; [apply (Permutation_NoDup (Permutation_sym PM)), NoDup_nodup|]. apply (sorted_spec Z.ltb (fun _ => True) Z.le); [intros; lia| | |apply Forall_forall; auto]; intros x y _ _ L0; [apply Z.ltb_lt in L0|apply Z.ltb_ge in L0]; lia. }
  assert (II : forall x, In x ips <-> In x (map n_addr (hosts l))). { intros x. rewrite <- (nodup_In Z.eq_dec (map n_addr (hosts l))). split; apply Permutation_in; [exact PM|now symmetry]. }
  destruct (hosts l) as [|h hs] eqn:EH.
  - exists []. cbn [map]. split; [reflexivity|]. split; [constructor|]. intros a. reflexivity.
  - cbn [map pr]. destruct ips as [|first rest] eqn:EI; [exfalso; exact (proj2 (II (n_addr h)) (or_introl eq_refl))|]. rewrite <- EH in *.
    assert (VH : forall n, In n (hosts l) -> n_six n = n_six h) by (intros n I0; apply H1; [exact I0|rewrite EH; now left]).
    assert (BD : forall x, In x (first :: rest) -> 0 <= x < 2 ^ width (n_six h)).
    { intros x Ix. apply II in Ix. apply in_map_iff in Ix as (n & <- & I0). rewrite <- (VH n I0). apply filter_In in I0 as [I0 _]. rewrite Forall_forall in F0. destruct (F0 n I0) as (_ & _ & R). exact R. }
    destruct (ranges_ok rest first first ltac:(lia) SS) as [R1 R2].
    destruct (summarize_all_ok (n_six h) (S (length (first :: rest))) (ranges first first rest)) as (addrs & EA & SV & HA).
    { eapply Forall_impl; [|exact R2]. intros r (A1 & A2 & A3 & A4). pose proof (BD first (or_introl eq_refl)). pose proof (BD _ A3). split; [lia|]. split; [lia|]. cbn [length]. lia. }
    exists addrs. rewrite EA. cbn [bind]. split; [reflexivity|]. split; [eapply Forall_impl; [|exact SV]; cbn; tauto|]. intros a. rewrite HA. rewrite (hosts_holds l (n_six h) a F0 VH). rewrite R1, <- II. cbn [In].
    split; intros [V D]; (split; [exact V|]); [destruct D as [D|D]; [left; lia|now right]|destruct D as [D|D]; [left; lia|now right]].
Qed.

(** ** The arguments *)

Lemma in_net_first W ip p a : valid W ip p -> (in_net W ip p a <-> first W ip p <= a < first W ip p + 2 ^ (W - p)).
Proof.
  intros [R RP]. pose proof (IpFacts.first_range W ip p RP R) as FR. unfold in_net, first in *. pose proof (pow2_pos (W - p) ltac:(lia)) as P. set (s := 2 ^ (W - p)) in *. split.
  - intros [_ E]. pose proof (Z.div_mod a s ltac:(lia)). pose proof (Z.mod_pos_bound a s ltac:(lia)). rewrite E in *. nia.
  - intros RA. split; [lia|]. symmetry. apply (Z.div_unique a s (ip / s) (a - ip / s * s)); lia.
Qed.
Lemma block_good (six : bool) ip p : valid (width six) ip p -> good_net (mkNet six (first (width six) ip p) p).
Proof.
  intros [R RP]. pose proof (IpFacts.first_range (width six) ip p RP R) as FR. pose proof (pow2_pos (width six - p) ltac:(lia)). split; [exact RP|]. split; [exists (ip / 2 ^ (width six - p)); reflexivity|]. cbn [n_addr n_six]. lia.
Qed.
Lemma arg_ok x : good_arg x -> exists n, ip_net_of x = Ok n /\ good_net n /\ n_six n = is_six x /\ forall a, holds n a <-> arg_holds x a.
Proof.
  destruct x as [o|o|n|]; cbn [good_arg ip_net_of is_six arg_holds]; [| | |intros []].
  - intros (ip & p & V & ->). cbn [ip_net ip_plen ip_int obj]. destruct (V) as [R RP]. pose proof (IpFacts.first_range 32 ip p RP R) as FR. pose proof (pow2_pos (32 - p) ltac:(lia)) as P.
    assert (FV : 0 <= first 32 ip p < 2 ^ 32) by lia. rewrite network4_mask by (first [exact FV | apply show_Z_nodigit_char; [lia|reflexivity]]). rewrite make_netmask_show by exact RP. cbn [bind fst snd].
    rewrite net_of_div by lia. fold (first 32 (first 32 ip p) p). rewrite IpFacts.first_first by exact RP. eexists. split; [reflexivity|]. split; [exact (block_good false ip p V)|]. split; [reflexivity|].
    intros a. rewrite (in_net_first 32 ip p (snd a) V). reflexivity.
  - intros (ip & p & V & ->). cbn [ip_net ip_plen ip_int obj]. destruct (V) as [R RP]. pose proof (PIp6Text.first_range ip p V) as FV.
    rewrite (network6_text _ _ p (Ip6Show.show6_text _ FV) RP). cbn [bind fst snd].
    rewrite net_of_div by assumption. fold (first 128 (first 128 ip p) p). rewrite IpFacts.first_first by exact RP. eexists. split; [reflexivity|]. split; [exact (block_good true ip p V)|]. split; [reflexivity|].
    intros a. rewrite (in_net_first 128 ip p (snd a) V). reflexivity.
  - intros G. exists n. split; [reflexivity|]. split; [exact G|]. split; [reflexivity|]. intros a. reflexivity.
Qed.
Lemma args_ok l : Forall good_arg l -> exists ns, ip_nets l = Ok ns /\ Forall good_net ns /\ map n_six ns = map is_six l /\ forall a, some_holds ns a <-> covers l a.
Proof.
  induction l as [|x l IH]; intros F0.
  - exists []. repeat split; auto; try constructor; [intros (n & [] & _)|intros (x & [] & _)].
  - apply Forall_cons_iff in F0 as [Gx F0]. destruct (arg_ok x Gx) as (n & En & Gn & Vn & Hn). destruct (IH F0) as (ns & Ens & Gns & Vns & Hns). exists (n :: ns). cbn [ip_nets]. rewrite En. cbn [bind]. rewrite Ens. cbn [bind map].
    split; [reflexivity|]. split; [now constructor|]. split; [congruence|]. intros a. rewrite some_cons, Hn, Hns. unfold covers. cbn [In]. split; [intros [H0|(y & I0 & H0)]; eauto|intros (y & [<-|I0] & H0); eauto].
Qed.
Lemma six_forall six ns l : map n_six ns = map is_six l -> Forall (fun x => is_six x = six) l -> Forall (fun n => n_six n = six) ns.
Proof.
  revert l. induction ns as [|n ns IH]; intros [|x l] E F0; try discriminate; [constructor|]. injection E as E1 E2. apply Forall_cons_iff in F0 as [Ex F0]. constructor; [congruence|eauto].
Qed.

(** ** C79 *)

(** Collapsing networks of one version gives the largest networks within their addresses, in
    order and without common addresses. *)
Theorem C79_collapse : forall l six, Forall good_arg l -> Forall (fun x => is_six x = six) l ->
  exists out, collapse_addresses l = Ok out /\ summary (covers l) out.
Proof.
  intros l six F0 V. destruct (args_ok l F0) as (ns & E & G & EV & HC). unfold collapse_addresses. rewrite E. cbn [bind].
  destruct (proj1 (py_ok ns G) six (six_forall six ns l EV V)) as (out & Eo & (S1 & S2 & S3 & S4)). exists out. split; [exact Eo|]. split; [exact S1|]. split; [exact S2|].
  split; [intros a; rewrite S3; apply HC|]. intros n Gn Hn. apply S4; [exact Gn|]. intros a Ha. apply HC. auto.
Qed.
Print Assumptions C79_collapse.

Lemma asc_lt l : Forall good_net l -> ascending l -> StronglySorted (fun a b => n_addr a + size a <= n_addr b) l.
Proof.
  induction l as [|n l IH]; intros F0 AS; [constructor|]. apply Forall_cons_iff in F0 as [Gn F0]. destruct AS as [A1 AS]. specialize (IH F0 AS). constructor; [exact IH|]. destruct l as [|m l]; [constructor|]. destruct A1 as [_ A1].
  apply StronglySorted_inv in IH as [_ FA]. constructor; [exact A1|]. apply Forall_cons_iff in F0 as [Gm F0]. pose proof (size_pos m Gm). rewrite Forall_forall in *. intros x Ix. specialize (FA x Ix). lia.
Qed.
Lemma asc_apart l n m a : Forall good_net l -> ascending l -> In n l -> In m l -> holds n a -> holds m a -> n = m.
Proof.
  intros F0 AS. pose proof (asc_lt l F0 AS) as SS. clear AS. induction l as [|x l IH]; [intros []|]. apply Forall_cons_iff in F0 as [Gx F0]. apply StronglySorted_inv in SS as [SS FA]. rewrite Forall_forall in FA.
  intros I1 I2 Hn Hm. assert (Rn := proj2 Hn). assert (Rm := proj2 Hm). destruct I1 as [<-|I1], I2 as [<-|I2]; [reflexivity|specialize (FA m I2); lia|specialize (FA n I1); lia|]. now apply IH.
Qed.
Lemma good_eq n m : good_net n -> good_net m -> (forall a, holds n a <-> holds m a) -> n = m.
Proof.
  intros Gn Gm H0. pose proof (size_pos n Gn) as Pn. pose proof (size_pos m Gm) as Pm.
  destruct (proj1 (H0 (n_six n, n_addr n))) as [V A1]; [split; cbn; [reflexivity|lia]|]. destruct (proj2 (H0 (n_six m, n_addr m))) as [_ A2]; [split; cbn; [reflexivity|lia]|]. cbn [fst snd] in *.
  destruct (proj1 (H0 (n_six n, n_addr n + size n - 1))) as [_ A3]; [split; cbn; [reflexivity|lia]|]. destruct (proj2 (H0 (n_six m, n_addr m + size m - 1))) as [_ A4]; [split; cbn; [reflexivity|lia]|]. cbn [fst snd] in *.
  assert (EA : n_addr n = n_addr m) by lia. assert (ES : size n = size m) by lia. unfold size in ES. rewrite V in ES. destruct Gn as [Rn _], Gm as [Rm _]. rewrite V in Rn. apply Z.pow_inj_r in ES; [|lia|lia|lia].
  destruct n as [s1 a1 p1], m as [s2 a2 p2]. cbn in *. f_equal; [exact V|exact EA|lia].
Qed.
Lemma summary_in c c' out out' : (forall a, c a <-> c' a) -> summary c out -> summary c' out' -> forall n, In n out -> In n out'.
Proof.
  intros EC (S1 & S2 & S3 & S4) (T1 & T2 & T3 & T4) n I0. pose proof (proj1 (Forall_forall _ _) S1 n I0) as Gn.
  destruct (T4 n Gn) as (m & Im & Hm); [intros a Ha; apply EC, S3; exists n; auto|]. pose proof (proj1 (Forall_forall _ _) T1 m Im) as Gm.
  destruct (S4 m Gm) as (k & Ik & Hk); [intros a Ha; apply EC, T3; exists m; auto|]. pose proof (size_pos n Gn) as Pn.
  assert (P0 : holds n (n_six n, n_addr n)) by (split; cbn; [reflexivity|lia]). assert (EK : n = k) by (apply (asc_apart out n k (n_six n, n_addr n)); auto). rewrite <- EK in Hk.
  replace n with m; [exact Im|]. apply good_eq; auto. intros a. split; auto.
Qed.
Lemma sorted_same l : forall l', Forall good_net l -> Forall good_net l' -> ascending l -> ascending l' -> (forall n, In n l <-> In n l') -> l = l'.
Proof.
  induction l as [|x l IH]; intros [|y l'] F1 F2 A1 A2 H0; [reflexivity|exfalso; apply (H0 y); now left|exfalso; apply (H0 x); now left|].
  pose proof (asc_lt _ F1 A1) as SS1. pose proof (asc_lt _ F2 A2) as SS2. apply StronglySorted_inv in SS1 as [_ FA1], SS2 as [_ FA2]. rewrite Forall_forall in FA1, FA2.
  assert (P : forall z, In z (x :: l) -> 0 < size z) by (intros z Iz; apply size_pos; rewrite Forall_forall in F1; auto).
  assert (EX : x = y). { destruct (proj1 (H0 x) (or_introl eq_refl)) as [->|I1]; [reflexivity|]. destruct (proj2 (H0 y) (or_introl eq_refl)) as [->|I2]; [reflexivity|]. specialize (FA1 y I2). specialize (FA2 x I1). pose proof (P x (or_introl eq_refl)). pose proof (P y (or_intror I2)). lia. }
  subst y. f_equal. apply Forall_cons_iff in F1 as [G1 F1], F2 as [G2 F2]. apply IH; auto; [apply A1|apply A2|]. pose proof (P x (or_introl eq_refl)) as PX. intros n. split; intros I0.
  - destruct (proj1 (H0 n) (or_intror I0)) as [->|I1]; [|exact I1]. specialize (FA1 n I0). lia.
  - destruct (proj2 (H0 n) (or_intror I0)) as [->|I1]; [|exact I1]. specialize (FA2 n I0). lia.
Qed.
Lemma summary_unique c c' out out' : (forall a, c a <-> c' a) -> summary c out -> summary c' out' -> out = out'.
Proof.
  intros EC S1 S2. apply sorted_same; [apply S1|apply S2|apply S1|apply S2|]. intros n. split; [apply (summary_in c c'); auto|apply (summary_in c' c); auto]. intros a. symmetry. apply EC.
Qed.

(** Only the addresses count, not how the networks are written, their order or number. *)
Theorem C79_same : forall l l' six six', Forall good_arg l -> Forall good_arg l' -> Forall (fun x => is_six x = six) l -> Forall (fun x => is_six x = six') l' ->
  (forall a, covers l a <-> covers l' a) -> collapse_addresses l = collapse_addresses l'.
Proof.
  intros l l' six six' F1 F2 V1 V2 EC. destruct (C79_collapse l six F1 V1) as (o1 & -> & S1). destruct (C79_collapse l' six' F2 V2) as (o2 & -> & S2). f_equal. exact (summary_unique _ _ _ _ EC S1 S2).
Qed.
Print Assumptions C79_same.

(** What has been collapsed stays as it is. *)
Theorem C79_idempotent : forall l six out, Forall good_arg l -> Forall (fun x => is_six x = six) l -> collapse_addresses l = Ok out -> collapse_addresses (map Net out) = Ok out.
Proof.
  intros l six out F0 V E. destruct (C79_collapse l six F0 V) as (o1 & E1 & S1). assert (o1 = out) by congruence. subst o1. pose proof S1 as (G & _ & H0 & _).
  rewrite <- E. apply (C79_same (map Net out) l six six); auto.
  - apply Forall_map. exact G.
  - apply Forall_map. apply Forall_forall. intros n I0. cbn. rewrite Forall_forall in G. pose proof (some_point n out (G n I0) I0) as HX. apply H0 in HX. destruct HX as (x & Ix & HX). rewrite Forall_forall in V. rewrite <- (V x Ix).
    destruct x as [o|o|m|]; cbn in *; [apply HX|apply HX|apply HX|destruct HX].
  - intros a. rewrite <- H0. unfold covers, some_holds. split.
    + intros (x & Ix & Hx). apply in_map_iff in Ix as (n & <- & I0). exists n. auto.
    + intros (n & I0 & Hn). exists (Net n). split; [now apply in_map|exact Hn].
Qed.
Print Assumptions C79_idempotent.

(** No fewer networks have the same addresses. *)
Lemma choose (out nets : list net) : (forall n, In n out -> exists k, In k nets /\ holds k (pr n)) ->
  exists ks, Forall2 (fun n k => In k nets /\ holds k (pr n)) out ks.
Proof.
  induction out as [|n out IH]; intros H0; [exists []; constructor|]. destruct (H0 n (or_introl eq_refl)) as (k & K). destruct IH as (ks & KS); [intros m Im; apply H0; now right|]. exists (k :: ks). now constructor.
Qed.
Theorem C79_fewest : forall l six out, Forall good_arg l -> Forall (fun x => is_six x = six) l -> collapse_addresses l = Ok out ->
  forall nets, Forall good_net nets -> (forall a, some_holds nets a <-> covers l a) -> (length out <= length nets)%nat.
Proof.
  intros l six out F0 V E nets GN EC. destruct (C79_collapse l six F0 V) as (o1 & E1 & S1). assert (o1 = out) by congruence. subst o1. destruct S1 as (S1 & S2 & S3 & S4).
  destruct (choose out nets) as (ks & K). { intros n I0. apply EC, S3. apply some_point; [rewrite Forall_forall in S1; auto|exact I0]. }
  assert (W : forall k, In k nets -> exists m, In m out /\ forall a, holds k a -> holds m a). { intros k Ik. apply S4; [rewrite Forall_forall in GN; auto|]. intros a Ha. apply EC. exists k. auto. }
  replace (length out) with (length ks) by (clear - K; induction K; cbn; congruence). apply NoDup_incl_length.
  - assert (AP : forall n m a, In n out -> In m out -> holds n a -> holds m a -> n = m) by (intros n m a; now apply asc_apart). pose proof (asc_lt out S1 S2) as SS.
    assert (PP : forall n, In n out -> holds n (pr n)) by (intros n I0; rewrite Forall_forall in S1; pose proof (size_pos n (S1 n I0)); split; cbn; [reflexivity|lia]).
    assert (ND : NoDup out). { clear - SS S1. induction SS as [|x l SS IH FA]; [constructor|]. apply Forall_cons_iff in S1 as [G S1]. constructor; [|auto]. intros I0. rewrite Forall_forall in FA. specialize (FA x I0). pose proof (size_pos x G). lia. }
    assert (SUB : incl out out) by apply incl_refl. revert SUB ND K. generalize out at 1 3 4 as l0. intros l0 SUB ND K. revert SUB ND. induction K as [|n k l0 ks [Ik Hk] K IH]; intros SUB ND; [constructor|]. apply NoDup_cons_iff in ND as [NI ND].
    constructor; [|apply IH; auto; intros z Iz; apply SUB; now right]. intros I0.
    assert (exists n', In n' l0 /\ holds k (pr n')) as (n' & In' & Hn'). { clear - K I0. induction K as [|n1 k1 l1 ks1 [_ H1] K IH]; [destruct I0|]. destruct I0 as [->|I0]; [exists n1; split; [now left|exact H1]|]. destruct (IH I0) as (n' & I1 & H2). exists n'. split; [now right|exact H2]. }
    destruct (W k Ik) as (m & Im & Hm). assert (n = m) by (apply (AP n m (pr n)); auto; [apply SUB; now left|apply PP, SUB; now left]). assert (n' = m) by (apply (AP n' m (pr n')); auto; [apply SUB; now right|apply PP, SUB; now right]). subst. auto.
  - intros k Ik. clear - K Ik. induction K as [|n1 k1 l1 ks1 [H1 _] K IH]; [destruct Ik|]. destruct Ik as [<-|Ik]; auto.
Qed.
Print Assumptions C79_fewest.

(** Networks of both versions are refused. *)
Theorem C79_mixed : forall l x y, Forall good_arg l -> In x l -> In y l -> is_six x <> is_six y -> collapse_addresses l = Err TypeErr.
Proof.
  intros l x y F0 Ix Iy NE. destruct (args_ok l F0) as (ns & E & G & EV & _). unfold collapse_addresses. rewrite E. cbn [bind]. apply (proj2 (py_ok ns G)).
  assert (K : forall z, In z l -> exists n, In n ns /\ n_six n = is_six z). { intros z Iz. apply (in_map is_six) in Iz. rewrite <- EV in Iz. apply in_map_iff in Iz as (n & En & I0). eauto. }
  destruct (K x Ix) as (n & I1 & E1). destruct (K y Iy) as (m & I2 & E2). exists n, m. repeat split; auto. congruence.
Qed.
Print Assumptions C79_mixed.

(** Other values are refused. *)
Theorem C79_other : forall l, (forall x, In x l -> good_arg x \/ x = Other) -> In Other l -> collapse_addresses l = Err ValueError.
Proof.
  intros l F0 IO. unfold collapse_addresses. replace (ip_nets l) with (Err ValueError : result (list net)); [reflexivity|]. symmetry. induction l as [|x l IH]; [destruct IO|]. cbn [ip_nets].
  destruct (F0 x (or_introl eq_refl)) as [G| -> ]; [|reflexivity]. destruct (arg_ok x G) as (n & -> & _). cbn [bind]. destruct IO as [->|IO]; [destruct G|]. rewrite IH; auto. intros y Iy. apply F0. now right.
Qed.
Print Assumptions C79_other.
Theorem C79_empty : collapse_addresses [] = Ok [].
Proof. reflexivity. Qed.
Print Assumptions C79_empty.

(** 10.0.0.0/25, 10.0.0.128/25, 10.0.1.1/24 and the addresses 10.0.2.0, 10.0.2.1, 10.0.2.2 *)
Definition ex_args : list arg :=
  [Net (mkNet false 167772672 32); Net (mkNet false 167772160 25); Obj4 (obj 32 167772417 24); Net (mkNet false 167772288 25); Net (mkNet false 167772674 32); Net (mkNet false 167772673 32)].
Example C79_collapse_ex : Forall good_arg ex_args /\ Forall (fun x => is_six x = false) ex_args /\
  collapse_addresses ex_args = Ok [mkNet false 167772160 23; mkNet false 167772672 31; mkNet false 167772674 32].
Proof.
  split; [|split; [repeat constructor|vm_compute; reflexivity]].
  assert (G : forall n, (0 <=? n_plen n) && (n_plen n <=? 32) && (n_addr n mod size n =? 0) && (0 <=? n_addr n) && (n_addr n <? 2 ^ 32) = true -> n_six n = false -> good_net n).
  { intros n E V. rewrite !andb_true_iff, !Z.leb_le, Z.ltb_lt, Z.eqb_eq in E. destruct E as ((((A & B) & C) & D) & F). unfold good_net. rewrite V. split; [cbn; lia|]. split; [|cbn [width]; lia]. exists (n_addr n / size n). pose proof (pow2_pos (32 - n_plen n) ltac:(lia)) as P. unfold size in *. rewrite V in *. cbn [width] in *. rewrite (Z.div_mod (n_addr n) (2 ^ (32 - n_plen n))) at 1 by lia. lia. }
  unfold ex_args. repeat (apply Forall_cons; [first [apply G; reflexivity|exists 167772417, 24; split; [split; lia|reflexivity]]|]). constructor.
Qed.
Example C79_mixed_ex : collapse_addresses [Net (mkNet false 0 8); Obj6 (obj 128 1 128)] = Err TypeErr.
Proof. vm_compute. reflexivity. Qed.
