(** The readers of IntfModel agree with the patterns written in ccp_util.py. *)
From Coq Require Import Ascii String Arith NArith ZArith Bool List Lia.
From Verif Require Import PyStr PyStrFacts PyBase IntfModel IntfSpec IntfFacts SearchModel PyRe IntfReModel PyReFacts PyReTmpl PyReSent PyReLazy PyReFree.
Import ListNotations.
Local Open Scope char_scope.

Definition rng (a b : ascii) : cls := CRange a b.
Definition one (a : ascii) : cls := CRange a a.
Definition pfx : cset := mkSet false false [rng "a" "z"; rng "A" "Z"; one "-"; CSpace].
Definition shs : cset := mkSet false false [CDigit; one ":"; one "."; one "^"; one "-"; one "^"; rng "a" "z"; one "^"; rng "A" "Z"; one "^"; CSpace].
Definition lgs : cset := mkSet false false [CDigit; one ":"; one "."; one "/"; one "^"; one "-"; one "^"; rng "a" "z"; one "^"; rng "A" "Z"; one "^"; CSpace].
Definition cls_s : cset := mkSet false false [rng "a" "z"; rng "A" "Z"; one "-"].
Definition sep_s : cset := mkSet true false [one ":"; one "^"; one "."; one "^"; one "-"; one "^"; CSpace; one "^"; CDigit; one "^"; rng "a" "z"; one "^"; rng "A" "Z"].
Definition nd_s : cset := mkSet false false [CNotDigit].

Lemma all_chars (P : ascii -> bool) : forallb (fun n => P (ascii_of_nat n)) (seq 0 256) = true -> forall c, P c = true.
Proof.
  intros H c. rewrite forallb_forall in H. specialize (H (nat_of_ascii c)). rewrite ascii_nat_embedding in H. apply H.
  apply in_seq. pose proof (nat_ascii_bounded c). lia.
Qed.
Lemma same_set q f : forallb (fun n => Bool.eqb (in_set q (ascii_of_nat n)) (f (ascii_of_nat n))) (seq 0 256) = true -> forall c, in_set q c = f c.
Proof. intros H c. apply eqb_prop. exact (all_chars (fun c => Bool.eqb (in_set q c) (f c)) H c). Qed.
Lemma in_pfx c : in_set pfx c = prefix_char c. Proof. apply same_set. vm_compute. reflexivity. Qed.
Lemma in_shs c : in_set shs c = short_char c. Proof. apply same_set. vm_compute. reflexivity. Qed.
Lemma in_lgs c : in_set lgs c = long_char c. Proof. apply same_set. vm_compute. reflexivity. Qed.
Lemma in_cls c : in_set cls_s c = class_char c. Proof. apply same_set. vm_compute. reflexivity. Qed.
Lemma in_sep c : in_set sep_s c = sep_char c. Proof. apply same_set. vm_compute. reflexivity. Qed.
Lemma in_nd c : in_set nd_s c = negb (is_digit c). Proof. apply (same_set nd_s (fun c => negb (is_digit c))). vm_compute. reflexivity. Qed.

Definition class_re : re := RCat (rplus true (RSet sp)) (rplus true (RSet cls_s)).
Definition name_re (q : cset) : re := RCat (RGrp 1 (RStar true (RSet pfx))) (RCat (RGrp 2 (rplus true (RSet q))) (RCat (ropt true (RGrp 3 class_re)) REol)).
Definition opt_digits_re (n : nat) : re := ropt true (RGrp n (rplus true (RSet dg))).
Definition opt_sep_re (n : nat) : re := ropt true (RGrp n (RSet sep_s)).
Definition slots_re : re := RCat (RGrp 1 (rplus true (RSet dg))) (RCat (opt_sep_re 2) (RCat (opt_digits_re 3) (RCat (opt_sep_re 4) (opt_digits_re 5)))).

Lemma short_reads : compile false (lit short_pattern) = Some (RCat RBol (name_re shs), (3, [(lit "interface_class", 3); (lit "port_subinterface_channel", 2); (lit "prefix", 1)])).
Proof. vm_compute. reflexivity. Qed.
Lemma long_reads : compile false (lit long_pattern) = Some (RCat RBol (name_re lgs), (3, [(lit "interface_class", 3); (lit "slot_card_port_subinterface_channel", 2); (lit "prefix", 1)])).
Proof. vm_compute. reflexivity. Qed.
Lemma port_reads : compile false (lit port_pattern) = Some (RCat RBol (RCat (RStar true (RSet nd_s)) (RGrp 1 (rplus true (RSet dg)))), (1, [(lit "port", 1)])).
Proof. vm_compute. reflexivity. Qed.
Lemma sub_reads : compile false (lit sub_pattern) = Some (RCat (chr ".") (RGrp 1 (rplus true (RSet dg))), (1, [(lit "subinterface", 1)])).
Proof. vm_compute. reflexivity. Qed.
Lemma chan_reads : compile false (lit chan_pattern) = Some (RCat (chr ":") (RGrp 1 (rplus true (RSet dg))), (1, [(lit "channel", 1)])).
Proof. vm_compute. reflexivity. Qed.
Lemma class_reads : compile false (lit class_pattern) = Some (RCat (RGrp 1 class_re) REol, (1, [(lit "interface_class", 1)])).
Proof. vm_compute. reflexivity. Qed.
Lemma slots_reads : compile false (lit slots_pattern) = Some (RCat RBol slots_re, (5, [(lit "port", 5); (lit "sep2", 4); (lit "card", 3); (lit "sep1", 2); (lit "slot", 1)])).
Proof. vm_compute. reflexivity. Qed.

(** The groups of a match; [None] without one. *)
Definition found (p : string) (s : str) : option (list (option str)) := option_map m_groups (rx_find (pattern false (lit p)) s).

Lemma all_in_iff' q f w : (forall c, in_set q c = f c) -> forallb f w = true -> all_in q w.
Proof. intros E. now apply all_in_iff. Qed.
Lemma stops_of q f s : (forall c, in_set q c = f c) -> IntfFacts.stops f s -> PyReTmpl.stops q s.
Proof. intros E. destruct s; cbn; [auto|]. now rewrite E. Qed.
(** *** Short and long names *)
Section Names.
  Variables (p : string) (q : cset) (f : ascii -> bool).
  Hypothesis HP : reads_re (lit p) (name_re q) 3.
  Hypothesis HQ : forall c, in_set q c = f c.
  Hypothesis HI : forall c, prefix_char c = true -> f c = true.
  Hypothesis HC : forall c, class_char c = true -> f c = true.
  Hypothesis HS : forall c, is_space c = true -> f c = true.

  Lemma name_found u v : forallb prefix_char u = true -> v <> [] -> forallb f v = true ->
    (forall a b, v = a ++ b -> a <> [] -> forallb prefix_char a = true -> b = []) ->
    found p (u ++ v) = Some [Some u; Some v; None].
  Proof.
    intros U NE F B. unfold found. rewrite (re_found _ _ _ (u ++ v) (u ++ v) [(2, v); (1, u)] HP); [reflexivity|].
    unfold match_at, name_re. rewrite mat_cat, mat_grp. apply star_best.
    - now apply (all_in_iff' pfx _ _ in_pfx).
    - intros a b -> NA A. apply mat_none. intros i' s' c' K. rewrite (B a b eq_refl NA) in K by (now apply (all_in_iff pfx _ _ in_pfx)).
      apply M_cat_iff in K as (i1 & s1 & c1 & K & _). apply M_grp_iff in K as (w & c2 & E & _ & _ & K). apply M_plus_iff in K as (w' & E' & N' & _).
      destruct w'; [congruence|discriminate].
    - rewrite mat_cat, mat_grp. rewrite <- (app_nil_r v) at 1. apply plus_longest; [assumption|now apply (all_in_iff' q f)|exact Logic.I|].
      cbn -[firstn Nat.sub Nat.add]. rewrite (firstn_all2 (n := _ - 0) (u ++ v)) by (rewrite app_length; lia).
      rewrite (firstn_all2 (n := _ - _) v) by lia. rewrite (firstn_len u v 0 : firstn (0 + length u - 0) (u ++ v) = u). reflexivity.
  Qed.
  Lemma name_none s : s = [] \/ forallb f s = false -> found p s = None.
  Proof.
    intros D0. unfold found. rewrite (re_none _ _ _ _ HP); [reflexivity|]. intros i s' c K. unfold name_re in K.
    apply M_cat_iff in K as (i1 & s1 & c1 & K1 & K). apply M_grp_iff in K1 as (u & c2 & -> & _ & _ & K1). apply M_star_iff in K1 as (u' & E & U & _ & _).
    apply app_inv_tail in E as <-. apply M_cat_iff in K as (i2 & s2 & c3 & K2 & K). apply M_grp_iff in K2 as (v & c4 & -> & _ & _ & K2).
    apply M_plus_iff in K2 as (v' & E & NV & V & _ & _). apply app_inv_tail in E as <-.
    apply M_cat_iff in K as (i3 & s3 & c5 & K3 & K). apply M_eol_iff in K as (K & _ & -> & _).
    apply (all_in_iff pfx _ _ in_pfx) in U. apply (all_in_iff q _ _ HQ) in V.
    assert (W : forallb f s2 = true).
    { assert (Y : exists y, s2 = y ++ s3 /\ forallb f y = true).
      { unfold ropt in K3. apply M_alt_iff in K3 as [K3|K3].
        - apply M_grp_iff in K3 as (w & ? & -> & _ & _ & K3). unfold class_re in K3. apply M_cat_iff in K3 as (? & ? & ? & K3 & K4).
          apply M_plus_iff in K3 as (a & E1 & _ & A & _). apply M_plus_iff in K4 as (b & -> & _ & B & _). rewrite app_assoc in E1. apply app_inv_tail in E1 as ->.
          exists (a ++ b). split; [reflexivity|]. rewrite forallb_app. apply (all_in_iff sp _ _ in_sp) in A. apply (all_in_iff cls_s _ _ in_cls) in B.
          apply andb_true_iff. split; [exact (forallb_imp _ _ _ HS A)|exact (forallb_imp _ _ _ HC B)].
        - apply M_eps_iff in K3 as (_ & -> & _). exists []. auto. }
      destruct Y as (y & -> & Y). rewrite forallb_app, Y. destruct K as [-> | ->]; [reflexivity|]. cbn. now rewrite HS. }
    destruct D0 as [D0|D0].
    - destruct u, v; try discriminate D0. congruence.
    - rewrite !forallb_app, V, W, (forallb_imp _ _ _ HI U) in D0. discriminate D0.
  Qed.
  Lemma name_split s : found p s = match split_name f s with Some (u, v) => Some [Some u; Some v; None] | None => None end.
  Proof.
    unfold split_name. destruct s as [|x0 s0] eqn:Es; [apply name_none; now left|rewrite <- Es in *].
    destruct (forallb f s) eqn:F; [|apply name_none; auto]. destruct (while_split prefix_char s) as (E & P & St).
    destruct (drop_while prefix_char s) as [|y r] eqn:Dw.
    - rewrite app_nil_r in E. rewrite <- E in P.
      assert (NE : s <> []) by (rewrite Es; discriminate). pose proof (app_removelast_last " " NE) as E'. rewrite E' at 1.
      rewrite E' in P, F. rewrite forallb_app in P, F. apply andb_true_iff in P as [P1 P2]. apply andb_true_iff in F as [F1 F2].
      apply name_found; [assumption|discriminate|assumption|]. intros a b Eb Na _. destruct a as [|a0 [|a1 a]]; [congruence| |discriminate Eb].
      injection Eb as _ <-. reflexivity.
    - rewrite E at 1. rewrite E, forallb_app in F. apply andb_true_iff in F as [_ F]. apply name_found; [assumption|discriminate|assumption|].
      intros a b Eb Na A. destruct a as [|a0 a]; [congruence|]. injection Eb as -> ->. cbn [forallb] in A. cbn [IntfFacts.stops] in St. rewrite St in A. discriminate A.
  Qed.
End Names.

Lemma short_split s : found short_pattern s = match split_name short_char s with Some (u, v) => Some [Some u; Some v; None] | None => None end.
Proof.
  apply (name_split short_pattern shs short_char); [unfold reads_re; now rewrite short_reads|exact in_shs|..];
    (refine (all_chars (fun c => implb _ _) _ : forall c, _ -> _) || idtac).
  all: intros c H; pose proof (all_chars (fun c => implb (prefix_char c || class_char c || is_space c) (short_char c)) ltac:(vm_compute; reflexivity) c) as E;
    cbn beta in E; rewrite H, ?orb_true_r in E; cbn [orb implb] in E; exact E.
Qed.
Lemma long_split s : found long_pattern s = match split_name long_char s with Some (u, v) => Some [Some u; Some v; None] | None => None end.
Proof.
  apply (name_split long_pattern lgs long_char); [unfold reads_re; now rewrite long_reads|exact in_lgs|..].
  all: intros c H; pose proof (all_chars (fun c => implb (prefix_char c || class_char c || is_space c) (long_char c)) ltac:(vm_compute; reflexivity) c) as E;
    cbn beta in E; rewrite H, ?orb_true_r in E; cbn [orb implb] in E; exact E.
Qed.

(** *** The port of a short name *)
Lemma take_cases f s : (take_while f s = [] /\ drop_while f s = s /\ IntfFacts.stops f s) \/ take_while f s <> [].
Proof. destruct s as [|c s]; cbn [take_while drop_while IntfFacts.stops]; [auto|]. destruct (f c) eqn:E; [right; discriminate|left; auto]. Qed.
Lemma port_some u d z : forallb (fun c => negb (is_digit c)) u = true -> d <> [] -> forallb is_digit d = true -> IntfFacts.stops is_digit z ->
  found port_pattern (u ++ d ++ z) = Some [Some d].
Proof.
  assert (HP : reads_re (lit port_pattern) (RCat (RStar true (RSet nd_s)) (RGrp 1 (rplus true (RSet dg)))) 1) by (unfold reads_re; now rewrite port_reads).
  intros U NE F St. unfold found. rewrite (re_found _ _ _ (u ++ d ++ z) (u ++ d) [(1, d)] HP); [reflexivity|]. unfold match_at. rewrite mat_cat.
  apply star_longest; [now apply (all_in_iff' nd_s _ _ in_nd)| |].
  { destruct d as [|x d]; [congruence|]. cbn [forallb] in F. apply andb_true_iff in F as [F _]. cbn [app PyReTmpl.stops]. now rewrite in_nd, F. }
  rewrite mat_grp. apply plus_longest; [assumption|now apply all_dg|exact (stops_of dg _ _ in_dg St)|].
  rewrite firstn_len. f_equal. f_equal. rewrite app_assoc, Nat.sub_0_r. cbn [Nat.add]. rewrite <- app_length. now rewrite firstn_app, firstn_all, Nat.sub_diag, app_nil_r.
Qed.
Lemma port_found s : found port_pattern s =
  match take_while is_digit (drop_while (fun c => negb (is_digit c)) s) with [] => None | d => Some [Some d] end.
Proof.
  assert (HP : reads_re (lit port_pattern) (RCat (RStar true (RSet nd_s)) (RGrp 1 (rplus true (RSet dg)))) 1) by (unfold reads_re; now rewrite port_reads).
  destruct (while_split (fun c => negb (is_digit c)) s) as (E & P & St). set (r := drop_while (fun c => negb (is_digit c)) s) in *.
  destruct (while_split is_digit r) as (E2 & P2 & St2). destruct (take_cases is_digit r) as [(T0 & _ & T1)|T0].
  - rewrite T0. unfold found. rewrite (re_none _ _ _ _ HP); [reflexivity|]. intros i s' c K. apply M_cat_iff in K as (i1 & s1 & c1 & K1 & K).
    apply M_star_iff in K1 as (u & -> & U & _ & _). apply M_grp_iff in K as (v & c2 & -> & _ & _ & K). apply M_plus_iff in K as (v' & E' & NV & V & _).
    apply app_inv_tail in E' as <-. apply (all_in_iff nd_s _ _ in_nd) in U. apply all_dg in V. destruct v as [|x v]; [congruence|].
    cbn [forallb] in V. apply andb_true_iff in V as [V _].
    assert (X : r = x :: v ++ s') by (apply (drop_while_app (fun c => negb (is_digit c)) u (x :: v ++ s')); [exact U|cbn; now rewrite V]).
    rewrite X in T1. cbn in T1. congruence.
  - set (d := take_while is_digit r) in *. transitivity (Some [Some d]); [|now destruct d].
    rewrite E, E2. now apply port_some.
Qed.

(** *** Subinterface and channel *)
Fixpoint mark_text (m : ascii) (s : str) : option str :=
  match s with
  | [] => None
  | c :: r => if Ascii.eqb c m then match take_while is_digit r with [] => mark_text m r | d => Some d end else mark_text m r
  end.
Lemma mark_value m s : after_mark m s = option_map digits_Z (mark_text m s).
Proof. induction s as [|c s IH]; cbn [after_mark mark_text]; [reflexivity|]. destruct (Ascii.eqb c m); [|assumption]. now destruct (take_while is_digit s). Qed.
Lemma mark_found p m : compile false (lit p) <> None -> (forall r e, compile false (lit p) = Some (r, e) -> r = RCat (chr m) (RGrp 1 (rplus true (RSet dg))) /\ fst e = 1) ->
  is_digit m = false -> forall s, found p s = option_map (fun d => [Some d]) (mark_text m s).
Proof.
  intros NE HP Dm s. unfold found, pattern. cbn [rx_find]. destruct (compile false (lit p)) as [[r e]|]; [|congruence].
  destruct (HP r e eq_refl) as (-> & ->). unfold search. generalize 0 at 2. induction s as [|c s IH]; intros i; cbn [search_from mark_text].
  - cbn. reflexivity.
  - set (g := match_at _ i (c :: s)).
    assert (G0 : g = if Ascii.eqb c m then match take_while is_digit s with [] => None | d => Some (c :: d, [(1, d)]) end else None).
    { unfold g, match_at. rewrite mat_cat. destruct (Ascii.eqb c m) eqn:Ec.
      - apply Ascii.eqb_eq in Ec as ->. unfold chr. rewrite set_step by (now apply in_chr). rewrite mat_grp.
        destruct (while_split is_digit s) as (E2 & P2 & St2). destruct (take_cases is_digit s) as [(T0 & _ & T1)|T0].
        + rewrite T0. apply mat_none. intros i' s' c' K. apply M_plus_iff in K as (v & -> & NV & V & _). apply all_dg in V. destruct v as [|x v]; [congruence|].
          cbn [forallb] in V. apply andb_true_iff in V as [V _]. cbn in T1. congruence.
        + set (d := take_while is_digit s) in *. set (z := drop_while is_digit s) in *. transitivity (Some (m :: d, [(1, d)])); [|now destruct d].
          clearbody d z. subst s. apply plus_longest; [assumption|now apply all_dg|exact (stops_of dg _ _ in_dg St2)|].
          rewrite firstn_len. replace (S i + length d - i) with (S (length d)) by lia. cbn [firstn]. now rewrite firstn_app, firstn_all, Nat.sub_diag, app_nil_r.
      - unfold chr. rewrite set_stops; [reflexivity|]. cbn [PyReTmpl.stops]. destruct (in_set _ c) eqn:X; [|reflexivity]. apply in_chr in X as ->. rewrite Ascii.eqb_refl in Ec. discriminate Ec. }
    rewrite G0. destruct (Ascii.eqb c m); [|apply IH]. destruct (take_while is_digit s); [apply IH|reflexivity].
Qed.

(** *** The interface class *)
Definition no_blank_end (s : str) : Prop := forall u c, s = u ++ [c] -> is_space c = false.
Lemma strip_class g w : IntfSpec.white g -> class_word w -> strip (g ++ w) = w.
Proof.
  intros G [Nw W]. change (forallb class_char w = true) in W. destruct w as [|c r]; [congruence|]. destruct (exists_last Nw) as (u & d & E).
  pose proof (strip_name g c r d u [] eq_refl) as S0. rewrite app_nil_r in S0. rewrite S0; auto.
  - rewrite (proj2 (lstrip_nil_iff g)); [reflexivity|exact G].
  - cbn [forallb] in W. apply andb_true_iff in W as [W _]. destruct (is_space c) eqn:X; [|reflexivity]. apply space_class in X. congruence.
  - rewrite E, forallb_app in W. apply andb_true_iff in W as [_ W]. cbn [forallb] in W. apply andb_true_iff in W as [W _]. destruct (is_space d) eqn:X; [|reflexivity]. apply space_class in X. congruence.
Qed.
Lemma class_found s : no_blank_end s -> match found class_pattern s with None => class_of s = None | Some g => exists d, g = [Some d] /\ class_of s = Some (strip d) end.
Proof.
  intros NB. assert (HP : reads_any (lit class_pattern) (RCat (RGrp 1 class_re) REol) 1) by (unfold reads_any; now rewrite class_reads).
  unfold found. destruct (rx_find (pattern false (lit class_pattern)) s) as [m|] eqn:E; cbn [option_map].
  - apply (any_some _ _ _ _ _ HP) in E as (a & b & i & e & c & -> & HM & Gr & _). apply M_cat_iff in HM as (i1 & s1 & c1 & K1 & K).
    apply M_eol_iff in K as (K & _ & -> & ->). apply M_grp_iff in K1 as (w & c2 & -> & _ & -> & K1). unfold class_re in K1. apply M_cat_iff in K1 as (? & ? & ? & K1 & K2).
    apply M_plus_iff in K1 as (g & E1 & NG & HG & _). apply M_plus_iff in K2 as (z & -> & NZ & HZ & _). rewrite app_assoc in E1. apply app_inv_tail in E1 as ->.
    apply (all_in_iff sp _ _ in_sp) in HG. apply (all_in_iff cls_s _ _ in_cls) in HZ. rewrite Gr. cbn [seq map cap Nat.eqb].
    destruct K as [-> | ->].
    + rewrite app_nil_r. exists (g ++ z). split; [reflexivity|]. rewrite (class_of_word a g z HG NG (conj NZ HZ)). f_equal. symmetry. exact (strip_class g z HG (conj NZ HZ)).
    + specialize (NB (a ++ g ++ z) "010"). rewrite <- !app_assoc in NB. specialize (NB eq_refl). discriminate NB.
  - pose proof (proj1 (any_none _ _ _ _ HP) E) as NM. unfold class_of. destruct (while_split class_char (rev s)) as (E1 & F & _).
    destruct (take_while class_char (rev s)) as [|x r] eqn:Tw; [reflexivity|]. destruct (drop_while class_char (rev s)) as [|c u]; [reflexivity|].
    destruct (is_space c) eqn:Sp; [|reflexivity]. exfalso. apply (f_equal (@rev ascii)) in E1. rewrite rev_involutive, rev_app_distr in E1. cbn [rev] in E1.
    change (rev r ++ [x]) with (rev (x :: r)) in E1. rewrite <- app_assoc in E1. set (w := rev (x :: r)) in *.
    assert (W : forallb class_char w = true) by (unfold w; now rewrite forallb_rev).
    assert (Nw : w <> []) by (unfold w; cbn [rev]; destruct (rev r); discriminate).
    refine (NM (rev u) ([c] ++ w) (length (rev u) + length ([c] ++ w)) [] [(1, [c] ++ w)] E1 _). apply M_cat_iff.
    exists (length (rev u) + length ([c] ++ w)), [], [(1, [c] ++ w)]. split; [|apply M_eol_iff; auto].
    apply M_grp_iff. exists ([c] ++ w), []. repeat split; [now rewrite app_nil_r|]. unfold class_re. apply M_cat_iff.
    exists (length (rev u) + 1), w, []. split.
    + apply M_plus_iff. exists [c]. repeat split; [discriminate|]. apply (all_in_iff sp _ _ in_sp). cbn. now rewrite Sp.
    + apply M_plus_iff. exists w. repeat split; [now rewrite app_nil_r|assumption|now apply (all_in_iff cls_s _ _ in_cls)|cbn [app length]; lia].
Qed.

(** *** Slot, card and port *)
Lemma opt_digits_step {R} n i s c (k : nat -> str -> caps -> option R) x :
  (let d := take_while is_digit s in match d with [] => k i s c | _ => k (i + length d) (drop_while is_digit s) ((n, d) :: c) end) = Some x ->
  mat (opt_digits_re n) i s c k = Some x.
Proof.
  cbv zeta. intros K. unfold opt_digits_re, ropt. rewrite mat_alt, mat_grp. destruct (while_split is_digit s) as (E & P & St).
  destruct (take_cases is_digit s) as [(T0 & _ & T1)|T0].
  - rewrite T0 in K. rewrite mat_none; [exact K|]. intros i' s' c' HM. apply M_plus_iff in HM as (v & -> & NV & V & _). apply all_dg in V. destruct v as [|y v]; [congruence|].
    cbn [forallb] in V. apply andb_true_iff in V as [V _]. cbn in T1. congruence.
  - set (d := take_while is_digit s) in *. set (z := drop_while is_digit s) in *. clearbody d z. subst s.
    erewrite plus_longest; [reflexivity|assumption|now apply all_dg|exact (stops_of dg _ _ in_dg St)|]. rewrite firstn_len. now destruct d.
Qed.
Lemma opt_sep_step {R} n i s c (k : nat -> str -> caps -> option R) x :
  (match opt_sep s with (Some t, r) => k (S i) r ((n, t) :: c) | (None, r) => k i r c end) = Some x -> mat (opt_sep_re n) i s c k = Some x.
Proof.
  intros K. unfold opt_sep_re, ropt. rewrite mat_alt, mat_grp. destruct s as [|y s]; cbn [opt_sep] in K; [exact K|].
  destruct (sep_char y) eqn:Y.
  - rewrite set_step by (now rewrite in_sep). assert (F1 : firstn (S i - i) (y :: s) = [y]) by (replace (S i - i) with 1 by lia; reflexivity). rewrite F1. unfold str in K. rewrite K. reflexivity.
  - rewrite set_stops; [exact K|]. exact (eq_trans (in_sep y) Y).
Qed.
Definition some_text (d : str) : option str := match d with [] => None | _ => Some d end.
Lemma slots_found s : found slots_pattern s =
  match take_while is_digit s with
  | [] => None
  | d1 =>
      let '(s1, r1) := opt_sep (drop_while is_digit s) in
      let '(s2, r2) := opt_sep (drop_while is_digit r1) in
      Some [Some d1; s1; some_text (take_while is_digit r1); s2; some_text (take_while is_digit r2)]
  end.
Proof.
  assert (HP : reads_re (lit slots_pattern) slots_re 5) by (unfold reads_re; now rewrite slots_reads).
  destruct (while_split is_digit s) as (E & P & St). destruct (take_cases is_digit s) as [(T0 & _ & T1)|T0].
  - rewrite T0. unfold found. rewrite (re_none _ _ _ _ HP); [reflexivity|]. intros i s' c K. unfold slots_re in K. apply M_cat_iff in K as (i1 & s1 & c1 & K & _).
    apply M_grp_iff in K as (v & c2 & -> & _ & _ & K). apply M_plus_iff in K as (v' & E' & NV & V & _). apply app_inv_tail in E' as <-. apply all_dg in V.
    destruct v as [|y v]; [congruence|]. cbn [forallb] in V. apply andb_true_iff in V as [V _]. cbn in T1. congruence.
  - set (d1 := take_while is_digit s) in *. set (z := drop_while is_digit s) in *. destruct (opt_sep z) as [s1 r1] eqn:O1. destruct (opt_sep (drop_while is_digit r1)) as [s2 r2] eqn:O2.
    transitivity (Some [Some d1; s1; some_text (take_while is_digit r1); s2; some_text (take_while is_digit r2)]); [|now destruct d1].
    set (d2 := take_while is_digit r1) in *. set (d3 := take_while is_digit r2) in *.
    set (c5 := (match d3 with [] => [] | _ => [(5, d3)] end) ++ (match s2 with None => [] | Some t => [(4, t)] end) ++
                (match d2 with [] => [] | _ => [(3, d2)] end) ++ (match s1 with None => [] | Some t => [(2, t)] end) ++ [(1, d1)]).
    assert (HM : exists m, match_at slots_re 0 s = Some (m, c5)).
    { unfold match_at. set (kf := fun (i' : nat) (_ : str) (c : caps) => Some (firstn (i' - 0) s, c)).
      assert (B : forall j c0 r, opt_sep r = (s2, r2) -> c0 = (match d2 with [] => [] | _ => [(3, d2)] end) ++ (match s1 with None => [] | Some t => [(2, t)] end) ++ [(1, d1)] ->
        exists m, mat (RCat (opt_sep_re 4) (opt_digits_re 5)) j r c0 kf = Some (m, c5)).
      { intros j c0 r Hr ->. unfold c5. unfold d3. destruct s2, (take_while is_digit r2) eqn:T3; eexists; rewrite mat_cat; apply opt_sep_step; rewrite Hr;
          apply opt_digits_step; cbv zeta; rewrite T3; reflexivity. }
      assert (B2 : forall j c0, c0 = (match s1 with None => [] | Some t => [(2, t)] end) ++ [(1, d1)] ->
        exists m, mat (RCat (opt_digits_re 3) (RCat (opt_sep_re 4) (opt_digits_re 5))) j r1 c0 kf = Some (m, c5)).
      { intros j c0 ->. destruct (take_cases is_digit r1) as [(T2 & Dr & _)|NT].
        - rewrite Dr in O2. destruct (B j ((match s1 with None => [] | Some t => [(2, t)] end) ++ [(1, d1)]) r1 O2) as (m & Hm); [unfold d2; now rewrite T2|].
          exists m. rewrite mat_cat. apply opt_digits_step. cbv zeta. now rewrite T2.
        - destruct (B (j + length d2) ((3, d2) :: (match s1 with None => [] | Some t => [(2, t)] end) ++ [(1, d1)]) _ O2) as (m & Hm); [unfold d2; destruct (take_while is_digit r1); [congruence|reflexivity]|].
          exists m. rewrite mat_cat. apply opt_digits_step. cbv zeta. fold d2. unfold d2 in *. destruct (take_while is_digit r1); [congruence|exact Hm]. }
      assert (B3 : forall j, exists m, mat (RCat (opt_sep_re 2) (RCat (opt_digits_re 3) (RCat (opt_sep_re 4) (opt_digits_re 5)))) j z [(1, d1)] kf = Some (m, c5)).
      { intros j. destruct s1 as [t1|].
        - destruct (B2 (S j) _ eq_refl) as (m & Hm). exists m. rewrite mat_cat. apply opt_sep_step. now rewrite O1.
        - destruct (B2 j _ eq_refl) as (m & Hm). exists m. rewrite mat_cat. apply opt_sep_step. now rewrite O1. }
      destruct (B3 (0 + length d1)) as (m & Hm). exists m. unfold slots_re. rewrite mat_cat, mat_grp. rewrite E at 1. clear B B2 B3.
      apply plus_longest; [assumption|now apply all_dg|exact (stops_of dg _ _ in_dg St)|]. rewrite E. rewrite firstn_len. exact Hm. }
    destruct HM as (m & HM). unfold found. rewrite (re_found _ _ _ _ _ _ HP HM). cbn [option_map m_groups]. unfold c5.
    destruct d3, s2, d2, s1; reflexivity.
Qed.
