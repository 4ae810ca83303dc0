(** What the patterns of NX-OS trunk statements find. *)
From Coq Require Import Ascii String Arith NArith ZArith Bool List Lia.
From Verif Require Import PyStr PyStrFacts PyBase SearchModel IntfSpec PyRe PyReFacts PyReTmpl PyReSent PyReLazy IosSpec IosModel IosFacts NxosTrunkSpec NxosTrunkModel.
Import ListNotations.
Local Open Scope char_scope.

Definition head_T : list item := [Run sp true; Lit (lit "switchport"); Run sp true; Lit (lit "trunk"); Run sp true; Lit (lit "allowed"); Run sp true; Lit (lit "vlan")].
Definition abs_T (w : str) : list item := head_T ++ [One sp; Grp 1 [Lit w]; End].
Definition abs_T0 : list item := head_T ++ [One sp; Grp 1 [One dg; Run dot false]; End].
Definition sub_T (kw : str) : list item := head_T ++ [Run sp true; Lit kw; Run sp true; Grp 1 [One dg; Run dot false]; End].

Lemma head_eq T s s' c c' : D false (head_T ++ T) s s' c c' -> exists r, trunk_head s r /\ D false T r s' c c'.
Proof.
  intros H. unfold head_T in H. cbn [app] in H.
  apply D_run_eq in H as (g1 & s1 & -> & A1 & B1 & H). apply D_lit_eq in H as (s2 & -> & H).
  apply D_run_eq in H as (g2 & s3 & -> & A2 & B2 & H). apply D_lit_eq in H as (s4 & -> & H).
  apply D_run_eq in H as (g3 & s5 & -> & A3 & B3 & H). apply D_lit_eq in H as (s6 & -> & H).
  apply D_run_eq in H as (g4 & s7 & -> & A4 & B4 & H). apply D_lit_eq in H as (s8 & -> & H).
  exists s8. split; [|exact H]. exists g1, g2, g3, g4. split; [reflexivity|]. repeat split; try (now apply all_sp); auto.
Qed.
Lemma head_D T t r s' c c' : trunk_head t r -> D false T r s' c c' -> D false (head_T ++ T) t s' c c'.
Proof.
  intros (g1 & g2 & g3 & g4 & -> & [A1 B1] & [A2 B2] & [A3 B3] & [A4 B4]) H. unfold head_T. cbn [app].
  do 4 (apply D_run; [now apply all_sp|auto|discriminate|]; apply D_lit). exact H.
Qed.
Lemma value_eq s s' c c' : D false [Grp 1 [One dg; Run dot false]; End] s s' c c' -> exists v, s = v ++ s' /\ from_digit v /\ line_end s' /\ c' = (1%nat, v) :: c.
Proof.
  intros H. apply D_grp_eq in H as (w & r & c1 & -> & H & H2). apply D_one_eq in H as (x & r1 & E & X0 & H). apply D_run_eq in H as (q & r2 & -> & A & _ & H). apply D_nil_eq in H as (-> & ->).
  change (x :: q ++ r2) with ((x :: q) ++ r2) in E. apply app_inv_tail in E. subst w.
  inversion H2 as [| | | | |T s0 s0' c0 c0' LE H3| | | |]; subst. apply D_nil_eq in H3 as (-> & ->).
  exists (x :: q). split; [reflexivity|]. split; [|split; [exact LE|reflexivity]]. exists x, q. rewrite in_dg in X0. split; [reflexivity|]. split; [exact X0|now apply all_dot].
Qed.
Lemma value_D v e c : from_digit v -> line_end e -> D false [Grp 1 [One dg; Run dot false]; End] (v ++ e) e c ((1%nat, v) :: c).
Proof.
  intros (d & r & -> & D0 & N0) LE. apply D_grp with (c1 := c).
  - cbn [app]. apply D_one; [now rewrite in_dg|]. apply D_run; [now apply all_dot|discriminate|discriminate|constructor].
  - apply D_end; [exact LE|constructor].
Qed.
Lemma word_eq w s s' c c' : D false [Grp 1 [Lit w]; End] s s' c c' -> s = w ++ s' /\ line_end s' /\ c' = (1%nat, w) :: c.
Proof.
  intros H. apply D_grp_eq in H as (v & r & c1 & -> & H & H2). apply D_lit_eq in H as (r1 & E & H). apply D_nil_eq in H as (-> & ->). apply app_inv_tail in E. subst v.
  inversion H2 as [| | | | |T s0 s0' c0 c0' LE H3| | | |]; subst. apply D_nil_eq in H3 as (-> & ->). auto.
Qed.
Lemma word_D w e c : line_end e -> D false [Grp 1 [Lit w]; End] (w ++ e) e c ((1%nat, w) :: c).
Proof. intros LE. apply D_grp with (c1 := c); [apply D_lit; constructor|]. apply D_end; [exact LE|constructor]. Qed.

(** The group may be one of two things. *)
Lemma alt_M l a b q i s c i2 s2 c2 : M (row (l ++ [RGrp 1 (RAlt a b); q])) i s c i2 s2 c2 <-> M (row (l ++ [RGrp 1 a; q])) i s c i2 s2 c2 \/ M (row (l ++ [RGrp 1 b; q])) i s c i2 s2 c2.
Proof.
  split.
  - intros H. apply row_app_M in H as (i1 & s1 & c1 & H1 & H2). apply row_cons_M in H2 as (i3 & s3 & c3 & HG & HQ). apply M_grp_iff in HG as (w & c' & -> & -> & -> & HA). apply M_alt_iff in HA as [HA|HA]; [left|right]; (eapply row_app_M'; [exact H1|]; eapply row_cons_M'; [|exact HQ]; apply M_grp_iff; exists w, c'; repeat split; auto).
  - intros [H|H]; (apply row_app_M in H as (i1 & s1 & c1 & H1 & H2); apply row_cons_M in H2 as (i3 & s3 & c3 & HG & HQ); apply M_grp_iff in HG as (w & c' & -> & -> & -> & HA); eapply row_app_M'; [exact H1|]; eapply row_cons_M'; [|exact HQ]; apply M_grp_iff; exists w, c'; repeat split; auto); [now apply M_left|now apply M_right].
Qed.
Definition head_re : list re := flat_map flat1 (head_T ++ [One sp]).
Definition digits_re : re := RCat (RSet dg) (RStar false (RSet dot)).
Definition abs_re : re := row (head_re ++ [RGrp 1 (RAlt (den [Lit (lit "all")]) (RAlt (den [Lit (lit "none")]) digits_re)); REol]).
Definition given (v : str) : Prop := v = lit "all" \/ v = lit "none" \/ from_digit v.
Lemma abs_M t i s c : M abs_re 0 t [] i s c <-> exists T, M T 0 t [] i s c /\ (T = den (abs_T (lit "all")) \/ T = den (abs_T (lit "none")) \/ greed T = den abs_T0 /\ T = row (head_re ++ [RGrp 1 digits_re; REol])).
Proof.
  unfold abs_re. rewrite !alt_M. split.
  - intros [H|[H|H]]; [exists (den (abs_T (lit "all")))|exists (den (abs_T (lit "none")))|exists (row (head_re ++ [RGrp 1 digits_re; REol]))]; (split; [exact H|]). { now left. } { right. now left. } right. right. split; reflexivity.
  - intros (T & H & [->|[->|[_ ->]]]); auto.
Qed.
Lemma abs_iff t v : (exists i s c, M abs_re 0 t [] i s c /\ cap 1 c = Some v) <-> given v /\ gives v t.
Proof.
  assert (WH : forall w i s c, M (den (abs_T w)) 0 t [] i s c -> gives w t /\ c = [(1%nat, w)]).
  { intros w i s c H. apply shape in H. unfold abs_T in H. apply head_eq in H as (r & HD & H). apply D_one_eq in H as (x & r1 & -> & X0 & H). apply word_eq in H as (-> & LE & ->). rewrite in_sp in X0. split; [|reflexivity]. now exists x, s. }
  split.
  - intros (i & s & c & H & C). apply abs_M in H as (T & H & [->|[->|[G ->]]]).
    + apply WH in H as [H ->]. injection C as <-. split; [now left|exact H].
    + apply WH in H as [H ->]. injection C as <-. split; [right; now left|exact H].
    + apply greed_fwd in H. rewrite G in H. apply shape in H. unfold abs_T0 in H. apply head_eq in H as (r & HD & H). apply D_one_eq in H as (x & r1 & -> & X0 & H). apply value_eq in H as (w & -> & FD & LE & ->). rewrite in_sp in X0.
      injection C as <-. split; [now right; right|]. now exists x, s.
  - intros (GV & x & e & HD & X0 & LE).
    assert (X1 : in_set sp x = true) by now rewrite in_sp. destruct GV as [->|[->|FD]].
    + pose proof (head_D _ _ _ _ _ _ HD (D_one _ _ _ _ _ _ _ _ X1 (word_D (lit "all") e [] LE))) as H. apply unshape with (i := 0) in H. do 3 eexists. split; [apply abs_M; eexists; split; [exact H|]; now left|reflexivity].
    + pose proof (head_D _ _ _ _ _ _ HD (D_one _ _ _ _ _ _ _ _ X1 (word_D (lit "none") e [] LE))) as H. apply unshape with (i := 0) in H. do 3 eexists. split; [apply abs_M; eexists; split; [exact H|]; right; now left|reflexivity].
    + pose proof (head_D _ _ _ _ _ _ HD (D_one _ _ _ _ _ _ _ _ X1 (value_D v e [] FD LE))) as H. apply unshape with (i := 0) in H.
      assert (G : greed (row (head_re ++ [RGrp 1 digits_re; REol])) = den abs_T0) by reflexivity. change (den (head_T ++ One sp :: [Grp 1 [One dg; Run dot false]; End])) with (den abs_T0) in H. rewrite <- G in H. apply greed_bwd in H.
      do 3 eexists. split; [apply abs_M; eexists; split; [exact H|]; right; right; split; [exact G|reflexivity]|reflexivity].
Qed.

(** ** Every line has at most one reading *)

Lemma white_cut g g' s s' : white g -> white g' -> nonwhite_head s = true -> nonwhite_head s' = true -> g ++ s = g' ++ s' -> g = g' /\ s = s'.
Proof.
  revert g'. induction g as [|x g IH]; intros [|y g'] W1 W2 N1 N2 E; cbn [app] in E.
  - auto.
  - exfalso. subst s. unfold white in W2. cbn [nonwhite_head forallb] in *. apply andb_true_iff in W2 as [W2 _]. rewrite W2 in N1. discriminate.
  - exfalso. subst s'. unfold white in W1. cbn [nonwhite_head forallb] in *. apply andb_true_iff in W1 as [W1 _]. rewrite W1 in N2. discriminate.
  - injection E as -> E. unfold white in *. cbn [forallb] in *. apply andb_true_iff in W1 as [_ W1]. apply andb_true_iff in W2 as [_ W2]. destruct (IH g' W1 W2 N1 N2 E) as [-> ->]. auto.
Qed.
Lemma head_unique t r r' : trunk_head t r -> trunk_head t r' -> r = r'.
Proof.
  intros (g1 & g2 & g3 & g4 & -> & [A1 _] & [A2 _] & [A3 _] & [A4 _]) (h1 & h2 & h3 & h4 & E & [B1 _] & [B2 _] & [B3 _] & [B4 _]).
  apply white_cut in E as [_ E]; auto. apply app_inv_head in E. apply white_cut in E as [_ E]; auto. apply app_inv_head in E. apply white_cut in E as [_ E]; auto. apply app_inv_head in E. apply white_cut in E as [_ E]; auto. now apply app_inv_head in E.
Qed.
Lemma end_unique v e v' e' : no_newline v -> no_newline v' -> line_end e -> line_end e' -> v ++ e = v' ++ e' -> v = v'.
Proof.
  revert v'. induction v as [|x v IH]; intros [|y v'] N1 N2 L1 L2 E; cbn [app] in E.
  - reflexivity.
  - exfalso. subst e. destruct L1 as [L1|L1]; [discriminate|]. injection L1 as -> _. discriminate.
  - exfalso. subst e'. destruct L2 as [L2|L2]; [discriminate|]. injection L2 as -> _. discriminate.
  - injection E as -> E. unfold no_newline in *. cbn [forallb] in *. apply andb_true_iff in N1 as [_ N1]. apply andb_true_iff in N2 as [_ N2]. now rewrite (IH v' N1 N2 L1 L2 E).
Qed.
Lemma from_digit_line v : from_digit v -> no_newline v.
Proof.
  intros (d & r & -> & D0 & N0). unfold no_newline in *. cbn [forallb]. rewrite N0, andb_true_r. destruct (Ascii.eqb_spec d "010"); [subst; discriminate|reflexivity].
Qed.
Lemma given_line v : given v -> no_newline v.
Proof. intros [->|[->|H]]; [reflexivity|reflexivity|now apply from_digit_line]. Qed.
Lemma from_digit_head v e : from_digit v -> nonwhite_head (v ++ e) = true.
Proof. intros (d & r & -> & D0 & _). cbn. now rewrite (digit_nonspace _ D0). Qed.
Lemma given_head v e : given v -> nonwhite_head (v ++ e) = true.
Proof. intros [->|[->|H]]; [reflexivity|reflexivity|now apply from_digit_head]. Qed.
Lemma gives_unique v v' t : given v -> given v' -> gives v t -> gives v' t -> v = v'.
Proof.
  intros G G' (x & e & H & _ & L) (x' & e' & H' & _ & L'). pose proof (head_unique _ _ _ H H') as E. injection E as _ E. apply (end_unique v e v' e'); auto using given_line.
Qed.
Lemma changes_unique kw v v' t : nonwhite_head kw = true -> changes kw v t -> changes kw v' t -> v = v'.
Proof.
  intros NW (g & h & e & H & [G1 _] & [G2 _] & F & L) (g' & h' & e' & H' & [G1' _] & [G2' _] & F' & L'). pose proof (head_unique _ _ _ H H') as E.
  apply white_cut in E as [_ E]; auto using nonwhite_head_app. apply app_inv_head in E. apply white_cut in E as [_ E]; auto using from_digit_head. apply (end_unique v e v' e'); auto using from_digit_line.
Qed.
Lemma gives_changes kw v v' t : given v -> gives v t -> changes kw v' t -> nonwhite_head kw = true -> exists r, kw ++ r = v \/ kw ++ r = v ++ ["010"].
Proof.
  intros G (x & e & H & X0 & L) (g & h & e' & H' & [G1 _] & [G2 _] & F & L') NW. pose proof (head_unique _ _ _ H H') as E. change (x :: v ++ e) with ([x] ++ v ++ e) in E.
  apply white_cut in E as [_ E]; auto using given_head, nonwhite_head_app; [|unfold white; cbn [forallb]; now rewrite X0]. exists (h ++ v' ++ e'). destruct L as [->| ->]; [left; now rewrite app_nil_r in E|right; auto].
Qed.
Definition subword (kw : str) : Prop := kw = lit "add" \/ kw = lit "except" \/ kw = lit "remove".
Lemma no_both kw v v' t : subword kw -> given v -> gives v t -> ~ changes kw v' t.
Proof.
  intros K G H C. assert (NW : nonwhite_head kw = true) by (destruct K as [->|[->| ->]]; reflexivity). destruct (gives_changes _ _ _ _ G H C NW) as (r & E).
  destruct G as [->|[->|(d & q & -> & D0 & _)]]; destruct K as [->|[->| ->]]; destruct E as [E|E]; try discriminate; injection E as <- _; discriminate.
Qed.
Lemma one_kind kw kw' v v' t : subword kw -> subword kw' -> changes kw v t -> changes kw' v' t -> kw = kw'.
Proof.
  intros K K' (g & h & e & H & [G1 _] & [G2 _] & F & L) (g' & h' & e' & H' & [G1' _] & [G2' _] & F' & L'). pose proof (head_unique _ _ _ H H') as E.
  assert (NW : forall r, nonwhite_head (kw ++ r) = true) by (intros r; destruct K as [->|[->| ->]]; reflexivity). assert (NW' : forall r, nonwhite_head (kw' ++ r) = true) by (intros r; destruct K' as [->|[->| ->]]; reflexivity).
  apply white_cut in E as [_ E]; auto. destruct K as [->|[->| ->]], K' as [->|[->| ->]]; try reflexivity; discriminate.
Qed.

(** ** What is found *)

Lemma abs_str_some v t : given v -> gives v t -> nx_abs_str t = Some (lower v).
Proof.
  intros G H. unfold nx_abs_str, vlan_str. assert (R : reads_re (lit "^\s+switchport\s+trunk\s+allowed\s+vlan\s(all|none|\d.*?)$") abs_re 1) by reflexivity.
  destruct (rx_find _ t) as [m|] eqn:E.
  - apply (re_shape _ _ _ _ _ R) in E as (i & s & c & HM & GM). unfold group. rewrite GM. cbn [seq map nth_error]. destruct (cap 1 c) as [w|] eqn:C.
    + destruct (proj1 (abs_iff t w)) as [G' H']; [eauto|]. now rewrite (gives_unique _ _ _ G' G H' H).
    + exfalso. apply abs_M in HM as (T & HM & [->|[->|[GE ->]]]); [| |apply greed_fwd in HM; rewrite GE in HM]; apply shape in HM; apply head_eq in HM as (r & _ & HM); apply D_one_eq in HM as (x & r1 & _ & _ & HM); [apply word_eq in HM as (_ & _ & ->)|apply word_eq in HM as (_ & _ & ->)|apply value_eq in HM as (w & _ & _ & _ & ->)]; discriminate.
  - exfalso. destruct (proj2 (abs_iff t v) (conj G H)) as (i & s & c & HM & _). unfold reads_re, pattern in *. cbn [rx_find] in E. destruct (compile false _) as [[r' e]|]; [|discriminate]. cbn [option_map fst snd] in R. injection R as -> _.
    rewrite search_bol in E. pose proof (match_at_complete _ _ _ _ _ _ HM) as K. destruct (match_at _ 0 _) as [[? ?]|]; [discriminate|congruence].
Qed.
Lemma abs_str_none t : (forall v, given v -> ~ gives v t) -> nx_abs_str t = None.
Proof.
  intros N0. unfold nx_abs_str, vlan_str. assert (R : reads_re (lit "^\s+switchport\s+trunk\s+allowed\s+vlan\s(all|none|\d.*?)$") abs_re 1) by reflexivity.
  destruct (rx_find _ t) as [m|] eqn:E; [|reflexivity]. apply (re_shape _ _ _ _ _ R) in E as (i & s & c & HM & GM). unfold group. rewrite GM. cbn [seq map nth_error]. destruct (cap 1 c) as [w|] eqn:C; [|reflexivity].
  exfalso. destruct (proj1 (abs_iff t w)) as [G' H']; [eauto|]. now apply (N0 w).
Qed.
Definition sub_re (kw : str) : re := row (flat_map flat1 (head_T ++ [Run sp true; Lit kw; Run sp true]) ++ [RGrp 1 digits_re; REol]).
Lemma sub_eq kw t s c : D false (sub_T kw) t s [] c -> exists v, changes kw v t /\ c = [(1%nat, v)].
Proof.
  intros H. unfold sub_T in H. apply head_eq in H as (r & HD & H). apply D_run_eq in H as (g & s1 & -> & A1 & B1 & H). apply D_lit_eq in H as (s2 & -> & H). apply D_run_eq in H as (g' & s3 & -> & A2 & B2 & H).
  apply value_eq in H as (v & -> & FD & LE & ->). exists v. split; [|reflexivity]. exists g, g', s. split; [exact HD|]. repeat split; auto; now apply all_sp.
Qed.
Lemma sub_some p kw v t : reads_re (lit p) (sub_re kw) 1 -> greed (sub_re kw) = den (sub_T kw) -> nonwhite_head kw = true -> changes kw v t -> vlan_str p t = Some (lower v).
Proof.
  intros R G NW H. unfold vlan_str. destruct (rx_find _ t) as [m|] eqn:E.
  - apply (re_shape _ _ _ _ _ R) in E as (i & s & c & HM & GM). unfold group. rewrite GM. apply greed_fwd in HM. rewrite G in HM. apply shape in HM. apply sub_eq in HM as (w & HW & ->). cbn. now rewrite (changes_unique kw w v t NW HW H).
  - exfalso. apply (proj2 (re_found_greedy _ _ _ _ t R G)) in E; [exact E|]. destruct H as (g & g' & e & HD & [A1 B1] & [A2 B2] & FD & LE). exists e, [(1%nat, v)].
    apply (head_D _ _ _ _ _ _ HD). apply D_run; [now apply all_sp|auto|discriminate|]. apply D_lit. apply D_run; [now apply all_sp|auto|discriminate|]. now apply value_D.
Qed.
Lemma sub_none p kw t : reads_re (lit p) (sub_re kw) 1 -> greed (sub_re kw) = den (sub_T kw) -> (forall v, ~ changes kw v t) -> vlan_str p t = None.
Proof.
  intros R G N0. unfold vlan_str. destruct (rx_find _ t) as [m|] eqn:E; [|reflexivity]. apply (re_shape _ _ _ _ _ R) in E as (i & s & c & HM & GM). apply greed_fwd in HM. rewrite G in HM. apply shape in HM. apply sub_eq in HM as (w & HW & ->). exfalso. now apply (N0 w).
Qed.
Definition sub_str (kw : str) : str -> option str := if str_eqb kw (lit "add") then nx_add_str else if str_eqb kw (lit "except") then nx_exc_str else nx_rem_str.
Lemma sub_str_some kw v t : subword kw -> changes kw v t -> sub_str kw t = Some (lower v).
Proof. intros [->|[->| ->]] H; (eapply sub_some; [| | |exact H]; reflexivity). Qed.
Lemma sub_str_none kw t : subword kw -> (forall v, ~ changes kw v t) -> sub_str kw t = None.
Proof. intros [->|[->| ->]] H; (eapply sub_none; [| |exact H]; reflexivity). Qed.
Lemma read_given v t : given v -> gives v t -> nx_abs_str t = Some (lower v) /\ nx_add_str t = None /\ nx_exc_str t = None /\ nx_rem_str t = None.
Proof.
  intros G H. split; [now apply abs_str_some|]. split; [apply (sub_str_none (lit "add"))|split; [apply (sub_str_none (lit "except"))|apply (sub_str_none (lit "remove"))]]; unfold subword; auto; intros w C; (eapply no_both; [| | |exact C]; eauto); unfold subword; auto.
Qed.
Lemma read_changed kw v t : subword kw -> changes kw v t -> nx_abs_str t = None /\ sub_str kw t = Some (lower v) /\ forall kw', subword kw' -> kw' <> kw -> sub_str kw' t = None.
Proof.
  intros K H. split; [apply abs_str_none; intros w G W; now apply (no_both kw w v t)|]. split; [now apply sub_str_some|]. intros kw' K' NE. apply sub_str_none; [exact K'|]. intros w C. apply NE. now apply (one_kind kw' kw w v t).
Qed.
Lemma read_other t : (forall r, ~ trunk_head t r) -> nx_abs_str t = None /\ nx_add_str t = None /\ nx_exc_str t = None /\ nx_rem_str t = None.
Proof.
  intros N0. split; [apply abs_str_none; intros v _ (x & e & H & _); now apply N0 in H|].
  split; [apply (sub_str_none (lit "add"))|split; [apply (sub_str_none (lit "except"))|apply (sub_str_none (lit "remove"))]]; unfold subword; auto; intros w (g & g' & e & H & _); now apply N0 in H.
Qed.
