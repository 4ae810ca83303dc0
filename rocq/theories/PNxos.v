(** C81: NX-OS interface lines and vPC domains. *)
From Coq Require Import Ascii String Arith NArith ZArith Bool List Lia.
From Verif Require Import PyStr PyStrFacts PyBase SearchModel SearchProofs IpModel IpSpec IpFacts PIp PIpText AttrModel IntfModel IntfSpec IntfFacts PyRe PyReFacts PyReTmpl PyReSent PyReLazy IosSpec IosModel IosFacts PIos NameSpec NameModel NameFacts PName TrunkModel PortModel AsaIntfSpec AsaIntfModel PAsaIntf NxosSpec NxosModel.
From Verif Require PAttr PDiff2 PAsaSvc.
Import ListNotations.
Local Open Scope char_scope.
Local Open Scope Z_scope.

(** ** Commands *)

Theorem C81_numbers : forall own below, let lines := own :: below in
  answers (number_cmd ["speed"]%string []%string) lines 0 (nx_manual_speed own below) /\
  answers (number_cmd ["bandwidth"]%string []%string) lines 0 (nx_manual_bandwidth own below) /\
  answers (number_cmd ["delay"]%string []%string) lines 0 (nx_manual_delay own below) /\
  answers (number_cmd ["clock"; "rate"]%string []%string) lines 0 (nx_manual_clock_rate own below) /\
  answers (number_cmd ["mtu"]%string []%string) lines 0 (nx_manual_mtu own below) /\
  answers (number_cmd ["mpls"; "mtu"]%string []%string) lines 0 (nx_manual_mpls_mtu own below) /\
  answers (number_cmd ["ip"; "mtu"]%string []%string) lines 0 (nx_manual_ip_mtu own below) /\
  answers (number_cmd ["vpc"]%string []%string) lines 0 (nx_vpc own below) /\
  answers (number_cmd ["fex"; "associate"]%string []%string) lines 0 (nx_fex_associate_chassis_id own below) /\
  answers (fun t n => exists d, numeral d n /\ line_of white (no_more is_digit) [lit "channel-group"; d] t) lines (-1) (nx_portchannel_number own below) /\
  answers_yes (fun t => exists d n, numeral d n /\ line_of white (no_more is_digit) [lit "channel-group"; d] t) lines (nx_intf_in_portchannel own below).
Proof.
  intros own below lines. unfold lines. destruct (C58_numbers own below) as (N1 & N2 & _ & _ & N3 & N4 & N5 & N6 & N7). destruct (C58_portchannel own below) as (P1 & P2).
  split; [exact N7|]. split; [exact N1|]. split; [exact N2|]. split; [exact N3|]. split; [exact N4|]. split; [exact N5|]. split; [exact N6|].
  split; [apply (number_answers _ false Strict [lit "vpc"] []); reflexivity|].
  split; [apply (number_answers _ false Strict [lit "fex"; lit "associate"] []); reflexivity|]. split; [exact P1|exact P2].
Qed.
Print Assumptions C81_numbers.

Definition vrf_T : list item := [Run sp false; Lit (lit "vrf"); Run sp true; Lit (lit "member"); One sp; Grp 1 [Run ns true]; Run sp false; End].
Lemma vrf_answers own below : answers (fun t v => word v /\ exists a, joined (lit "member") v a /\ says_loosely [lit "vrf"; a] t) (own :: below) [] (nx_vrf own below).
Proof.
  assert (R : reads (lit "^\s*vrf\s+member\s(\S+)\s*$") vrf_T 1) by reflexivity.
  apply first_match_answers.
  - intros t v ([V1 V2] & a & (x & X1 & ->) & i & p & e & -> & WI & P & WE). apply phrase_cons in P as (g & q & -> & [G1 G2] & P). apply phrase_one in P as ->.
    assert (HD : D true vrf_T (i ++ (lit "vrf" ++ g ++ lit "member" ++ [x] ++ v) ++ e) [] [] [(1%nat, v)]).
    { unfold vrf_T. rewrite <- !app_assoc. apply D_run; [now apply all_sp|discriminate|intros _; apply head_stops; reflexivity|]. apply D_lit.
      apply D_run; [now apply all_sp|auto|intros _; apply head_stops; reflexivity|]. apply D_lit. cbn [app]. apply D_one; [now rewrite in_sp|].
      assert (WX : stops ns e). { destruct e as [|c e]; [exact I|]. unfold stops. rewrite in_ns. unfold white in WE. cbn [forallb] in WE. apply andb_true_iff in WE as [-> _]. reflexivity. }
      eapply D_grp; [apply D_run; [now apply all_ns|auto|intros _; exact WX|constructor]|]. rewrite <- (List.app_nil_r e). apply D_run; [now apply all_sp|discriminate|intros _; exact I|].
      apply D_end; [now left|constructor]. }
    apply (reads_some _ _ _ _ _ _ R) in HD as (m & HD). exists (mkMatch m (map (fun j => cap j [(1%nat, v)]) (seq 1 1))). split; [exact HD|reflexivity].
  - intros t m HM. apply (reads_shape _ _ _ _ _ R) in HM as (s' & c & HD & _). unfold vrf_T in HD.
    apply D_run_eq in HD as (i & r & -> & WI & _ & HD). apply D_lit_eq in HD as (r2 & -> & HD). apply D_run_eq in HD as (g & r3 & -> & G1 & G2 & HD). apply D_lit_eq in HD as (r4 & -> & HD).
    apply D_one_eq in HD as (x & r5 & -> & X1 & HD). apply D_grp_eq in HD as (v & r6 & c1 & -> & HD & HN). apply D_run_inv in HD as (V1 & V2 & ->).
    apply D_run_eq in HN as (z & r7 & -> & WZ & _ & HN). apply D_end_eq in HN as (LE & _). rewrite in_sp in X1. apply all_sp in WI, G1, WZ. apply all_ns in V1.
    exists v. split; [split; auto|]. exists (lit "member" ++ [x] ++ v). split; [exists x; auto|]. exists i, (lit "vrf" ++ g ++ lit "member" ++ [x] ++ v), (z ++ r7).
    split; [rewrite <- !app_assoc; reflexivity|]. split; [exact WI|]. split; [constructor; [split; auto|constructor]|]. apply white_app. split; [exact WZ|now apply line_end_white].
Qed.

Definition mpls_T : list item := [Run sp false; Grp 1 [Lit (lit "mpls"); Run sp true; Lit (lit "ip"); Run sp true; Lit (lit "forwarding")]; End].
Theorem C81_texts : forall own below, let lines := own :: below in
  answers (text_line (lit "description") true) lines [] (nx_description own below) /\
  answers (text_line (lit "duplex") true) lines [] (nx_manual_duplex own below) /\
  answers (fun t v => word v /\ line_of white word_ends [lit "encapsulation"; v] t) lines [] (nx_manual_encapsulation own below) /\
  answers (fun t v => word v /\ exists a, joined (lit "member") v a /\ says_loosely [lit "vrf"; a] t) lines [] (nx_vrf own below) /\
  answers_yes (says_loosely [lit "beacon"]) lines (nx_manual_beacon own below) /\
  answers_yes (says [lit "mpls"; lit "ip"; lit "forwarding"]) lines (nx_has_mpls own below) /\
  answers_yes (fun t => exists r, forallb visible r = true /\ says_loosely [lit "shut" ++ r] t) lines (nx_is_shutdown own below).
Proof.
  intros own below lines. unfold lines.
  split; [apply (text_answers _ (lit "description") true); reflexivity|].
  split; [apply (text_answers _ (lit "duplex") true); reflexivity|].
  split; [apply (word_answers _ false Open [lit "encapsulation"] []); reflexivity|]. split; [apply vrf_answers|].
  split; [|split; [|exact (proj2 (proj2 (C59_flags own below)))]].
  - apply (sentence_yes _ 1 false [L 1 (lit "beacon")] Loose 1); try reflexivity; try discriminate; auto.
    + intros ws F. slots. eexists. split; [reflexivity|discriminate].
    + intros t. split; [intros HL; exists [lit "beacon"]; split; [repeat constructor|exact HL]|intros (ws & F & HL); slots; exact HL].
  - apply (template_yes _ mpls_T 0); [reflexivity| |].
    + intros t (i & p & e & -> & WI & P & WE). apply phrase_cons in P as (g & q & -> & G0 & P). apply phrase_cons in P as (g' & q' & -> & G0' & P). apply phrase_one in P as ->.
      exists e, [(1%nat, lit "mpls" ++ g ++ lit "ip" ++ g' ++ lit "forwarding")]. unfold mpls_T. apply D_run; [now apply all_sp|discriminate|discriminate|].
      eapply D_grp.
      * rewrite <- !app_assoc. apply D_lit. destruct G0 as [G1 G2], G0' as [G3 G4]. apply D_run; [now apply all_sp|auto|discriminate|]. apply D_lit.
        apply D_run; [now apply all_sp|auto|discriminate|]. apply D_lit. constructor.
      * apply D_end; [exact WE|constructor].
    + intros t s' c HD. apply D_run_eq in HD as (i & r & -> & WI & _ & HD). apply D_grp_eq in HD as (w & r2 & c1 & -> & HD & HN). apply all_sp in WI.
      apply D_lit_eq in HD as (r3 & E1 & HD). apply D_run_eq in HD as (g0 & r4 & -> & G3 & G4 & HD). apply D_lit_eq in HD as (r5 & -> & HD). apply D_run_eq in HD as (g & r6 & -> & G1 & G2 & HD).
      apply D_lit_eq in HD as (r7 & -> & HD). apply D_nil_eq in HD as (-> & ->). apply all_sp in G1, G3.
      assert (EW : w = lit "mpls" ++ g0 ++ lit "ip" ++ g ++ lit "forwarding").
      { apply (app_inv_tail r7). rewrite E1, <- !app_assoc. reflexivity. }
      apply D_end_eq in HN as (LE & HN). apply D_nil_eq in HN as (-> & ->). subst w. split.
      * eexists i, _, r7. split; [reflexivity|]. split; [exact WI|]. split; [constructor; [split; auto|]; constructor; [split; auto|constructor]|exact LE].
      * eexists. split; [reflexivity|discriminate].
Qed.
Print Assumptions C81_texts.

(** ** Switch ports *)

(** The VLAN of the first such line; without one, 1 on a switch port and 0 elsewhere. *)
Theorem C81_switchport : forall own below, let lines := own :: below in
  answers_yes begins_switchport lines (nx_is_switchport own below) /\
  answers_yes (fun t => exists a, joined (lit "switchport") (lit "mode") a /\ says_loosely [a; lit "access"] t) lines (nx_has_manual_switch_access own below) /\
  answers_yes (says_loosely [lit "switchport"; lit "mode"; lit "trunk"]) lines (nx_has_manual_switch_trunk own below) /\
  (forall d, ((exists t, In t lines /\ begins_switchport t) /\ d = 1) \/ ((forall t, In t lines -> ~ begins_switchport t) /\ d = 0) ->
     answers (number_cmd ["switchport"; "access"; "vlan"]%string []%string) lines d (nx_access_vlan own below) /\
     answers (number_cmd ["switchport"; "trunk"; "native"; "vlan"]%string []%string) lines d (nx_native_vlan own below)).
Proof.
  intros own below lines. unfold lines. destruct (C78_commands own below) as (_ & _ & _ & _ & _ & S1 & S2 & S3 & _).
  split; [exact S1|]. split; [exact S2|]. split; [exact S3|]. intros d HD.
  assert (ES : nx_is_switchport own below = Ok (d =? 1)).
  { change (nx_is_switchport own below) with (asa_is_switchport own below). destruct S1 as [(-> & t & It & Pt)|(-> & N0)].
    - destruct HD as [[_ ->]|[N0 _]]; [reflexivity|]. exfalso. now apply (N0 t).
    - destruct HD as [[(t & It & Pt) _]|[_ ->]]; [|reflexivity]. exfalso. now apply (N0 t). }
  assert (Ed : (if (d =? 1) then 1 else 0) = d) by (destruct HD as [[_ ->]|[_ ->]]; reflexivity).
  unfold nx_access_vlan, nx_native_vlan. rewrite ES. cbn [bind]. rewrite Ed. split.
  - apply (number_answers _ false Strict (map lit ["switchport"; "access"; "vlan"]%string) []); reflexivity.
  - apply (number_answers _ false Strict (map lit ["switchport"; "trunk"; "native"; "vlan"]%string) []); reflexivity.
Qed.
Print Assumptions C81_switchport.

(** The encapsulation is documented to be the type; it is the whole command. *)
Theorem C81_encap_refuted : nx_manual_switch_trunk_encap (lit "interface Ethernet1/1") [lit " switchport trunk encapsulation dot1q"] = Ok (lit "switchport trunk encapsulation dot1q").
Proof. reflexivity. Qed.
Print Assumptions C81_encap_refuted.

(** A vPC peer-link: asking fails on every interface that is one. *)
Lemma first_match_peer lines : (exists t, In t lines /\ line_of white (fun _ => True) [lit "vpc"; lit "peer-link"] t) ->
  first_match to_str (Ok []) (pattern false (lit "^\s*vpc\s+peer-link")) 1 lines = Err IndexError.
Proof.
  assert (R : reads (lit "^\s*vpc\s+peer-link") [Run sp false; Lit (lit "vpc"); Run sp true; Lit (lit "peer-link")] 0) by reflexivity.
  assert (K : forall t m, rx_find (pattern false (lit "^\s*vpc\s+peer-link")) t = Some m -> group 1 m = Err IndexError).
  { intros t m E. apply (reads_shape _ _ _ _ _ R) in E as (s' & c & _ & G0). unfold group. rewrite G0. reflexivity. }
  intros (t & It & i & p & e & -> & WI & P & _). apply phrase_cons in P as (g & q & -> & [G1 G2] & P). apply phrase_one in P as ->.
  assert (HF : rx_find (pattern false (lit "^\s*vpc\s+peer-link")) (i ++ (lit "vpc" ++ g ++ lit "peer-link") ++ e) <> None).
  { apply (reads_found _ _ _ false _ e [] R). rewrite <- !app_assoc. apply D_run; [now apply all_sp|discriminate|discriminate|]. apply D_lit.
    apply D_run; [now apply all_sp|auto|discriminate|]. apply D_lit. constructor. }
  induction lines as [|u lines IH]; [destruct It|]. cbn [first_match].
  destruct (rx_find (pattern false (lit "^\s*vpc\s+peer-link")) u) as [m|] eqn:E.
  - unfold typed_group. now rewrite (K _ _ E).
  - destruct It as [-> |It]; [congruence|]. now apply IH.
Qed.
Theorem C81_peerlink_refuted : forall own below,
  (exists t, In t (own :: below) /\ line_of white (fun _ => True) [lit "vpc"; lit "peer-link"] t) -> nx_is_vpc_peerlink own below = Err IndexError.
Proof. intros own below. apply first_match_peer. Qed.
Print Assumptions C81_peerlink_refuted.

(** Negotiation is said to be off on every switch port with a child, whatever the child. *)
Theorem C81_dtp_refuted : forall own below kids t, In t (own :: below) -> begins_switchport t -> kids <> [] ->
  (forall u, In u kids -> exists w, re_match1 "^\s*(switchport\snoneg\S*)\s*$" u = Ok (Some w)) /\ nx_has_dtp own below kids = Ok false.
Proof.
  intros own below kids t It Pt NK.
  assert (K : forall u, exists w, re_match1 "^\s*(switchport\snoneg\S*)\s*$" u = Ok (Some w)).
  { intros u. unfold re_match1. destruct (rx_find _ u) as [m|] eqn:E; [|eauto].
    assert (R : reads (lit "^\s*(switchport\snoneg\S*)\s*$") [Run sp false; Grp 1 [Lit (lit "switchport"); One sp; Lit (lit "noneg"); Run ns false]; Run sp false; End] 1) by reflexivity.
    apply (reads_shape _ _ _ _ _ R) in E as (s' & c & HD & G0). apply D_run_eq in HD as (i & r & -> & _ & _ & HD). apply D_grp_eq in HD as (w & r2 & c1 & -> & _ & HN).
    apply D_run_eq in HN as (z & r3 & -> & _ & _ & HN). apply D_end_eq in HN as (_ & HN). apply D_nil_eq in HN as (-> & ->). exists w. unfold group. now rewrite G0. }
  split; [auto|]. unfold nx_has_dtp. destruct (C81_switchport own below) as (S1 & _). destruct S1 as [(-> & _)|(_ & N0)]; [|exfalso; now apply (N0 t)].
  cbn [bind negb]. destruct kids as [|u kids]; [congruence|]. cbn [dtp_loop]. destruct (K u) as (w & ->). reflexivity.
Qed.
Print Assumptions C81_dtp_refuted.

(** ** Kinds *)

Definition eth_re : re := RCat (RStar false (RSet dot)) (row (RSet ns :: map chr (lit "thernet"))).
Definition mgmt_re : re := row (map chr (lit "mgmt")).
Lemma dot_text w : all_in dot w <-> no_newline w.
Proof.
  apply all_in_iff. intros c. unfold in_set, dot. cbn [cs_neg cs_icase cs_items existsb cls_has]. rewrite orb_false_r.
  destruct c as [[] [] [] [] [] [] [] []]; reflexivity.
Qed.
Lemma eth_M i s c i' s' c' : M (RAlt eth_re mgmt_re) i s c i' s' c' -> eth_text s /\ exists w, s = w ++ s' /\ w <> [].
Proof.
  intros HM. apply M_alt_iff in HM as [HM|HM].
  - apply greed_fwd in HM. change (greed eth_re) with (den [Run dot false; One ns; Lit (lit "thernet")]) in HM. apply shape in HM. apply D_run_eq in HM as (a & r & -> & F & _ & HD). apply D_one_eq in HD as (y & r0 & -> & Y0 & HD). apply D_lit_eq in HD as (r3 & -> & HD).
    apply D_nil_eq in HD as (-> & ->). rewrite in_ns in Y0. split.
    + left. exists a, y, r3. split; [reflexivity|]. split; [now destruct (is_space y)|now apply dot_text].
    + exists (a ++ y :: lit "thernet"). split; [rewrite <- app_assoc; reflexivity|]. now destruct a.
  - change mgmt_re with (den [Lit (lit "mgmt")]) in HM. apply shape in HM. apply D_lit_eq in HM as (r & -> & HD). apply D_nil_eq in HD as (-> & ->). split; [right; eauto|]. exists (lit "mgmt"). split; [reflexivity|discriminate].
Qed.
Lemma eth_M' i s c : eth_text s -> exists i' s' c', M (RAlt eth_re mgmt_re) i s c i' s' c'.
Proof.
  intros [(a & y & r & -> & Y0 & F)|(r & ->)].
  - assert (HD : D false [Run dot false; One ns; Lit (lit "thernet")] (a ++ y :: lit "thernet" ++ r) r c c).
    { apply D_run; [now apply dot_text|discriminate|discriminate|]. apply D_one; [rewrite in_ns; now rewrite Y0|]. apply D_lit. constructor. }
    apply unshape with (i := i) in HD. change (den [Run dot false; One ns; Lit (lit "thernet")]) with (greed eth_re) in HD. apply greed_bwd in HD. do 3 eexists. apply M_left. exact HD.
  - assert (HD : D false [Lit (lit "mgmt")] (lit "mgmt" ++ r) r c c) by (apply D_lit; constructor). apply unshape with (i := i) in HD. do 3 eexists. apply M_right. exact HD.
Qed.
Lemma nx_ethernet_iff t : nx_is_ethernet_intf t = true <-> interface_of eth_text t.
Proof.
  unfold nx_is_ethernet_intf, line_match. assert (R : reads_re (lit "^interface\s+(.*?\Sthernet|mgmt)") (kind_re (RAlt eth_re mgmt_re)) 1) by reflexivity.
  assert (K1 : forall i s c, M (kind_re (RAlt eth_re mgmt_re)) 0 t [] i s c -> interface_of eth_text t /\ exists w, cap 1 c = Some w /\ w <> []).
  { intros i s c HM. unfold kind_re in HM. apply PAsaSvc.M_word in HM as (s1 & -> & HM). apply PAsaSvc.M_row in HM as (i2 & s2 & c2 & HS & HM). apply M_plus_iff in HS as (g & -> & G1 & G2 & _ & ->).
    apply M_grp_iff in HM as (w & c1 & -> & _ & -> & HM). apply eth_M in HM as (P & w' & E & NE). apply app_inv_tail in E. subst w'. split.
    - exists g, (w ++ s). split; [reflexivity|]. split; [split; [now apply all_sp|exact G1]|exact P].
    - exists w. split; [reflexivity|exact NE]. }
  destruct (rx_find _ t) as [m|] eqn:E.
  - apply (re_shape _ _ _ _ _ R) in E as (i & s & c & HM & G0). destruct (K1 _ _ _ HM) as (P & w & C1 & NE). split; [intros _; exact P|]. intros _. unfold group. rewrite G0. cbn [seq map nth_error]. rewrite C1. now destruct w.
  - split; [discriminate|]. intros (g & r & -> & [G1 G2] & P). exfalso. destruct (eth_M' (0 + length (lit "interface") + length g) r [] P) as (i' & s' & c' & HM).
    assert (HX : exists i s c, M (kind_re (RAlt eth_re mgmt_re)) 0 (lit "interface" ++ g ++ r) [] i s c).
    { destruct (M_consumes _ _ _ _ _ _ _ HM) as (w & E1 & E2). exists i', s', ((1%nat, w) :: c').
      assert (HG : M (row [rplus true (RSet sp); RGrp 1 (RAlt eth_re mgmt_re)]) (0 + length (lit "interface")) (g ++ r) [] i' s' ((1%nat, w) :: c')).
      { cbn [row]. apply M_cat_iff. exists (0 + length (lit "interface") + length g)%nat, r, []. split.
        - apply M_plus_iff. exists g. split; [reflexivity|]. split; [exact G2|]. split; [now apply all_sp|]. split; reflexivity.
        - apply M_grp_iff. exists w, c'. split; [exact E1|]. split; [exact E2|]. split; [reflexivity|exact HM]. }
      assert (WD : forall w l i s c i2 s2 c2, l <> [] -> M (row l) (i + length w) s c i2 s2 c2 -> M (row (map chr w ++ l)) i (w ++ s) c i2 s2 c2).
      { clear. intros w. induction w as [|x w IH]; intros l i s c i2 s2 c2 NE HM; cbn [map app length] in *; [now rewrite Nat.add_0_r in HM|].
        assert (NL : map chr w ++ l <> []) by (destruct w; [exact NE|discriminate]). destruct (map chr w ++ l) as [|b l'] eqn:EL; [congruence|]. cbn [row]. apply M_cat_iff. exists (S i), (w ++ s), c. split; [apply M_chr_iff; auto|].
        change (M (row (b :: l')) (S i) (w ++ s) c i2 s2 c2). rewrite <- EL. apply IH; [exact NE|]. now rewrite Nat.add_succ_comm. }
      unfold kind_re. apply WD; [discriminate|exact HG]. }
    destruct HX as (i & s & c & HX). unfold reads_re, pattern in *. cbn [rx_find] in E. destruct (compile false _) as [[r' e]|]; [|discriminate]. cbn [option_map fst snd] in R. injection R as -> _.
    rewrite search_bol in E. pose proof (match_at_complete _ _ _ _ _ _ HX) as K. destruct (match_at _ 0 _) as [[? ?]|]; [discriminate|congruence].
Qed.

(** One space after "interface", then something else; a text of just that raises IndexError.
    Ethernet and management interfaces negotiate unless a speed or a duplex mode is set. *)
Theorem C81_kinds : forall own below, let lines := own :: below in
  (nx_is_intf own = Ok true <-> exists c r, own = lit "interface " ++ c :: r /\ c <> " ") /\ (nx_is_intf own = Err IndexError <-> own = lit "interface ") /\
  (nx_is_ethernet_intf own = true <-> interface_of eth_text own) /\
  (nx_has_autonegotiation own below = Ok true <->
   interface_of eth_text own /\ (forall t n, In t lines -> ~ number_cmd ["speed"]%string []%string t n) /\ (forall t v, In t lines -> ~ text_line (lit "duplex") true t v)) /\
  exists b, nx_has_autonegotiation own below = Ok b.
Proof.
  intros own below lines. split; [exact (proj1 (C68_is_intf own))|]. split; [exact (proj1 (proj2 (C68_is_intf own)))|]. split; [apply nx_ethernet_iff|].
  destruct (C78_commands own below) as (_ & _ & S0 & D0 & _). unfold nx_has_autonegotiation. fold lines in S0, D0.
  change (asa_has_manual_speed own below) with (nx_has_manual_speed own below) in S0. change (asa_has_manual_duplex own below) with (nx_has_manual_duplex own below) in D0.
  pose proof (nx_ethernet_iff own) as E0. destruct (nx_is_ethernet_intf own) eqn:E; cbn [negb].
  - destruct S0 as [(-> & t & It & n & Pt)|(-> & N1)]; cbn [bind].
    + split; [|eauto]. split; [discriminate|]. intros (_ & NS & _). exfalso. now apply (NS t n).
    + destruct D0 as [(-> & t & It & v & Pt)|(-> & N2)]; cbn [bind].
      * split; [|eauto]. split; [discriminate|]. intros (_ & _ & ND). exfalso. now apply (ND t v).
      * split; [|eauto]. split; [|reflexivity]. intros _. split; [now apply E0|]. split; intros t x It Pt; [apply (N1 t It)|apply (N2 t It)]; eauto.
  - split; [|eauto]. split; [discriminate|]. intros (HE & _). apply E0 in HE. discriminate.
Qed.
Print Assumptions C81_kinds.

(** ** Addresses *)

Definition addr_T : list item := Run sp true :: Lit (lit "ip") :: Run sp true :: Lit (lit "address") :: Run sp true :: items (H 1) ++ [Run sp false; Lit ["/"]; Run dg true; Run sp false; End].
Definition len_T : list item := Run sp true :: Lit (lit "ip") :: Run sp true :: Lit (lit "address") :: Run sp true :: items Q ++ [Run sp false; Lit ["/"]; Grp 1 [Run dg true]; Run sp false; End].
Lemma addr_reads : reads (lit nx_addr_pattern) addr_T 1. Proof. reflexivity. Qed.
Lemma len_reads : reads (lit nx_len_pattern) len_T 1. Proof. reflexivity. Qed.
Lemma slash_stop (f : ascii -> bool) z s : white z -> (forall c, is_space c = true -> f c = false) -> f "/" = false -> no_more f (z ++ "/" :: s).
Proof. intros WZ F F2. destruct z as [|c z]; [exact F2|]. cbn. apply F. unfold white in WZ. cbn in WZ. now apply andb_true_iff in WZ as [WZ _]. Qed.
Lemma white_stops_dg e : white e -> stops dg e.
Proof. intros WE. destruct e as [|c e]; [exact I|]. unfold stops. rewrite in_dg. apply space_no_digit. unfold white in WE. cbn in WE. now apply andb_true_iff in WE as [WE _]. Qed.
Lemma prefix_fwd t a n : has_prefix t a n -> exists l, numeral l n /\ D true addr_T t [] [] [(1%nat, a)] /\ D true len_T t [] [] [(1%nat, l)].
Proof.
  intros (i & g & g' & z & l & e & -> & [I1 I2] & [G1 G2] & [G1' G2'] & Qa & WZ & NL & WE). exists l. split; [exact NL|].
  assert (L1 : l <> []) by (destruct (numeral_head _ _ NL) as (c & r & -> & _); discriminate). assert (L2 := numeral_digits _ _ NL).
  split; [unfold addr_T|unfold len_T];
    (apply D_run; [now apply all_sp|auto|intros _; apply head_stops; reflexivity|]; apply D_lit;
     apply D_run; [now apply all_sp|auto|intros _; apply head_stops; reflexivity|]; apply D_lit;
     apply D_run; [now apply all_sp|auto|intros _; apply head_stops, head_app; now apply quad_head|];
     apply D_items; [reflexivity|exact Qa|intros _; cbn [ends_before]; apply slash_stop; [exact WZ|exact space_no_digit|reflexivity]|]; cbn [cap1 app];
     apply D_run; [now apply all_sp|discriminate|intros _; apply head_stops; reflexivity|]; apply (D_lit true ["/"])).
  - apply D_run; [now apply all_dg|auto|intros _; now apply white_stops_dg|]. rewrite <- (List.app_nil_r e). apply D_run; [now apply all_sp|discriminate|intros _; exact I|]. apply D_end; [now left|constructor].
  - eapply D_grp; [apply D_run; [now apply all_dg|auto|intros _; now apply white_stops_dg|constructor]|].
    rewrite <- (List.app_nil_r e). apply D_run; [now apply all_sp|discriminate|intros _; exact I|]. apply D_end; [now left|constructor].
Qed.
Lemma prefix_addr t s' c : D false addr_T t s' [] c -> exists a n, has_prefix t a n.
Proof.
  intros HD. unfold addr_T in HD. apply D_run_eq in HD as (i & r & -> & I1 & I2 & HD). apply D_lit_eq in HD as (r2 & -> & HD). apply D_run_eq in HD as (g & r3 & -> & G1 & G2 & HD).
  apply D_lit_eq in HD as (r4 & -> & HD). apply D_run_eq in HD as (g' & r5 & -> & G1' & G2' & HD). apply D_items_inv in HD as (a & r6 & -> & Qa & HD). cbn [fits cap1 app] in *.
  apply D_run_eq in HD as (z & r7 & -> & Z1 & _ & HD). apply D_lit_eq in HD as (r8 & -> & HD). apply D_run_eq in HD as (l & r9 & -> & L1 & L2 & HD). apply D_run_eq in HD as (e & r10 & -> & E1 & _ & HD).
  apply D_end_eq in HD as (LE & _). apply all_sp in I1, G1, G1', Z1, E1. apply all_dg in L1. exists a, (digits_Z l), i, g, g', z, l, (e ++ r10).
  split; [reflexivity|]. repeat (split; [first [assumption | apply digits_numeral; auto | split; auto]|]). apply white_app. split; [exact E1|now apply line_end_white].
Qed.
Lemma prefix_len t s' c : D false len_T t s' [] c -> exists a n, has_prefix t a n.
Proof.
  intros HD. unfold len_T in HD. apply D_run_eq in HD as (i & r & -> & I1 & I2 & HD). apply D_lit_eq in HD as (r2 & -> & HD). apply D_run_eq in HD as (g & r3 & -> & G1 & G2 & HD).
  apply D_lit_eq in HD as (r4 & -> & HD). apply D_run_eq in HD as (g' & r5 & -> & G1' & G2' & HD). apply D_items_inv in HD as (a & r6 & -> & Qa & HD). cbn [fits cap1 app] in *.
  apply D_run_eq in HD as (z & r7 & -> & Z1 & _ & HD). apply D_lit_eq in HD as (r8 & -> & HD). apply D_grp_eq in HD as (l & r9 & c1 & -> & HL & HD). apply D_run_inv in HL as (L1 & L2 & ->). apply D_run_eq in HD as (e & r10 & -> & E1 & _ & HD).
  apply D_end_eq in HD as (LE & _). apply all_sp in I1, G1, G1', Z1, E1. apply all_dg in L1. exists a, (digits_Z l), i, g, g', z, l, (e ++ r10).
  split; [reflexivity|]. repeat (split; [first [assumption | apply digits_numeral; auto | split; auto]|]). apply white_app. split; [exact E1|now apply line_end_white].
Qed.
Lemma addr_found t a n : has_prefix t a n -> exists m, rx_find (pattern false (lit nx_addr_pattern)) t = Some (mkMatch m [Some a]).
Proof. intros HP. destruct (prefix_fwd _ _ _ HP) as (l & NL & HD & _). apply (reads_some _ _ _ _ _ _ addr_reads) in HD as (m & HD). exists m. exact HD. Qed.
Lemma len_found t a n : has_prefix t a n -> exists m l, numeral l n /\ rx_find (pattern false (lit nx_len_pattern)) t = Some (mkMatch m [Some l]).
Proof. intros HP. destruct (prefix_fwd _ _ _ HP) as (l & NL & _ & HD). apply (reads_some _ _ _ _ _ _ len_reads) in HD as (m & HD). exists m, l. split; [exact NL|exact HD]. Qed.
Lemma prefix_unique t a n a' n' : has_prefix t a n -> has_prefix t a' n' -> a = a' /\ n = n'.
Proof.
  intros P1 P2. destruct (addr_found _ _ _ P1) as (m1 & E1), (addr_found _ _ _ P2) as (m2 & E2), (len_found _ _ _ P1) as (m3 & l & NL & E3), (len_found _ _ _ P2) as (m4 & l' & NL' & E4).
  rewrite E1 in E2. injection E2 as _ <-. rewrite E3 in E4. injection E4 as _ <-. split; [reflexivity|]. pose proof (numeral_value _ _ NL). pose proof (numeral_value _ _ NL'). congruence.
Qed.

Definition says_dhcp (t : str) : Prop := says_below [lit "ip"; lit "address"; lit "dhcp"] t.
Lemma addr_iter own below : answers (fun t a => exists n, has_prefix t a n) (own :: below) [] (iter_str nx_addr_pattern 1 own below).
Proof.
  apply first_match_answers.
  - intros t a (n & HP). destruct (addr_found _ _ _ HP) as (m & E). eexists. split; [exact E|]. reflexivity.
  - intros t m E. apply (reads_shape _ _ _ _ _ addr_reads) in E as (s' & c & HD & _). apply prefix_addr in HD as (a & n & HP). eauto.
Qed.
Lemma len_iter own below : answers (fun t n => exists a, has_prefix t a n) (own :: below) 0 (nx_ipv4_masklength own below).
Proof.
  apply first_match_answers.
  - intros t n (a & HP). destruct (len_found _ _ _ HP) as (m & l & NL & E). eexists. split; [exact E|]. cbn [group m_groups nth_error bind].
    rewrite to_int_digits; [|destruct (numeral_head _ _ NL) as (c & r & -> & _); discriminate|now apply numeral_digits in NL]. f_equal. now apply numeral_value.
  - intros t m E. apply (reads_shape _ _ _ _ _ len_reads) in E as (s' & c & HD & _). apply prefix_len in HD as (a & n & HP). eauto.
Qed.
Lemma dhcp_iter own below : answers (fun t v => says_dhcp t /\ v = lit "dhcp") (own :: below) [] (iter_str nx_dhcp_pattern 1 own below).
Proof.
  apply (sentence_answers to_str _ 1 true [W (lit "ip"); W (lit "address"); L 1 (lit "dhcp")] Loose 1); try reflexivity; try discriminate; auto.
  - intros ws F. slots. eexists. reflexivity.
  - intros t v. split.
    + intros (HL & ->). exists [lit "ip"; lit "address"; lit "dhcp"]. split; [repeat constructor|]. split; [exact HL|reflexivity].
    + intros (ws & F & HL & C1). slots. injection C1 as <-. split; [exact HL|reflexivity].
Qed.

(** The address and the length are those of the first line that gives them.  If some line says
    "ip address dhcp", the address raises DynamicAddressException. *)
Theorem C81_addresses : forall own below, let lines := own :: below in
  answers (fun t n => exists a, has_prefix t a n) lines 0 (nx_ipv4_masklength own below) /\
  ((exists t, In t lines /\ says_dhcp t) -> nx_ipv4_addr own below = Ok None) /\
  ((forall t, In t lines -> ~ says_dhcp t) -> exists r, nx_ipv4_addr own below = Ok (Some r) /\ answers (fun t a => exists n, has_prefix t a n) lines [] (Ok r)).
Proof.
  intros own below lines. unfold lines. split; [apply len_iter|]. unfold nx_ipv4_addr. pose proof (addr_iter own below) as A1. pose proof (dhcp_iter own below) as A2.
  assert (EA : exists r, iter_str nx_addr_pattern 1 own below = Ok r) by (destruct A1 as [(pre & t & post & v & _ & _ & _ & E)|(_ & E)]; eauto). destruct EA as (r & EA).
  rewrite EA in *. cbn [bind]. split.
  - intros (t & It & Dt). destruct A2 as [(pre & u & post & v & _ & _ & (_ & ->) & ->)|(N0 & _)]; [reflexivity|]. exfalso. apply (N0 t (lit "dhcp") It). now split.
  - intros N0. destruct A2 as [(pre & u & post & v & E & _ & (Du & _) & _)|(_ & ->)]; [exfalso; apply (N0 u); [rewrite E; apply in_elt|exact Du]|]. exists r. split; [reflexivity|exact A1].
Qed.
Print Assumptions C81_addresses.


Lemma mask_text ip p : valid 32 ip p -> ip4_of_str (IpModel.dotted ip ++ "/" :: IpModel.dotted (netmask 32 (obj 32 ip p))) = Ok (obj 32 ip p).
Proof.
  intros HV. pose proof (C49_netmask [] [] ["/"] ip p eq_refl eq_refl (or_introl eq_refl) HV) as K. cbn [app] in K. rewrite List.app_nil_r in K.
  rewrite (PAttr.netmask_obj 32 ip p HV). exact K.
Qed.
Lemma cidr_text ip p : valid 32 ip p -> ip4_of_str (IpModel.dotted ip ++ "/" :: show_Z p) = Ok (obj 32 ip p).
Proof. intros HV. pose proof (C49_cidr_roundtrip [] [] ip p eq_refl eq_refl HV) as K. rewrite List.app_nil_r in K. exact K. Qed.
Lemma default_obj : nx_default = obj 32 1 32. Proof. reflexivity. Qed.
Lemma default_valid : valid 32 1 32. Proof. split; lia. Qed.
Lemma dotted_one ip : 0 <= ip < 2 ^ 32 -> str_eqb (IpModel.dotted ip) (lit "0.0.0.1") = (ip =? 1).
Proof.
  intros R. destruct (Z.eqb_spec ip 1) as [-> |NE]; [reflexivity|]. destruct (str_eqb _ _) eqn:E; [|reflexivity]. apply str_eqb_eq in E. exfalso. apply NE.
  assert (K : addr4 (IpModel.dotted ip) = addr4 (IpModel.dotted 1)) by (rewrite E; reflexivity). rewrite !addr4_dotted in K by lia. now injection K.
Qed.

(** A port with the address ip/p, which is not 0.0.0.1/32: the object, the mask, the network object
    and the subnet tests are those of ip/p.  An interface with the address 0.0.0.1 answers None to
    subnet tests. *)
Theorem C81_usual : forall own below pre t post ip p, own :: below = pre ++ t :: post ->
  (forall u, In u (own :: below) -> ~ says_dhcp u) -> (forall u a n, In u pre -> ~ has_prefix u a n) -> valid 32 ip p -> has_prefix t (IpModel.dotted ip) p ->
  nx_ipv4_addr own below = Ok (Some (IpModel.dotted ip)) /\ nx_ipv4_masklength own below = Ok p /\ nx_ipv4_addr_object own below = Some (obj 32 ip p) /\
  (~ (ip = 1 /\ p = 32) -> nx_ipv4_netmask own below = Some (IpModel.dotted (2 ^ 32 - 2 ^ (32 - p))) /\ nx_ip_network_object own below = Some (obj 32 ip p) /\ nx_has_no_ipv4 own below = Some false) /\
  (ip <> 1 -> forall jp q, valid 32 jp q -> exists r, nx_in_ipv4_subnet own below (Some (obj 32 jp q)) = Some (Ok (Some r)) /\ (r = true <-> included 32 ip p jp q)) /\
  (ip = 1 -> forall net, nx_in_ipv4_subnet own below net = Some (Ok None)).
Proof.
  intros own below pre t post ip p E ND N1 HV HP. destruct (C81_addresses own below) as (A1 & _ & A2). destruct (A2 ND) as (r & E1 & A3).
  assert (E2 : nx_ipv4_masklength own below = Ok p).
  { eapply answer_first; [exact A1|exact E| | |].
    - intros u x Iu (a & Pu). now apply (N1 u a x).
    - eexists; exact HP.
    - intros x (a & Px). now destruct (prefix_unique _ _ _ _ _ HP Px). }
  assert (E3 : Ok r = Ok (IpModel.dotted ip)).
  { eapply answer_first; [exact A3|exact E| | |].
    - intros u x Iu (n & Pu). now apply (N1 u x n).
    - eexists; exact HP.
    - intros x (a & Px). now destruct (prefix_unique _ _ _ _ _ HP Px). }
  injection E3 as ->. split; [exact E1|]. split; [exact E2|].
  assert (O : nx_ipv4_addr_object own below = Some (obj 32 ip p)). { unfold nx_ipv4_addr_object. rewrite E1, E2. cbn [bind]. now rewrite cidr_text. }
  split; [exact O|].
  assert (NN : ~ (ip = 1 /\ p = 32) -> eq4 (Some (obj 32 ip p)) (Some nx_default) = Ok false).
  { intros NE. rewrite default_obj, eq4_obj; [|exact HV|exact default_valid]. f_equal. destruct (Z.eqb_spec ip 1), (Z.eqb_spec p 32); try reflexivity. exfalso. auto. }
  assert (X0 : ~ (ip = 1 /\ p = 32) -> nx_ipv4_netmask own below = Some (IpModel.dotted (netmask 32 (obj 32 ip p))) /\ nx_ip_network_object own below = Some (obj 32 ip p)).
  { intros NE. assert (EM : nx_ipv4_netmask own below = Some (IpModel.dotted (netmask 32 (obj 32 ip p)))). { unfold nx_ipv4_netmask. rewrite O. unfold ne4. rewrite (NN NE). reflexivity. }
    split; [exact EM|]. unfold nx_ip_network_object. rewrite E1, EM. now rewrite mask_text. }
  split; [|split].
  - intros NE. destruct (X0 NE) as (EM & EN). split; [rewrite EM; now rewrite (PAttr.netmask_obj 32 ip p HV)|]. split; [exact EN|]. unfold nx_has_no_ipv4. rewrite EN. now rewrite (NN NE).
  - intros NE jp q Hq. unfold nx_in_ipv4_subnet. rewrite O. cbn [ip_int obj]. rewrite dotted_one by apply HV. destruct (Z.eqb_spec ip 1) as [Z0|_]; [congruence|].
    rewrite (proj2 (X0 ltac:(intros [K _]; congruence))). destruct (C30_containment jp q ip p Hq HV) as (b & -> & K2). eauto.
  - intros -> net. unfold nx_in_ipv4_subnet. rewrite O. reflexivity.
Qed.
Print Assumptions C81_usual.

(** Without an address the object is 0.0.0.1/32, which stands for none; a DHCP interface raises. *)
Theorem C81_none : forall own below,
  ((forall u, In u (own :: below) -> ~ says_dhcp u) -> (forall u a n, In u (own :: below) -> ~ has_prefix u a n) ->
     nx_ipv4_addr own below = Ok (Some []) /\ nx_ipv4_masklength own below = Ok 0 /\ nx_ipv4_addr_object own below = Some (obj 32 1 32) /\
     nx_ipv4_netmask own below = Some [] /\ nx_ip_network_object own below = Some (obj 32 1 32) /\ nx_has_no_ipv4 own below = Some true /\
     (forall net, nx_in_ipv4_subnet own below net = Some (Ok None))) /\
  ((exists u, In u (own :: below) /\ says_dhcp u) -> nx_ipv4_addr_object own below = None /\ nx_ipv4_netmask own below = None /\
     nx_ip_network_object own below = None /\ nx_has_no_ipv4 own below = None /\ (forall net, nx_in_ipv4_subnet own below net = None)).
Proof.
  intros own below. destruct (C81_addresses own below) as (A1 & AD & A2). split.
  - intros ND N1. destruct (A2 ND) as (r & E1 & A3).
    assert (E2 : nx_ipv4_masklength own below = Ok 0). { destruct A1 as [(pre & u & post & v & E & _ & (a & Pu) & _)|(_ & K)]; [|exact K]. exfalso. apply (N1 u a v); [rewrite E; apply in_elt|exact Pu]. }
    assert (E3 : r = []). { destruct A3 as [(pre & u & post & v & E & _ & (n & Pu) & _)|(_ & K)]; [|now injection K]. exfalso. apply (N1 u v n); [rewrite E; apply in_elt|exact Pu]. }
    subst r. assert (O : nx_ipv4_addr_object own below = Some nx_default). { unfold nx_ipv4_addr_object. rewrite E1, E2. reflexivity. }
    assert (EM : nx_ipv4_netmask own below = Some []). { unfold nx_ipv4_netmask. rewrite O. reflexivity. }
    assert (EN : nx_ip_network_object own below = Some nx_default). { unfold nx_ip_network_object. rewrite E1, EM. reflexivity. }
    split; [exact E1|]. split; [exact E2|]. split; [exact O|]. split; [exact EM|]. split; [exact EN|]. split; [unfold nx_has_no_ipv4; rewrite EN; reflexivity|].
    intros net. unfold nx_in_ipv4_subnet. rewrite O. reflexivity.
  - intros HD. specialize (AD HD). assert (O : nx_ipv4_addr_object own below = None). { unfold nx_ipv4_addr_object. now rewrite AD. }
    assert (EN : nx_ip_network_object own below = None). { unfold nx_ip_network_object. now rewrite AD. }
    split; [exact O|]. split; [unfold nx_ipv4_netmask; now rewrite O|]. split; [exact EN|]. split; [unfold nx_has_no_ipv4; now rewrite EN|].
    intros net. unfold nx_in_ipv4_subnet. now rewrite O.
Qed.
Print Assumptions C81_none.

(** An interface with the address 0.0.0.1/32 is taken for one without an address. *)
Theorem C81_sentinel_refuted : exists own t, has_prefix t (lit "0.0.0.1") 32 /\ nx_has_no_ipv4 own [t] = Some true /\ nx_ipv4_netmask own [t] = Some [].
Proof.
  exists (lit "interface loopback0"), (lit " ip address 0.0.0.1/32"). split; [|split; reflexivity].
  exists (lit " "), (lit " "), (lit " "), [], (lit "32"), []. split; [reflexivity|]. repeat (split; [now split|]). split; [apply (dotted_quad 1)|]. split; [reflexivity|].
  split; [split; [lia|]; exists O; reflexivity|reflexivity].
Qed.
Print Assumptions C81_sentinel_refuted.

(** ** Relay addresses *)

(** The documented list.  Without a child that contains "vrf member", one relay address is enough
    for an UnboundLocalError; the example of the documentation is such a case. *)
Theorem C81_helpers_refuted : forall kids,
  (forall u, In u kids -> ~ occurs (lit "vrf member") u) -> (exists u, In u kids /\ occurs (lit "dhcp relay address") u) ->
  nx_ip_helper_addresses kids = Err UnboundLocal /\ nx_has_ip_helper_addresses kids = Err UnboundLocal.
Proof.
  intros kids N0 (u & Iu & Ou). unfold nx_has_ip_helper_addresses.
  assert (EM : nx_member kids = None).
  { clear Iu. induction kids as [|t kids IH]; [reflexivity|]. cbn [nx_member]. destruct (contains (lit "vrf member") t) eqn:C0.
    - exfalso. apply (N0 t); [now left|]. now apply PDiff2.contains_iff.
    - apply IH. intros x Ix. apply N0. now right. }
  assert (K : nx_ip_helper_addresses kids = Err UnboundLocal); [|rewrite K; split; reflexivity].
  unfold nx_ip_helper_addresses. rewrite EM. clear EM N0. induction kids as [|t kids IH]; [destruct Iu|]. cbn [nx_relays].
  destruct (contains (lit "dhcp relay address") t) eqn:C0; [reflexivity|]. destruct Iu as [-> |Iu]; [|auto]. apply PDiff2.contains_iff in Ou. congruence.
Qed.
Print Assumptions C81_helpers_refuted.

(** The pattern text is read as [r], anywhere in the text, with [n] groups. *)
Definition reads_any (p : str) (r : re) (n : nat) : Prop := option_map (fun x => (fst x, fst (snd x))) (compile false p) = Some (r, n).
Lemma any_find p r n t : reads_any p r n -> rx_find (pattern false p) t = match search r t with Some (m, c) => Some (mkMatch m (map (fun j => cap j c) (seq 1 n))) | None => None end.
Proof. unfold reads_any, pattern. cbn [rx_find]. destruct (compile false p) as [[r' e]|]; [|discriminate]. cbn [option_map fst snd]. now intros [= -> <-]. Qed.
Lemma search_after x w T i s s' c : is_space x = false -> white i -> D true (Lit (x :: w) :: T) s s' [] c -> exists m, search (den (Lit (x :: w) :: T)) (i ++ s) = Some (m, c).
Proof.
  intros NX WI HD. unfold search. generalize 0%nat as j. induction i as [|y i IH]; intros j; cbn [app].
  - assert (E : exists m, match_at (den (Lit (x :: w) :: T)) j s = Some (m, c)). { unfold match_at. eexists. erewrite eval; [reflexivity|exact HD|]. reflexivity. }
    destruct E as (m & E). exists m. destruct s; cbn [search_from]; now rewrite E.
  - unfold white in WI. cbn [forallb] in WI. apply andb_true_iff in WI as [Y WI]. cbn [search_from].
    assert (E : match_at (den (Lit (x :: w) :: T)) j (y :: i ++ s) = None).
    { apply mat_none. intros i' s2 c' HM. apply shape in HM. apply D_lit_eq in HM as (r & E & _). cbn [app] in E. injection E as -> _. congruence. }
    rewrite E. now apply IH.
Qed.
Definition relay_T : list item := Lit (lit "ip") :: Run sp true :: Lit (lit "dhcp") :: Run sp true :: Lit (lit "relay") :: Run sp true :: Lit (lit "address") :: Run sp true :: items (H 1).
Definition member_T : list item := Lit (lit "vrf") :: Run sp true :: Lit (lit "member") :: Run sp true :: items (G 1).
Lemma relay_found t a : relay t a -> line_match false "ip\s+dhcp\s+relay\s+address\s+(\d+\.\d+\.\d+\.\d+)" t = a.
Proof.
  intros (Qa & i & g & g' & e & -> & WI & [G1 G2] & [G1' G2'] & NE). unfold line_match.
  assert (R : reads_any (lit "ip\s+dhcp\s+relay\s+address\s+(\d+\.\d+\.\d+\.\d+)") (den relay_T) 1) by reflexivity. rewrite (any_find _ _ _ _ R).
  assert (HD : D true relay_T (lit "ip" ++ g ++ lit "dhcp relay address" ++ g' ++ a ++ e) e [] [(1%nat, a)]).
  { unfold relay_T. apply D_lit. apply D_run; [now apply all_sp|auto|intros _; apply head_stops; reflexivity|].
    change (lit "dhcp relay address" ++ g' ++ a ++ e) with (lit "dhcp" ++ [" "] ++ lit "relay" ++ [" "] ++ lit "address" ++ g' ++ a ++ e).
    apply D_lit. apply D_run; [now apply all_sp|discriminate|intros _; apply head_stops; reflexivity|].
    apply D_lit. apply D_run; [now apply all_sp|discriminate|intros _; apply head_stops; reflexivity|].
    apply D_lit. apply D_run; [now apply all_sp|auto|intros _; apply head_stops, head_app; now apply quad_head|].
    rewrite <- (List.app_nil_r (items (H 1))). apply D_items; [reflexivity|exact Qa|intros _; exact NE|]. constructor. }
  destruct (search_after "i" (lit "p") _ i _ _ _ eq_refl WI HD) as (m & E).
  assert (E2 : search (den relay_T) (i ++ lit "ip" ++ g ++ lit "dhcp relay address" ++ g' ++ a ++ e) = Some (m, [(1%nat, a)])) by exact E. now rewrite E2.
Qed.
Lemma member_found t v : member t v -> line_match false "vrf\s+member\s+(\S+)" t = v.
Proof.
  intros (Wv & i & g & e & -> & WI & [G1 G2] & NE). unfold line_match.
  assert (R : reads_any (lit "vrf\s+member\s+(\S+)") (den member_T) 1) by reflexivity. rewrite (any_find _ _ _ _ R).
  assert (HD : D true member_T (lit "vrf member" ++ g ++ v ++ e) e [] [(1%nat, v)]).
  { unfold member_T. change (lit "vrf member" ++ g ++ v ++ e) with (lit "vrf" ++ [" "] ++ lit "member" ++ g ++ v ++ e).
    apply D_lit. apply D_run; [now apply all_sp|discriminate|intros _; apply head_stops; reflexivity|].
    apply D_lit. apply D_run; [now apply all_sp|auto|intros _; apply head_stops, head_app; now apply word_head|].
    rewrite <- (List.app_nil_r (items (G 1))). apply D_items; [reflexivity|exact Wv|intros _; exact NE|]. constructor. }
  destruct (search_after "v" (lit "rf") _ i _ _ _ eq_refl WI HD) as (m & E).
  assert (E2 : search (den member_T) (i ++ lit "vrf member" ++ g ++ v ++ e) = Some (m, [(1%nat, v)])) by exact E. now rewrite E2.
Qed.
Lemma member_occurs t v : member t v -> contains (lit "vrf member") t = true.
Proof. intros (_ & i & g & e & -> & _). apply PDiff2.contains_iff. eauto. Qed.

(** With a VRF: one entry for each child that gives a relay address, in order. *)
Theorem C81_helpers : forall kids pre t post v, kids = pre ++ t :: post -> (forall u, In u pre -> ~ occurs (lit "vrf member") u) -> member t v ->
  (forall u, In u kids -> occurs (lit "dhcp relay address") u -> exists a, relay u a) ->
  exists l, nx_ip_helper_addresses kids = Ok l /\
    Forall2 (fun u x => exists a, relay u a /\ x = (a, v, false)) (filter (contains (lit "dhcp relay address")) kids) l /\
    (nx_has_ip_helper_addresses kids = Ok true <-> exists u, In u kids /\ occurs (lit "dhcp relay address") u).
Proof.
  intros kids pre t post v E N0 HM HR. unfold nx_has_ip_helper_addresses, nx_ip_helper_addresses.
  assert (EM : nx_member kids = Some v).
  { rewrite E. clear E HR. induction pre as [|u pre IH]; cbn [app nx_member].
    - rewrite (member_occurs _ _ HM). f_equal. now apply member_found.
    - destruct (contains (lit "vrf member") u) eqn:C0; [exfalso; apply (N0 u); [now left|now apply PDiff2.contains_iff]|]. apply IH. intros x Ix. apply N0. now right. }
  rewrite EM. clear E EM N0 HM pre t post. induction kids as [|u kids IH]; [exists []; split; [reflexivity|]; split; [constructor|]; cbn; split; [discriminate|intros (u & [] & _)]|].
  destruct IH as (l & E & F & B); [intros x Ix; apply HR; now right|]. cbn [nx_relays filter]. destruct (contains (lit "dhcp relay address") u) eqn:C0.
  - assert (OU : occurs (lit "dhcp relay address") u) by now apply PDiff2.contains_iff. destruct (HR u (or_introl eq_refl) OU) as (a & Ra). rewrite E. cbn [bind]. exists ((line_match false "ip\s+dhcp\s+relay\s+address\s+(\d+\.\d+\.\d+\.\d+)" u, v, false) :: l).
    split; [reflexivity|]. split; [constructor; [|exact F]; exists a; split; [exact Ra|]; now rewrite (relay_found _ _ Ra)|]. split; [intros _; exists u; split; [now left|exact OU]|reflexivity].
  - exists l. split; [exact E|]. split; [exact F|]. rewrite B. split; intros (x & Ix & Ox); [exists x; split; [now right|exact Ox]|].
    destruct Ix as [-> |Ix]; [apply PDiff2.contains_iff in Ox; congruence|eauto].
Qed.
Print Assumptions C81_helpers.

Definition nx_own : str := lit "interface Ethernet1/1".
Definition nx_below : list str := map lit ["  description Uplink"; "  vrf member BLUE"; "  ip address 192.0.2.1/24"; "  ip dhcp relay address 198.51.100.7"; "  ip dhcp relay address 198.51.100.8 use-vrf RED"; "  channel-group 12 mode active"; "  mtu 9216"; "  no shutdown"]%string.
Example C81_ex : nx_description nx_own nx_below = Ok (lit "Uplink") /\ nx_vrf nx_own nx_below = Ok (lit "BLUE") /\ nx_portchannel_number nx_own nx_below = Ok 12 /\ nx_manual_mtu nx_own nx_below = Ok 9216 /\
  nx_is_shutdown nx_own nx_below = Ok false /\ nx_access_vlan nx_own nx_below = Ok 0 /\ nx_ipv4_addr_object nx_own nx_below = Some (obj 32 3221225985 24) /\
  nx_in_ipv4_subnet nx_own nx_below (Some (obj 32 3221225472 16)) = Some (Ok (Some true)) /\ nx_has_autonegotiation nx_own nx_below = Ok true /\
  nx_ip_helper_addresses nx_below = Ok [(lit "198.51.100.7", lit "BLUE", false); (lit "198.51.100.8", lit "BLUE", false)].
Proof. repeat split. Qed.
(** The hypotheses of C81_usual and C81_helpers hold there. *)
Example C81_ex_hyps : has_prefix (lit "  ip address 192.0.2.1/24") (IpModel.dotted 3221225985) 24 /\ valid 32 3221225985 24 /\ member (lit "  vrf member BLUE") (lit "BLUE") /\
  relay (lit "  ip dhcp relay address 198.51.100.7") (lit "198.51.100.7") /\ ~ occurs (lit "vrf member") (lit "  description Uplink").
Proof.
  assert (GP : forall w, white w -> w <> [] -> gap w) by (intros w W1 W2; split; assumption).
  split; [|split; [split; lia|split; [|split]]].
  - exists (lit "  "), (lit " "), (lit " "), [], (lit "24"), []. split; [reflexivity|]. repeat (split; [apply GP; [reflexivity|discriminate]|]). split; [apply dotted_quad|]. split; [reflexivity|].
    split; [split; [lia|]; exists O; reflexivity|reflexivity].
  - split; [split; [discriminate|reflexivity]|]. exists (lit "  "), (lit " "), []. split; [reflexivity|]. split; [reflexivity|]. split; [apply GP; [reflexivity|discriminate]|exact I].
  - split; [apply (dotted_quad 3325256711)|]. exists (lit "  "), (lit " "), (lit " "), []. split; [reflexivity|]. split; [reflexivity|]. split; [apply GP; [reflexivity|discriminate]|]. split; [apply GP; [reflexivity|discriminate]|exact I].
  - intros O. apply PDiff2.contains_iff in O. discriminate.
Qed.
