(** C58-C61: attributes of IOS interface lines. *)
From Coq Require Import Ascii String Arith NArith ZArith Bool List Lia.
From Verif Require Import PyStr PyStrFacts PyBase SearchModel SearchProofs IpModel IpSpec PIp PIpText IntfModel IntfSpec IntfFacts PyRe PyReFacts PyReTmpl PyReSent IosSpec IosModel IosFacts.
Import ListNotations.
Local Open Scope char_scope.
Local Open Scope Z_scope.

(** ** C58: numbers *)

(** The number of the first line that consists of the command; 0 if there is none. *)
Theorem C58_numbers : forall own below, let lines := own :: below in
  answers (number_cmd ["bandwidth"]%string []%string) lines 0 (manual_bandwidth own below) /\
  answers (number_cmd ["delay"]%string []%string) lines 0 (manual_delay own below) /\
  answers (number_cmd ["hold-queue"]%string ["out"]%string) lines 0 (manual_holdqueue_out own below) /\
  answers (number_cmd ["hold-queue"]%string ["in"]%string) lines 0 (manual_holdqueue_in own below) /\
  answers (number_cmd ["clock"; "rate"]%string []%string) lines 0 (manual_clock_rate own below) /\
  answers (number_cmd ["mtu"]%string []%string) lines 0 (manual_mtu own below) /\
  answers (number_cmd ["mpls"; "mtu"]%string []%string) lines 0 (manual_mpls_mtu own below) /\
  answers (number_cmd ["ip"; "mtu"]%string []%string) lines 0 (manual_ip_mtu own below) /\
  answers (number_cmd ["speed"]%string []%string) lines 0 (manual_speed own below).
Proof.
  intros own below lines. unfold lines.
  repeat split.
  - apply (number_answers _ false Strict (map lit ["bandwidth"]%string) []); reflexivity.
  - apply (number_answers _ false Strict (map lit ["delay"]%string) []); reflexivity.
  - apply (number_answers _ false Strict (map lit ["hold-queue"]%string) (map lit ["out"]%string)); reflexivity.
  - apply (number_answers _ false Strict (map lit ["hold-queue"]%string) (map lit ["in"]%string)); reflexivity.
  - apply (number_answers _ false Strict (map lit ["clock"; "rate"]%string) []); reflexivity.
  - apply (number_answers _ false Strict (map lit ["mtu"]%string) []); reflexivity.
  - apply (number_answers _ false Strict (map lit ["mpls"; "mtu"]%string) []); reflexivity.
  - apply (number_answers _ false Strict (map lit ["ip"; "mtu"]%string) []); reflexivity.
  - apply (number_answers _ false Strict (map lit ["speed"]%string) []); reflexivity.
Qed.
Print Assumptions C58_numbers.

Ltac slots := repeat (match goal with H : Forall2 fits _ _ |- _ => inversion H; clear H; subst end); cbn [fits] in *; subst.

(** "channel-group N", whatever follows; -1 if there is none. *)
Theorem C58_portchannel : forall own below,
  answers (fun t n => exists d, numeral d n /\ line_of white (no_more is_digit) [lit "channel-group"; d] t) (own :: below) (-1) (portchannel_number own below) /\
  answers_yes (fun t => exists d n, numeral d n /\ line_of white (no_more is_digit) [lit "channel-group"; d] t) (own :: below) (intf_in_portchannel own below).
Proof.
  intros own below. split; [apply (number_answers _ false Open [lit "channel-group"] []); reflexivity|].
  apply (sentence_yes _ 1 false [W (lit "channel-group"); N 1] Open 1); try reflexivity; try discriminate; auto.
  - intros ws F. slots. eexists. split; [reflexivity|tauto].
  - intros t. split.
    + intros (d & n & Nd & HL). exists [lit "channel-group"; d]. split; [|exact HL]. repeat constructor; cbn [fits].
      * destruct (numeral_head _ _ Nd) as (c & r & -> & _). discriminate.
      * now apply numeral_digits in Nd.
    + intros (ws & F & HL). slots. eexists _, _. split; [|exact HL]. apply digits_numeral; tauto.
Qed.
Print Assumptions C58_portchannel.

(** "xconnect peer N encapsulation ..." *)
Theorem C58_xconnect : forall own below,
  answers (fun t n => exists x d y, word x /\ numeral d n /\ word y /\
      line_of white (no_more (fun c => negb (is_space c))) [lit "xconnect"; x; d; y] t)
    (own :: below) 0 (xconnect_vc own below).
Proof.
  intros own below. apply (sentence_answers to_int _ 1 false [W (lit "xconnect"); A; N 1; A] Open 1); try reflexivity; try discriminate; auto.
  - intros ws F. slots. eexists. cbn [caps_of cap1 app cap Nat.eqb]. apply to_int_digits; tauto.
  - intros t v. split.
    + intros (x & d & y & X1 & Nd & Y1 & HL). exists [lit "xconnect"; x; d; y].
      pose proof (numeral_digits _ _ Nd) as DD. assert (NE : d <> []) by (destruct (numeral_head _ _ Nd) as (c & r & -> & _); discriminate).
      split; [repeat constructor; auto; apply X1 || apply Y1|]. split; [exact HL|]. cbn [caps_of cap1 app cap Nat.eqb]. rewrite to_int_digits by assumption.
      f_equal. now apply numeral_value.
    + intros (ws & F & HL & C1). slots. cbn [caps_of cap1 app cap Nat.eqb] in C1. rewrite to_int_digits in C1 by tauto. injection C1 as <-.
      eexists _, _, _. split; [|split; [|split; [|exact HL]]]; auto. apply digits_numeral; tauto.
Qed.
Print Assumptions C58_xconnect.

(** has_manual_* and has_xconnect say whether that number is not 0, and never raise. *)
Lemma answers_ok {V} (P : str -> V -> Prop) lines d r : answers P lines d r -> exists v, r = Ok v.
Proof. intros [(? & ? & ? & v & _ & _ & _ & ->)|[_ ->]]; eauto. Qed.
Theorem C58_has : forall own below,
  (exists n, manual_clock_rate own below = Ok n /\ has_manual_clock_rate own below = Ok (negb (n =? 0))) /\
  (exists n, manual_mtu own below = Ok n /\ has_manual_mtu own below = Ok (negb (n =? 0))) /\
  (exists n, manual_mpls_mtu own below = Ok n /\ has_manual_mpls_mtu own below = Ok (negb (n =? 0))) /\
  (exists n, manual_ip_mtu own below = Ok n /\ has_manual_ip_mtu own below = Ok (negb (n =? 0))) /\
  (exists n, xconnect_vc own below = Ok n /\ has_xconnect own below = Ok (negb (n =? 0))).
Proof.
  intros own below. destruct (C58_numbers own below) as (_ & _ & _ & _ & A1 & A2 & A3 & A4 & _). pose proof (C58_xconnect own below) as A5.
  apply answers_ok in A1 as (a & A1), A2 as (b & A2), A3 as (c & A3), A4 as (d & A4), A5 as (e & A5).
  unfold has_manual_clock_rate, has_manual_mtu, has_manual_mpls_mtu, has_manual_ip_mtu, has_xconnect, is_set. rewrite A1, A2, A3, A4, A5.
  split; [|split; [|split; [|split]]]; eexists; (split; [reflexivity|]); reflexivity.
Qed.
Print Assumptions C58_has.

(** White space at the end of the line hides the number. *)
Theorem C58_trailing_refuted : exists own t, says_loosely [lit "mtu"; lit "9000"] t /\ manual_mtu own [t] = Ok 0.
Proof.
  exists (lit "interface Gi0/1"), (lit " mtu 9000 "). split; [|vm_compute; reflexivity].
  exists (lit " "), (lit "mtu 9000"), (lit " "). repeat split.
  change (lit "mtu 9000") with (lit "mtu" ++ lit " " ++ lit "9000"). constructor; [now split|]. constructor.
Qed.
Print Assumptions C58_trailing_refuted.

Definition intf_lines : list str := map lit [" description To the core"; " bandwidth 1000"; " ip address 192.0.2.9 255.255.255.0 secondary";
  " ip address 192.0.2.1 255.255.255.0"; " hold-queue 75 in"; " mtu 09000"; " channel-group 12 mode active"; " xconnect 10.0.0.1 100 encapsulation mpls"; " shutdown"]%string.
Definition intf_own : str := lit "interface GigabitEthernet0/1".
Example C58_ex :
  manual_bandwidth intf_own intf_lines = Ok 1000 /\ manual_mtu intf_own intf_lines = Ok 9000 /\
  manual_holdqueue_in intf_own intf_lines = Ok 75 /\ manual_holdqueue_out intf_own intf_lines = Ok 0 /\
  portchannel_number intf_own intf_lines = Ok 12 /\ xconnect_vc intf_own intf_lines = Ok 100 /\ manual_ip_mtu intf_own intf_lines = Ok 0.
Proof. vm_compute. repeat split; reflexivity. Qed.

(** ** C59: words, texts and flags *)

(** The description goes to the end of the line; the duplex setting likewise, but a single
    character is not taken. *)
Theorem C59_texts : forall own below, let lines := own :: below in
  answers (text_line (lit "description") false) lines [] (description own below) /\
  answers (text_line (lit "duplex") true) lines [] (manual_duplex own below) /\
  answers_yes (fun t => exists v, text_line (lit "duplex") true t v) lines (has_manual_duplex own below).
Proof.
  intros own below lines. unfold lines. repeat split.
  - apply (text_answers _ (lit "description") false); reflexivity.
  - apply (text_answers _ (lit "duplex") true); reflexivity.
  - apply (text_yes _ (lit "duplex") true); reflexivity.
Qed.
Print Assumptions C59_texts.

(** The word after "encapsulation"; the access groups, where "ip" and "access-group" must be
    separated by exactly one white character. *)
Definition access_group (proto dir : string) (t v : str) : Prop :=
  word v /\ exists a, joined (lit proto) (lit "access-group") a /\ says_loosely [a; v; lit dir] t.
Lemma group_line p proto dir lines : reads (lit p) (line_T false [J (lit proto) (lit "access-group"); G 1; W (lit dir)] Loose) 1 ->
  nonwhite_head (lit proto) = true -> nonwhite_head (lit dir) = true ->
  answers (access_group proto dir) lines [] (first_match to_str (Ok []) (pattern false (lit p)) 1 lines).
Proof.
  intros R P1 P2. apply (sentence_answers to_str _ 1 false [J (lit proto) (lit "access-group"); G 1; W (lit dir)] Loose 1); try discriminate; auto.
  - cbn [forallb proper]. now rewrite P1, P2.
  - intros ws F. eexists. reflexivity.
  - intros t v. split.
    + intros (Wv & a & J1 & HL). exists [a; v; lit dir]. split; [|split; [exact HL|reflexivity]]. constructor; [exact J1|]. constructor; [exact Wv|]. constructor; [reflexivity|constructor].
    + intros (ws & F & HL & C1). slots. injection C1 as <-. split; auto. eexists. split; [|exact HL]. assumption.
Qed.
Theorem C59_words : forall own below, let lines := own :: below in
  answers (fun t v => word v /\ line_of white (no_more (fun c => negb (is_space c))) [lit "encapsulation"; v] t) lines [] (manual_encapsulation own below) /\
  answers (access_group "ip" "in") lines [] (ipv4_accessgroup_in own below) /\
  answers (access_group "ip" "out") lines [] (ipv4_accessgroup_out own below).
Proof.
  intros own below lines. unfold lines. repeat split.
  - apply (word_answers _ false Open [lit "encapsulation"] []); reflexivity.
  - apply group_line; reflexivity.
  - apply group_line; reflexivity.
Qed.
Print Assumptions C59_words.

(** The same for MAC access groups, which are read with a groupdict. *)
Lemma mac_line p dir own below : group_of p "group_number" = Some 1%nat ->
  reads (lit p) (line_T false [J (lit "mac") (lit "access-group"); G 1; W (lit dir)] Loose) 1 -> nonwhite_head (lit dir) = true ->
  answers (access_group "mac" dir) (own :: below) [] (Ok (dict_str (iter_dict p "group_number" own below))).
Proof.
  intros G1 R P2.
  assert (HC : exists c, option_map (fun x => fst (snd x)) (compile false (lit p)) = Some c /\ (0 < c)%nat).
  { unfold reads in R. destruct (compile false (lit p)) as [[r e]|]; [|discriminate]. cbn in *. injection R as _ E. exists (fst e). split; [reflexivity|lia]. }
  assert (X : answers (fun t v => exists v', v = Some v' /\ (exists x, v' = Some x /\ access_group "mac" dir t x)) (own :: below) None (Ok (iter_dict p "group_number" own below))).
  { apply (dict_answers p _ 0 1 false [J (lit "mac") (lit "access-group"); G 1; W (lit dir)] Loose); auto; try discriminate.
    - cbn [forallb proper]. now rewrite P2.
    - intros t v. split.
      + intros (x & -> & Wv & a & J1 & HL). exists [a; x; lit dir]. split; [|split; [exact HL|reflexivity]]. constructor; [exact J1|]. constructor; [exact Wv|]. constructor; [reflexivity|constructor].
      + intros (ws & F & HL & C1). slots. eexists. split; [reflexivity|]. split; auto. eexists. split; [|exact HL]. assumption. }
  destruct X as [(pre & t & post & v & E & N1 & (v' & -> & x & -> & P) & HE)|[N1 HE]]; injection HE as HE; rewrite HE.
  - left. exists pre, t, post, x. split; [exact E|]. split; [|split; [exact P|reflexivity]]. intros u v' Hu Pu. apply (N1 u (Some (Some v')) Hu). eauto.
  - right. split; [|reflexivity]. intros u v' Hu Pu. apply (N1 u (Some (Some v')) Hu). eauto.
Qed.
Theorem C59_mac : forall own below,
  answers (access_group "mac" "in") (own :: below) [] (Ok (mac_accessgroup_in own below)) /\
  answers (access_group "mac" "out") (own :: below) [] (Ok (mac_accessgroup_out own below)).
Proof. intros own below. split; apply mac_line; reflexivity. Qed.
Print Assumptions C59_mac.

(** The VRF: any number of words "ip", then "vrf forwarding NAME". *)
Theorem C59_vrf : forall own below,
  answers (fun t v => word v /\ exists ips a, Forall (eq (lit "ip")) ips /\ joined3 (lit "vrf") (lit "forwarding") v a /\ says (ips ++ [a]) t)
    (own :: below) [] (vrf own below).
Proof.
  intros own below. apply (rep_answers to_str _ 2 [] (Word (lit "ip")) [V 2 (lit "vrf") (lit "forwarding")] Strict 2); try reflexivity; try discriminate; auto.
  - intros w [= <-]. reflexivity.
  - intros ws p F P. inversion F as [|? a ? ? F1 F2]; subst. inversion F2; subst. destruct F1 as (w & _ & x & y & _ & _ & ->).
    inversion P as [|? ? ? ? ? Z]; subst; [|inversion Z]. cbn. discriminate.
  - intros ws F. eexists. reflexivity.
  - intros t v. split.
    + intros (Wv & ips & a & FI & J1 & HL). exists [a]. split; [constructor; [exists v; auto|constructor]|]. split.
      * exists ips. split; [|exact HL]. revert FI. apply Forall_impl. intros w <-. reflexivity.
      * cbn [caps_of cap1 app cap Nat.eqb]. destruct J1 as (x & y & _ & _ & ->). rewrite skip_V. reflexivity.
    + intros (ws & F & (ips & FI & HL) & C1). slots. match goal with H : exists w, _ |- _ => destruct H as (w & Ww & J1) end.
      assert (E : v = w). { cbn [caps_of cap1 app cap Nat.eqb] in C1. destruct J1 as (a & b & _ & _ & ->). rewrite skip_V in C1. now injection C1. }
      subst v. split; [exact Ww|]. eexists ips, _. split; [|split; [exact J1|exact HL]]. revert FI. apply Forall_impl. intros u ->. reflexivity.
Qed.
Print Assumptions C59_vrf.

(** Flags *)
Lemma flag1 p ks k lines (P : str -> Prop) s : ks = [s] -> reads (lit p) (line_T false ks k) 1 -> proper s = true ->
  (forall t, fits s t -> exists x, cap 1 (caps_of ks [t] []) = Some x /\ x <> []) ->
  (forall t, P t <-> exists a, fits s a /\ line_of white (tail_ok ks k) [a] t) ->
  answers_yes P lines (first_match to_bool (Ok false) (pattern false (lit p)) 1 lines).
Proof.
  intros -> R PR C E. apply (sentence_yes _ 1 false [s] k 1); auto; try discriminate.
  - cbn. now rewrite PR.
  - intros ws F. inversion F as [|? ? ? ? F1 F2]; subst. inversion F2; subst. now apply C.
  - intros t. rewrite E. split.
    + intros (a & F & HL). exists [a]. auto.
    + intros (ws & F & HL). inversion F as [|? ? ? ? F1 F2]; subst. inversion F2; subst. eauto.
Qed.
Theorem C59_flags : forall own below, let lines := own :: below in
  answers_yes (says [lit "mpls"; lit "ip"]) lines (has_mpls own below) /\
  answers_yes (fun t => exists n, number_cmd ["speed"]%string []%string t n) lines (has_manual_speed own below) /\
  answers_yes (fun t => exists r, forallb (fun c => negb (is_space c)) r = true /\ says_loosely [lit "shut" ++ r] t) lines (is_shutdown own below).
Proof.
  intros own below lines. unfold lines. split; [|split].
  - apply (flag1 _ [Y 1 (lit "mpls") (lit "ip")] Strict _ _ (Y 1 (lit "mpls") (lit "ip"))); try reflexivity.
    + intros t (g & _ & ->). eexists. split; [reflexivity|discriminate].
    + intros t. split.
      * intros (i & q & e & -> & WI & P & E). inversion P as [|? g ? q' G1 P']; subst. inversion P' as [|? ? ? ? ? Z]; subst; [|inversion Z].
        exists (lit "mpls" ++ g ++ lit "ip"). split; [exists g; auto|]. exists i, (lit "mpls" ++ g ++ lit "ip"), e. repeat split; auto. constructor.
      * intros (a & (g & G1 & ->) & i & q & e & -> & WI & P & E). inversion P as [|? ? ? ? ? Z]; subst; [|inversion Z].
        exists i, (lit "mpls" ++ g ++ lit "ip"), e. repeat split; auto. constructor; auto. constructor.
  - apply (sentence_yes _ 1 false [W (lit "speed"); N 1] Strict 1); try reflexivity; try discriminate; auto.
    + intros ws F. slots. eexists. split; [reflexivity|tauto].
    + intros t. split.
      * intros (n & d & Nd & HL). exists [lit "speed"; d]. split; [|exact HL]. repeat constructor; cbn [fits].
        -- destruct (numeral_head _ _ Nd) as (c & r & -> & _). discriminate.
        -- now apply numeral_digits in Nd.
      * intros (ws & F & HL). slots. eexists _, _. split; [|exact HL]. apply digits_numeral; tauto.
  - apply (flag1 _ [X 1 (lit "shut")] Loose _ _ (X 1 (lit "shut"))); try reflexivity.
    + intros t (r & _ & ->). eexists. split; [reflexivity|discriminate].
    + intros t. split.
      * intros (r & R1 & HL). exists (lit "shut" ++ r). split; [exists r; auto|exact HL].
      * intros (a & (r & R1 & ->) & HL). exists r. auto.
Qed.
Print Assumptions C59_flags.

Example C59_ex :
  description intf_own intf_lines = Ok (lit "To the core") /\ is_shutdown intf_own intf_lines = Ok true /\ has_mpls intf_own intf_lines = Ok false /\
  vrf intf_own (map lit [" ip vrf forwarding CUST"]%string) = Ok (lit "CUST") /\ vrf intf_own (map lit [" vrf forwarding CUST"]%string) = Ok (lit "CUST") /\
  ipv4_accessgroup_in intf_own (map lit [" ip access-group 101 out"; " ip access-group FILTER in "]%string) = Ok (lit "FILTER") /\
  mac_accessgroup_in intf_own (map lit [" mac access-group M in"]%string) = lit "M" /\
  manual_duplex intf_own (map lit [" duplex full"]%string) = Ok (lit "full") /\ manual_encapsulation intf_own (map lit [" encapsulation dot1q 5"]%string) = Ok (lit "dot1q").
Proof. vm_compute. repeat split; reflexivity. Qed.

(** ** C60: IPv4 addresses *)

Definition addr_cmd (t a m : str) : Prop := quad a /\ quad m /\ says_below [lit "ip"; lit "address"; a; m] t.
Definition dynamic_cmd (how : string) (t : str) : Prop := says_below [lit "ip"; lit "address"; lit how] t.

Lemma quad_answers p ks g lines (P : str -> str -> Prop) : reads (lit p) (line_T true ks Loose) 1 -> forallb proper ks = true -> ks <> [] -> g = 1%nat ->
  (forall t v, P t v <-> exists ws, Forall2 fits ks ws /\ line_of gap white ws t /\ to_str (cap g (caps_of ks ws [])) = Ok v) ->
  answers P lines [] (first_match to_str (Ok []) (pattern false (lit p)) g lines).
Proof.
  intros R PR NE -> E. apply (sentence_answers to_str p 1 true ks Loose 1); auto. intros ws F. eexists. reflexivity.
Qed.
Lemma dyn_answers p how lines : reads (lit p) (line_T true [W (lit "ip"); W (lit "address"); L 1 (lit how)] Loose) 1 -> nonwhite_head (lit how) = true ->
  answers (fun t v => dynamic_cmd how t /\ v = lit how) lines [] (first_match to_str (Ok []) (pattern false (lit p)) 1 lines).
Proof.
  intros R PR. eapply quad_answers; [exact R| |discriminate|reflexivity|].
  - cbn [forallb proper]. now rewrite PR.
  - intros t v. split.
    + intros (HL & ->). eexists. split; [|split; [exact HL|reflexivity]]. repeat constructor.
    + intros (ws & F & HL & C1). slots. injection C1 as <-. now split.
Qed.
(** The address of the first line "ip address A M"; but nothing if some line says that
    the address is dynamic. *)
Theorem C60_addr : forall own below, let lines := own :: below in
  ((exists t, In t lines /\ (dynamic_cmd "dhcp" t \/ dynamic_cmd "negotiated" t)) -> ipv4_addr own below = Ok []) /\
  ((forall t, In t lines -> ~ dynamic_cmd "dhcp" t /\ ~ dynamic_cmd "negotiated" t) ->
   answers (fun t a => exists m, addr_cmd t a m) lines [] (ipv4_addr own below)).
Proof.
  intros own below lines.
  assert (A1 : answers (fun t a => exists m, addr_cmd t a m) lines [] (iter_str "^\s+ip\s+address\s+(\d+\.\d+\.\d+\.\d+)\s+\d+\.\d+\.\d+\.\d+\s*$" 1 own below)).
  { eapply (quad_answers _ [W (lit "ip"); W (lit "address"); H 1; Q]); try reflexivity; try discriminate. intros t v. split.
    - intros (m & Q1 & Q2 & HL). exists [lit "ip"; lit "address"; v; m]. split; [repeat (constructor; auto)|]. split; [exact HL|reflexivity].
    - intros (ws & F & HL & C1). slots. injection C1 as <-. eexists. split; [|split; [|exact HL]]; assumption. }
  assert (A2 : answers (fun t v => dynamic_cmd "dhcp" t /\ v = lit "dhcp") lines [] (iter_str "^\s+ip\s+address\s+(dhcp)\s*$" 1 own below))
    by exact (dyn_answers "^\s+ip\s+address\s+(dhcp)\s*$" "dhcp" lines eq_refl eq_refl).
  assert (A3 : answers (fun t v => dynamic_cmd "negotiated" t /\ v = lit "negotiated") lines [] (iter_str "^\s+ip\s+address\s+(negotiated)\s*$" 1 own below))
    by exact (dyn_answers "^\s+ip\s+address\s+(negotiated)\s*$" "negotiated" lines eq_refl eq_refl).
  unfold ipv4_addr. destruct (answers_ok _ _ _ _ A1) as (v & E1). rewrite E1 in *. cbn [bind].
  assert (B : forall how r, answers (fun t v => dynamic_cmd how t /\ v = lit how) lines [] r ->
    (r = Ok (lit how) /\ exists t, In t lines /\ dynamic_cmd how t) \/ (r = Ok [] /\ forall t, In t lines -> ~ dynamic_cmd how t)).
  { intros how r [(pre & t & post & v' & E & _ & [Pt ->] & ->)|[N1 ->]].
    - left. split; [reflexivity|]. exists t. split; [rewrite E; apply in_elt|exact Pt].
    - right. split; [reflexivity|]. intros t Ht Pt. now apply (N1 t (lit how) Ht). }
  destruct (B _ _ A2) as [(-> & t2 & I2 & D2)|[-> N2]]; destruct (B _ _ A3) as [(-> & t3 & I3 & D3)|[-> N3]]; cbn [bind].
  - split; [intros _; reflexivity|]. intros HN. exfalso. destruct (HN t2 I2). tauto.
  - split; [intros _; reflexivity|]. intros HN. exfalso. destruct (HN t2 I2). tauto.
  - split; [intros _; reflexivity|]. intros HN. exfalso. destruct (HN t3 I3). tauto.
  - split; [|intros _; exact A1]. intros (t & It & [Dt|Dt]); exfalso; [now apply (N2 t It)|now apply (N3 t It)].
Qed.
Print Assumptions C60_addr.

(** The mask of the first line "ip address A M". *)
Theorem C60_netmask : forall own below, answers (fun t m => exists a, addr_cmd t a m) (own :: below) [] (ipv4_netmask own below).
Proof.
  intros own below. eapply (quad_answers _ [W (lit "ip"); W (lit "address"); Q; H 1]); try reflexivity; try discriminate. intros t v. split.
  - intros (m & Q1 & Q2 & HL). exists [lit "ip"; lit "address"; m; v]. split; [repeat (constructor; auto)|]. split; [exact HL|reflexivity].
  - intros (ws & F & HL & C1). slots. injection C1 as <-. eexists. split; [|split; [|exact HL]]; assumption.
Qed.
Print Assumptions C60_netmask.

(** The first line "ip address A M ...", indented, decides the object: M is a dotted
    quad, and whatever follows it is not looked at. *)
Definition addr_line (t a m : str) : Prop := word a /\ quad m /\ line_of gap (no_more is_digit) [lit "ip"; lit "address"; a; m] t.
Theorem C60_object : forall own below, let lines := own :: below in
  (exists pre t post a m, lines = pre ++ t :: post /\ (forall u a' m', In u pre -> ~ addr_line u a' m') /\ addr_line t a m /\
     ((a = lit "dhcp" \/ a = lit "negotiated") /\ ipv4_addr_object own below = Ok None \/
      a <> lit "dhcp" /\ a <> lit "negotiated" /\ ipv4_addr_object own below = (do o <- ip4_of_str (a ++ "/" :: m); Ok (Some o)))) \/
  ((forall u a m, In u lines -> ~ addr_line u a m) /\ ipv4_addr_object own below = Ok None).
Proof.
  intros own below lines.
  assert (R : reads (lit addr_pattern) (line_T true [W (lit "ip"); W (lit "address"); G 1; H 2] Open) 2) by reflexivity.
  assert (E0 : forall u a m, addr_line u a m -> Forall2 fits [W (lit "ip"); W (lit "address"); G 1; H 2] [lit "ip"; lit "address"; a; m] /\
     line_of (lead_ok true) (tail_ok [W (lit "ip"); W (lit "address"); G 1; H 2] Open) [lit "ip"; lit "address"; a; m] u).
  { intros u a m (W1 & Q1 & HL). split; [repeat (constructor; auto)|exact HL]. }
  unfold ipv4_addr_object.
  destruct (dict_line addr_pattern 2 true _ Open own below R eq_refl ltac:(discriminate)) as [(pre & t & post & ws & E & N1 & F & HL & HV)|[N1 HV]].
  - left. slots. match goal with W1 : word ?a, Q1 : quad ?m |- _ => exists pre, t, post, a, m end.
    split; [exact E|]. split; [|split; [split; [|split; [|exact HL]]; assumption|]].
    + intros u a' m' Hu HA. apply E0 in HA as [HA HB]. now apply (N1 u _ Hu HA).
    + rewrite (HV "v4addr"%string 0%nat eq_refl) by auto. rewrite (HV "v4netmask"%string 1%nat eq_refl) by auto.
      cbn [caps_of cap1 app cap Nat.eqb]. match goal with |- context [str_eqb ?a (lit "dhcp")] => destruct (str_eqb_spec a (lit "dhcp")) as [E1|E1]; [now left; auto|];
        destruct (str_eqb_spec a (lit "negotiated")) as [E2|E2]; [now left; auto|] end.
      right. auto.
  - right. split; [|now rewrite (HV "v4addr"%string)]. intros u a m Hu HA. apply E0 in HA as [HA HB]. now apply (N1 u _ Hu HA).
Qed.
Print Assumptions C60_object.

(** For a line with an address and a mask in the usual notation the object is that
    address with that prefix length. *)
Lemma dotted_quad n : quad (dotted n).
Proof.
  unfold dotted. cbn [map join]. exists (show_Z (n / 16777216 mod 256)), (show_Z (n / 65536 mod 256)), (show_Z (n / 256 mod 256)), (show_Z (n mod 256)).
  split; [reflexivity|]. repeat constructor; try apply show_Z_nonempty; apply show_Z_digits, Z.mod_pos_bound; lia.
Qed.
Lemma quad_word q : quad q -> word q.
Proof.
  intros (a & b & c & d & -> & F). split; [now destruct a|].
  assert (X0 : forall x, forallb is_digit x = true -> forallb (fun c => negb (is_space c)) x = true).
  { induction x as [|y x IH]; [reflexivity|]. cbn [forallb]. rewrite !andb_true_iff. intros [Y1 Y2]. rewrite (digit_nonspace _ Y1). auto. }
  inversion F as [|? ? [_ F1] F']; subst. inversion F' as [|? ? [_ F2] F'']; subst. inversion F'' as [|? ? [_ F3] F3']; subst. inversion F3' as [|? ? [_ F4] _]; subst.
  rewrite !forallb_app. cbn [forallb]. rewrite !forallb_app. cbn [forallb]. rewrite !forallb_app. cbn [forallb]. now rewrite !X0.
Qed.
Lemma first_unique {X} (P : X -> Prop) pre t post pre' t' post' : pre ++ t :: post = pre' ++ t' :: post' ->
  (forall u, In u pre -> ~ P u) -> P t -> (forall u, In u pre' -> ~ P u) -> P t' -> pre = pre' /\ t = t'.
Proof.
  revert pre'. induction pre as [|x pre IH]; intros [|y pre'] E N1 P1 N2 P2; cbn [app] in E.
  - now injection E as ->.
  - injection E as -> _. exfalso. apply (N2 y); [now left|exact P1].
  - injection E as -> _. exfalso. apply (N1 t'); [now left|exact P2].
  - injection E as -> E. destruct (IH pre' E) as [-> ->]; auto; intros u Hu; [apply N1|apply N2]; now right.
Qed.
Lemma addr_line_unique t a m a' m' : addr_line t a m -> addr_line t a' m' -> a = a' /\ m = m'.
Proof.
  assert (R : reads (lit addr_pattern) (line_T true [W (lit "ip"); W (lit "address"); G 1; H 2] Open) 2) by reflexivity.
  assert (E0 : forall u a m, addr_line u a m -> exists r, rx_find (pattern false (lit addr_pattern)) u = Some r /\ group 1 r = Ok (Some a) /\ group 2 r = Ok (Some m)).
  { intros u x y (W1 & Q1 & HL).
    destruct (line_fwd _ _ _ _ _ u [lit "ip"; lit "address"; x; y] R eq_refl ltac:(repeat (constructor; auto)) HL) as (r & E). eexists. split; [exact E|]. split; reflexivity. }
  intros K1 K2. apply E0 in K1 as (r & E1 & E2 & E3), K2 as (r' & E1' & E2' & E3'). split; congruence.
Qed.
Theorem C60_usual : forall own below pre t post ip p, own :: below = pre ++ t :: post ->
  (forall u a m, In u pre -> ~ addr_line u a m) -> valid 32 ip p ->
  line_of gap (no_more is_digit) [lit "ip"; lit "address"; dotted ip; dotted (mask_of p)] t ->
  ipv4_addr_object own below = Ok (Some (obj 32 ip p)) /\ ipv4_masklength own below = Ok p /\
  forall jp q, valid 32 jp q -> exists r, in_ipv4_subnet own below (Some (obj 32 jp q)) = Ok r /\ (r = true <-> included 32 ip p jp q).
Proof.
  intros own below pre t post ip p E N1 HV HL.
  assert (HA : addr_line t (dotted ip) (dotted (mask_of p))).
  { split; [apply quad_word, dotted_quad|]. split; [apply dotted_quad|exact HL]. }
  assert (O : ipv4_addr_object own below = Ok (Some (obj 32 ip p))).
  { destruct (C60_object own below) as [(pre' & t' & post' & a & m & E' & N1' & HA' & HO)|[N1' _]].
    - destruct (first_unique (fun u => exists a m, addr_line u a m) pre t post pre' t' post') as [<- <-]; eauto; try congruence.
      + intros u Hu (x & y & K). now apply (N1 u x y).
      + intros u Hu (x & y & K). now apply (N1' u x y).
      + destruct (addr_line_unique _ _ _ _ _ HA HA') as [<- <-]. destruct (dotted_head ip) as (c & r & Ec & Dc). rewrite Ec in HO at 1 2 3 4.
        destruct HO as [([X1|X1] & _)|(_ & _ & ->)]; [injection X1 as -> _; discriminate|injection X1 as -> _; discriminate|].
        pose proof (C49_netmask [] [] ["/"] ip p eq_refl eq_refl) as K. cbn [app] in K. rewrite List.app_nil_r in K. rewrite K; auto. now left.
    - exfalso. apply (N1' t (dotted ip) (dotted (mask_of p))); [rewrite E; apply in_elt|exact HA]. }
  split; [exact O|]. split; [unfold ipv4_masklength; now rewrite O|]. intros jp q Hq. unfold in_ipv4_subnet. rewrite O. cbn [bind].
  destruct (C30_containment jp q ip p Hq HV) as (r & -> & Hr). exists r. auto.
Qed.
Print Assumptions C60_usual.

(** Without such a line, or if its first one says dhcp or negotiated, the mask length is zero
    and the interface lies in no network. *)
Theorem C60_none : forall own below,
  ((forall u a m, In u (own :: below) -> ~ addr_line u a m) \/
   (exists pre t post a m, own :: below = pre ++ t :: post /\ (forall u a' m', In u pre -> ~ addr_line u a' m') /\ addr_line t a m /\ (a = lit "dhcp" \/ a = lit "negotiated"))) ->
  ipv4_masklength own below = Ok 0 /\ forall net, in_ipv4_subnet own below net = Ok false.
Proof.
  intros own below NA. assert (O : ipv4_addr_object own below = Ok None).
  { destruct (C60_object own below) as [(pre & t & post & a & m & E & N1 & HA & K)|[N1 O]]; [|exact O]. destruct K as [[_ O]|(Nd & Nn & _)]; [exact O|exfalso].
    destruct NA as [NA|(pre' & t' & post' & a' & m' & E' & N1' & HA' & K')].
    - apply (NA t a m); [rewrite E; apply in_elt|exact HA].
    - destruct (first_unique (fun u => exists a m, addr_line u a m) pre t post pre' t' post') as [<- <-]; eauto; try congruence.
      + intros u Hu (x & y & K). now apply (N1 u x y).
      + intros u Hu (x & y & K). now apply (N1' u x y).
      + destruct (addr_line_unique _ _ _ _ _ HA HA') as [-> _]. tauto. }
  split; [unfold ipv4_masklength; now rewrite O|]. intros net. unfold in_ipv4_subnet. rewrite O. reflexivity.
Qed.
Print Assumptions C60_none.
Example C60_none_case : ipv4_masklength intf_own [lit " mtu 9000"] = Ok 0 /\ ipv4_masklength intf_own (map lit [" ip address dhcp 255.0.0.0"; " ip address 192.0.2.1 255.255.255.0"]%string) = Ok 0.
Proof. vm_compute. split; reflexivity. Qed.
(** A secondary address: any indentation, any words for the address and the mask. *)
Theorem C60_secondary : forall own below,
  has_ip_secondary own below = true <-> exists t a m, In t (own :: below) /\ word a /\ word m /\ says_loosely [lit "ip"; lit "address"; a; m; lit "secondary"] t.
Proof.
  intros own below. unfold has_ip_secondary.
  match goal with |- context [iter_dict ?p _ _ _] => assert (R : reads (lit p) (line_T false [W (lit "ip"); W (lit "address"); A; A; L 1 (lit "secondary")] Loose) 1) by reflexivity;
    destruct (dict_line p 1 false _ Loose own below R eq_refl ltac:(discriminate)) as [(pre & t & post & ws & E & N1 & F & HL & HV)|[N1 HV]] end.
  - rewrite (HV "secondary"%string 0%nat eq_refl) by auto. slots. split; [|reflexivity]. intros _. eexists t, _, _.
    split; [rewrite E; apply in_elt|]. split; [|split; [|exact HL]]; assumption.
  - rewrite HV. split; [discriminate|]. intros (t & a & m & It & A1 & M1 & HL). exfalso.
    apply (N1 t [lit "ip"; lit "address"; a; m; lit "secondary"] It); [repeat (constructor; auto)|exact HL].
Qed.
Print Assumptions C60_secondary.

(** The object does not agree with the address: a secondary address that is listed first
    becomes the object. *)
Theorem C60_secondary_refuted : exists own below,
  ipv4_addr own below = Ok (lit "192.0.2.1") /\ (do o <- ipv4_addr_object own below; Ok (option_map (fun o => dotted (ip_int o)) o)) = Ok (Some (lit "192.0.2.9")).
Proof. exists intf_own, intf_lines. vm_compute. split; reflexivity. Qed.
Print Assumptions C60_secondary_refuted.
(** An address that is not indented is not seen. *)
Example C60_ex :
  ipv4_addr intf_own intf_lines = Ok (lit "192.0.2.1") /\ ipv4_netmask intf_own intf_lines = Ok (lit "255.255.255.0") /\
  ipv4_masklength intf_own intf_lines = Ok 24 /\ has_ip_secondary intf_own intf_lines = true /\
  ipv4_addr intf_own (map lit [" ip address 192.0.2.1 255.255.255.0"; " ip address dhcp"]%string) = Ok [] /\
  ipv4_addr intf_own (map lit ["ip address 192.0.2.1 255.255.255.0"]%string) = Ok [] /\
  ipv4_addr_object intf_own (map lit [" ip address dhcp"]%string) = Ok None /\
  (do n <- ip4_of_str (lit "192.0.0.0/16"); in_ipv4_subnet intf_own intf_lines (Some n)) = Ok true /\
  ipv4_addr_object intf_own (map lit [" ip address 192.0.2.1 255.0.255.0"]%string) = Err ValueError.
Proof. vm_compute. repeat split; reflexivity. Qed.

(** ** C61: HSRP, and what is only looked at on an interface with an address *)

Lemma standby_answers p ks k n g cut (P : str -> str -> Prop) lines :
  reads (lit p) (rep_line_T [lit "standby"] 1 Digits ks k) n -> forallb proper ks = true -> ks <> [] -> hd_stops Digits ks -> (1 < g <= n)%nat -> tail_ok ks k = cut ->
  (forall t v, P t v <-> exists ws, Forall2 fits ks ws /\ standby cut ws t /\ to_str (cap g (caps_of ks ws [])) = Ok v) ->
  answers P lines [] (first_match to_str (Ok []) (pattern false (lit p)) g lines).
Proof.
  intros R PR NE HS G1 HC E. apply (rep_answers to_str p n [lit "standby"] Digits ks k g P [] lines R); auto; [discriminate| |].
  - intros ws F. eexists. reflexivity.
  - intros t v. rewrite E. unfold rep_line, standby. rewrite HC. split; intros (ws & F & X1 & X2); exists ws; auto.
Qed.
Lemma word_stops x w ks : is_digit x = false -> hd_stops Digits (W (x :: w) :: ks).
Proof. intros Hx ws p F P. inversion F; subst. cbn [fits] in *. subst. inversion P; subst; exact Hx. Qed.

Lemma addr_ok own below : exists a, ipv4_addr own below = Ok a.
Proof.
  assert (A1 : exists a, iter_str "^\s+ip\s+address\s+(\d+\.\d+\.\d+\.\d+)\s+\d+\.\d+\.\d+\.\d+\s*$" 1 own below = Ok a).
  { eapply answers_ok. eapply (quad_answers _ [W (lit "ip"); W (lit "address"); H 1; Q]); try reflexivity; try discriminate.
    intros t v. instantiate (1 := fun t v => _). cbn beta. reflexivity. }
  assert (A2 : exists a, iter_str "^\s+ip\s+address\s+(dhcp)\s*$" 1 own below = Ok a)
    by exact (answers_ok _ _ _ _ (dyn_answers "^\s+ip\s+address\s+(dhcp)\s*$" "dhcp" (own :: below) eq_refl eq_refl)).
  assert (A3 : exists a, iter_str "^\s+ip\s+address\s+(negotiated)\s*$" 1 own below = Ok a)
    by exact (answers_ok _ _ _ _ (dyn_answers "^\s+ip\s+address\s+(negotiated)\s*$" "negotiated" (own :: below) eq_refl eq_refl)).
  destruct A1 as (x & A1), A2 as (y & A2), A3 as (z & A3). unfold ipv4_addr. rewrite A1, A2, A3. cbn [bind].
  destruct (str_eqb (lower y) _); [eauto|]. destruct (str_eqb (lower z) _); eauto.
Qed.

(** The first line "standby ... ip A" on an interface that has an address; and the key
    chain. *)
Theorem C61_addr : forall own below, let lines := own :: below in
  (ipv4_addr own below = Ok [] -> hsrp_ip_addr own below = Ok []) /\
  (forall a, ipv4_addr own below = Ok a -> a <> [] ->
    answers (fun t v => word v /\ standby word_ends [lit "ip"; v] t) lines [] (hsrp_ip_addr own below)) /\
  (exists a, hsrp_ip_addr own below = Ok a /\ has_ip_hsrp own below = Ok (negb (str_eqb a []))).
Proof.
  intros own below lines.
  assert (B : answers (fun t v => word v /\ standby word_ends [lit "ip"; v] t) lines [] (iter_str "^\s*standby\s+(\d+\s+)*ip\s+(\S+)" 2 own below)).
  { apply (standby_answers _ [W (lit "ip"); G 2] Open 2 2 word_ends); try reflexivity; try discriminate; auto.
    - now apply word_stops.
    - intros t v. split.
      + intros (W1 & HL). exists [lit "ip"; v]. split; [repeat (constructor; auto)|]. split; [exact HL|reflexivity].
      + intros (ws & F & HL & C1). slots. injection C1 as <-. now split. }
  split; [|split].
  - intros E. unfold hsrp_ip_addr. now rewrite E.
  - intros a E NE. unfold hsrp_ip_addr. rewrite E. cbn [bind]. destruct a; [congruence|]. exact B.
  - destruct (addr_ok own below) as (a & E). destruct (answers_ok _ _ _ _ B) as (b & E2). unfold has_ip_hsrp, nonblank, hsrp_ip_addr. rewrite E. cbn [bind].
    destruct a as [|x a]; cbn [truth].
    + exists []. split; reflexivity.
    + rewrite E2. exists b. split; [reflexivity|]. cbn [bind]. now destruct b.
Qed.
Print Assumptions C61_addr.

Theorem C61_keychain : forall own below,
  answers (fun t v => word v /\ standby word_ends [lit "authentication"; lit "md5"; lit "key-chain"; v] t) (own :: below) [] (hsrp_authentication_md5_keychain own below).
Proof.
  intros own below. apply (standby_answers _ [W (lit "authentication"); W (lit "md5"); W (lit "key-chain"); G 2] Open 2 2 word_ends); try reflexivity; try discriminate; auto.
  - now apply word_stops.
  - intros t v. split.
    + intros (W1 & HL). exists [lit "authentication"; lit "md5"; lit "key-chain"; v]. split; [repeat (constructor; auto)|]. split; [exact HL|reflexivity].
    + intros (ws & F & HL & C1). slots. injection C1 as <-. now split.
Qed.
Print Assumptions C61_keychain.

(** "standby ... use-bia", whatever follows. *)
Theorem C61_usebia : forall own below,
  answers_yes (standby (fun _ => True) [lit "use-bia"]) (own :: below) (has_hsrp_usebia own below).
Proof.
  intros own below.
  assert (X0 : answers (fun t b => standby (fun _ => True) [lit "use-bia"] t /\ b = true) (own :: below) false (has_hsrp_usebia own below)).
  { apply (rep_answers to_bool _ 2 [lit "standby"] Digits [L 2 (lit "use-bia")] Open 2); try reflexivity; try discriminate; auto.
    - intros ws p F P. slots. inversion P; subst; [reflexivity|match goal with X : phrase [] _ |- _ => inversion X end].
    - intros ws F. eexists. reflexivity.
    - intros t b. split.
      + intros (HL & ->). exists [lit "use-bia"]. split; [repeat constructor|]. split; [exact HL|reflexivity].
      + intros (ws & F & HL & C1). slots. injection C1 as <-. split; [exact HL|reflexivity]. }
  destruct X0 as [(pre & t & post & v & E & _ & [Pt ->] & ->)|[N1 ->]].
  - left. split; [reflexivity|]. exists t. split; [rewrite E; apply in_elt|exact Pt].
  - right. split; [reflexivity|]. intros t Ht Pt. now apply (N1 t true Ht).
Qed.
Print Assumptions C61_usebia.

(** The group number of the first line "standby N ip A"; -1 if there is none. *)
Theorem C61_group : forall own below,
  answers (fun t n => exists d v, numeral d n /\ word v /\ line_of white word_ends [lit "standby"; d; lit "ip"; v] t) (own :: below) (-1) (hsrp_group own below).
Proof.
  intros own below. unfold hsrp_group.
  match goal with |- context [iter_dict ?p _ _ _] => assert (R : reads (lit p) (line_T false [W (lit "standby"); N 1; W (lit "ip"); G 2] Open) 2) by reflexivity;
    destruct (dict_line p 2 false _ Open own below R eq_refl ltac:(discriminate)) as [(pre & t & post & ws & E & N1 & F & HL & HV)|[N1 HV]] end.
  - left. rewrite (HV "group"%string 0%nat eq_refl) by auto. slots.
    match goal with X : _ <> [] /\ forallb is_digit ?d = true |- _ => destruct X as [D1 D2]; exists pre, t, post, (digits_Z d) end.
    split; [exact E|]. split; [|split; [|cbn [caps_of cap1 app cap Nat.eqb]; now apply to_int_digits]].
    + intros u n Hu (d & v & Nd & Wv & HL'). refine (N1 u [lit "standby"; d; lit "ip"; v] Hu _ HL'). pose proof (numeral_digits _ _ Nd) as DD.
      assert (NE : d <> []) by (destruct (numeral_head _ _ Nd) as (c & r & -> & _); discriminate). repeat (constructor; auto); split; auto; apply Wv.
    + eexists _, _. split; [apply digits_numeral; eassumption|]. split; [|exact HL]. assumption.
  - right. rewrite HV. split; [|reflexivity]. intros u n Hu (d & v & Nd & Wv & HL'). refine (N1 u [lit "standby"; d; lit "ip"; v] Hu _ HL').
    pose proof (numeral_digits _ _ Nd) as DD. assert (NE : d <> []) by (destruct (numeral_head _ _ Nd) as (c & r & -> & _); discriminate).
    repeat (constructor; auto); split; auto; apply Wv.
Qed.
Print Assumptions C61_group.

(** Preemption is not recognised, and what is reported as preemption is use-bia. *)
Theorem C61_preempt_refuted : 
  (exists own t, says [lit "standby"; lit "1"; lit "preempt"] t /\ has_hsrp_preempt own [t] = Ok false) /\
  (forall own below, has_hsrp_preempt own below = has_hsrp_usebia own below).
Proof.
  split; [|reflexivity]. exists intf_own, (lit " standby 1 preempt"). split; [|vm_compute; reflexivity].
  exists (lit " "), (lit "standby 1 preempt"), []. repeat split; [|now left].
  change (lit "standby 1 preempt") with (lit "standby" ++ lit " " ++ lit "1" ++ lit " " ++ lit "preempt"). repeat (constructor; [now split|]). constructor.
Qed.
Print Assumptions C61_preempt_refuted.
(** A priority without a group number raises. *)
Theorem C61_priority_refuted : exists own below, has_ip_hsrp own below = Ok true /\ In (lit " standby priority 110") below /\ hsrp_priority own below = Err TypeErr.
Proof.
  exists intf_own, (map lit [" ip address 192.0.2.1 255.255.255.0"; " standby ip 192.0.2.254"; " standby priority 110"]%string).
  split; [vm_compute; reflexivity|]. split; [cbn; tauto|vm_compute; reflexivity].
Qed.
Print Assumptions C61_priority_refuted.

(** Flags: exactly one white character between the words. *)
Definition spaced3 (u v w : string) (t : str) : Prop := exists x, joined3 (lit u) (lit v) (lit w) x /\ says_loosely [x] t.
Definition if_addr (own : str) (below : list str) (P : str -> Prop) (r : result bool) : Prop :=
  (ipv4_addr own below = Ok [] -> r = Ok false) /\
  (forall a, ipv4_addr own below = Ok a -> a <> [] -> answers_yes P (own :: below) r).
Lemma k1_flag p u v w own below : reads (lit p) (line_T false [K1 1 (lit u) (lit v) (lit w)] Loose) 1 -> nonwhite_head (lit u) = true -> lit w <> [] ->
  if_addr own below (spaced3 u v w) (needs_addr false (iter_bool p 1) own below).
Proof.
  intros R PR NE. split; [intros E; unfold needs_addr; now rewrite E|]. intros a E Na. unfold needs_addr. rewrite E. cbn [bind].
  destruct a; [congruence|]. cbn [truth]. apply (sentence_yes _ 1 false [K1 1 (lit u) (lit v) (lit w)] Loose 1); auto; try discriminate.
  - cbn [forallb proper]. now rewrite PR.
  - intros ws F. inversion F as [|? x ? ? F1 F2]; subst. inversion F2; subst. eexists. split; [reflexivity|exact NE].
  - intros t. split.
    + intros (x & J3 & HL). exists [x]. split; [repeat (constructor; auto)|exact HL].
    + intros (ws & F & HL). inversion F as [|? x ? ? F1 F2]; subst. inversion F2; subst. exists x. split; [exact F1|exact HL].
Qed.
Lemma k3_flag p u v w own below : reads (lit p) (line_T false [K3 1 (lit u) (lit v) (lit w)] Loose) 1 -> nonwhite_head (lit u) = true ->
  if_addr own below (spaced3 u v w) (needs_addr false (iter_bool p 1) own below).
Proof.
  intros R PR. split; [intros E; unfold needs_addr; now rewrite E|]. intros a E Na. unfold needs_addr. rewrite E. cbn [bind].
  destruct a; [congruence|]. cbn [truth]. apply (sentence_yes _ 1 false [K3 1 (lit u) (lit v) (lit w)] Loose 1); auto; try discriminate.
  - cbn [forallb proper]. now rewrite PR.
  - intros ws F. inversion F as [|? x ? ? F1 F2]; subst. inversion F2; subst. eexists. split; [reflexivity|]. destruct F1 as (? & ? & _ & _ & ->). now destruct (lit u).
  - intros t. split.
    + intros (x & J3 & HL). exists [x]. split; [repeat (constructor; auto)|exact HL].
    + intros (ws & F & HL). inversion F as [|? x ? ? F1 F2]; subst. inversion F2; subst. exists x. split; [exact F1|exact HL].
Qed.
Theorem C61_flags : forall own below,
  if_addr own below (spaced3 "no" "ip" "unreachables") (has_no_icmp_unreachables own below) /\
  if_addr own below (spaced3 "no" "ip" "redirects") (has_no_icmp_redirects own below) /\
  if_addr own below (spaced3 "no" "ip" "proxy-arp") (has_no_ip_proxyarp own below) /\
  if_addr own below (spaced3 "ip" "pim" "dense-mode") (has_ip_pim_dense_mode own below) /\
  if_addr own below (spaced3 "ip" "pim" "sparse-mode") (has_ip_pim_sparse_mode own below) /\
  exists a, ipv4_addr own below = Ok a.
Proof.
  intros own below. split; [|split; [|split; [|split; [|split]]]].
  - apply k1_flag; [reflexivity|reflexivity|discriminate].
  - apply k1_flag; [reflexivity|reflexivity|discriminate].
  - apply k1_flag; [reflexivity|reflexivity|discriminate].
  - apply k3_flag; reflexivity.
  - apply k3_flag; reflexivity.
  - apply addr_ok.
Qed.
Print Assumptions C61_flags.
Theorem C61_arp : forall own below,
  (ipv4_addr own below = Ok [] -> manual_arp_timeout own below = Ok (-1)) /\
  (forall a, ipv4_addr own below = Ok a -> a <> [] ->
    answers (fun t n => exists d, numeral d n /\ says_loosely [lit "arp"; lit "timeout"; d] t) (own :: below) 0 (manual_arp_timeout own below)).
Proof.
  intros own below. unfold manual_arp_timeout, needs_addr. split; [intros ->; reflexivity|]. intros a -> NE. cbn [bind]. destruct a; [congruence|]. cbn [truth].
  apply (number_answers _ false Loose (map lit ["arp"; "timeout"]%string) []); reflexivity.
Qed.
Print Assumptions C61_arp.

Example C61_ex : let lines := map lit [" ip address 192.0.2.1 255.255.255.0"; " standby 7 ip 192.0.2.254"; " standby 7 priority 110"; " standby use-bia";
    " standby 7 authentication md5 key-chain K"; " no ip redirects"; " arp timeout 240 "]%string in
  hsrp_ip_addr intf_own lines = Ok (lit "192.0.2.254") /\ hsrp_group intf_own lines = Ok 7 /\ hsrp_priority intf_own lines = Ok 110 /\
  has_hsrp_usebia intf_own lines = Ok true /\ hsrp_authentication_md5_keychain intf_own lines = Ok (lit "K") /\
  has_no_icmp_redirects intf_own lines = Ok true /\ has_no_ip_proxyarp intf_own lines = Ok false /\ manual_arp_timeout intf_own lines = Ok 240 /\
  hsrp_ip_addr intf_own (tl lines) = Ok [] /\ has_no_icmp_redirects intf_own (tl lines) = Ok false.
Proof. vm_compute. repeat split; reflexivity. Qed.
