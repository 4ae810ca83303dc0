(** C94: attributes of IOS XR interface lines. *)
From Coq Require Import Ascii String Arith NArith ZArith Bool List Lia.
From Verif Require Import PyStr PyStrFacts PyBase SearchModel SearchProofs IntfSpec IntfFacts PyRe PyReFacts PyReTmpl PyReSent IosSpec IosModel IosFacts FactoryFacts PIos XrIntfModel.
Import ListNotations.
Local Open Scope char_scope.

(** The indented commands "ipv4 address A M" and "ipv4 address dhcp". *)
Definition xr_addr_cmd (t a m : str) : Prop := quad a /\ quad m /\ says_below [lit "ipv4"; lit "address"; a; m] t.
Definition xr_dhcp (t : str) : Prop := says_below [lit "ipv4"; lit "address"; lit "dhcp"] t.
(** The command "vrf V": one white character, and nothing after V. *)
Definition xr_vrf_cmd (t v : str) : Prop :=
  exists i g e, t = i ++ lit "vrf" ++ [g] ++ v ++ e /\ white i /\ is_space g = true /\ word v /\ line_end e.

(** Description and MAC access groups: the first line that gives one. *)
Theorem C94_texts : forall own below, let lines := own :: below in
  answers (text_line (lit "description") true) lines [] (xr_description own below) /\
  answers (access_group "mac" "in") lines [] (xr_mac_accessgroup_in own below) /\
  answers (access_group "mac" "out") lines [] (xr_mac_accessgroup_out own below).
Proof.
  intros own below lines. unfold lines. repeat split.
  - apply (text_answers _ (lit "description") true); reflexivity.
  - apply group_line; reflexivity.
  - apply group_line; reflexivity.
Qed.
Print Assumptions C94_texts.

(** The address and the mask of the first line "ipv4 address A M"; with a line "ipv4 address dhcp"
    anywhere the address raises DynamicAddressException. *)
Theorem C94_addr : forall own below, let lines := own :: below in
  answers (fun t m => exists a, xr_addr_cmd t a m) lines [] (xr_ipv4_netmask own below) /\
  ((exists t, In t lines /\ xr_dhcp t) -> xr_ipv4_addr own below = Ok None) /\
  ((forall t, In t lines -> ~ xr_dhcp t) -> exists r, xr_ipv4_addr own below = Ok (Some r) /\ answers (fun t a => exists m, xr_addr_cmd t a m) lines [] (Ok r)).
Proof.
  intros own below lines. split.
  { eapply (quad_answers _ [W (lit "ipv4"); W (lit "address"); Q; H 1]); try reflexivity; try discriminate. intros t v. split.
    - intros (m & Q1 & Q2 & HL). exists [lit "ipv4"; lit "address"; m; v]. split; [repeat (constructor; auto)|]. split; [exact HL|reflexivity].
    - intros (ws & F & HL & C1). slots. injection C1 as <-. eexists. split; [|split; [|exact HL]]; assumption. }
  assert (A1 : answers (fun t a => exists m, xr_addr_cmd t a m) lines [] (iter_str "^\s+ipv4\s+address\s+(\d+\.\d+\.\d+\.\d+)\s+\d+\.\d+\.\d+\.\d+\s*$" 1 own below)).
  { eapply (quad_answers _ [W (lit "ipv4"); W (lit "address"); H 1; Q]); try reflexivity; try discriminate. intros t v. split.
    - intros (m & Q1 & Q2 & HL). exists [lit "ipv4"; lit "address"; v; m]. split; [repeat (constructor; auto)|]. split; [exact HL|reflexivity].
    - intros (ws & F & HL & C1). slots. injection C1 as <-. eexists. split; [|split; [|exact HL]]; assumption. }
  assert (A2 : answers (fun t v => xr_dhcp t /\ v = lit "dhcp") lines [] (iter_str "^\s+ipv4\s+address\s+(dhcp)\s*$" 1 own below)).
  { eapply (quad_answers _ [W (lit "ipv4"); W (lit "address"); L 1 (lit "dhcp")]); try reflexivity; try discriminate. intros t v. split.
    - intros (HL & ->). eexists. split; [|split; [exact HL|reflexivity]]. repeat constructor.
    - intros (ws & F & HL & C1). slots. injection C1 as <-. now split. }
  unfold xr_ipv4_addr. destruct (answers_ok _ _ _ _ A1) as (r & EA). rewrite EA in *. cbn [bind]. split.
  - intros (t & It & Dt). destruct A2 as [(pre & u & post & v & _ & _ & (_ & ->) & ->)|(N0 & _)]; [reflexivity|]. exfalso. apply (N0 t (lit "dhcp") It). now split.
  - intros N0. destruct A2 as [(pre & u & post & v & E & _ & (Du & _) & _)|(_ & ->)]; [exfalso; apply (N0 u); [rewrite E; apply in_elt|exact Du]|]. exists r. split; [reflexivity|exact A1].
Qed.
Print Assumptions C94_addr.

Lemma vrf_found t : rx_find (pattern false (lit "^\s*vrf\s(\S+)$")) t <> None <-> exists v, xr_vrf_cmd t v.
Proof.
  rewrite (found_iff _ [Run sp false; Lit (lit "vrf"); One sp; Grp 1 [Run ns true]; End] 1) by reflexivity. split.
  - intros (s' & c & HD). apply D_run_eq in HD as (i & r & -> & Ai & _ & HD). apply D_lit_eq in HD as (r1 & -> & HD).
    apply D_one_eq in HD as (g & r2 & -> & Ig & HD). apply D_grp_eq in HD as (v & r3 & c1 & -> & HU & HD).
    apply D_run_inv in HU as (Av & Nv & _). exists v, i, g, r3. split; [reflexivity|]. split; [now apply all_sp|]. split; [now rewrite in_sp in Ig|].
    split; [split; [now apply Nv|now apply all_ns]|]. inversion HD; subst. assumption.
  - intros (v & i & g & e & -> & Wi & Sg & (Nv & Av) & He). eexists _, _. 
    apply D_run; [now apply all_sp|discriminate|discriminate|]. apply D_lit. apply D_one; [now rewrite in_sp|].
    eapply D_grp; [|apply D_end; [exact He|constructor]]. apply D_run; [now apply all_ns|auto|discriminate|constructor].
Qed.
Lemma vrf_index t m : rx_find (pattern false (lit "^\s*vrf\s(\S+)$")) t = Some m -> group 2 m = Err IndexError.
Proof.
  assert (X : exists r, compile false (lit "^\s*vrf\s(\S+)$") = Some (r, (1, []))) by (eexists; vm_compute; reflexivity). destruct X as (r & X).
  unfold pattern. cbn [rx_find]. rewrite X. destruct (search r t) as [[a c]|]; [|discriminate]. intros E. injection E as <-. reflexivity.
Qed.
(** An interface in a VRF: asking for its VRF, or whether it has one, raises IndexError.  Otherwise
    the answers are the empty text and False. *)
Theorem C94_vrf : forall own below, let lines := own :: below in
  ((exists t v, In t lines /\ xr_vrf_cmd t v) -> xr_vrf own below = Err IndexError /\ xr_has_vrf own below = Err IndexError) /\
  ((forall t v, In t lines -> ~ xr_vrf_cmd t v) -> xr_vrf own below = Ok [] /\ xr_has_vrf own below = Ok false).
Proof.
  intros own below lines. unfold xr_has_vrf, nonblank.
  assert (G : forall l, ((exists t v, In t l /\ xr_vrf_cmd t v) -> first_match to_str (Ok []) (pattern false (lit "^\s*vrf\s(\S+)$")) 2 l = Err IndexError) /\
    ((forall t v, In t l -> ~ xr_vrf_cmd t v) -> first_match to_str (Ok []) (pattern false (lit "^\s*vrf\s(\S+)$")) 2 l = Ok [])).
  { induction l as [|t l [IH1 IH2]]; [split; [intros (? & ? & [] & _)|reflexivity]|]. cbn [first_match].
    pose proof (vrf_found t) as F. destruct (rx_find (pattern false (lit "^\s*vrf\s(\S+)$")) t) as [m|] eqn:E.
    - apply vrf_index in E. unfold typed_group. rewrite E. split; [reflexivity|]. intros N. exfalso.
      assert (X : exists v, xr_vrf_cmd t v) by (apply F; discriminate). destruct X as (v & X). apply (N t v); [now left|exact X].
    - assert (X : forall v, ~ xr_vrf_cmd t v) by (intros v X; apply (proj2 F); [eauto|reflexivity]). split.
      + intros (u & v & [<-|I0] & C); [now apply X in C|]. apply IH1. eauto.
      + intros N. apply IH2. intros u v I0. apply N. now right. }
  destruct (G lines) as [G1 G2]. unfold xr_vrf, iter_str. fold lines. split; intros K; [rewrite (G1 K)|rewrite (G2 K)]; split; reflexivity.
Qed.
Print Assumptions C94_vrf.

Definition xr_own : str := lit "interface GigabitEthernet0/0/0/1".
Definition xr_lines : list str := map lit [" description To the core"; " ipv4 address 192.0.2.1 255.255.255.0"; " mac access-group M in"]%string.
Example C94_ex :
  xr_description xr_own xr_lines = Ok (lit "To the core") /\ xr_ipv4_addr xr_own xr_lines = Ok (Some (lit "192.0.2.1")) /\
  xr_ipv4_netmask xr_own xr_lines = Ok (lit "255.255.255.0") /\ xr_mac_accessgroup_in xr_own xr_lines = Ok (lit "M") /\ xr_mac_accessgroup_out xr_own xr_lines = Ok [] /\
  xr_ipv4_addr xr_own (map lit [" ipv4 address dhcp"]%string) = Ok None /\ xr_has_vrf xr_own xr_lines = Ok false /\
  xr_vrf_cmd (lit " vrf CUST") (lit "CUST").
Proof.
  repeat split; try (vm_compute; reflexivity). exists (lit " "), " ", []. repeat split; [discriminate|now left].
Qed.

(** The VRF that is configured is never reported. *)
Theorem C94_vrf_refuted : exists t, xr_vrf_cmd t (lit "CUST") /\ xr_vrf xr_own [t] = Err IndexError.
Proof.
  exists (lit " vrf CUST"). split; [|vm_compute; reflexivity]. exists (lit " "), " ", []. repeat split; [discriminate|now left].
Qed.
Print Assumptions C94_vrf_refuted.

(** A prefix length in place of the mask, as IOS XR accepts it, hides the address; a description of
    one character is not reported. *)
Theorem C94_prefix_refuted :
  xr_ipv4_addr xr_own [lit " ipv4 address 192.0.2.1/24"] = Ok (Some []) /\ xr_description xr_own [lit " description x"] = Ok [].
Proof. vm_compute. split; reflexivity. Qed.
Print Assumptions C94_prefix_refuted.
