(** C84: NX-OS IPv4 static routes report what the command says. *)
From Coq Require Import Ascii String Arith NArith ZArith Bool List Lia.
From Verif Require Import PyStr PyStrFacts PyBase SearchModel IntfModel IntfSpec IntfFacts IpModel IpSpec IpFacts PIp PIpText PyRe PyReFacts PyReTmpl PyReSent AttrModel IosSpec IosModel IosFacts RouteSpec RouteModel RouteFacts PIos PRoute NxosRouteSpec NxosRouteModel.
From Verif Require PNxos PAttr.
Import ListNotations.
Local Open Scope char_scope.

Definition nx_intf_item : item := Opt [Run sp true; Grp 3 [One nd; Run ns true]].
Definition nx_after_T : list item := [opt_item [lit "track"] (N 5); opt_item [lit "name"] (G 6); opt_item [lit "tag"] (N 7); opt_item [] (N 8)].
Definition nx_hop_T : list item := nx_intf_item :: opt_item [] (H 4) :: nx_after_T.
Definition nx_dest_T : list item := [Lit (lit "ip"); Run sp true; Lit (lit "route"); Run sp true; Grp 1 quad_items; Lit (lit "/"); Grp 2 [Run dg true]].
Lemma nxr_reads : reads nxr_pattern (nx_dest_T ++ nx_hop_T) 8.
Proof. vm_compute. reflexivity. Qed.

(** The attributes of the object are the parts of the command. *)
Definition nx_hop_text (r : nxroute) : str :=
  match n_intf r with Some i => i ++ " " :: text_of_part (n_addr r) | None => text_of_part (n_addr r) end.
Definition nx_reports (m : rmatch) (r : nxroute) : Prop :=
  nxr_network m = Some (n_prefix r) /\ nxr_masklen m = Some (n_len r) /\
  nxr_next_hop_interface m = text_of_part (n_intf r) /\ nxr_next_hop_addr m = text_of_part (n_addr r) /\ nxr_nexthop_str m = nx_hop_text r /\
  nxr_tracking_object_name m = n_track r /\ nxr_name m = text_of_part (n_name r) /\ nxr_tag m = text_of_part (n_tag r) /\
  nxr_admin_distance m = Some (match n_ad r with Some d => d | None => lit "1" end).

Definition nx_after_caps (r : nxroute) (c : caps) : caps := put 8 (n_ad r) (put 7 (n_tag r) (put 6 (n_name r) (put 5 (n_track r) c))).
Definition nx_caps (r : nxroute) : caps := nx_after_caps r (put 4 (n_addr r) (put 3 (n_intf r) [(2, n_len r); (1, n_prefix r)])).
Lemma nx_after_fwd r s c : given digits (n_track r) -> given word (n_name r) -> given digits (n_tag r) -> given digits (n_ad r) -> trail (nx_after r) s ->
  exists s', D true nx_after_T s s' c (nx_after_caps r c).
Proof.
  unfold nx_after, nx_after_caps. destruct r as [pre len intf ad0 tr nm tg ad]. cbn [n_track n_name n_tag n_ad]. intros Htr Hnm Htg Had T.
  rewrite !arg_words, (here_words ad) in T. unfold nx_after_T.
  eapply (opt_fwd [lit "track"] (N 5) 5) in T as (s1 & T & K1); [|reflexivity|reflexivity|reflexivity|intros v ->; exact Htr|intros _; clash_rest].
  eapply (opt_fwd [lit "name"] (G 6) 6) in T as (s2 & T & K2); [|reflexivity|reflexivity|reflexivity|intros v ->; exact Hnm|intros _; clash_rest].
  eapply (opt_fwd [lit "tag"] (N 7) 7) in T as (s3 & T & K3); [|reflexivity|reflexivity|reflexivity|intros v ->; exact Htg|intros _; clash_rest].
  rewrite <- (app_nil_r (opt_words [] ad)) in T.
  eapply (opt_fwd [] (N 8) 8) in T as (s4 & T & K4); [|reflexivity|reflexivity|reflexivity|intros v ->; exact Had|intros _; exact I].
  exists s4. apply K1, K2, K3, K4. constructor.
Qed.
Lemma nx_head_fwd r t z rest : nx_formed r -> no_more (fun c => negb (is_space c)) z -> line_of (eq []) white ([lit "ip"; lit "route"; destination r ++ z] ++ rest) t ->
  exists s, trail rest s /\ forall T s2 c2, D true T (z ++ s) s2 [(2, n_len r); (1, n_prefix r)] c2 -> D true (nx_dest_T ++ T) t s2 [] c2.
Proof.
  intros (Qp & [Dn Dl] & _) Nz (i & p & e & -> & <- & P & E). cbn [app] in P. destruct (phrase_trail _ _ _ _ P E) as (s0 & -> & T).
  inversion T as [|g ? ? s1 G1 T1]; subst. inversion T1 as [|g2 ? ? s2 G2 T2]; subst. exists s2. split; [exact T2|]. intros T0 u c2 HD. unfold nx_dest_T. cbn [app].
  apply (D_lit true (lit "ip")). destruct G1 as [Ga Gb]. apply D_run; [now apply all_sp|auto|intros _; apply (stops_iff _ _ _ in_sp); reflexivity|].
  apply (D_lit true (lit "route")). destruct G2 as [G2a G2b]. unfold destination. rewrite <- !app_assoc. cbn [app]. apply D_run; [now apply all_sp|auto|intros _; apply (stops_iff _ _ _ in_sp)|].
  { apply nonwhite_no_more, nonwhite_head_app. now apply quad_head. }
  eapply D_grp; [rewrite <- (app_nil_r quad_items); apply D_quad; [exact Qp|intros _; reflexivity|constructor]|].
  apply (D_lit true (lit "/")).
  eapply D_grp; [apply D_run; [now apply all_dg|auto| |constructor]|exact HD].
  intros _. apply (stops_iff _ _ _ in_dg). destruct z as [|x z]; cbn [app].
  - apply (trail_no_more _ _ _ T2). apply digit_nonspace.
  - cbn in Nz |- *. destruct (is_digit x) eqn:Dx; [|reflexivity]. rewrite (digit_nonspace _ Dx) in Nz. discriminate.
Qed.
Lemma nx_intf_take i s1 T s2 c c2 g : intf_name i -> gap g -> no_more (fun c => negb (is_space c)) s1 -> D true T s1 s2 ((3, i) :: c) c2 ->
  D true (nx_intf_item :: T) (g ++ i ++ s1) s2 c c2.
Proof.
  intros ([_ Wi] & a & b & r & -> & Da) [Ga Gb] Ns HD. cbn [forallb] in Wi. apply andb_true_iff in Wi as [Sa Wi].
  eapply D_take; [|exact HD]. constructor; [now apply all_sp|auto|intros _; apply (stops_iff _ _ _ in_sp)|].
  { cbn. destruct (is_space a); [discriminate|reflexivity]. }
  econstructor; [|constructor]. cbn [app]. constructor; [now rewrite in_nd, Da|].
  change (b :: r ++ s1) with ((b :: r) ++ s1). constructor; [now apply all_ns|discriminate|intros _; now apply (stops_iff _ _ _ in_ns)|constructor].
Qed.
Lemma nx_intf_skip c0 a s : is_space c0 = true -> quad a -> forall i c1 i' s' c', ~ M (den [Run sp true; Grp 3 [One nd; Run ns true]]) i (c0 :: a ++ s) c1 i' s' c'.
Proof.
  intros S0 Qa i c1 i' s' c' HM. apply shape in HM. apply D_run_eq in HM as (g & r & E & K1 & K2 & HD). apply all_sp in K1.
  apply D_grp_eq in HD as (w & r' & c2 & -> & HD & _). apply D_one_eq in HD as (x & r2 & E2 & X1 & _). rewrite in_nd in X1. rewrite E2 in E.
  destruct (quad_first _ Qa) as (y & a' & -> & Dy). destruct g as [|g0 g]; [now apply K2|]. injection E as -> E.
  destruct g as [|g1 g]; cbn [app] in E.
  - injection E as <- _. now rewrite Dy in X1.
  - injection E as <- _. unfold white in K1. cbn in K1. rewrite (digit_nonspace _ Dy), andb_false_r in K1. discriminate.
Qed.
Lemma nx_route_fwd r t : nx_formed r -> nx_route_writes r t -> exists s', D true (nx_dest_T ++ nx_hop_T) t s' [] (nx_caps r).
Proof.
  intros WF HW. pose proof WF as (_ & _ & Wi & Wa & Htr & Hnm & Htg & Had). unfold nx_route_writes in HW. unfold nx_caps, nx_hop_T.
  destruct (n_intf r) as [i|] eqn:Ei.
  - unfold nx_words in HW. rewrite Ei in HW. destruct (nx_head_fwd r t [] (here (Some i) ++ here (n_addr r) ++ nx_after r) WF I) as (s & T & K).
    { now rewrite app_nil_r. }
    cbn [here app] in T. inversion T as [|g ? ? s1 G1 T1]; subst. rewrite (here_words (n_addr r)) in T1.
    pose proof (trail_no_more _ _ (fun c => negb (is_space c)) T1 (fun c Hc => proj1 (negb_true_iff _) Hc)) as Ns.
    eapply (opt_fwd [] (H 4) 4) in T1 as (s2 & T2 & K1); [|reflexivity|reflexivity|reflexivity|intros v Ev; rewrite Ev in Wa; exact Wa|].
    2:{ intros _. unfold nx_after. rewrite !arg_words, (here_words (n_ad r)). clear - Had Hnm Htr Htg. destruct r as [a1 a2 a3 a4 tr nm tg ad].
        cbn [n_track n_name n_tag n_ad] in *. clash_rest. }
    destruct (nx_after_fwd r s2 (put 4 (n_addr r) (put 3 (Some i) [(2, n_len r); (1, n_prefix r)])) Htr Hnm Htg Had T2) as (s' & HD).
    exists s'. apply K. cbn [app]. apply nx_intf_take; auto.
  - destruct (n_addr r) as [a|] eqn:Ea; [|contradiction]. destruct HW as (ma & (c0 & S0 & ->) & HL).
    destruct (nx_head_fwd r t (c0 :: a) (nx_after r) WF) as (s & T & K); [cbn; now rewrite S0|exact HL|].
    assert (T1 : trail (opt_words [] (Some a) ++ nx_after r) ([c0] ++ a ++ s)).
    { cbn [opt_words app]. apply (trail_word [c0] a); [|exact T]. split; [unfold white; cbn; now rewrite S0|discriminate]. }
    eapply (opt_fwd [] (H 4) 4) in T1 as (s2 & T2 & K1); [|reflexivity|reflexivity|reflexivity|intros v [= <-]; exact Wa|discriminate].
    destruct (nx_after_fwd r s2 (put 4 (Some a) (put 3 None [(2, n_len r); (1, n_prefix r)])) Htr Hnm Htg Had T2) as (s' & HD).
    exists s'. apply K. apply D_skip; [intros _; now apply nx_intf_skip|]. apply K1. exact HD.
Qed.
Lemma nx_route_shape t s' c : D false (nx_dest_T ++ nx_hop_T) t s' [] c ->
  exists r, c = nx_caps r /\ quad (n_prefix r) /\ digits (n_len r) /\ given weak_intf (n_intf r) /\ given quad (n_addr r) /\
    given digits (n_track r) /\ given word (n_name r) /\ given digits (n_tag r) /\ given digits (n_ad r) /\ exists p, t = p ++ s' /\ phrase (nx_words r) p.
Proof.
  intros HD. unfold nx_dest_T, nx_hop_T, nx_after_T in HD. cbn [app] in HD.
  apply D_lit_eq in HD as (s0 & -> & HD). apply D_run_eq in HD as (g & s1 & -> & K1 & K2 & HD). apply all_sp in K1. apply D_lit_eq in HD as (s2 & -> & HD).
  apply D_run_eq in HD as (g3 & s4 & -> & K3 & K4 & HD). apply all_sp in K3. specialize (K4 eq_refl). specialize (K2 eq_refl).
  apply D_grp_eq in HD as (a & s5 & c1 & -> & HQ & HD). rewrite <- (app_nil_r quad_items) in HQ. apply D_quad_inv in HQ as (a' & r0 & E & Qa & HQ). apply D_nil_eq in HQ as [-> ->]. apply app_inv_tail in E. subst a'.
  apply D_lit_eq in HD as (s6 & -> & HD). apply D_grp_eq in HD as (b & s7 & c2 & -> & HQ & HD). apply D_run_inv in HQ as (Db & Nb & ->). apply all_dg in Db. specialize (Nb eq_refl).
  assert (HI : exists i s8, given weak_intf i /\ hung (here i) s7 s8 /\ D false (opt_item [] (H 4) :: nx_after_T) s8 s' (put 3 i [(2, b); (1, a)]) c).
  { unfold nx_intf_item in HD. inversion HD as [| | | | | | | |? ? ? ? ? ? A1 HD'|? ? ? s9 ? ? c9 ? A1 HD']; subst.
    - exists None, s7. repeat split; auto. constructor.
    - apply D_run_eq in A1 as (g5 & r & -> & K5 & K6 & A1). apply all_sp in K5. apply D_grp_eq in A1 as (w & r' & c0 & -> & A2 & A1). apply D_nil_eq in A1 as [-> ->].
      apply D_one_eq in A2 as (x & r2 & E2 & X1 & A2). apply D_run_eq in A2 as (w2 & r3 & -> & X2 & X3 & A2). apply D_nil_eq in A2 as [-> ->].
      change (x :: w2 ++ r3) with ((x :: w2) ++ r3) in E2. apply app_inv_tail in E2. subst w. rewrite in_nd in X1. apply all_ns in X2.
      exists (Some (x :: w2)), r3. repeat split; auto.
      + exists x, w2. repeat split; auto. now destruct (is_digit x).
      + cbn [here]. constructor; [now split; auto|constructor]. }
  clear HD. destruct HI as (i & s8 & Wi & H2 & HD).
  apply (opt_hung [] (H 4) 4) in HD as (ad0 & s9 & Fa0 & H3 & HD); [|reflexivity]. unfold nx_after_T in HD.
  apply (opt_hung [lit "track"] (N 5) 5) in HD as (tr & s10 & Ftr & H4 & HD); [|reflexivity].
  apply (opt_hung [lit "name"] (G 6) 6) in HD as (nm & s11 & Fnm & H5 & HD); [|reflexivity].
  apply (opt_hung [lit "tag"] (N 7) 7) in HD as (tg & s12 & Ftg & H6 & HD); [|reflexivity].
  apply (opt_hung [] (N 8) 8) in HD as (ad & s13 & Fad & H7 & HD); [|reflexivity].
  apply D_nil_eq in HD as [-> ->].
  exists {| n_prefix := a; n_len := b; n_intf := i; n_addr := ad0; n_track := tr; n_name := nm; n_tag := tg; n_ad := ad |}.
  cbn [n_prefix n_len n_intf n_addr n_track n_name n_tag n_ad]. split; [reflexivity|].
  split; [exact Qa|]. split; [split; assumption|]. repeat (split; [first [assumption | apply given_all; assumption]|]).
  unfold nx_words, nx_after, destination. cbn [n_prefix n_len n_intf n_addr n_track n_name n_tag n_ad]. cbn [app]. apply hung_phrase. constructor; [split; auto|].
  replace (g3 ++ a ++ lit "/" ++ b ++ s7) with (g3 ++ (a ++ "/" :: b) ++ s7) by (rewrite <- app_assoc; reflexivity). constructor; [split; auto|].
  rewrite !arg_words, (here_words ad0), (here_words ad). repeat (eapply hung_app; [eassumption|]). exact H7.
Qed.
Lemma nxr_info_caps c m : m_groups m = map (fun j => cap j c) (seq 1 8) ->
  nxr_info m "prefix" = cap 1 c /\ nxr_info m "masklen" = cap 2 c /\ nxr_info m "nh_intf" = cap 3 c /\ nxr_info m "nh_addr" = cap 4 c /\
  nxr_info m "track_group" = cap 5 c /\ nxr_info m "name" = cap 6 c /\ nxr_info m "tag" = cap 7 c /\ nxr_info m "ad" = cap 8 c.
Proof.
  intros E. unfold nxr_info, named. destruct (compile false nxr_pattern) as [[x e]|] eqn:C; [|vm_compute in C; discriminate].
  assert (X0 : snd e = map (fun p => (lit (fst p), snd p)) [("ad", 8); ("tag", 7); ("name", 6); ("track_group", 5); ("nh_addr", 4); ("nh_intf", 3); ("masklen", 2); ("prefix", 1)]%string) by (vm_compute in C; injection C as _ <-; reflexivity).
  rewrite X0, E. repeat split.
Qed.
Lemma nx_reports_caps r m : m_groups m = map (fun j => cap j (nx_caps r)) (seq 1 8) -> (forall i, n_intf r = Some i -> i <> []) -> nx_reports m r.
Proof.
  intros E Wi. apply nxr_info_caps in E as (E1 & E2 & E3 & E4 & E5 & E6 & E7 & E8).
  unfold nx_caps, nx_after_caps in *. rewrite ?cap_put in *. cbn [Nat.eqb] in *. cbn [cap Nat.eqb] in *. rewrite ?cap_put in *. cbn [cap Nat.eqb] in *.
  unfold nx_reports, nxr_nexthop_str, nxr_network, nxr_masklen, nxr_next_hop_interface, nxr_next_hop_addr, nxr_admin_distance, nxr_name, nxr_tracking_object_name, nxr_tag, nx_hop_text.
  rewrite E1, E2, E3, E4, E5, E6, E7, E8. destruct r as [pre len intf ad0 tr nm tg ad]. cbn [n_prefix n_len n_intf n_addr n_track n_name n_tag n_ad] in *.
  assert (OE : forall o : option str, or_empty match o with Some v => Some v | None => None end = text_of_part o) by (now intros [|]).
  rewrite !OE. repeat split.
  - destruct intf as [i|]; cbn; [|reflexivity]. specialize (Wi i eq_refl). now destruct i.
  - now destruct tr.
  - now destruct ad.
Qed.

(** A route over an interface, or to an address with one white character before it: every
    attribute is the part of the command that is meant, whichever other parts are there. *)
Theorem C84_fields : forall r t, nx_formed r -> nx_route_writes r t -> exists m, nxr_init t = Ok m /\ nx_reports m r.
Proof.
  intros r t WF HW. destruct (nx_route_fwd r t WF HW) as (s' & HD). destruct (reads_some _ _ _ _ _ _ nxr_reads HD) as (m & E). eexists. unfold nxr_init. rewrite E. split; [reflexivity|].
  apply nx_reports_caps; [reflexivity|]. intros i Ei. destruct WF as (_ & _ & Wi & _). rewrite Ei in Wi. apply Wi.
Qed.
Print Assumptions C84_fields.

(** Whatever the text, what the object reports stands in the text, in this order and from its
    beginning on. *)
Theorem C84_nothing_invented : forall t m, nxr_init t = Ok m ->
  exists r p e, nx_reports m r /\ t = p ++ e /\ phrase (nx_words r) p /\ quad (n_prefix r) /\ digits (n_len r) /\ given quad (n_addr r) /\
    given digits (n_track r) /\ given word (n_name r) /\ given digits (n_tag r) /\ given digits (n_ad r).
Proof.
  intros t m E. unfold nxr_init in E. destruct (rx_find (pattern false nxr_pattern) t) as [m'|] eqn:E0; [|discriminate]. injection E as <-.
  destruct (reads_shape _ _ _ _ _ nxr_reads E0) as (s' & c & HD & EG). apply nx_route_shape in HD as (r & -> & Qp & Dl & Wi & Qa & Dt & Wn & Dg & Da & p & -> & P).
  exists r, p, s'. split; [apply nx_reports_caps; [exact EG|]; intros i Ei; rewrite Ei in Wi; destruct Wi as (x & y & -> & _); discriminate|].
  split; [reflexivity|]. split; [exact P|]. split; [exact Qp|]. split; [exact Dl|]. auto.
Qed.
Print Assumptions C84_nothing_invented.

(** A text is taken as a route if and only if it begins with "ip route", a dotted quad, "/"
    and digits; anything else raises a ValueError. *)
Theorem C84_accepted : forall t,
  ((exists g g' a l e, t = lit "ip" ++ g ++ lit "route" ++ g' ++ a ++ "/" :: l ++ e /\ gap g /\ gap g' /\ quad a /\ digits l) <-> exists m, nxr_init t = Ok m) /\
  (forall x, nxr_init t = Err x -> x = ValueError).
Proof.
  intros t. split; [split|].
  - intros (g & g' & a & l & e & -> & [G1 G2] & [G3 G4] & Qa & [L1 L2]). unfold nxr_init.
    assert (HF : rx_find (pattern false nxr_pattern) (lit "ip" ++ g ++ lit "route" ++ g' ++ a ++ "/" :: l ++ e) <> None).
    { apply (reads_found _ _ _ false _ e [(2, l); (1, a)] nxr_reads). unfold nx_dest_T. cbn [app]. apply D_lit. apply D_run; [now apply all_sp|auto|discriminate|]. apply D_lit. apply D_run; [now apply all_sp|auto|discriminate|].
      eapply D_grp; [rewrite <- (app_nil_r quad_items); apply D_quad; [exact Qa|discriminate|constructor]|]. change ("/" :: l ++ e) with (lit "/" ++ l ++ e). apply D_lit.
      eapply D_grp; [apply D_run; [now apply all_dg|auto|discriminate|constructor]|].
      unfold nx_hop_T, nx_after_T, nx_intf_item, opt_item. repeat (apply D_skip; [discriminate|]). constructor. }
    destruct (rx_find (pattern false nxr_pattern) _) as [m|]; [now exists m|congruence].
  - intros (m & E). destruct (C84_nothing_invented t m E) as (r & p & e & _ & -> & P & Qp & Dl & _). unfold nx_words in P. cbn [app] in P.
    inversion P as [|? g ? q G1 P1]; subst. inversion P1 as [|? g' ? q' G2 P2]; subst.
    assert (X0 : exists z, q' = destination r ++ z). { inversion P2; subst; [exists []; now rewrite app_nil_r|eauto]. }
    destruct X0 as (z & ->). exists g, g', (n_prefix r), (n_len r), (z ++ e). split; [|auto]. unfold destination. repeat (rewrite <- ?app_assoc; cbn [app]). reflexivity.
  - unfold nxr_init. intros x. destruct (rx_find _ t); [discriminate|]. now intros [= <-].
Qed.
Print Assumptions C84_accepted.

(** In the usual notation the network object is that address with that prefix length. *)
Theorem C84_network : forall r t ip p, nx_formed r -> nx_route_writes r t -> valid 32 ip p -> n_prefix r = dotted ip -> n_len r = show_Z p ->
  exists m, nxr_init t = Ok m /\ nxr_network_object m = Some (obj 32 ip p) /\ nxr_netmask m = Ok (dotted (2 ^ 32 - 2 ^ (32 - p))).
Proof.
  intros r t ip p WF HW HV Ep Em. destruct (C84_fields r t WF HW) as (m & E & E1 & E2 & _). exists m. split; [exact E|].
  assert (E3 : nxr_network_object m = Some (obj 32 ip p)).
  { unfold nxr_network_object. rewrite E1, E2, Ep, Em. pose proof (C49_cidr_roundtrip [] [] ip p eq_refl eq_refl HV) as K. cbn [app] in K. rewrite app_nil_r in K. unfold as_cidr_addr in K. cbn [ip_int ip_plen obj] in K. cbn [app] in K. rewrite K. reflexivity. }
  split; [exact E3|]. unfold nxr_netmask. rewrite E3. now rewrite (PAttr.netmask_obj 32 ip p HV).
Qed.
Print Assumptions C84_network.

(** Two white characters before the address: the address, with the second of them before it,
    is reported as the interface. *)
Theorem C84_two_spaces_refuted : exists r t, nx_formed r /\ n_intf r = None /\ n_addr r = Some (lit "10.1.1.1") /\ line_of (eq []) white (nx_words r) t /\
  exists m, nxr_init t = Ok m /\ nxr_next_hop_interface m = lit " 10.1.1.1" /\ nxr_next_hop_addr m = [].
Proof.
  exists {| n_prefix := lit "10.0.0.0"; n_len := lit "8"; n_intf := None; n_addr := Some (lit "10.1.1.1"); n_track := None; n_name := None; n_tag := None; n_ad := None |}, (lit "ip route 10.0.0.0/8  10.1.1.1").
  assert (Q1 : quad (lit "10.0.0.0")) by (exists (lit "10"), (lit "0"), (lit "0"), (lit "0"); split; [reflexivity|repeat constructor; discriminate]).
  assert (Q3 : quad (lit "10.1.1.1")) by (exists (lit "10"), (lit "1"), (lit "1"), (lit "1"); split; [reflexivity|repeat constructor; discriminate]).
  assert (D0 : digits (lit "8")) by (split; [discriminate|reflexivity]).
  split; [unfold nx_formed; cbn [n_prefix n_len n_intf n_addr n_track n_name n_tag n_ad given]; auto 12|]. split; [reflexivity|]. split; [reflexivity|]. split.
  - exists [], (lit "ip route 10.0.0.0/8  10.1.1.1"), []. split; [reflexivity|]. repeat split.
    change (phrase (map lit ["ip"; "route"; "10.0.0.0/8"; "10.1.1.1"]%string) (lit "ip" ++ [" "] ++ lit "route" ++ [" "] ++ lit "10.0.0.0/8" ++ [" "; " "] ++ lit "10.1.1.1")).
    repeat (constructor; [split; [reflexivity|discriminate]|]). constructor.
  - eexists. split; [vm_compute; reflexivity|]. split; vm_compute; reflexivity.
Qed.
Print Assumptions C84_two_spaces_refuted.
(** Options in the order NX-OS writes them: a distance before a tag hides the tag, and a name
    before a track number hides the track number. *)
Theorem C84_order_refuted :
  (exists m, nxr_init (lit "ip route 10.0.0.0/8 10.1.1.1 name BACKUP track 7") = Ok m /\ nxr_name m = lit "BACKUP" /\ nxr_tracking_object_name m = None) /\
  (exists m, nxr_init (lit "ip route 10.0.0.0/8 10.1.1.1 200 tag 5") = Ok m /\ nxr_admin_distance m = Some (lit "200") /\ nxr_tag m = []).
Proof. split; (eexists; split; [vm_compute; reflexivity|split; vm_compute; reflexivity]). Qed.
Print Assumptions C84_order_refuted.
(** A prefix length out of range is taken; then there is no
    network object, and reading the netmask raises an AttributeError. *)
Theorem C84_length_refuted : exists m, nxr_init (lit "ip route 10.0.0.0/33 10.1.1.1") = Ok m /\ nxr_network_object m = None /\ nxr_netmask m = Err AttributeErr.
Proof. eexists. split; [vm_compute; reflexivity|]. split; vm_compute; reflexivity. Qed.
Print Assumptions C84_length_refuted.
(** "vrf" and a name before the network: a ValueError, though such a line is a route line. *)
Theorem C84_vrf_refuted : nxr_is_object_for (lit "ip route vrf RED 10.0.0.0/8 10.1.1.1") = true /\ nxr_init (lit "ip route vrf RED 10.0.0.0/8 10.1.1.1") = Err ValueError.
Proof. split; vm_compute; reflexivity. Qed.
Print Assumptions C84_vrf_refuted.

(** A route with everything. *)
Definition nx_route_ex : nxroute := {| n_prefix := lit "10.0.0.0"; n_len := lit "8"; n_intf := Some (lit "Ethernet1/2"); n_addr := Some (lit "10.1.1.1");
  n_track := Some (lit "7"); n_name := Some (lit "BACKUP"); n_tag := Some (lit "55"); n_ad := Some (lit "200") |}.
Example C84_ex : let t := lit "ip route 10.0.0.0/8  Ethernet1/2 10.1.1.1 track 7  name BACKUP tag 55 200 " in
  nx_formed nx_route_ex /\ nx_route_writes nx_route_ex t /\
  (do m <- nxr_init t; do n <- nxr_netmask m; Ok (nxr_nexthop_str m, nxr_tracking_object_name m, nxr_name m, nxr_tag m, nxr_admin_distance m, n))
  = Ok (lit "Ethernet1/2 10.1.1.1", Some (lit "7"), lit "BACKUP", lit "55", Some (lit "200"), lit "255.0.0.0").
Proof.
  cbv zeta. split; [|split; [|vm_compute; reflexivity]].
  - unfold nx_formed, nx_route_ex. cbn [n_prefix n_len n_intf n_addr n_track n_name n_tag n_ad given].
    assert (Q1 : quad (lit "10.0.0.0")) by (exists (lit "10"), (lit "0"), (lit "0"), (lit "0"); split; [reflexivity|repeat constructor; discriminate]).
    assert (Q3 : quad (lit "10.1.1.1")) by (exists (lit "10"), (lit "1"), (lit "1"), (lit "1"); split; [reflexivity|repeat constructor; discriminate]).
    assert (W0 : forall w, w <> [] -> forallb (fun c => negb (is_space c)) w = true -> word w) by (split; assumption).
    assert (D0 : forall w, w <> [] -> forallb is_digit w = true -> digits w) by (split; assumption).
    repeat (split; [first [assumption | apply W0; [discriminate|reflexivity] | apply D0; [discriminate|reflexivity] | (split; [apply W0; [discriminate|reflexivity]|]; eexists _, _, _; split; reflexivity)]|]).
    apply D0; [discriminate|reflexivity].
  - exists [], (lit "ip route 10.0.0.0/8  Ethernet1/2 10.1.1.1 track 7  name BACKUP tag 55 200"), (lit " "). split; [reflexivity|]. repeat split.
    change (phrase (map lit ["ip"; "route"; "10.0.0.0/8"; "Ethernet1/2"; "10.1.1.1"; "track"; "7"; "name"; "BACKUP"; "tag"; "55"; "200"]%string)
      (lit "ip" ++ [" "] ++ lit "route" ++ [" "] ++ lit "10.0.0.0/8" ++ [" "; " "] ++ lit "Ethernet1/2" ++ [" "] ++ lit "10.1.1.1"
       ++ [" "] ++ lit "track" ++ [" "] ++ lit "7" ++ [" "; " "] ++ lit "name" ++ [" "] ++ lit "BACKUP" ++ [" "] ++ lit "tag" ++ [" "] ++ lit "55" ++ [" "] ++ lit "200")).
    repeat (constructor; [split; [reflexivity|discriminate]|]). constructor.
Qed.
(** A route to an address with one white character before it. *)
Definition nx_route_ex2 : nxroute := {| n_prefix := lit "10.0.0.0"; n_len := lit "8"; n_intf := None; n_addr := Some (lit "10.1.1.1");
  n_track := None; n_name := Some (lit "BACKUP"); n_tag := None; n_ad := None |}.
Example C84_ex2 : let t := lit "ip route  10.0.0.0/8 10.1.1.1   name BACKUP" in
  nx_route_writes nx_route_ex2 t /\ (do m <- nxr_init t; Ok (nxr_nexthop_str m, nxr_name m, nxr_admin_distance m)) = Ok (lit "10.1.1.1", lit "BACKUP", Some (lit "1")).
Proof.
  cbv zeta. split; [|vm_compute; reflexivity]. exists (lit "10.0.0.0/8 10.1.1.1"). split; [exists " "; split; reflexivity|].
  exists [], (lit "ip route  10.0.0.0/8 10.1.1.1   name BACKUP"), []. split; [reflexivity|]. repeat split.
  change (phrase (map lit ["ip"; "route"; "10.0.0.0/8 10.1.1.1"; "name"; "BACKUP"]%string)
    (lit "ip" ++ [" "] ++ lit "route" ++ [" "; " "] ++ lit "10.0.0.0/8 10.1.1.1" ++ [" "; " "; " "] ++ lit "name" ++ [" "] ++ lit "BACKUP")).
  repeat (constructor; [split; [reflexivity|discriminate]|]). constructor.
Qed.
