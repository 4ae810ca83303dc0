(** C66: IPv4 static routes report what the command says. *)
From Coq Require Import Ascii String Arith NArith ZArith Bool List Lia.
From Verif Require Import PyStr PyStrFacts PyBase SearchModel IntfModel IntfSpec IntfFacts IpModel IpSpec IpFacts PIp PIpText PyRe PyReFacts PyReTmpl PyReSent IosSpec IosModel IosFacts RouteSpec RouteModel RouteFacts PIos.
Import ListNotations.
Local Open Scope char_scope.

Definition text_of_part (o : option str) : str := match o with Some v => v | None => [] end.
Definition is_there (o : option str) : bool := match o with Some _ => true | None => false end.
(** The next hop as one text. *)
Definition hop_text (r : route) : str :=
  match r_intf r with Some i => i ++ " " :: text_of_part (r_addr r) | None => text_of_part (r_addr r) end.
(** The attributes of the object are the parts of the command. *)
Definition reports (m : rmatch) (r : route) : Prop :=
  rt_vrf m = text_of_part (r_vrf r) /\ rt_network m = Some (r_prefix r) /\ rt_netmask m = Some (r_mask r) /\
  rt_next_hop_interface m = text_of_part (r_intf r) /\ rt_next_hop_addr m = text_of_part (r_addr r) /\ rt_nexthop_str m = hop_text r /\
  rt_global_next_hop m = (if is_there (r_vrf r) then r_global r else true) /\
  (match r_ad r with None => rt_admin_distance m = Ok 1%Z | Some d => exists n, numeral d n /\ rt_admin_distance m = Ok n end) /\
  rt_multicast m = r_multicast r /\ rt_name m = text_of_part (r_name r) /\ rt_permanent m = r_permanent r /\
  rt_tracking_object_name m = text_of_part (r_track r) /\ rt_tag m = text_of_part (r_tag r).

Lemma word_truth w : word w -> truth w = true.
Proof. intros [NE _]. now destruct w. Qed.
Lemma info_caps c m : m_groups m = map (fun j => cap j c) (seq 1 13) ->
  info m "vrf" = cap 1 c /\ info m "prefix" = cap 2 c /\ info m "netmask" = cap 3 c /\ info m "nh_intf" = cap 4 c /\ info m "nh_addr" = cap 5 c /\
  info m "global" = cap 7 c /\ info m "ad" = cap 8 c /\ info m "mcast" = cap 9 c /\ info m "name" = cap 10 c /\ info m "permanent" = cap 11 c /\
  info m "track" = cap 12 c /\ info m "tag" = cap 13 c.
Proof.
  intros E. unfold info, named. destruct (compile false route_pattern) as [[x e]|] eqn:C; [|vm_compute in C; discriminate].
  assert (X0 : snd e = map (fun p => (lit (fst p), snd p)) [("tag", 13); ("track", 12); ("permanent", 11); ("name", 10); ("mcast", 9); ("ad", 8); ("global", 7); ("dhcp", 6); ("nh_addr", 5);
    ("nh_intf", 4); ("netmask", 3); ("prefix", 2); ("vrf", 1)]%string) by (vm_compute in C; injection C as _ <-; reflexivity).
  rewrite X0, E. repeat split.
Qed.
Lemma reports_caps r m : m_groups m = map (fun j => cap j (route_caps r)) (seq 1 13) ->
  given word (r_vrf r) -> (forall i, r_intf r = Some i -> i <> []) -> given digits (r_ad r) -> given word (r_name r) -> reports m r.
Proof.
  intros E Wv Wi Wd Wn. apply info_caps in E as (E1 & E2 & E3 & E4 & E5 & E7 & E8 & E9 & E10 & E11 & E12 & E13).
  unfold route_caps, after_caps, head_caps in *. rewrite ?cap_put in *. cbn [Nat.eqb] in *. cbn [cap Nat.eqb] in *. rewrite ?cap_put in *. cbn [cap Nat.eqb] in *.
  unfold reports, rt_nexthop_str, rt_global_next_hop, rt_vrf, rt_network, rt_netmask, rt_next_hop_interface, rt_next_hop_addr, rt_admin_distance, rt_multicast, rt_name, rt_permanent,
    rt_tracking_object_name, rt_tag, hop_text. rewrite E1, E2, E3, E4, E5, E7, E8, E9, E10, E11, E12, E13.
  destruct r as [vrf pre mask intf ad0 dh gl ad mc nm pm tr tg].
  cbn [r_vrf r_prefix r_mask r_intf r_addr r_dhcp r_global r_ad r_multicast r_name r_permanent r_track r_tag given] in *.
  assert (OE : forall o : option str, or_empty match o with Some v => Some v | None => None end = text_of_part o) by (now intros [|]).
  rewrite !OE. repeat split.
  - destruct intf as [i|]; cbn; [|reflexivity]. specialize (Wi i eq_refl). now destruct i.
  - destruct vrf as [v|]; cbn; [|reflexivity]. apply word_truth in Wv. rewrite Wv. now destruct gl.
  - destruct ad as [d|]; cbn; [|reflexivity]. destruct Wd as [W1 W2]. exists (digits_Z d). split; [now apply digits_numeral|].
    destruct d as [|x d]; [congruence|]. cbn [truth]. now apply to_int_digits.
  - now destruct mc.
  - now destruct pm.
Qed.

(** A route over an interface, or to an address with one white character before it: every
    attribute is the part of the command that is meant, whichever other parts are there. *)
Theorem C66_fields : forall r t, well_formed r -> writes r t -> exists m, route_init t = Ok m /\ reports m r.
Proof.
  intros r t WF HW. destruct (route_fwd r t WF HW) as (s' & HD).
  destruct (reads_some _ _ _ _ _ _ route_reads HD) as (m & E). eexists. unfold route_init. rewrite E. split; [reflexivity|].
  apply reports_caps; [reflexivity|apply WF| |apply WF|apply WF]. intros i Ei. destruct WF as (_ & _ & _ & Wi & _). rewrite Ei in Wi. apply Wi.
Qed.
Print Assumptions C66_fields.

(** Whatever the text, what the object reports stands in the text, in this order and from
    its beginning on. *)
Theorem C66_nothing_invented : forall t m, route_init t = Ok m ->
  exists r p e, reports m r /\ t = p ++ e /\ phrase (route_words r) p /\
    given word (r_vrf r) /\ quad (r_prefix r) /\ quad (r_mask r) /\ given quad (r_addr r) /\ given digits (r_ad r) /\
    given word (r_name r) /\ given digits (r_track r) /\ given digits (r_tag r).
Proof.
  intros t m E. unfold route_init in E. destruct (rx_find (pattern false route_pattern) t) as [m'|] eqn:E0; [|discriminate]. injection E as <-.
  destruct (reads_shape _ _ _ _ _ route_reads E0) as (s' & c & HD & EG).
  apply route_shape in HD as (r & -> & Wv & Qp & Qm & Wi & Qa & Wd & Wn & Wt & Wg & p & -> & P).
  exists r, p, s'. split; [|repeat split; auto; apply Qp || apply Qm]. apply reports_caps; auto. intros i Ei. rewrite Ei in Wi. destruct Wi as (x & y & -> & _). discriminate.
Qed.
Print Assumptions C66_nothing_invented.

(** A text is taken as a route if and only if it begins with "ip route", perhaps "vrf NAME",
    and two dotted quads; anything else raises a ValueError. *)
Theorem C66_accepted : forall t,
  (exists v a b p e, t = p ++ e /\ given word v /\ quad a /\ quad b /\ phrase ([lit "ip"; lit "route"] ++ arg "vrf" v ++ [a; b]) p) <->
  exists m, route_init t = Ok m.
Proof.
  intros t. split.
  - intros (v & a & b & p & e & -> & Wv & Qa & Qb & P).
    assert (Z : rx_find (pattern false route_pattern) (p ++ e) <> None).
    { assert (T : exists s', hung (lit "route" :: arg "vrf" v ++ [a; b]) s' e /\ p ++ e = lit "ip" ++ s').
      { cbn [app] in P. inversion P as [|? g ? q G1 P']; subst. exists (g ++ q ++ e). split; [now apply phrase_hung|now rewrite <- !app_assoc]. }
      destruct T as (s' & T & ->). inversion T as [|g ? ? s1 ? G1 T1]; subst.
      assert (T2 : exists s2, hung [a; b] s2 e /\ D false [opt_item [lit "vrf"] (G 1)] s1 s2 [] (put 1 v [])).
      { destruct v as [v|]; cbn [arg app] in T1.
        - inversion T1 as [|g1 ? ? s2 ? G2 T2]; subst. inversion T2 as [|g2 ? ? s3 ? G3 T3]; subst. exists s3. split; [exact T3|].
          eapply D_take; [|constructor]. constructor; [apply all_sp, G2|intros _; apply G2|discriminate|]. cbn [sent map app items].
          apply (D_lit false (lit "vrf")). constructor; [apply all_sp, G3|intros _; apply G3|discriminate|]. econstructor; [|constructor].
          constructor; [apply all_ns, Wv|intros _; apply Wv|discriminate|constructor].
        - exists s1. split; [exact T1|]. apply D_skip; [discriminate|constructor]. }
      destruct T2 as (s2 & T2 & HD). inversion T2 as [|g2 ? ? s3 ? G2 T3]; subst. inversion T3 as [|g3 ? ? s4 ? G3 T4]; subst. inversion T4; subst.
      eapply (reads_found _ _ _ false); [exact route_reads|]. apply (D_lit false (lit "ip")).
      constructor; [apply all_sp, G1|intros _; apply G1|discriminate|]. apply (D_lit false (lit "route")).
      assert (X0 : forall T s' c', D false T (g2 ++ a ++ g3 ++ b ++ e) s' (put 1 v []) c' -> D false (opt_item [lit "vrf"] (G 1) :: T) s1 s' [] c').
      { intros T0 u c' HT. inversion HD as [| | | | | | | |? ? ? ? ? ? A1 HD'|? ? ? u1 ? ? c1 ? A1 HD']; subst.
        - apply D_nil_eq in HD' as [E1 E2]. rewrite <- E1, E2 in *. now apply D_skip.
        - apply D_nil_eq in HD' as [E1 E2]. rewrite E1, E2 in *. eapply D_take; eassumption. }
      apply X0. constructor; [apply all_sp, G2|intros _; apply G2|discriminate|]. cbn [sent app items].
      econstructor; [apply (D_quad false [] a (g3 ++ b ++ e)); [exact Qa|discriminate|constructor]|].
      constructor; [apply all_sp, G3|intros _; apply G3|discriminate|].
      econstructor; [apply (D_quad false [] b e); [exact Qb|discriminate|constructor]|].
      unfold hop_T, after_T, intf_item, opt_item. repeat (apply D_skip; [discriminate|]). constructor. }
    unfold route_init. destruct (rx_find (pattern false route_pattern) (p ++ e)) as [m|]; [now exists m|congruence].
  - intros (m & E). destruct (C66_nothing_invented t m E) as (r & p & e & _ & -> & P & Wv & Qp & Qm & _). unfold route_words, before_hop in P.
    assert (X0 : forall a b q, a <> [] -> phrase (a ++ b) q -> exists q' e', q = q' ++ e' /\ phrase a q').
    { clear. induction a as [|w a IH]; intros b q NE P; [congruence|]. destruct a as [|w' a].
      - cbn in P. inversion P; subst; [exists q, []; rewrite app_nil_r; split; [reflexivity|constructor]|eexists w, _; split; [reflexivity|constructor]].
      - cbn [app] in P. inversion P as [|? g ? q0 G1 P']; subst. destruct (IH b q0 ltac:(discriminate) P') as (q' & e' & -> & P2).
        exists (w ++ g ++ q'), e'. rewrite <- !app_assoc. split; [reflexivity|now constructor]. }
    replace (([lit "ip"; lit "route"] ++ arg "vrf" (r_vrf r) ++ [r_prefix r]) ++ [r_mask r] ++ here (r_intf r) ++ here (r_addr r) ++ after_hop r)
      with (([lit "ip"; lit "route"] ++ arg "vrf" (r_vrf r) ++ [r_prefix r; r_mask r]) ++ here (r_intf r) ++ here (r_addr r) ++ after_hop r) in P
      by (rewrite <- !app_assoc; reflexivity).
    apply X0 in P as (q' & e' & -> & P); [|discriminate]. exists (r_vrf r), (r_prefix r), (r_mask r), q', (e' ++ e). rewrite app_assoc. auto.
Qed.
Print Assumptions C66_accepted.

(** In the usual notation the network object is that address with that prefix length. *)
Theorem C66_network : forall r t ip p, well_formed r -> writes r t -> valid 32 ip p -> r_prefix r = dotted ip -> r_mask r = dotted (mask_of p) ->
  exists m, route_init t = Ok m /\ rt_network_object m = Some (obj 32 ip p) /\ rt_masklen m = Ok p.
Proof.
  intros r t ip p WF HW HV Ep Em. destruct (C66_fields r t WF HW) as (m & E & _ & E1 & E2 & _). exists m. split; [exact E|].
  assert (E3 : rt_network_object m = Some (obj 32 ip p)).
  { unfold rt_network_object. rewrite E1, E2, Ep, Em. pose proof (C49_netmask [] [] ["/"] ip p eq_refl eq_refl) as K. cbn [app] in K. rewrite List.app_nil_r in K. rewrite K; auto. now left. }
  split; [exact E3|]. unfold rt_masklen. now rewrite E3.
Qed.
Print Assumptions C66_network.

(** Two white characters before the address: the address, with the second of them before it,
    is reported as the interface. *)
Theorem C66_two_spaces_refuted : exists r t, well_formed r /\ r_intf r = None /\ r_addr r = Some (lit "10.1.1.1") /\ line_of (eq []) white (route_words r) t /\
  exists m, route_init t = Ok m /\ rt_next_hop_interface m = lit " 10.1.1.1" /\ rt_next_hop_addr m = [].
Proof.
  exists {| r_vrf := None; r_prefix := lit "10.0.0.0"; r_mask := lit "255.0.0.0"; r_intf := None; r_addr := Some (lit "10.1.1.1"); r_dhcp := false; r_global := false; r_ad := None;
    r_multicast := false; r_name := None; r_permanent := false; r_track := None; r_tag := None |}, (lit "ip route 10.0.0.0 255.0.0.0  10.1.1.1").
  assert (Q1 : quad (lit "10.0.0.0")) by (exists (lit "10"), (lit "0"), (lit "0"), (lit "0"); split; [reflexivity|repeat constructor; discriminate]).
  assert (Q2 : quad (lit "255.0.0.0")) by (exists (lit "255"), (lit "0"), (lit "0"), (lit "0"); split; [reflexivity|repeat constructor; discriminate]).
  assert (Q3 : quad (lit "10.1.1.1")) by (exists (lit "10"), (lit "1"), (lit "1"), (lit "1"); split; [reflexivity|repeat constructor; discriminate]).
  split; [unfold well_formed; cbn [r_vrf r_prefix r_mask r_intf r_addr r_ad r_name r_track r_tag given]; auto 12|]. split; [reflexivity|]. split; [reflexivity|]. split.
  - exists [], (lit "ip route 10.0.0.0 255.0.0.0  10.1.1.1"), []. split; [now rewrite app_nil_r|]. repeat split.
    change (phrase [lit "ip"; lit "route"; lit "10.0.0.0"; lit "255.0.0.0"; lit "10.1.1.1"]
      (lit "ip" ++ [" "] ++ lit "route" ++ [" "] ++ lit "10.0.0.0" ++ [" "] ++ lit "255.0.0.0" ++ [" "; " "] ++ lit "10.1.1.1")).
    repeat (constructor; [split; [reflexivity|discriminate]|]). constructor.
  - eexists. split; [vm_compute; reflexivity|]. split; vm_compute; reflexivity.
Qed.
Print Assumptions C66_two_spaces_refuted.
(** A next hop learned by DHCP is reported as an interface of that name. *)
Theorem C66_dhcp_refuted : exists m, route_init (lit "ip route 0.0.0.0 0.0.0.0 dhcp 200") = Ok m /\
  rt_next_hop_interface m = lit "dhcp" /\ info m "dhcp" = None.
Proof. eexists. split; [vm_compute; reflexivity|]. split; vm_compute; reflexivity. Qed.
Print Assumptions C66_dhcp_refuted.
(** An interface written with a space: the digits after it become the distance, and the
    address is lost. *)
Theorem C66_spaced_interface_refuted : exists m, route_init (lit "ip route 10.0.0.0 255.0.0.0 Serial 0/1 10.1.1.1") = Ok m /\
  rt_next_hop_interface m = lit "Serial" /\ rt_admin_distance m = Ok 0%Z /\ rt_next_hop_addr m = [].
Proof. eexists. split; [vm_compute; reflexivity|]. repeat split; vm_compute; reflexivity. Qed.
Print Assumptions C66_spaced_interface_refuted.
(** Options in another order: a name after a tag is lost. *)
Theorem C66_order_refuted : exists m, route_init (lit "ip route 10.0.0.0 255.0.0.0 10.1.1.1 tag 5 name BACKUP") = Ok m /\ rt_tag m = lit "5" /\ rt_name m = [].
Proof. eexists. split; [vm_compute; reflexivity|]. split; vm_compute; reflexivity. Qed.
Print Assumptions C66_order_refuted.

(** A route with nearly everything. *)
Definition route_ex : route :=
  {| r_vrf := Some (lit "RED"); r_prefix := lit "10.0.0.0"; r_mask := lit "255.0.0.0"; r_intf := Some (lit "Serial0/1"); r_addr := Some (lit "10.1.1.1"); r_dhcp := false; r_global := true;
     r_ad := Some (lit "200"); r_multicast := false; r_name := Some (lit "BACKUP"); r_permanent := false; r_track := Some (lit "7"); r_tag := Some (lit "55") |}.
Example C66_case : let t := lit "ip route vrf RED 10.0.0.0 255.0.0.0  Serial0/1 10.1.1.1 global 200 name BACKUP  track 7 tag 55 " in
  well_formed route_ex /\ writes route_ex t /\
  (do m <- route_init t; do d <- rt_admin_distance m; do l <- rt_masklen m;
   Ok (rt_vrf m, rt_nexthop_str m, rt_global_next_hop m, d, rt_name m, rt_tracking_object_name m, rt_tag m, l))
  = Ok (lit "RED", lit "Serial0/1 10.1.1.1", true, 200%Z, lit "BACKUP", lit "7", lit "55", 8%Z).
Proof.
  cbv zeta. split; [|split; [|vm_compute; reflexivity]].
  - unfold well_formed, route_ex. cbn [r_vrf r_prefix r_mask r_intf r_addr r_ad r_name r_track r_tag given].
    assert (Q1 : quad (lit "10.0.0.0")) by (exists (lit "10"), (lit "0"), (lit "0"), (lit "0"); split; [reflexivity|repeat constructor; discriminate]).
    assert (Q2 : quad (lit "255.0.0.0")) by (exists (lit "255"), (lit "0"), (lit "0"), (lit "0"); split; [reflexivity|repeat constructor; discriminate]).
    assert (Q3 : quad (lit "10.1.1.1")) by (exists (lit "10"), (lit "1"), (lit "1"), (lit "1"); split; [reflexivity|repeat constructor; discriminate]).
    assert (W0 : forall w, w <> [] -> forallb (fun c => negb (is_space c)) w = true -> word w) by (split; assumption).
    assert (D0 : forall w, w <> [] -> forallb is_digit w = true -> digits w) by (split; assumption).
    repeat (split; [first [assumption | apply W0; [discriminate|reflexivity] | apply D0; [discriminate|reflexivity] | (split; [apply W0; [discriminate|reflexivity]|]; eexists _, _, _; split; reflexivity)]|]).
    apply D0; [discriminate|reflexivity].
  - exists [], (lit "ip route vrf RED 10.0.0.0 255.0.0.0  Serial0/1 10.1.1.1 global 200 name BACKUP  track 7 tag 55"), (lit " "). split; [reflexivity|]. repeat split.
    change (phrase (map lit ["ip"; "route"; "vrf"; "RED"; "10.0.0.0"; "255.0.0.0"; "Serial0/1"; "10.1.1.1"; "global"; "200"; "name"; "BACKUP"; "track"; "7"; "tag"; "55"]%string)
      (lit "ip" ++ [" "] ++ lit "route" ++ [" "] ++ lit "vrf" ++ [" "] ++ lit "RED" ++ [" "] ++ lit "10.0.0.0" ++ [" "] ++ lit "255.0.0.0" ++ [" "; " "] ++ lit "Serial0/1" ++ [" "] ++ lit "10.1.1.1"
       ++ [" "] ++ lit "global" ++ [" "] ++ lit "200" ++ [" "] ++ lit "name" ++ [" "] ++ lit "BACKUP" ++ [" "; " "] ++ lit "track" ++ [" "] ++ lit "7" ++ [" "] ++ lit "tag" ++ [" "] ++ lit "55")).
    repeat (constructor; [split; [reflexivity|discriminate]|]). constructor.
Qed.
