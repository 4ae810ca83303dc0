(** C85: the classes of lines with factory=True, syntaxes nxos, asa, iosxr and junos. *)
From Coq Require Import Ascii String Arith NArith ZArith Bool List Lia.
From Verif Require Import PyStr PyStrFacts PyBase CfgModel SearchModel IntfModel IntfSpec IntfFacts PyRe PyReFacts PyReTmpl PyReSent IosSpec IosModel IosFacts RouteSpec RouteModel RouteFacts NameSpec XrSpec FactorySpec FactoryModel FactoryFacts PFactory AclModel AsaIntfSpec AsaIntfModel NxosRouteSpec NxosRouteModel FactoryAllSpec FactoryAllModel.
From Verif Require TreePost PAsaLine PNxosRoute PXr.
Import ListNotations.
Local Open Scope char_scope.

(** The rules, in the order in which they are tried. *)
Definition nxos_rules : list (nclass * (str -> Prop)) :=
  [(NXOSIntfLine, nx_interface); (NXOSRouteLine, fun l => starts "ip route" l \/ starts "ipv6 route " l); (NXOSAccessLine, starts "line");
   (NXOSAaaLoginAuthenticationLine, tightly ["aaa"; "authentication"; "login"]%string);
   (NXOSAaaEnableAuthenticationLine, tightly ["aaa"; "authentication"; "enable"]%string);
   (NXOSAaaCommandsAuthorizationLine, tightly ["aaa"; "authorization"; "commands"]%string);
   (NXOSAaaConsoleAuthorizationLine, begins white ["aaa"; "authorization"; "console"]%string);
   (NXOSAaaCommandsAccountingLine, tightly ["aaa"; "accounting"; "commands"]%string);
   (NXOSAaaExecAccountingLine, tightly ["aaa"; "accounting"; "exec"]%string);
   (NXOSAaaGroupServerLine, tightly ["aaa"; "group"; "server"]%string);
   (NXOSvPCLine, begins none ["vpc"; "domain"]%string); (NXOSHostnameLine, starts "hostname"); (NXOSIntfGlobal, global_line)].
Definition asa_rules : list (aclass * (str -> Prop)) :=
  [(ASAIntfLine, long_interface); (ASAName, low_starts "name "); (ASAObjNetwork, low_starts "object network "); (ASAObjService, low_starts "object service ");
   (ASAObjGroupNetwork, low_starts "object-group network "); (ASAObjGroupService, low_starts "object-group service ");
   (ASAIntfGlobal, starts "mtu"); (ASAHostnameLine, starts "hostname"); (ASAAclLine, low_starts "access-list ")].
Definition xr_rules : list (xclass * (str -> Prop)) := [(IOSXRIntfLine, long_interface)].
Definition nxos_chosen := first_rule nxos_rules NXOSCfgLine.
Definition asa_chosen := first_rule asa_rules ASACfgLine.
Definition xr_chosen := first_rule xr_rules IOSXRCfgLine.
(** A line that looks like a route or like an AAA group but is not one. [v6] says which texts
    are IPv6 routes. *)
Definition nxos_refused (v6 : str -> bool) (l : str) : Prop :=
  (nxos_chosen NXOSRouteLine l /\ (starts "ipv6" (rstrip l) -> v6 (rstrip l) = false) /\ (~ starts "ipv6" (rstrip l) -> ~ nx_ip_route (rstrip l))) \/
  (nxos_chosen NXOSAaaGroupServerLine l /\ ~ group_server (rstrip l)).
(** A line that looks like a name or like an access list but is not one; which texts the pattern
    of the access lists takes is in AclModel. *)
Definition asa_refused (l : str) : Prop :=
  (asa_chosen ASAName l /\ forall a n, ~ names (rstrip l) a n) \/ (asa_chosen ASAAclLine l /\ acl_line l = Err ValueError).

Lemma tightly_iff p ws n l : reads (lit p) (tight_T ws) n -> ws <> [] -> (finds p l = true <-> tightly ws l).
Proof.
  intros R NE. rewrite (finds_iff _ _ _ _ R). rewrite <- (app_nil_r (tight_T _)). split.
  - intros (s' & c & H). apply tight_shape in H as (q & r & -> & P & _); [|exact NE]. now exists q, r.
  - intros (q & e & -> & P). exists e, []. apply tight_D; [exact P|constructor].
Qed.
Lemma low_start_iff w l : low_start w l = true <-> low_starts w l.
Proof.
  unfold low_start, low_starts. assert (LW : length (lit w) = String.length w). { clear. induction w as [|a w IH]; [reflexivity|]. cbn [String.length]. rewrite <- IH. reflexivity. }
  rewrite TreePost.contains_spec. split.
  - intros (a & b & E). assert (L0 : length (a ++ lit w ++ b) <= String.length w). { rewrite <- E. unfold lower. rewrite map_length, firstn_length. lia. }
    rewrite !app_length, LW in L0. destruct a; [|cbn in L0; lia]. destruct b; [|cbn in L0; lia]. rewrite app_nil_r in E. cbn [app] in E.
    exists (firstn (String.length w) l), (skipn (String.length w) l). split; [now rewrite firstn_skipn|exact E].
  - intros (x & r & -> & E). exists [], []. assert (L0 : length x = String.length w) by (rewrite <- LW, <- E; unfold lower; now rewrite map_length).
    assert (F5 : firstn (String.length w) (x ++ r) = x) by (rewrite <- L0, firstn_app, Nat.sub_diag, firstn_all; apply app_nil_r). rewrite F5, app_nil_r. exact E.
Qed.
Lemma firstn_starts n w l : String.length w = n -> (str_eqb (firstn n l) (lit w) = true <-> starts w l).
Proof.
  intros LN. assert (LW : length (lit w) = n). { rewrite <- LN. clear. induction w as [|a w IH]; [reflexivity|]. cbn [String.length]. rewrite <- IH. reflexivity. }
  rewrite str_eqb_eq. unfold starts. split.
  - intros E. exists (skipn n l). now rewrite <- E, firstn_skipn.
  - intros (r & ->). rewrite <- LW, firstn_app, Nat.sub_diag, firstn_all. apply app_nil_r.
Qed.
Lemma nx_interface_iff l : finds "^interface\s+([a-zA-Z0-9]\S*)" l = true <-> nx_interface l.
Proof.
  assert (IA : forall c, in_set PXr.an c = alnum c) by by_chars.
  rewrite (finds_iff _ [Lit (lit "interface"); Run sp true; Grp 1 [One PXr.an; Run ns false]] 1) by reflexivity. split.
  - intros (s' & c & H). apply D_lit_eq in H as (r & -> & H). apply D_run_eq in H as (g & r1 & -> & G1 & G2 & H). apply D_grp_eq in H as (w & r2 & c1 & -> & H & _).
    apply D_one_eq in H as (x & r3 & E & X & _). rewrite IA in X. exists g, (w ++ r2). split; [reflexivity|]. split; [split; [now apply all_sp|auto]|]. rewrite E. eauto.
  - intros (g & r & -> & [G1 G2] & c & s & -> & A). eexists _, _. apply D_lit. apply D_run; [now apply all_sp|auto|discriminate|].
    eapply (D_grp _ _ _ _ [c] s); [|constructor]. cbn [app]. apply D_one; [now rewrite IA|]. apply (D_run _ _ _ _ [] s); [constructor|discriminate|discriminate|constructor].
Qed.
Lemma long_interface_iff l : finds "^interface\s+(\S+.+)" l = true <-> long_interface l.
Proof.
  rewrite (finds_iff _ [Lit (lit "interface"); Run sp true; Grp 1 [Run ns true; Run dot true]] 1) by reflexivity.
  assert (DN : forall d, in_set dot d = true -> d <> "010") by (intros d; rewrite in_dot; intros X0 ->; discriminate).
  assert (SN : forall d, in_set ns d = true -> d <> "010") by (intros d; rewrite in_ns; intros X0 ->; discriminate). split.
  - intros (s' & c & H). apply D_lit_eq in H as (r & -> & H). apply D_run_eq in H as (g & r1 & -> & G1 & G2 & H). apply D_grp_eq in H as (w & r2 & c1 & -> & H & _).
    apply D_run_eq in H as (u & r3 & E & W1 & W2 & H). apply D_run_eq in H as (v & r4 & -> & V1 & V2 & _). rewrite E. exists g, (u ++ v ++ r4). split; [reflexivity|]. split; [split; [now apply all_sp|auto]|].
    destruct u as [|x u]; [exfalso; now apply W2|]. apply Forall_inv in W1 as C1. rewrite in_ns in C1. apply negb_true_iff in C1.
    destruct u as [|d u].
    + destruct v as [|d v]; [exfalso; now apply V2|]. exists x, d, (v ++ r4). repeat split; auto. apply DN. now apply Forall_inv in V1.
    + exists x, d, (u ++ v ++ r4). repeat split; auto. apply SN. now apply Forall_inv_tail, Forall_inv in W1.
  - intros (g & r & -> & [G1 G2] & c & d & s & -> & C1 & ND). eexists _, _. apply D_lit. apply D_run; [now apply all_sp|auto|discriminate|].
    eapply (D_grp _ _ _ _ [c; d] s); [|constructor]. cbn [app].
    apply (D_run _ _ _ _ [c] (d :: s)); [constructor; [rewrite in_ns; now rewrite C1|constructor]|discriminate|discriminate|].
    apply (D_run _ _ _ _ [d] s); [constructor; [rewrite in_dot; apply negb_true_iff; now apply Ascii.eqb_neq|constructor]|discriminate|discriminate|constructor].
Qed.

Lemma nxos_ok : Forall (fun r => forall l, nxos_for (fst r) l = true <-> snd r l) nxos_rules.
Proof.
  unfold nxos_rules. repeat apply Forall_cons; try apply Forall_nil; intros l; cbn [fst snd nxos_for].
  - apply nx_interface_iff.
  - unfold nxr_is_object_for. rewrite orb_true_iff, !firstn_starts by reflexivity. reflexivity.
  - now apply starts_begin.
  - eapply tightly_iff; [reflexivity|discriminate].
  - eapply tightly_iff; [reflexivity|discriminate].
  - eapply tightly_iff; [reflexivity|discriminate].
  - eapply begin_char; [reflexivity|discriminate| |]; repeat constructor.
  - eapply tightly_iff; [reflexivity|discriminate].
  - eapply tightly_iff; [reflexivity|discriminate].
  - eapply tightly_iff; [reflexivity|discriminate].
  - eapply begins_iff; [reflexivity|discriminate].
  - now apply starts_begin.
  - apply global_iff.
Qed.
Lemma asa_ok : Forall (fun r => forall l, asa_for (fst r) l = true <-> snd r l) asa_rules.
Proof.
  unfold asa_rules. repeat apply Forall_cons; try apply Forall_nil; intros l; cbn [fst snd asa_for]; try apply low_start_iff; try (now apply starts_begin). apply long_interface_iff.
Qed.
Lemma xr_ok : Forall (fun r => forall l, xr_for (fst r) l = true <-> snd r l) xr_rules.
Proof. unfold xr_rules. repeat constructor; cbn [fst snd xr_for]; apply long_interface_iff. Qed.

Lemma walk_first {C} (isfor : C -> str -> bool) build last l : isfor last l = true -> forall rs rules pre, rules = pre ++ rs ->
  Forall (fun r => forall l, isfor (fst r) l = true <-> snd r l) rules -> (forall c' P', In (c', P') pre -> ~ P' l) ->
  exists c, first_rule rules last c l /\
    walk isfor build l (map fst rs ++ [last]) = match build c l with Ok _ => Ok (Some c) | Err ValueError => Err ValueError | Err _ => Ok None end.
Proof.
  intros HL. induction rs as [|[c P] rs IH]; intros rules pre E OK N0; cbn [map app walk fst].
  - exists last. rewrite HL. split; [right; split; [reflexivity|]; rewrite E, app_nil_r; exact N0|reflexivity].
  - pose proof OK as R. rewrite E in R. apply Forall_elt in R. specialize (R l). cbn [fst snd] in R. destruct (isfor c l) eqn:O.
    + exists c. split; [|reflexivity]. left. exists pre, P, rs. split; [exact E|]. split; [now apply R|exact N0].
    + apply (IH rules (pre ++ [(c, P)])); [now rewrite <- app_assoc|exact OK|]. intros c' P' I'. apply in_app_iff in I' as [I'|[[= <- <-]|[]]]; [eauto|]. intros K. apply R in K. congruence.
Qed.
Lemma first_unique {C} (rules : list (C * (str -> Prop))) last c c' l : first_rule rules last c l -> first_rule rules last c' l -> c = c'.
Proof.
  assert (X0 : forall (pre : list (C * (str -> Prop))) P post pre' P' post' (c c' : C), pre ++ (c, P) :: post = pre' ++ (c', P') :: post' -> P l -> P' l ->
    (forall a Q, In (a, Q) pre -> ~ Q l) -> (forall a Q, In (a, Q) pre' -> ~ Q l) -> c = c').
  { clear. induction pre as [|[a Q] pre IH]; intros P post [|[a' Q'] pre'] P' post' c c' E H1 H2 N1 N2; cbn [app] in E.
    - now injection E.
    - injection E as -> -> E. exfalso. exact (N2 _ _ (or_introl eq_refl) H1).
    - injection E as -> -> E. exfalso. exact (N1 _ _ (or_introl eq_refl) H2).
    - injection E as -> -> E. eapply IH; eauto; intros; [eapply N1|eapply N2]; right; eassumption. }
  intros [(pre & P & post & E & H & N1)|[-> N1]] [(pre' & P' & post' & E' & H' & N2)|[-> N2]]; auto.
  - rewrite E in E'. eauto.
  - exfalso. apply (N2 c P); [rewrite E; apply in_elt|exact H].
  - exfalso. apply (N1 c' P'); [rewrite E'; apply in_elt|exact H'].
Qed.

(** NX-OS: every line gets the class of the first rule that holds, unless it is refused; then a
    ValueError is raised. *)
Theorem C85_nxos : forall v6 l,
  (exists c, nxos_factory v6 l = Ok (Some c) /\ nxos_chosen c l /\ ~ nxos_refused v6 l) \/ (nxos_factory v6 l = Err ValueError /\ nxos_refused v6 l).
Proof.
  intros v6 l. destruct (walk_first nxos_for (nxos_build v6) NXOSCfgLine l eq_refl nxos_rules nxos_rules [] eq_refl nxos_ok) as (c & C & E); [intros ? ? []|].
  change (map fst nxos_rules ++ [NXOSCfgLine]) with nxos_classes in E. fold (nxos_factory v6 l) in E. rewrite E. clear E. fold (nxos_chosen c l) in C.
  assert (K : (~ nxos_refused v6 l /\ nxos_build v6 c l = Ok tt) \/ (nxos_refused v6 l /\ nxos_build v6 c l = Err ValueError)).
  { destruct (match c with NXOSRouteLine | NXOSAaaGroupServerLine => true | _ => false end) eqn:S.
    - destruct c; try discriminate S; cbn [nxos_build]; cbv zeta.
      + destruct (starts_with (lit "ipv6") (rstrip l)) eqn:S6.
        * apply starts_iff in S6. destruct (v6 (rstrip l)) eqn:V; [left|right]; (split; [|reflexivity]).
          -- intros [(_ & R & _)|(X & _)]; [specialize (R S6); congruence|]. discriminate (first_unique _ _ _ _ _ C X).
          -- left. split; [exact C|split; [auto|intros NS; contradiction]].
        * assert (NS : ~ starts "ipv6" (rstrip l)) by (intros X; apply starts_iff in X; congruence). destruct (PNxosRoute.C84_accepted (rstrip l)) as [A B]. fold (nx_ip_route (rstrip l)) in A.
          destruct (nxr_init (rstrip l)) as [m|e] eqn:RI.
          -- left. split; [|reflexivity]. intros [(_ & _ & R)|(X & _)]; [apply (R NS), A; now exists m|]. discriminate (first_unique _ _ _ _ _ C X).
          -- right. split; [left; split; [exact C|split; [contradiction|]]|].
             ++ intros _ R. apply A in R as (m & R). discriminate.
             ++ now rewrite (B e eq_refl).
      + destruct (finds group_pattern (rstrip l)) eqn:F; [left|right]; (split; [|reflexivity]).
        * intros [(X & _)|(_ & X)]; [discriminate (first_unique _ _ _ _ _ C X)|]. apply X, group_server_iff, F.
        * right. split; [exact C|]. intros X. apply group_server_iff in X. congruence.
    - left. split; [|destruct c; (reflexivity || discriminate S)]. intros [(X & _)|(X & _)]; pose proof (first_unique _ _ _ _ _ C X); subst; discriminate S. }
  destruct K as [[NR ->]|[R ->]]; [left|right]; eauto.
Qed.
Print Assumptions C85_nxos.
Lemma acl_err l e : acl_line l = Err e -> e = ValueError.
Proof. unfold acl_line. destruct (rx_find _ l) as [m|]; intros H; [discriminate H|]. exact (eq_sym (f_equal (fun r => match r with Err x => x | Ok _ => e end) H)). Qed.
Local Opaque acl_line.
(** ASA: the same. *)
Theorem C85_asa : forall l,
  (exists c, asa_factory l = Ok (Some c) /\ asa_chosen c l /\ ~ asa_refused l) \/ (asa_factory l = Err ValueError /\ asa_refused l).
Proof.
  intros l. destruct (walk_first asa_for asa_build ASACfgLine l eq_refl asa_rules asa_rules [] eq_refl asa_ok) as (c & C & E); [intros ? ? []|].
  change (map fst asa_rules ++ [ASACfgLine]) with asa_classes in E. fold (asa_factory l) in E. rewrite E. clear E. fold (asa_chosen c l) in C.
  assert (K : (~ asa_refused l /\ asa_build c l = Ok tt) \/ (asa_refused l /\ asa_build c l = Err ValueError)).
  { destruct (match c with ASAName | ASAAclLine => true | _ => false end) eqn:S.
    - destruct c; try discriminate S; cbn [asa_build].
      + destruct (PAsaLine.C78_names (rstrip l)) as (A & B & _). destruct (asa_name_line (rstrip l)) as [[a n]|e] eqn:N1.
        * left. split; [|reflexivity]. intros [(_ & R)|(X & _)]; [apply (R a n), A; reflexivity|]. discriminate (first_unique _ _ _ _ _ C X).
        * assert (NN : forall a n, ~ names (rstrip l) a n) by (intros a n H; apply A in H; discriminate H). right. split; [left; auto|]. cbn [bind]. pose proof (B NN) as B'. now injection B' as ->.
      + destruct (acl_line l) as [g|e] eqn:A1.
        * left. split; [|reflexivity]. intros [(X & _)|(_ & R)]; [discriminate (first_unique _ _ _ _ _ C X)|]. rewrite A1 in R. discriminate R.
        * pose proof (acl_err l e A1) as ->. right. split; [right; auto|reflexivity].
    - left. split; [|destruct c; (reflexivity || discriminate S)]. intros [(X & _)|(X & _)]; pose proof (first_unique _ _ _ _ _ C X); subst; discriminate S. }
  destruct K as [[NR ->]|[R ->]]; [left|right]; eauto.
Qed.
Print Assumptions C85_asa.
(** IOS-XR and Junos: no line is refused; in Junos there is one class. *)
Theorem C85_xr_junos : forall l, (exists c, xr_factory l = Ok (Some c) /\ xr_chosen c l) /\ junos_factory l = Ok (Some JunosCfgLine).
Proof.
  intros l. split; [|reflexivity]. destruct (walk_first xr_for (fun _ _ => Ok tt) IOSXRCfgLine l eq_refl xr_rules xr_rules [] eq_refl xr_ok) as (c & C & E); [intros ? ? []|]. exists c. split; [exact E|exact C].
Qed.
Print Assumptions C85_xr_junos.

(** With the classes [f] the parse is that of factory=False, with the same error if there is one,
    if no line is refused; otherwise a ValueError. *)
Definition parse_is {C} (f : str -> result (option C)) (o : opts) (lines : list str) : Prop :=
  (Exists (fun l => f l = Err ValueError) lines -> parse_by f o lines = Err ValueError) /\
  (Forall (fun l => f l <> Err ValueError) lines -> exists cs, Forall2 (fun c l => f l = Ok (Some c)) cs lines /\
     parse_by f o lines = match parse o lines with Ok w => Ok (w, map Some cs) | Err e => Err e end).
Lemma classify_any {C} (f : str -> result (option C)) : (forall l, (exists c, f l = Ok (Some c)) \/ f l = Err ValueError) -> forall ls,
  (exists cs, classify_by f ls = Ok (map Some cs) /\ Forall2 (fun c l => f l = Ok (Some c)) cs ls /\ Forall (fun l => f l <> Err ValueError) ls) \/
  (classify_by f ls = Err ValueError /\ Exists (fun l => f l = Err ValueError) ls).
Proof.
  intros T. induction ls as [|l ls IH]; [left; exists []; repeat constructor|]. cbn [classify_by].
  destruct (T l) as [(c & E)|E]; rewrite E; cbn [bind]; [|right; split; [reflexivity|now constructor]].
  destruct IH as [(cs & -> & F & G0)|(-> & R)]; cbn [bind]; [left; exists (c :: cs); repeat (constructor; auto); congruence|right; split; [reflexivity|now apply Exists_cons_tl]].
Qed.
Lemma parse_any {C} (f : str -> result (option C)) o lines : (forall l, (exists c, f l = Ok (Some c)) \/ f l = Err ValueError) ->
  (o_ignore_blank o = false \/ ~ In [] lines) -> parse_is f o lines.
Proof.
  intros T HB. assert (EI : input_lines o lines = lines).
  { unfold input_lines. destruct (o_ignore_blank o) eqn:IB; [|reflexivity]. destruct HB as [HB|HB]; [discriminate|].
    clear IB. induction lines as [|l ls IH]; [reflexivity|]. cbn [filter]. destruct l as [|x l]; [exfalso; apply HB; now left|]. f_equal. apply IH. intros K. apply HB. now right. }
  unfold parse_is, parse_by, parse. rewrite EI. destruct (classify_any f T lines) as [(cs & -> & F & NR)|(-> & R)]; cbn [bind]; split.
  - intros EX. exfalso. apply Exists_exists in EX as (l & I1 & R). rewrite Forall_forall in NR. exact (NR _ I1 R).
  - intros _. exists cs. split; [exact F|]. now destruct (reboot _ lines).
  - reflexivity.
  - intros NR. exfalso. apply Exists_exists in R as (l & I1 & R). rewrite Forall_forall in NR. exact (NR _ I1 R).
Qed.
(** The objects, the tree and the list are those of factory=False.  The lines are not empty, or
    empty lines are kept. *)
Theorem C85_same_tree : forall v6 o lines, (o_ignore_blank o = false \/ ~ In [] lines) ->
  parse_is (nxos_factory v6) o lines /\ parse_is asa_factory o lines /\ parse_is xr_factory o lines.
Proof.
  intros v6 o lines HB. repeat split; apply parse_any; auto; intros l.
  - destruct (C85_nxos v6 l) as [(c & E & _)|(E & _)]; eauto.
  - destruct (C85_nxos v6 l) as [(c & E & _)|(E & _)]; eauto.
  - destruct (C85_asa l) as [(c & E & _)|(E & _)]; eauto.
  - destruct (C85_asa l) as [(c & E & _)|(E & _)]; eauto.
  - destruct (C85_xr_junos l) as [(c & E & _) _]; eauto.
  - destruct (C85_xr_junos l) as [(c & E & _) _]; eauto.
Qed.
Print Assumptions C85_same_tree.

(** One valid line that a pattern does not know, and nothing is parsed: a route in a VRF; a name
    after two blanks; an access list with a line number.  With factory=False all of it is. *)
Theorem C85_refused_refuted : forall v6,
  (exists lines w, lines = map lit ["hostname N1"; "ip route vrf RED 10.0.0.0/8 10.1.1.1"]%string /\
    parse (mkOpts (lit "!") true Nxos) lines = Ok w /\ parse_by (nxos_factory v6) (mkOpts (lit "!") true Nxos) lines = Err ValueError) /\
  (exists lines w, lines = map lit ["hostname A1"; "name 10.1.1.1  mail"]%string /\
    parse (mkOpts (lit "!") true Asa) lines = Ok w /\ parse_by asa_factory (mkOpts (lit "!") true Asa) lines = Err ValueError) /\
  (exists lines w, lines = map lit ["hostname A1"; "access-list OUT line 1 extended permit ip any any"]%string /\
    parse (mkOpts (lit "!") true Asa) lines = Ok w /\ parse_by asa_factory (mkOpts (lit "!") true Asa) lines = Err ValueError).
Proof. intros v6. repeat split; (do 2 eexists; split; [reflexivity|]; split; vm_compute; reflexivity). Qed.
Print Assumptions C85_refused_refuted.
(** An interface whose name is one character is not an interface in asa and iosxr, and neither
    is an indented one in nxos; both are in ios. *)
Theorem C85_interface_refuted : forall v6, asa_factory (lit "interface X") = Ok (Some ASACfgLine) /\ xr_factory (lit "interface X") = Ok (Some IOSXRCfgLine) /\
  nxos_factory v6 (lit " interface Ethernet1/1") = Ok (Some NXOSCfgLine) /\
  config_line_factory v6 (lit "interface X") = Ok IOSIntfLine /\ config_line_factory v6 (lit " interface Ethernet1/1") = Ok IOSIntfLine.
Proof. intros v6. repeat split; vm_compute; reflexivity. Qed.
Print Assumptions C85_interface_refuted.
(** Two blanks in an AAA line: no AAA line in nxos, but one in ios. *)
Theorem C85_blanks_refuted : forall v6, nxos_factory v6 (lit "aaa authentication  login default group T") = Ok (Some NXOSCfgLine) /\
  config_line_factory v6 (lit "aaa authentication  login default group T") = Ok IOSAaaLoginAuthenticationLine.
Proof. intros v6. split; vm_compute; reflexivity. Qed.
Print Assumptions C85_blanks_refuted.
Example C85_ex : forall v6,
  rmap snd (parse_by (nxos_factory v6) (mkOpts (lit "!") true Nxos) (map lit ["hostname N1"; "interface Ethernet1/1"; " no switchport"; "ip route 10.0.0.0/8 10.1.1.1";
    "aaa authentication login default group T"; "aaa group server tacacs+ T"; "vpc domain 5"; "line vty"; "no cdp run"; "feature vpc"]%string))
  = Ok (map Some [NXOSHostnameLine; NXOSIntfLine; NXOSCfgLine; NXOSRouteLine; NXOSAaaLoginAuthenticationLine; NXOSAaaGroupServerLine; NXOSvPCLine; NXOSAccessLine; NXOSIntfGlobal; NXOSCfgLine]) /\
  rmap snd (parse_by asa_factory (mkOpts (lit "!") true Asa) (map lit ["hostname A1"; "interface Ethernet0/0"; " nameif OUT"; "name 10.1.1.1 mail"; "Object network H"; "object service S";
    "object-group network G"; "object-group service P tcp"; "mtu outside 1500"; "access-list OUT extended permit ip any any"; "route OUT 0.0.0.0 0.0.0.0 10.1.1.1"]%string))
  = Ok (map Some [ASAHostnameLine; ASAIntfLine; ASACfgLine; ASAName; ASAObjNetwork; ASAObjService; ASAObjGroupNetwork; ASAObjGroupService; ASAIntfGlobal; ASAAclLine; ASACfgLine]).
Proof. intros v6. split; vm_compute; reflexivity. Qed.
