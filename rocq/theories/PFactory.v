(** C67: the classes of lines with factory=True, syntax ios. *)
From Coq Require Import Ascii String Arith NArith ZArith Bool List Lia.
From Verif Require Import PyStr PyStrFacts TreeSpec TreePost PyBase CfgModel SearchModel IntfModel IntfSpec IntfFacts IpModel IpSpec IpFacts PIp PIpText PyRe PyReFacts PyReTmpl PyReSent IosSpec IosModel IosFacts RouteSpec RouteModel RouteFacts PIos PRoute FactorySpec FactoryModel FactoryFacts.
Import ListNotations.
Local Open Scope char_scope.

(** The rules, in the order in which they are tried. *)
Definition rules : list (lclass * (str -> Prop)) :=
  [(IOSIntfLine, intf_line); (IOSRouteLine, route_line); (IOSAccessLine, starts "line");
   (IOSAaaLoginAuthenticationLine, begins white ["aaa"; "authentication"; "login"]%string);
   (IOSAaaEnableAuthenticationLine, begins white ["aaa"; "authentication"; "enable"]%string);
   (IOSAaaCommandsAuthorizationLine, begins white ["aaa"; "authorization"; "commands"]%string);
   (IOSAaaConsoleAuthorizationLine, begins white ["aaa"; "authorization"; "console"]%string);
   (IOSAaaCommandsAccountingLine, begins white ["aaa"; "accounting"; "commands"]%string);
   (IOSAaaExecAccountingLine, begins white ["aaa"; "accounting"; "exec"]%string);
   (IOSAaaGroupServerLine, group_line); (IOSHostnameLine, starts "hostname"); (IOSIntfGlobal, global_line)].
(** The class of the first rule that holds of the line; without one it is an IOSCfgLine. *)
Definition chosen (c : lclass) (l : str) : Prop :=
  (exists pre P post, rules = pre ++ (c, P) :: post /\ P l /\ forall c' P', In (c', P') pre -> ~ P' l) \/
  (c = IOSCfgLine /\ forall c' P', In (c', P') rules -> ~ P' l).
(** A line that looks like a route or like an AAA group but is not one.  [v6] says which
    texts are IPv6 routes. *)
Definition refused (v6 : str -> bool) (l : str) : Prop :=
  (chosen IOSRouteLine l /\ (starts "ipv6" (rstrip l) -> v6 (rstrip l) = false) /\ (~ starts "ipv6" (rstrip l) -> ~ ip_route (rstrip l))) \/
  (chosen IOSAaaGroupServerLine l /\ ~ group_server (rstrip l)).

Lemma starts_iff w l : starts_with (lit w) l = true <-> starts w l.
Proof. unfold starts. apply starts_with_spec. Qed.
Lemma begin_char p ws n l : reads (lit p) (sent (map (fun w => W (lit w)) ws)) n -> ws <> [] ->
  Forall (fun w => nonwhite_head (lit w) = true) ws -> Forall (fun w => nonwhite_head (rev (lit w)) = true) ws ->
  (finds p (strip l) = true <-> begins white ws l).
Proof. intros R NE F1 F2. rewrite (begins_iff _ _ _ _ R NE). now apply begins_strip. Qed.
Lemma starts_begin w p l : reads (lit p) [Lit (lit w)] 0 -> (finds p l = true <-> starts w l).
Proof.
  intros R. rewrite (finds_iff _ _ _ _ R). split.
  - intros (s' & c & H). apply D_lit_eq in H as (r & -> & _). now exists r.
  - intros (r & ->). exists r, []. constructor. constructor.
Qed.
Lemma rule_ok : Forall (fun r => forall l, is_object_for (fst r) l = true <-> snd r l) rules.
Proof.
  unfold rules. repeat apply Forall_cons; try apply Forall_nil; intros l; cbn [fst snd is_object_for].
  - apply first_iff; [repeat constructor; discriminate|discriminate].
  - rewrite orb_true_iff, !starts_iff. reflexivity.
  - now apply starts_begin.
  - eapply begin_char; [reflexivity|discriminate| |]; repeat constructor.
  - eapply begin_char; [reflexivity|discriminate| |]; repeat constructor.
  - eapply begin_char; [reflexivity|discriminate| |]; repeat constructor.
  - eapply begin_char; [reflexivity|discriminate| |]; repeat constructor.
  - eapply begin_char; [reflexivity|discriminate| |]; repeat constructor.
  - eapply begin_char; [reflexivity|discriminate| |]; repeat constructor.
  - apply group_line_iff.
  - now apply starts_begin.
  - apply global_iff.
Qed.
Lemma walk_rules v6 l : forall rs pre, rules = pre ++ rs -> (forall c' P', In (c', P') pre -> ~ P' l) ->
  (exists c, chosen c l /\ walk_classes v6 l (map fst rs ++ [IOSCfgLine]) = (do _ <- construct v6 c l; Ok c)).
Proof.
  induction rs as [|[c P] rs IH]; intros pre E N0; cbn [map app walk_classes fst].
  - exists IOSCfgLine. split; [right; split; [reflexivity|]; rewrite E, app_nil_r; exact N0|]. now destruct (is_object_for IOSCfgLine l).
  - pose proof rule_ok as R. rewrite E in R. apply Forall_elt in R. specialize (R l). cbn [fst snd] in R. destruct (is_object_for c l) eqn:O.
    + exists c. split; [|reflexivity]. left. exists pre, P, rs. split; [exact E|]. split; [now apply R|exact N0].
    + apply (IH (pre ++ [(c, P)])); [now rewrite <- app_assoc|]. intros c' P' I'. apply in_app_iff in I' as [I'|[[= <- <-]|[]]]; [eauto|]. intros K. apply R in K. congruence.
Qed.
Lemma class_unique c c' l : chosen c l -> chosen c' l -> c = c'.
Proof.
  assert (X0 : forall (pre : list (lclass * (str -> Prop))) P post pre' P' post' (c c' : lclass), pre ++ (c, P) :: post = pre' ++ (c', P') :: post' -> P l -> P' l ->
    (forall a Q, In (a, Q) pre -> ~ Q l) -> (forall a Q, In (a, Q) pre' -> ~ Q l) -> c = c').
  { clear. induction pre as [|[a Q] pre IH]; intros P post [|[a' Q'] pre'] P' post' c c' E H1 H2 N1 N2; cbn [app] in E.
    - now injection E.
    - injection E as -> -> E. exfalso. exact (N2 _ _ (or_introl eq_refl) H1).
    - injection E as -> -> E. exfalso. exact (N1 _ _ (or_introl eq_refl) H2).
    - injection E as -> -> E. eapply IH; eauto; intros; [eapply N1|eapply N2]; right; eassumption. }
  intros [(pre & P & post & E & H & N1)|[-> N1]] [(pre' & P' & post' & E' & H' & N2)|[-> N2]]; auto.
  - rewrite E in E'. eauto.
  - exfalso. apply (N2 c P); [rewrite E; apply in_elt|exact H].
  - exfalso. apply (N1 c' P'); [rewrite E'; apply in_elt|exact H'].
Qed.

(** Every line gets the class of the first rule that holds, unless it is refused; then a
    ValueError is raised. *)
Theorem C67_class : forall v6 l,
  (exists c, config_line_factory v6 l = Ok c /\ chosen c l /\ ~ refused v6 l) \/ (config_line_factory v6 l = Err ValueError /\ refused v6 l).
Proof.
  intros v6 l. destruct (walk_rules v6 l rules [] eq_refl) as (c & C & E); [intros ? ? []|].
  change (map fst rules ++ [IOSCfgLine]) with ios_classes in E. fold (config_line_factory v6 l) in E. rewrite E.
  assert (K : forall c, chosen c l -> (~ refused v6 l /\ construct v6 c l = Ok tt) \/ (refused v6 l /\ construct v6 c l = Err ValueError)).
  { intros c' C'. destruct (match c' with IOSRouteLine | IOSAaaGroupServerLine => true | _ => false end) eqn:S.
    - destruct c'; try discriminate; cbn [construct]; cbv zeta.
      + destruct (starts_with (lit "ipv6") (rstrip l)) eqn:S6.
        * apply starts_iff in S6. destruct (v6 (rstrip l)) eqn:V; [left|right]; (split; [|reflexivity]).
          -- intros [(_ & R & _)|(X & _)]; [specialize (R S6); congruence|]. discriminate (class_unique _ _ _ C' X).
          -- left. split; [exact C'|split; [auto|intros NS; contradiction]].
        * assert (NS : ~ starts "ipv6" (rstrip l)) by (intros X; apply starts_iff in X; congruence). pose proof (C66_accepted (rstrip l)) as A. fold (ip_route (rstrip l)) in A.
          destruct (route_init (rstrip l)) as [m|e] eqn:RI.
          -- left. split; [|reflexivity]. intros [(_ & _ & R)|(X & _)]; [apply (R NS), A; now exists m|]. discriminate (class_unique _ _ _ C' X).
          -- right. split; [left; split; [exact C'|split; [contradiction|]]|].
             ++ intros _ R. apply A in R as (m & R). discriminate.
             ++ unfold route_init in RI. destruct (rx_find _ _); [discriminate|]. injection RI as <-. reflexivity.
      + destruct (finds group_pattern (rstrip l)) eqn:F; [left|right]; (split; [|reflexivity]).
        * intros [(X & _)|(_ & X)]; [discriminate (class_unique _ _ _ C' X)|]. apply X, group_server_iff, F.
        * right. split; [exact C'|]. intros X. apply group_server_iff in X. congruence.
    - left. split; [|destruct c'; (reflexivity || discriminate)]. intros [(X & _)|(X & _)]; pose proof (class_unique _ _ _ C' X); subst; discriminate. }
  destruct (K c C) as [[NR ->]|[R ->]]; cbn [bind]; [left|right]; eauto.
Qed.
Print Assumptions C67_class.

Lemma classify_spec v6 ls :
  (exists cs, classify v6 ls = Ok cs /\ Forall2 chosen cs ls /\ Forall (fun l => ~ refused v6 l) ls) \/
  (classify v6 ls = Err ValueError /\ Exists (refused v6) ls).
Proof.
  induction ls as [|l ls IH]; [left; exists []; repeat constructor|]. cbn [classify].
  destruct (C67_class v6 l) as [(c & -> & C & NR)|(-> & R)]; cbn [bind]; [|right; split; [reflexivity|now constructor]].
  destruct IH as [(cs & -> & F & G0)|(-> & R)]; cbn [bind]; [left; exists (c :: cs); repeat (constructor; auto)|right; split; [reflexivity|now apply Exists_cons_tl]].
Qed.
(** The parse gives the same objects, tree and list as with factory=False, or the same
    error, if no line is refused; otherwise a ValueError.  The lines are not empty, or empty
    lines are kept. *)
Theorem C67_same_tree : forall v6 o lines, (o_ignore_blank o = false \/ ~ In [] lines) ->
  (Exists (refused v6) lines -> parse_factory v6 o lines = Err ValueError) /\
  (Forall (fun l => ~ refused v6 l) lines -> exists cs, Forall2 chosen cs lines /\
     parse_factory v6 o lines = match parse o lines with Ok w => Ok (w, cs) | Err e => Err e end).
Proof.
  intros v6 o lines HB. assert (EI : input_lines o lines = lines).
  { unfold input_lines. destruct (o_ignore_blank o) eqn:IB; [|reflexivity]. destruct HB as [HB|HB]; [discriminate|].
    clear IB. induction lines as [|l ls IH]; [reflexivity|]. cbn [filter]. destruct l as [|x l]; [exfalso; apply HB; now left|]. f_equal. apply IH. intros K. apply HB. now right. }
  unfold parse_factory, parse. rewrite EI. destruct (classify_spec v6 lines) as [(cs & -> & F & NR)|(-> & R)]; cbn [bind]; split.
  - intros EX. exfalso. apply Exists_exists in EX as (l & I1 & R). rewrite Forall_forall in NR. exact (NR _ I1 R).
  - intros _. exists cs. split; [exact F|]. now destruct (reboot _ lines).
  - reflexivity.
  - intros NR. exfalso. apply Exists_exists in R as (l & I1 & R). rewrite Forall_forall in NR. exact (NR _ I1 R).
Qed.
Print Assumptions C67_same_tree.
(** find_objects_dna gives the lines whose class's name matches. *)
Theorem C67_dna : forall v6 o lines w cs d, parse_factory v6 o lines = Ok (w, cs) ->
  (forall x, In x (find_objects_dna d w cs) <-> In x (w_conf w) /\ exists l c, nth_error lines x = Some l /\ chosen c l /\ rx_find d (class_name c) <> None) /\
  exists f, find_objects_dna d w cs = filter f (w_conf w).
Proof.
  intros v6 o lines w cs d H. unfold parse_factory in H. destruct (classify_spec v6 lines) as [(cs' & E & F & NR)|(E & _)]; rewrite E in H; [|discriminate].
  cbn [bind] in H. destruct (reboot _ lines) as [w'|]; [|discriminate]. injection H as -> ->. split; [|unfold find_objects_dna; eauto].
  intros x. unfold find_objects_dna. rewrite filter_In. apply and_iff_compat_l.
  assert (Z : forall y, match nth_error cs y, nth_error lines y with Some c, Some l => chosen c l | None, None => True | _, _ => False end).
  { clear -F. induction F as [|c l cs ls C F IH]; intros [|y]; cbn; auto. apply IH. }
  specialize (Z x). destruct (nth_error cs x) as [c|] eqn:N1, (nth_error lines x) as [l|] eqn:N2; try contradiction.
  - split.
    + intros T. exists l, c. repeat split; auto. destruct (rx_find d (class_name c)); congruence.
    + intros (l' & c' & [= <-] & C' & T). rewrite <- (class_unique _ _ _ Z C') in T. destruct (rx_find d (class_name c)); congruence.
  - split; [discriminate|]. intros (l' & c' & T & _). discriminate.
Qed.
Print Assumptions C67_dna.

(** One line that only looks like a route, and nothing is parsed. *)
Theorem C67_refused_refuted : forall v6, exists o lines w, parse o lines = Ok w /\ parse_factory v6 o lines = Err ValueError.
Proof. intros v6. exists (mkOpts (lit "!") true Ios), (map lit ["hostname R1"; "ip route profile"]%string). eexists. split; vm_compute; reflexivity. Qed.
Print Assumptions C67_refused_refuted.
(** With an empty line the line numbers differ from those of factory=False. *)
Theorem C67_blank_refuted : forall v6, exists o lines w w' cs, parse o lines = Ok w /\ parse_factory v6 o lines = Ok (w', cs) /\
  ioscfg w = ioscfg w' /\ map (linenum_of w) (w_conf w) = [0; 1]%Z /\ map (linenum_of w') (w_conf w') = [0; 2]%Z.
Proof.
  intros v6. exists (mkOpts (lit "!") true Ios), [lit "a"; []; lit "b"]. do 3 eexists. split; [vm_compute; reflexivity|]. split; [vm_compute; reflexivity|]. repeat split; vm_compute; reflexivity.
Qed.
Print Assumptions C67_blank_refuted.
Example C67_case : forall v6,
  rmap snd (parse_factory v6 (mkOpts (lit "!") true Ios) (map lit ["hostname R1"; "interface Serial0/0"; " ip address 10.0.0.1 255.0.0.0"; "ip route 0.0.0.0 0.0.0.0 10.1.1.1";
    "aaa  authentication login default group tacacs+ local"; "aaa group server tacacs+ T"; "line vty 0 4"; "no cdp run"; "aaa new-model"]%string))
  = Ok [IOSHostnameLine; IOSIntfLine; IOSCfgLine; IOSRouteLine; IOSAaaLoginAuthenticationLine; IOSAaaGroupServerLine; IOSAccessLine; IOSIntfGlobal; IOSCfgLine].
Proof. intros v6. vm_compute. reflexivity. Qed.
