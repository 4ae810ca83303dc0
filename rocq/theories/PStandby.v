(** C60, C61 and C70: the attributes of interface lines about the HSRP priority, timers and mask,
    and the helper addresses. *)
From Coq Require Import Ascii String Arith NArith ZArith Bool List Lia.
From Verif Require Import PyStr PyStrFacts PyBase CfgModel SearchModel IntfModel IntfSpec IntfFacts IpModel IpSpec PyRe PyReFacts PyReTmpl PyReLazy PyReSent IosSpec IosModel IosFacts RouteSpec RouteFacts FactorySpec FactoryModel FactoryFacts AaaSpec AaaModel AaaFacts PAaa PyReFree HsrpModel HsrpSpec SearchProofs PIos.
Import ListNotations.
Local Open Scope char_scope.

(** ** "standby", numbers, then more *)

Definition standby_T (T : list item) : list item := Run sp false :: Lit (lit "standby") :: Run sp true :: Many 1 (rep_T Digits) :: T.
Lemma nonwhite_stops s : nonwhite_head s = true -> stops sp s.
Proof. intros E. apply (stops_iff _ _ _ in_sp). destruct s as [|y z]; [discriminate|]. cbn in *. now destruct (is_space y). Qed.
Lemma standby_fwd T i g ds gs s s' c : white i -> gap g -> Forall digits ds -> gaps ds gs -> rep_stops Digits s -> nonwhite_head s = true ->
  D true T s s' (rounds 1 ds gs []) c -> D true (standby_T T) (i ++ lit "standby" ++ g ++ heads ds gs ++ s) s' [] c.
Proof.
  intros Wi [G1 G2] FD GD HS NW HD. unfold standby_T. apply D_run; [now apply all_sp|discriminate|intros _; reflexivity|]. apply D_lit.
  assert (NH : nonwhite_head (heads ds gs ++ s) = true) by (eapply (heads_nonspace Digits); eauto; [apply GD|discriminate]).
  apply D_run; [now apply all_sp|auto|intros _; now apply nonwhite_stops|]. apply many_fwd; auto. discriminate.
Qed.
Lemma standby_bwd T t s' c : D false (standby_T T) t s' [] c ->
  exists i g ds gs s, t = i ++ lit "standby" ++ g ++ heads ds gs ++ s /\ white i /\ gap g /\ Forall digits ds /\ gaps ds gs /\ D false T s s' (rounds 1 ds gs []) c.
Proof.
  intros HD. unfold standby_T in HD. apply D_run_eq in HD as (i & r & -> & I1 & _ & HD). apply D_lit_eq in HD as (r1 & -> & HD). apply D_run_eq in HD as (g & r2 & -> & G1 & G2 & HD).
  apply many_shape in HD as (ds & gs & s & -> & FD & GD & HD). apply all_sp in I1, G1. exists i, g, ds, gs, s. repeat split; auto; apply GD.
Qed.
Lemma standby_line cut ds ws t : ws <> [] -> (Forall digits ds /\ line_of white cut (lit "standby" :: ds ++ ws) t <->
  exists i g gs p e, t = i ++ lit "standby" ++ g ++ heads ds gs ++ p ++ e /\ white i /\ gap g /\ Forall digits ds /\ gaps ds gs /\ phrase ws p /\ cut e).
Proof.
  intros NE. split.
  - intros (FD & i & q & e & -> & Wi & P & Ce). inversion P as [K|? g ? q' GG P']; subst; [match goal with X : [] = _ ++ _ |- _ => symmetry in X; apply app_eq_nil in X; tauto end|].
    apply phrase_split in P' as (gs & p & -> & GD & P'); [|exact NE]. exists i, g, gs, p, e. rewrite <- !app_assoc. repeat split; auto; try apply GG; apply GD.
  - intros (i & g & gs & p & e & -> & Wi & GG & FD & GD & P & Ce). split; [exact FD|]. exists i, (lit "standby" ++ g ++ heads ds gs ++ p), e. rewrite <- !app_assoc. repeat split; auto.
    constructor; [exact GG|]. now apply phrase_heads.
Qed.
Lemma cap_rounds_last n ds : forall gs c, gaps ds gs -> cap n (rounds n ds gs c) = match ds with [] => cap n c | _ => Some (last ds [] ++ last gs []) end.
Proof.
  induction ds as [|d ds IH]; intros gs c [HL HG]; [reflexivity|]. destruct gs as [|g gs]; [discriminate|]. inversion HG as [|? ? H1 H2]; subst. cbn [rounds]. rewrite IH by (split; auto).
  destruct ds as [|d' ds]; [destruct gs; [|discriminate]; cbn; now rewrite Nat.eqb_refl|]. destruct gs as [|g' gs]; [discriminate|]. reflexivity.
Qed.

(** ** Timers of the interface *)

Definition timers_T (n1 n2 : bool) : list item := Lit (lit "timers") :: Run sp true ::
  (if n1 then [Grp 2 [Run dg true]] else [Run dg true]) ++ Run sp true :: (if n2 then [Grp 2 [Run dg true]] else [Run dg true]).
Lemma num_fwd (b : bool) d T s s' c c' : digits d -> no_more is_digit s -> D true T s s' (if b then (2, d) :: c else c) c' ->
  D true ((if b then [Grp 2 [Run dg true]] else [Run dg true]) ++ T) (d ++ s) s' c c'.
Proof.
  intros [D1 D2] NM HD. assert (K : D true [Run dg true] (d ++ s) s c c) by (apply D_run; [now apply all_dg|auto|intros _; now apply (stops_iff _ _ _ in_dg)|constructor]).
  destruct b; cbn [app]; [now apply (D_grp true 2 [Run dg true] T d s s' c c)|]. apply D_run; [now apply all_dg|auto|intros _; now apply (stops_iff _ _ _ in_dg)|exact HD].
Qed.
Lemma num_bwd (b : bool) T t s' c c' : D false ((if b then [Grp 2 [Run dg true]] else [Run dg true]) ++ T) t s' c c' ->
  exists d s, t = d ++ s /\ digits d /\ D false T s s' (if b then (2, d) :: c else c) c'.
Proof.
  destruct b; cbn [app]; intros HD.
  - apply D_grp_eq in HD as (d & r & c1 & -> & HB & HD). apply D_run_eq in HB as (d' & r' & E & D1 & D2 & HB). apply D_nil_eq in HB as [-> ->]. apply app_inv_tail in E. subst d'. apply all_dg in D1. exists d, r'. repeat split; auto.
  - apply D_run_eq in HD as (d & r & -> & D1 & D2 & HD). apply all_dg in D1. exists d, r. repeat split; auto.
Qed.
Lemma digits_head d s : digits d -> nonwhite_head (d ++ s) = true.
Proof. intros [D1 D2]. destruct d as [|x d]; [congruence|]. cbn in *. apply andb_true_iff in D2 as [D2 _]. now rewrite (digit_nonspace _ D2). Qed.
Lemma gap_no_digit g s : gap g -> no_more is_digit (g ++ s).
Proof. intros [G1 G2]. destruct g as [|x g]; [congruence|]. cbn. unfold white in G1. cbn in G1. apply andb_true_iff in G1 as [G1 _]. destruct (is_digit x) eqn:E; [apply digit_nonspace in E; congruence|reflexivity]. Qed.
(** "standby ... timers A B" *)
Definition timers_line (t : str) (a b : Z) : Prop := exists d1 d2, numeral d1 a /\ numeral d2 b /\ standby (no_more is_digit) [lit "timers"; d1; d2] t.
Lemma timers_fwd n1 n2 p t a b : reads (lit p) (standby_T (timers_T n1 n2)) 2 -> timers_line t a b ->
  exists m, rx_find (pattern false (lit p)) t = Some m /\ exists d1 d2, numeral d1 a /\ numeral d2 b /\ (n2 = true -> group 2 m = Ok (Some d2)) /\ (n2 = false -> n1 = true -> group 2 m = Ok (Some d1)).
Proof.
  intros R (d1 & d2 & N1 & N2 & ds & FD & HL). destruct (proj1 (standby_line _ ds [lit "timers"; d1; d2] t ltac:(discriminate)) (conj FD HL)) as (i & g & gs & q & e & -> & Wi & GG & _ & GD & P & NM).
  inversion P as [|? h1 ? q1 GH1 P1]; subst. inversion P1 as [|? h2 ? q2 GH2 P2]; subst. assert (q2 = d2) as -> by (inversion P2 as [|? ? ? ? ? K]; [reflexivity|inversion K]).
  pose proof (numeral_d _ _ N1) as D1. pose proof (numeral_d _ _ N2) as D2.
  assert (HD : D true (standby_T (timers_T n1 n2)) (i ++ lit "standby" ++ g ++ heads ds gs ++ lit "timers" ++ h1 ++ d1 ++ h2 ++ d2 ++ e) e []
    ((if n2 then [(2, d2)] else []) ++ (if n1 then [(2, d1)] else []) ++ rounds 1 ds gs [])).
  { apply standby_fwd; auto; [reflexivity|]. unfold timers_T. apply D_lit. apply D_run; [apply all_sp, GH1|intros _; apply GH1|intros _; now apply nonwhite_stops, digits_head|].
    apply num_fwd; [exact D1|now apply gap_no_digit|]. apply D_run; [apply all_sp, GH2|intros _; apply GH2|intros _; now apply nonwhite_stops, digits_head|].
    rewrite <- (app_nil_r (if n2 then _ else _)). apply num_fwd; [exact D2|exact NM|]. destruct n1, n2; constructor. }
  destruct (reads_some _ _ _ _ _ _ R HD) as (m & M1). eexists. split.
  - rewrite <- M1. f_equal. now rewrite <- !app_assoc.
  - exists d1, d2. split; [exact N1|]. split; [exact N2|]. split; [intros ->; reflexivity|intros -> ->; reflexivity].
Qed.
Lemma digits_more d e : digits d -> exists d' e', d ++ e = d' ++ e' /\ digits d' /\ no_more is_digit e'.
Proof.
  intros [D1 D2]. assert (X0 : exists u v, e = u ++ v /\ forallb is_digit u = true /\ no_more is_digit v).
  { clear. induction e as [|x e (u & v & -> & U & NV)]; [now exists [], []|]. destruct (is_digit x) eqn:E; [exists (x :: u), v; cbn; rewrite E; auto|exists [], (x :: u ++ v); cbn; auto]. }
  destruct X0 as (u & v & -> & U & NV). exists (d ++ u), v. rewrite <- app_assoc. repeat split; auto; [destruct d; [congruence|discriminate]|now rewrite forallb_app, D2, U].
Qed.
Lemma timers_bwd n1 n2 p t m : reads (lit p) (standby_T (timers_T n1 n2)) 2 -> rx_find (pattern false (lit p)) t = Some m -> exists a b, timers_line t a b.
Proof.
  intros R E. apply (reads_shape _ _ _ _ _ R) in E as (s' & c & HD & _). apply standby_bwd in HD as (i & g & ds & gs & s & -> & Wi & GG & FD & GD & HD). unfold timers_T in HD.
  apply D_lit_eq in HD as (r1 & -> & HD). apply D_run_eq in HD as (h1 & r2 & -> & H1 & H2 & HD). apply num_bwd in HD as (d1 & r3 & -> & D1 & HD). apply D_run_eq in HD as (h2 & r4 & -> & H3 & H4 & HD).
  rewrite <- (app_nil_r (if n2 then _ else _)) in HD. apply num_bwd in HD as (d2 & r5 & -> & D2 & _). apply all_sp in H1, H3. destruct (digits_more d2 r5 D2) as (d3 & e & -> & D3 & NM).
  exists (digits_Z d1), (digits_Z d3). exists d1, d3. split; [apply digits_numeral; apply D1|]. split; [apply digits_numeral; apply D3|]. exists ds.
  apply (standby_line (no_more is_digit) ds [lit "timers"; d1; d3]); [discriminate|]. exists i, g, gs, (lit "timers" ++ h1 ++ d1 ++ h2 ++ d3), e. rewrite <- !app_assoc. repeat split; auto; try apply GG; try apply GD.
  constructor; [split; auto|]. constructor; [split; auto|]. constructor.
Qed.
(** The timers are the two numbers after "timers" in the first such line, 0 if there is none. *)
Theorem C70_timers : forall own below,
  answers (fun t a => exists b, timers_line t a b) (own :: below) 0%Z (hsrp_hello_timer own below) /\
  answers (fun t b => exists a, timers_line t a b) (own :: below) 0%Z (hsrp_hold_timer own below).
Proof.
  assert (R1 : reads (lit "^\s*standby\s+(\d+\s+)*timers\s+(\d+)\s+\d+") (standby_T (timers_T true false)) 2) by reflexivity.
  assert (R2 : reads (lit "^\s*standby\s+(\d+\s+)*timers\s+\d+\s+(\d+)") (standby_T (timers_T false true)) 2) by reflexivity.
  assert (TI : forall d n, numeral d n -> to_int (Some d) = Ok n).
  { intros d n Nd. destruct (numeral_d _ _ Nd) as [D1 D2]. rewrite to_int_digits by auto. f_equal. now apply numeral_value. }
  intros own below. split; apply first_match_answers.
  - intros t v (b & HT). destruct (timers_fwd _ _ _ _ _ _ R1 HT) as (m & M1 & d1 & d2 & N1 & N2 & _ & G1). exists m. split; [exact M1|]. rewrite G1 by reflexivity. now apply TI.
  - intros t m E. destruct (timers_bwd _ _ _ _ _ R1 E) as (a & b & HT). eauto.
  - intros t v (b & HT). destruct (timers_fwd _ _ _ _ _ _ R2 HT) as (m & M1 & d1 & d2 & N1 & N2 & G1 & _). exists m. split; [exact M1|]. rewrite G1 by reflexivity. now apply TI.
  - intros t m E. destruct (timers_bwd _ _ _ _ _ R2 E) as (a & b & HT). eauto.
Qed.
Print Assumptions C70_timers.
Example C70_timers_ex : let below := map lit [" standby 7 timers 5 15"; " standby 8 timers 1 3"]%string in
  hsrp_hello_timer (lit "interface Vlan1") below = Ok 5%Z /\ hsrp_hold_timer (lit "interface Vlan1") below = Ok 15%Z /\
  hsrp_hello_timer (lit "interface Vlan1") [] = Ok 0%Z /\ hsrp_hello_timer (lit "interface Vlan1") [lit " standby 7 timers msec 250 msec 750"] = Ok 0%Z.
Proof. vm_compute. repeat split; reflexivity. Qed.

(** ** The mask and the priority *)

(** The mask of the virtual address is the last word of the first line "standby ... ip A M" of an
    interface that has an address. *)
Theorem C70_mask : forall own below,
  (ipv4_addr own below = Ok [] -> hsrp_ip_mask own below = Ok []) /\
  (forall a, ipv4_addr own below = Ok a -> a <> [] ->
    answers (fun t v => word v /\ exists x, word x /\ standby white [lit "ip"; x; v] t) (own :: below) [] (hsrp_ip_mask own below)).
Proof.
  intros own below. split; [intros E; unfold hsrp_ip_mask; now rewrite E|]. intros a E NE. unfold hsrp_ip_mask. rewrite E. cbn [bind]. destruct a as [|y a]; [congruence|]. cbn [truth].
  set (p := "^\s*standby\s+(?P<group>\d+\s+)*ip\s+\S+\s+(?P<mask>\S+)\s*$"%string).
  assert (AN : answers (fun t v => exists v', v = Some (Some v') /\ word v' /\ exists x, word x /\ standby white [lit "ip"; x; v'] t) (own :: below) None (Ok (iter_dict p "mask" own below))).
  { rewrite <- (dict_first p "mask" 1 own below); [|reflexivity|exists 2; split; [reflexivity|lia]].
    apply (rep_answers (fun o => Ok (Some o)) p 2 [lit "standby"] Digits [W (lit "ip"); A; G 2] Loose 2); try reflexivity; try discriminate; auto.
    - now apply word_stops.
    - intros ws F. eexists. reflexivity.
    - intros t v. split.
      + intros (v' & -> & Wv & x & Wx & ds & FD & HL). exists [lit "ip"; x; v']. split; [repeat (constructor; auto)|]. split; [|reflexivity]. exists ds. split; [exact FD|exact HL].
      + intros (ws & F & (ds & FD & HL) & C1). slots. injection C1 as <-. eexists. split; [reflexivity|]. split; [assumption|].
        match type of HL with line_of _ _ (_ ++ ds ++ [_; ?x; _]) _ => exists x end. split; [assumption|]. exists ds. split; [exact FD|exact HL]. }
  destruct AN as [(pre & t & post & v & E1 & N1 & (v' & -> & Pv) & E2)|[N1 E2]]; injection E2 as E2; rewrite E2.
  - left. exists pre, t, post, v'. repeat split; auto; try apply Pv. intros u v0 I0 [Wv Pu]. apply (N1 u (Some (Some v0)) I0). eauto.
  - right. split; [|reflexivity]. intros u v0 I0 [Wv Pu]. apply (N1 u (Some (Some v0)) I0). eauto.
Qed.
Print Assumptions C70_mask.
Example C70_mask_case : let below := map lit [" ip address 192.0.2.1 255.255.255.0"; " standby 1 ip 192.0.2.254 255.255.255.0"]%string in
  ipv4_addr (lit "interface Vlan1") below = Ok (lit "192.0.2.1") /\ hsrp_ip_mask (lit "interface Vlan1") below = Ok (lit "255.255.255.0") /\ hsrp_ip_mask (lit "interface Vlan1") (tl below) = Ok [].
Proof. vm_compute. repeat split; reflexivity. Qed.

Definition prio_p : string := "^\s*standby\s+(?P<group>\d+\s+)*priority\s+(?P<priority>\d+)".
(** "standby", the numbers [ds], "priority" and the number [n] *)
Definition prio_line (ds : list str) (n : Z) (t : str) : Prop :=
  exists d, numeral d n /\ Forall digits ds /\ line_of white (no_more is_digit) (lit "standby" :: ds ++ [lit "priority"; d]) t.
Lemma prio_reads : reads (lit prio_p) (standby_T [Lit (lit "priority"); Run sp true; Grp 2 [Run dg true]]) 2. Proof. reflexivity. Qed.
Lemma heads_last ds : forall gs, gaps ds gs -> exists u, heads ds gs = u ++ last gs [].
Proof.
  induction ds as [|d ds IH]; intros gs [HL HG]; destruct gs as [|g gs]; try discriminate; [now exists []|]. inversion HG as [|? ? H1 H2]; subst. cbn [heads]. destruct ds as [|d' ds].
  - destruct gs; [|discriminate]. exists d. cbn [heads last]. now rewrite app_nil_r.
  - destruct gs as [|g' gs]; [discriminate|]. destruct (IH (g' :: gs)) as (u & ->); [split; auto|]. exists (d ++ g ++ u). change (last (g :: g' :: gs) []) with (last (g' :: gs) []). now rewrite <- !app_assoc.
Qed.
Lemma prio_fwd ds n t : prio_line ds n t -> exists m d gs, rx_find (pattern false (lit prio_p)) t = Some (mkMatch m [match ds with [] => None | _ => Some (last ds [] ++ last gs []) end; Some d]) /\
  numeral d n /\ Forall digits ds /\ gaps ds gs /\ exists u v, t = u ++ last gs [] ++ v.
Proof.
  intros (d & Nd & FD & HL). destruct (proj1 (standby_line _ ds [lit "priority"; d] t ltac:(discriminate)) (conj FD HL)) as (i & g & gs & q & e & -> & Wi & GG & _ & GD & P & NM).
  inversion P as [|? h1 ? q1 GH1 P1]; subst. assert (q1 = d) as -> by (inversion P1 as [|? ? ? ? ? K]; [reflexivity|inversion K]). pose proof (numeral_d _ _ Nd) as D1.
  assert (HD : D true (standby_T [Lit (lit "priority"); Run sp true; Grp 2 [Run dg true]]) (i ++ lit "standby" ++ g ++ heads ds gs ++ lit "priority" ++ h1 ++ d ++ e) e [] ((2, d) :: rounds 1 ds gs [])).
  { apply standby_fwd; auto; [reflexivity|]. apply D_lit. apply D_run; [apply all_sp, GH1|intros _; apply GH1|intros _; now apply nonwhite_stops, digits_head|]. apply (num_fwd true d []); [exact D1|exact NM|constructor]. }
  destruct (reads_some _ _ _ _ _ _ prio_reads HD) as (m & M1). exists m, d, gs. split; [|split; [exact Nd|split; [exact FD|split; [exact GD|]]]].
  2:{ destruct (heads_last ds gs GD) as (u & E). rewrite E. exists (i ++ lit "standby" ++ g ++ u), (lit "priority" ++ h1 ++ d ++ e). now rewrite <- !app_assoc. }
  assert (K1 : cap 1 ((2, d) :: rounds 1 ds gs []) = match ds with [] => None | _ => Some (last ds [] ++ last gs []) end).
  { cbn [cap Nat.eqb]. rewrite cap_rounds_last by exact GD. now destruct ds. }
  rewrite <- !app_assoc. etransitivity; [exact M1|]. cbn [seq map]. f_equal. f_equal. f_equal. exact K1.
Qed.
Lemma prio_bwd t m : rx_find (pattern false (lit prio_p)) t = Some m -> exists ds n, prio_line ds n t.
Proof.
  intros E. apply (reads_shape _ _ _ _ _ prio_reads) in E as (s' & c & HD & _). apply standby_bwd in HD as (i & g & ds & gs & s & -> & Wi & GG & FD & GD & HD).
  apply D_lit_eq in HD as (r1 & -> & HD). apply D_run_eq in HD as (h1 & r2 & -> & H1 & H2 & HD). apply (num_bwd true []) in HD as (d1 & r3 & -> & D1 & HD). apply all_sp in H1.
  destruct (digits_more d1 r3 D1) as (d3 & e & -> & D3 & NM). exists ds, (digits_Z d3), d3. split; [apply digits_numeral; apply D3|].
  apply (standby_line (no_more is_digit) ds [lit "priority"; d3]); [discriminate|]. exists i, g, gs, (lit "priority" ++ h1 ++ d3), e. rewrite <- !app_assoc. repeat split; auto; try apply GG; try apply GD.
  constructor; [split; auto|]. constructor.
Qed.
(** White space that [int] removes: all but the characters 28 to 31. *)
Definition usual_blanks (t : str) : Prop := forall c, In c t -> is_space c = true -> int_space c = true.
Lemma drop_all f g s : forallb f g = true -> drop_while f (g ++ s) = drop_while f s.
Proof. induction g as [|x g IH]; [reflexivity|]. cbn. intros E. apply andb_true_iff in E as [-> E]. now apply IH. Qed.
Lemma py_int_padded d g : digits d -> white g -> usual_blanks g -> to_int (Some (d ++ g)) = Ok (digits_Z d).
Proof.
  intros [D1 D2] G1 UB. rewrite <- (to_int_digits d D1 D2). unfold to_int. replace (py_int (d ++ g)) with (py_int d); [reflexivity|].
  unfold py_int, int_strip. rewrite rev_app_distr, drop_all; [reflexivity|]. apply forallb_forall. intros x Hx. apply in_rev in Hx. apply UB; [exact Hx|]. unfold white in G1. rewrite forallb_forall in G1. now apply G1.
Qed.
(** The priority of the interface is read from the first line "standby ... priority N"; it is 100
    without such a line and 0 without HSRP.  A line without the number of a group makes the
    attribute fail. *)
Theorem C61_priority : forall own below, let lines := own :: below in Forall usual_blanks lines ->
  (has_ip_hsrp own below = Ok false -> hsrp_priority own below = Ok 0%Z) /\
  (has_ip_hsrp own below = Ok true ->
    (exists pre t post ds n, lines = pre ++ t :: post /\ (forall u ds' n', In u pre -> ~ prio_line ds' n' u) /\ prio_line ds n t /\
       hsrp_priority own below = match ds with [] => Err TypeErr | _ => Ok n end) \/
    ((forall u ds n, In u lines -> ~ prio_line ds n u) /\ hsrp_priority own below = Ok 100%Z)).
Proof.
  intros own below lines UB. split; intros HH; unfold hsrp_priority; rewrite HH; cbn [bind]; [reflexivity|]. change "^\s*standby\s+(?P<group>\d+\s+)*priority\s+(?P<priority>\d+)"%string with prio_p.
  unfold iter_dict. fold lines. destruct (first_found_spec (pattern false (lit prio_p)) lines) as [(pre & t & m & post & E & N1 & HM & HF)|[N1 HF]]; rewrite HF.
  - left. destruct (prio_bwd _ _ HM) as (ds & n & PL). exists pre, t, post, ds, n. split; [exact E|]. split; [|split; [exact PL|]].
    + intros u ds' n' I0 PU. apply prio_fwd in PU as (? & ? & ? & PU & _). rewrite (N1 u I0) in PU. discriminate.
    + destruct (prio_fwd _ _ _ PL) as (m0 & d & gs & M0 & Nd & FD & GD & u1 & v1 & E1). rewrite HM in M0. injection M0 as ->. 
      set (g1 := match ds with [] => None | _ => Some (last ds [] ++ last gs []) end).
      change (named (lit prio_p) (lit "group") (mkMatch m0 [g1; Some d])) with g1. change (named (lit prio_p) (lit "priority") (mkMatch m0 [g1; Some d])) with (Some d). unfold g1.
      destruct ds as [|d0 ds]; [reflexivity|].
      assert (LD : digits (last (d0 :: ds) [])). { rewrite Forall_forall in FD. apply FD. destruct (exists_last (l := d0 :: ds) ltac:(discriminate)) as (l & x & ->). rewrite last_last. apply in_or_app. right. now left. }
      assert (LG : gap (last gs [])). { destruct GD as [GL GD]. destruct gs as [|g0 gs]; [discriminate|]. rewrite Forall_forall in GD. apply GD. destruct (exists_last (l := g0 :: gs) ltac:(discriminate)) as (l & x & ->). rewrite last_last. apply in_or_app. right. now left. }
      assert (UG : usual_blanks (last gs [])).
      { rewrite Forall_forall in UB. assert (UT : usual_blanks t) by (apply UB; rewrite E; apply in_or_app; right; now left). intros c Ic. apply UT. rewrite E1. apply in_or_app. right. apply in_or_app. now left. }
      rewrite (py_int_padded _ _ LD (proj1 LG) UG). cbn [bind]. destruct (numeral_d _ _ Nd) as [D1 D2]. rewrite to_int_digits by auto. f_equal. now apply numeral_value.
  - right. split; [|reflexivity]. intros u ds n I0 PU. apply prio_fwd in PU as (? & ? & ? & PU & _). rewrite (N1 u I0) in PU. discriminate.
Qed.
Print Assumptions C61_priority.
Example C61_priority_case : let below := map lit [" ip address 192.0.2.1 255.255.255.0"; " standby 1 ip 192.0.2.254"; " standby 1 priority 110"]%string in
  has_ip_hsrp (lit "interface Vlan1") below = Ok true /\ hsrp_priority (lit "interface Vlan1") below = Ok 110%Z /\ hsrp_priority (lit "interface Vlan1") (firstn 2 below) = Ok 100%Z /\
  hsrp_priority (lit "interface Vlan1") (skipn 2 below) = Ok 0%Z.
Proof. vm_compute. repeat split; reflexivity. Qed.

(** ** Helper addresses *)

Lemma words_aux_cut a c b : is_space c = true -> forall acc, words_aux acc (a ++ c :: b) = words_aux acc a ++ words b.
Proof.
  intros C0. induction a as [|x a IH]; intros acc; cbn.
  - rewrite C0. destruct acc; reflexivity.
  - destruct (is_space x); [|apply IH]. destruct acc; [apply IH|]. cbn. f_equal. apply IH.
Qed.
Lemma words_cut a c b : is_space c = true -> words (a ++ c :: b) = words a ++ words b.
Proof. intros C0. now apply words_aux_cut. Qed.
Lemma words_gap a g b : gap g -> words (a ++ g ++ b) = words a ++ words b.
Proof.
  intros [G1 G2]. destruct g as [|c g]; [congruence|]. unfold white in G1. cbn in G1. apply andb_true_iff in G1 as [C0 G1]. cbn [app]. rewrite words_cut by exact C0. f_equal.
  unfold words. now rewrite words_aux_space_prefix.
Qed.
(** A piece of text without white space lies in one word. *)
Lemma piece_in_word u q v : q <> [] -> forallb (fun c => negb (is_space c)) q = true -> exists w a b, In w (words (u ++ q ++ v)) /\ w = a ++ q ++ b.
Proof.
  intros NE Q0. destruct (word_cut v) as (v1 & v2 & -> & V1 & V2).
  assert (UU : exists u1 u2, u = u1 ++ u2 /\ forallb (fun c => negb (is_space c)) u2 = true /\ (u1 = [] \/ exists u0 c, u1 = u0 ++ [c] /\ is_space c = true)).
  { clear. induction u as [|x u (u1 & u2 & -> & U2 & UC)] using rev_ind; [exists [], []; auto|]. destruct (is_space x) eqn:E.
    - exists ((u1 ++ u2) ++ [x]), []. rewrite app_nil_r. repeat split; auto. right. eauto.
    - exists u1, (u2 ++ [x]). rewrite <- app_assoc. repeat split; auto. rewrite forallb_app, U2. cbn. now rewrite E. }
  destruct UU as (u1 & u2 & -> & U2 & UC). exists (u2 ++ q ++ v1), u2, v1. split; [|reflexivity].
  assert (Ww : word (u2 ++ q ++ v1)) by (split; [destruct u2; [destruct q; [congruence|discriminate]|discriminate]|now rewrite !forallb_app, U2, Q0, V1]).
  assert (E : words ([] ++ (u2 ++ q ++ v1) ++ v2) = (u2 ++ q ++ v1) :: words v2) by (apply words_word; auto; reflexivity).
  cbn [app] in E. replace ((u1 ++ u2) ++ q ++ v1 ++ v2) with (u1 ++ (u2 ++ q ++ v1) ++ v2) by now rewrite <- !app_assoc. destruct UC as [-> |(u0 & c & -> & C0)].
  - cbn [app]. rewrite E. now left.
  - rewrite <- app_assoc. cbn [app]. rewrite words_cut by exact C0. apply in_or_app. right. rewrite E. now left.
Qed.
Lemma quad_nonspace q : quad q -> q <> [] /\ forallb (fun c => negb (is_space c)) q = true.
Proof.
  intros (a & b & c & d & -> & F). assert (K : forall x : str, forallb is_digit x = true -> forallb (fun c => negb (is_space c)) x = true).
  { intros x X0. rewrite forallb_forall in *. intros y Hy. now rewrite (digit_nonspace _ (X0 y Hy)). }
  rewrite Forall_forall in F. destruct (F a ltac:(cbn; auto)) as [A1 A2]. destruct (F b ltac:(cbn; auto)) as [_ B2]. destruct (F c ltac:(cbn; auto)) as [_ C2]. destruct (F d ltac:(cbn; auto)) as [_ D2].
  split; [destruct a; [congruence|discriminate]|]. rewrite forallb_app. cbn [forallb]. rewrite forallb_app. cbn [forallb]. rewrite forallb_app. cbn [forallb]. now rewrite !K.
Qed.
Lemma quad_digit q : quad q -> exists x r, q = x :: r /\ is_digit x = true.
Proof. intros (a & b & c & d & -> & F). inversion F as [|? ? [F1 F2] _]; subst. destruct a as [|x a]; [congruence|]. cbn in F2. apply andb_true_iff in F2 as [F2 _]. exists x. eexists. split; [reflexivity|exact F2]. Qed.

(** Some piece of the text is a dotted quad. *)
Definition has_quad (s : str) : Prop := exists u q v, s = u ++ q ++ v /\ quad q.
(** "ip helper-address", then nothing, "global", or "vrf" and a name, and then the address. *)
Inductive helper_line : str -> helper -> Prop :=
| hl_plain t a : quad a -> says_loosely [lit "ip"; lit "helper-address"; a] t -> helper_line t {| h_addr := a; h_vrf := []; h_global := false |}
| hl_global t a : quad a -> says_loosely [lit "ip"; lit "helper-address"; lit "global"; a] t -> helper_line t {| h_addr := a; h_vrf := []; h_global := true |}
| hl_vrf t v a : quad a -> word v -> ~ has_quad v -> says_loosely [lit "ip"; lit "helper-address"; lit "vrf"; v; a] t -> helper_line t {| h_addr := a; h_vrf := v; h_global := false |}.
(** The lines that have "helper-address" in them, in order. *)
Inductive helpers : list str -> list helper -> Prop :=
| hp_nil : helpers [] []
| hp_skip t ts l : (forall a b, t <> a ++ lit "helper-address" ++ b) -> helpers ts l -> helpers (t :: ts) l
| hp_take t ts h l : no_newline t -> helper_line t h -> helpers ts l -> helpers (t :: ts) (h :: l).

Definition helper_T : list item := [Lit (lit "ip"); Run sp true; Lit (lit "helper-address"); One sp].
Definition helper_re : re := row (flat_map flat1 helper_T ++ [RStar false (RSet dot); RGrp 1 (den quad_items)]).
Lemma helper_reads : reads_any (lit "ip\s+helper-address\s.*?(\d+\.\d+\.\d+\.\d+)") helper_re 1. Proof. reflexivity. Qed.
Lemma helper_addr t i g g' w a e : white i -> gap g -> white g' -> quad a -> white e -> no_newline t -> (w = [] \/ exists m h, w = m ++ h /\ gap h) -> ~ has_quad w ->
  t = i ++ lit "ip" ++ g ++ lit "helper-address" ++ g' ++ w ++ a ++ e -> gap g' ->
  match_typed to_str [] "ip\s+helper-address\s.*?(\d+\.\d+\.\d+\.\d+)" t = Ok a.
Proof.
  intros Wi GG _ Qa We Nt HW NQ -> GG'. destruct GG' as [G1 G2]. destruct g' as [|y g']; [congruence|]. unfold white in G1. cbn in G1. apply andb_true_iff in G1 as [Y0 G1].
  set (full := lit "ip" ++ g ++ lit "helper-address" ++ (y :: g') ++ w ++ a ++ e).
  assert (HD : D true helper_T full (g' ++ w ++ a ++ e) [] []).
  { unfold helper_T, full. apply D_lit. apply D_run; [apply all_sp, GG|intros _; apply GG|intros _; reflexivity|]. apply D_lit. cbn [app]. apply D_one; [now rewrite in_sp|]. constructor. }
  assert (MM : exists m, match_at helper_re (length i) full = Some (m, [(1, a)])).
  { eexists. unfold match_at, helper_re. rewrite row_app'. eapply (eval _ _ _ _ _ HD). rewrite row_cons. cbn [row]. rewrite app_assoc. apply lazy_first.
    - apply all_dot. unfold no_newline, full in Nt. cbn [app] in Nt. repeat (rewrite forallb_app in Nt || cbn [forallb] in Nt). unfold no_newline. rewrite forallb_app.
      repeat match goal with X : _ && _ = true |- _ => apply andb_true_iff in X as [? ?] end. apply andb_true_iff. split; assumption.
    - intros w1 w2 E NE. rewrite mat_grp. apply mat_none. intros i' s' c' HM. apply shape in HM. rewrite <- (app_nil_r quad_items) in HM. apply (D_items_inv _ Q) in HM as (q & r & E2 & F & HM). cbn [fits] in F.
      assert (W2 : exists m z, w2 = m ++ [z] /\ is_space z = true).
      { destruct (exists_last NE) as (m & z & ->). exists m, z. split; [reflexivity|]. destruct HW as [-> |(m' & h & -> & [H1 H2])].
        - rewrite app_nil_r in E. subst g'. rewrite !forallb_app in G1. apply andb_true_iff in G1 as [_ G1]. apply andb_true_iff in G1 as [_ G1]. cbn in G1. now rewrite andb_true_r in G1.
        - destruct (exists_last H2) as (h' & z' & ->). rewrite !app_assoc in E. apply app_inj_tail in E as [_ <-]. unfold white in H1. rewrite forallb_app in H1. apply andb_true_iff in H1 as [_ H1]. cbn in H1. now rewrite andb_true_r in H1. }
      destruct W2 as (m & z & -> & Z0). destruct (quad_nonspace _ F) as [NQ0 QS].
      assert (PQ : exists k, m ++ [z] = q ++ k).
      { destruct (Nat.le_gt_cases (length q) (length (m ++ [z]))) as [LE|GT].
        - symmetry in E2. apply prefix_of in E2 as (k & -> & _); [eauto|exact LE].
        - apply prefix_of in E2 as (k & -> & _); [|lia]. rewrite !forallb_app in QS. apply andb_true_iff in QS as [QS _]. apply andb_true_iff in QS as [_ QS]. cbn in QS. rewrite Z0 in QS. discriminate. }
      destruct PQ as (k & PQ). rewrite PQ in E. destruct (piece_in_word w1 q k NQ0 QS) as (w0 & x1 & x2 & I0 & ->). rewrite <- E in I0.
      assert (IW : In (x1 ++ q ++ x2) (words w)) by (unfold words in I0; rewrite words_aux_space_prefix in I0 by exact G1; exact I0).
      apply NQ. apply in_split in IW as (l1 & l2 & IW).
      assert (XX : forall l s w0 l', words s = l ++ w0 :: l' -> exists u v, s = u ++ w0 ++ v).
      { clear. induction l as [|x l IH]; intros s w0 l' E; cbn [app] in E; apply words_inv in E as (i & e & -> & _ & _ & _ & E); [now exists i, e|]. apply IH in E as (u & v & ->). exists (i ++ x ++ u), v. now rewrite <- !app_assoc. }
      destruct (XX _ _ _ _ IW) as (u & v & ->). exists (u ++ x1), q, (x2 ++ v). split; [now rewrite <- !app_assoc|exact F].
    - rewrite mat_grp. assert (HQ : D true quad_items (a ++ e) e [] []).
      { rewrite <- (app_nil_r quad_items). apply D_quad; [exact Qa| |constructor]. intros _. destruct e as [|z e]; [exact I|]. unfold white in We. cbn in *. apply andb_true_iff in We as [We _]. destruct (is_digit z) eqn:K; [apply digit_nonspace in K; congruence|reflexivity]. }
      eapply (eval _ _ _ _ _ HQ). f_equal. f_equal. f_equal. f_equal.
      set (j := _ + length (g' ++ w)). replace (j + (length (a ++ e) - length e) - j) with (length a) by (rewrite app_length; lia). rewrite firstn_app, firstn_all, Nat.sub_diag. cbn [firstn]. apply app_nil_r. }
  destruct MM as (m & MM).
  assert (LM : forall u v, i ++ full = u ++ v -> length u < length i -> match_at helper_re (length u) v = None).
  { intros u v E LT. destruct (match_at helper_re (length u) v) as [[m1 c1]|] eqn:F; [|reflexivity]. exfalso. apply mat_sound in F as (i' & s' & c' & HM & _). apply row_app_M in HM as (i1 & s1 & c2 & HM & _). apply (shape helper_T) in HM.
    apply D_lit_eq in HM as (r & -> & _). symmetry in E. apply prefix_of in E as (kk & -> & E); [|lia]. destruct kk as [|z kk]; [rewrite app_nil_r in LT; lia|]. cbn in E. injection E as <- _.
    unfold white in Wi. rewrite forallb_app in Wi. apply andb_true_iff in Wi as [_ Wi]. discriminate Wi. }
  unfold match_typed. fold full. rewrite (any_found _ _ _ i _ _ _ helper_reads LM MM). reflexivity.
Qed.

Lemma quad_in_words w : has_quad w -> exists x, In x (words w) /\ has_quad x.
Proof.
  intros (u & q & v & -> & F). destruct (quad_nonspace _ F) as [NE QS]. destruct (piece_in_word u q v NE QS) as (x & a & b & I0 & ->). exists (a ++ q ++ b). split; [exact I0|]. now exists a, q, b.
Qed.
Lemma no_quad s : forallb (fun c => negb (is_digit c)) s = true -> ~ has_quad s.
Proof.
  intros N0 (u & q & v & -> & F). destruct (quad_digit _ F) as (x & r & -> & X0). rewrite !forallb_app in N0. apply andb_true_iff in N0 as [_ N0]. cbn in N0. rewrite X0 in N0. discriminate.
Qed.
Lemma words_last a w : w <> [] -> forallb (fun c => negb (is_space c)) w = true -> exists l u, words (a ++ w) = l ++ [u ++ w].
Proof.
  intros NE W0.
  assert (UU : exists u1 u2, a = u1 ++ u2 /\ forallb (fun c => negb (is_space c)) u2 = true /\ (u1 = [] \/ exists u0 c, u1 = u0 ++ [c] /\ is_space c = true)).
  { clear. induction a as [|x u (u1 & u2 & -> & U2 & UC)] using rev_ind; [exists [], []; auto|]. destruct (is_space x) eqn:E.
    - exists ((u1 ++ u2) ++ [x]), []. rewrite app_nil_r. repeat split; auto. right. eauto.
    - exists u1, (u2 ++ [x]). rewrite <- app_assoc. repeat split; auto. rewrite forallb_app, U2. cbn. now rewrite E. }
  destruct UU as (u1 & u2 & -> & U2 & UC).
  assert (Ww : word (u2 ++ w)) by (split; [destruct u2; [exact NE|discriminate]|now rewrite !forallb_app, U2, W0]).
  assert (E : words ([] ++ (u2 ++ w) ++ []) = (u2 ++ w) :: words []) by (apply words_word; [reflexivity|exact Ww|exact I]).
  rewrite app_nil_r in E. cbn [app] in E. change (words []) with (@nil str) in E. rewrite <- app_assoc. destruct UC as [-> |(u0 & c & -> & C0)].
  - exists [], u2. exact E.
  - exists (words u0), u2. rewrite <- app_assoc. cbn [app]. rewrite words_cut by exact C0. f_equal. exact E.
Qed.
Lemma words_first w r : w <> [] -> forallb (fun c => negb (is_space c)) w = true -> exists x l, words (w ++ r) = (w ++ x) :: l.
Proof.
  intros NE W0. destruct (word_cut r) as (x & e & -> & X0 & E0). exists x, (words e). rewrite app_assoc. apply (words_word [] (w ++ x) e); [reflexivity| |exact E0]. split; [destruct w; [congruence|discriminate]|now rewrite forallb_app, W0, X0].
Qed.
Definition helper_words (ws : list str) : Prop :=
  (exists a, quad a /\ ws = [a]) \/ (exists a, quad a /\ ws = [lit "global"; a]) \/ (exists v a, quad a /\ ws = [lit "vrf"; v; a]).
Lemma ends_ip u w : forallb (fun c => negb (Ascii.eqb c "p")) (rev (firstn 1 (rev w))) = true -> w = u ++ lit "ip" -> False.
Proof. intros F ->. rewrite rev_app_distr in F. cbn in F. discriminate. Qed.
Lemma helper_at t ws a g g2 r : words t = lit "ip" :: lit "helper-address" :: ws -> helper_words ws -> gap g -> gap g2 ->
  t = a ++ lit "ip" ++ g ++ lit "helper-address" ++ g2 ++ r -> words r = ws.
Proof.
  intros E HW GG GG2 ->. rewrite app_assoc in E. rewrite words_gap in E by exact GG. rewrite words_gap in E by exact GG2.
  destruct (words_last a (lit "ip") ltac:(discriminate) eq_refl) as (l & u & E1). change (words (lit "helper-address")) with [lit "helper-address"] in E.
  assert (E2 : (l ++ [u ++ lit "ip"]) ++ [lit "helper-address"] ++ words r = lit "ip" :: lit "helper-address" :: ws) by (rewrite <- E1; exact E). clear E E1. rewrite <- app_assoc in E2. cbn [app] in E2.
  assert (QP : forall q x, quad q -> q = x -> forallb (fun c => negb (is_digit c)) (firstn 1 x) = true -> False).
  { intros q x F <- K. destruct (quad_digit _ F) as (y & z & -> & Y0). cbn in K. rewrite Y0 in K. discriminate. }
  destruct l as [|x1 l]; cbn [app] in E2; [injection E2 as _ E2; exact E2|]. injection E2 as _ E2.
  destruct l as [|x2 l]; cbn [app] in E2; [injection E2 as K _; symmetry in K; exfalso; now apply ends_ip in K|]. injection E2 as _ E2. exfalso.
  destruct HW as [(q & F & ->)|[(q & F & ->)|(v & q & F & ->)]].
  - destruct l as [|x3 l]; cbn [app] in E2; [discriminate|]. injection E2 as _ E2. destruct l; discriminate.
  - destruct l as [|x3 l]; cbn [app] in E2; [injection E2 as K _; symmetry in K; now apply ends_ip in K|]. injection E2 as _ E2. destruct l as [|x4 l]; cbn [app] in E2; [discriminate|]. injection E2 as _ E2. destruct l; discriminate.
  - destruct l as [|x3 l]; cbn [app] in E2; [injection E2 as K _; symmetry in K; now apply ends_ip in K|]. injection E2 as _ E2.
    destruct l as [|x4 l]; cbn [app] in E2; [injection E2 as _ K _; symmetry in K; now apply (QP _ _ F) in K|]. injection E2 as _ E2.
    destruct l as [|x5 l]; cbn [app] in E2; [discriminate|]. injection E2 as _ E2. destruct l; discriminate.
Qed.
Definition helper_pre (T : list item) : list item := Lit (lit "ip") :: Run sp true :: Lit (lit "helper-address") :: Run sp true :: T.
Lemma pre_inv T b s c c' : D false (helper_pre T) b s c c' -> exists g g2 r, b = lit "ip" ++ g ++ lit "helper-address" ++ g2 ++ r /\ gap g /\ gap g2 /\ D false T r s c c'.
Proof.
  intros HD. apply D_lit_eq in HD as (r1 & -> & HD). apply D_run_eq in HD as (g & r2 & -> & G1 & G2 & HD). apply D_lit_eq in HD as (r3 & -> & HD). apply D_run_eq in HD as (g2 & r & -> & G3 & G4 & HD).
  apply all_sp in G1, G3. exists g, g2, r. unfold gap. auto 10.
Qed.
Lemma pre_first T i b u v s' c' : white i -> i ++ b = u ++ v -> length u < length i -> ~ D false (helper_pre T) v s' [] c'.
Proof.
  intros Wi E LT HD. apply pre_inv in HD as (g & g2 & r & -> & _). symmetry in E. apply prefix_of in E as (k & -> & E); [|lia]. destruct k as [|z k]; [rewrite app_nil_r in LT; lia|]. cbn in E. injection E as <- _.
  unfold white in Wi. rewrite forallb_app in Wi. apply andb_true_iff in Wi as [_ Wi]. discriminate Wi.
Qed.
Definition global_T := helper_pre [Grp 1 [Lit (lit "global")]].
Definition vrf_T := helper_pre [Lit (lit "vrf"); Run sp true; Grp 1 [Run ns true]].
Lemma global_reads : reads_any (lit "ip\s+helper-address\s+(global)") (den global_T) 1. Proof. reflexivity. Qed.
Lemma vrf_reads : reads_any (lit "ip\s+helper-address\s+vrf\s+(\S+)") (den vrf_T) 1. Proof. reflexivity. Qed.
Lemma no_global t ws : words t = lit "ip" :: lit "helper-address" :: ws -> helper_words ws -> (forall x l, ws <> (lit "global" ++ x) :: l) ->
  match_typed to_bool false "ip\s+helper-address\s+(global)" t = Ok false.
Proof.
  intros E HW NG. unfold match_typed. assert (X : rx_find (pattern false (lit "ip\s+helper-address\s+(global)")) t = None); [|now rewrite X]. apply (free_none _ _ _ _ global_reads).
  intros a b s c Et HD. apply pre_inv in HD as (g & g2 & r & -> & GG & GG2 & HD). pose proof (helper_at _ _ _ _ _ _ E HW GG GG2 Et) as ER. apply D_grp_eq in HD as (w & r' & c1 & _ & HD & _). apply D_lit_eq in HD as (r0 & -> & _).
  destruct (words_first (lit "global") r0 ltac:(discriminate) eq_refl) as (x & l & K). apply (NG x l). now rewrite <- ER.
Qed.
Lemma no_vrf t ws : words t = lit "ip" :: lit "helper-address" :: ws -> helper_words ws -> (forall x l, ws <> (lit "vrf" ++ x) :: l) ->
  match_typed to_str [] "ip\s+helper-address\s+vrf\s+(\S+)" t = Ok [].
Proof.
  intros E HW NG. unfold match_typed. assert (X : rx_find (pattern false (lit "ip\s+helper-address\s+vrf\s+(\S+)")) t = None); [|now rewrite X]. apply (free_none _ _ _ _ vrf_reads).
  intros a b s c Et HD. apply pre_inv in HD as (g & g2 & r & -> & GG & GG2 & HD). pose proof (helper_at _ _ _ _ _ _ E HW GG GG2 Et) as ER. apply D_lit_eq in HD as (r0 & -> & _).
  destruct (words_first (lit "vrf") r0 ltac:(discriminate) eq_refl) as (x & l & K). apply (NG x l). now rewrite <- ER.
Qed.
Lemma not_digit_first q w x l l' : quad q -> forallb (fun c => negb (is_digit c)) w = true -> w <> [] -> q :: l <> (w ++ x) :: l'.
Proof. intros F W0 NE E. injection E as E _. destruct (quad_digit _ F) as (y & z & -> & Y0). destruct w as [|y' w]; [congruence|]. cbn in E. injection E as <- _. cbn in W0. rewrite Y0 in W0. discriminate. Qed.
Lemma quad_word q : quad q -> word q. Proof. intros F. destruct (quad_nonspace _ F) as [A1 A2]. split; assumption. Qed.
Lemma loose_words ws t : Forall word ws -> says_loosely ws t -> words t = ws.
Proof. intros F (i & q & e & -> & Wi & P & We). rewrite (words_phrase ws q i e F P Wi (white_ends e We)), words_nil by exact We. apply app_nil_r. Qed.
Lemma lit_word s : lit s <> [] -> forallb (fun c => negb (is_space c)) (lit s) = true -> word (lit s). Proof. now split. Qed.

Lemma helper_one t h : no_newline t -> helper_line t h ->
  match_typed to_str [] "ip\s+helper-address\s.*?(\d+\.\d+\.\d+\.\d+)" t = Ok (h_addr h) /\
  match_typed to_bool false "ip\s+helper-address\s+(global)" t = Ok (h_global h) /\
  match_typed to_str [] "ip\s+helper-address\s+vrf\s+(\S+)" t = Ok (h_vrf h) /\ exists a b, t = a ++ lit "helper-address" ++ b.
Proof.
  intros Nt HL. destruct HL as [t a F HL|t a F HL|t v a F Wv NV HL].
  - assert (E : words t = [lit "ip"; lit "helper-address"; a]) by (apply loose_words; [repeat (constructor; [split; [discriminate|reflexivity]|]); constructor; [now apply quad_word|constructor]|exact HL]).
    assert (HW : helper_words [a]) by (left; eauto). cbn [h_addr h_vrf h_global]. split; [|split; [|split]].
    + destruct HL as (i & q & e & -> & Wi & P & We). inversion P as [|? g ? q1 GG P1]; subst. inversion P1 as [|? g2 ? q2 GG2 P2]; subst. assert (q2 = a) as -> by (inversion P2 as [|? ? ? ? ? K]; [reflexivity|inversion K]).
      eapply (helper_addr _ i g g2 [] a e); auto; [apply GG2|now apply no_quad|]. rewrite <- !app_assoc. reflexivity.
    + apply (no_global _ _ E HW). intros x l. now apply not_digit_first.
    + apply (no_vrf _ _ E HW). intros x l. now apply not_digit_first.
    + apply words_inv in E as (i & e & -> & _ & _ & _ & E). apply words_inv in E as (i' & e' & -> & _). exists (i ++ lit "ip" ++ i'), e'. now rewrite <- !app_assoc.
  - assert (E : words t = [lit "ip"; lit "helper-address"; lit "global"; a]) by (apply loose_words; [repeat (constructor; [split; [discriminate|reflexivity]|]); constructor; [now apply quad_word|constructor]|exact HL]).
    assert (HW : helper_words [lit "global"; a]) by (right; left; eauto). cbn [h_addr h_vrf h_global].
    destruct HL as (i & q & e & -> & Wi & P & We). inversion P as [|? g ? q1 GG P1]; subst. inversion P1 as [|? g2 ? q2 GG2 P2]; subst. inversion P2 as [|? g3 ? q3 GG3 P3]; subst. assert (q3 = a) as -> by (inversion P3 as [|? ? ? ? ? K]; [reflexivity|inversion K]).
    split; [|split; [|split]].
    + eapply (helper_addr _ i g g2 (lit "global" ++ g3) a e); auto; [apply GG2|right; eauto| |now rewrite <- !app_assoc].
      intros K. apply quad_in_words in K as (x & I0 & K). pose proof (words_gap (lit "global") g3 [] GG3) as E3. rewrite app_nil_r in E3. rewrite E3 in I0. destruct I0 as [<- |[]]. revert K. now apply no_quad.
    + unfold match_typed. destruct (free_found _ _ _ i ((lit "ip" ++ g ++ lit "helper-address" ++ g2 ++ lit "global" ++ g3 ++ a) ++ e) (g3 ++ a ++ e) [(1, lit "global")] global_reads) as (m & X); [|intros u0 v0 s0 c0 K1 K2; exact (pre_first _ _ _ _ _ _ _ Wi K1 K2)|match type of X with _ = ?z => match goal with |- context [rx_find ?q ?s] => assert (X1 : rx_find q s = z) by exact X; rewrite X1 end end; reflexivity].
      rewrite <- !app_assoc. unfold global_T, helper_pre. apply D_lit. apply D_run; [apply all_sp, GG|intros _; apply GG|intros _; reflexivity|]. apply D_lit. apply D_run; [apply all_sp, GG2|intros _; apply GG2|intros _; reflexivity|].
      eapply (D_grp true 1 [Lit (lit "global")] [] (lit "global")); [apply D_lit; constructor|constructor].
    + apply (no_vrf _ _ E HW). discriminate.
    + exists (i ++ lit "ip" ++ g), (g2 ++ lit "global" ++ g3 ++ a ++ e). now rewrite <- !app_assoc.
  - assert (E : words t = [lit "ip"; lit "helper-address"; lit "vrf"; v; a]) by (apply loose_words; [repeat (constructor; [split; [discriminate|reflexivity]|]); constructor; [exact Wv|constructor; [now apply quad_word|constructor]]|exact HL]).
    assert (HW : helper_words [lit "vrf"; v; a]) by (right; right; eauto). cbn [h_addr h_vrf h_global].
    destruct HL as (i & q & e & -> & Wi & P & We). inversion P as [|? g ? q1 GG P1]; subst. inversion P1 as [|? g2 ? q2 GG2 P2]; subst. inversion P2 as [|? g3 ? q3 GG3 P3]; subst. inversion P3 as [|? g4 ? q4 GG4 P4]; subst. assert (q4 = a) as -> by (inversion P4 as [|? ? ? ? ? K]; [reflexivity|inversion K]).
    split; [|split; [|split]].
    + eapply (helper_addr _ i g g2 (lit "vrf" ++ g3 ++ v ++ g4) a e); auto; [apply GG2|right; exists (lit "vrf" ++ g3 ++ v), g4; split; [now rewrite <- !app_assoc|exact GG4]| |now rewrite <- !app_assoc].
      intros K. apply quad_in_words in K as (x & I0 & K). rewrite words_gap in I0 by exact GG3. pose proof (words_gap v g4 [] GG4) as E3. rewrite app_nil_r in E3. rewrite E3 in I0. destruct I0 as [<- |I0]; [revert K; now apply no_quad|].
      change (words []) with (@nil str) in I0. rewrite app_nil_r in I0. pose proof (words_word [] v [] eq_refl Wv I) as E4. rewrite app_nil_r in E4. cbn [app] in E4. rewrite E4 in I0. destruct I0 as [<- |[]]. exact (NV K).
    + apply (no_global _ _ E HW). discriminate.
    + unfold match_typed. destruct (free_found _ _ _ i ((lit "ip" ++ g ++ lit "helper-address" ++ g2 ++ lit "vrf" ++ g3 ++ v ++ g4 ++ a) ++ e) (g4 ++ a ++ e) [(1, v)] vrf_reads) as (m & X); [|intros u0 v0 s0 c0 K1 K2; exact (pre_first _ _ _ _ _ _ _ Wi K1 K2)|match type of X with _ = ?z => match goal with |- context [rx_find ?q ?s] => assert (X1 : rx_find q s = z) by exact X; rewrite X1 end end; reflexivity].
      rewrite <- !app_assoc. unfold vrf_T, helper_pre. apply D_lit. apply D_run; [apply all_sp, GG|intros _; apply GG|intros _; reflexivity|]. apply D_lit. apply D_run; [apply all_sp, GG2|intros _; apply GG2|intros _; reflexivity|].
      apply D_lit. apply D_run; [apply all_sp, GG3|intros _; apply GG3|intros _; now apply nonwhite_stops, word_head|].
      eapply (D_grp true 1 [Run ns true] [] v); [|constructor]. apply D_run; [apply all_ns, Wv|intros _; apply Wv| |constructor]. intros _. destruct GG4 as [G1 G2]. destruct g4 as [|z g4]; [congruence|]. unfold stops. cbn [app]. rewrite in_ns. unfold white in G1. cbn in G1. apply andb_true_iff in G1 as [-> _]. reflexivity.
    + exists (i ++ lit "ip" ++ g), (g2 ++ lit "vrf" ++ g3 ++ v ++ g4 ++ a ++ e). now rewrite <- !app_assoc.
Qed.

(** The helper addresses are those of the children that mention "helper-address", in order, with the
    VRF or the "global" they name. *)
Theorem C60_helpers : forall kids hs, helpers kids hs ->
  ip_helper_addresses kids = Ok hs /\ has_ip_helper_addresses kids = Ok (negb (Nat.eqb (length hs) 0)).
Proof.
  intros kids hs K. assert (E : ip_helper_addresses kids = Ok hs).
  { induction K as [|t ts l N0 K IH|t ts h l Nt HL K IH]; [reflexivity| |].
    - cbn [ip_helper_addresses]. destruct (contains (lit "helper-address") t) eqn:C0; [|exact IH]. apply TreePost.contains_spec in C0 as (a & b & C0). destruct (N0 _ _ C0).
    - cbn [ip_helper_addresses]. destruct (helper_one _ _ Nt HL) as (E1 & E2 & E3 & a & b & E4). assert (C0 : contains (lit "helper-address") t = true) by (apply TreePost.contains_spec; eauto).
      rewrite C0, E1. cbn [bind]. rewrite E2. cbn [bind]. rewrite E3. cbn [bind]. rewrite IH. cbn [bind]. destruct h; reflexivity. }
  split; [exact E|]. unfold has_ip_helper_addresses. rewrite E. cbn [bind]. now destruct hs.
Qed.
Print Assumptions C60_helpers.
Definition helper_kids : list str := map lit [" description uplink"; " ip helper-address 192.0.2.7"; " ip helper-address global 192.0.2.8 "; " ip  helper-address vrf RED 192.0.2.9"]%string.
Example C60_helpers_case : helpers helper_kids
  [{| h_addr := lit "192.0.2.7"; h_vrf := []; h_global := false |}; {| h_addr := lit "192.0.2.8"; h_vrf := []; h_global := true |}; {| h_addr := lit "192.0.2.9"; h_vrf := lit "RED"; h_global := false |}].
Proof.
  assert (QQ : forall d, digits (lit d) -> quad (lit "192" ++ "." :: lit "0" ++ "." :: lit "2" ++ "." :: lit d)).
  { intros d Dd. exists (lit "192"), (lit "0"), (lit "2"), (lit d). split; [reflexivity|]. repeat (constructor; [split; [discriminate|reflexivity]|]). constructor; [exact Dd|constructor]. }
  assert (G1 : gap (lit " ")) by (split; [reflexivity|discriminate]). assert (G2 : gap (lit "  ")) by (split; [reflexivity|discriminate]). unfold helper_kids. cbn [map].
  apply hp_skip.
  { intros a b E. assert (C0 : contains (lit "helper-address") (lit " description uplink") = true) by (apply TreePost.contains_spec; eauto). discriminate C0. }
  apply hp_take; [reflexivity| |apply hp_take; [reflexivity| |apply hp_take; [reflexivity| |constructor]]].
  - apply hl_plain; [exact (QQ "7"%string ltac:(split; [discriminate|reflexivity]))|]. exists (lit " "), (lit "ip helper-address 192.0.2.7"), []. split; [reflexivity|split; [reflexivity|split; [|reflexivity]]].
    apply (ph_more (lit "ip") (lit " ") _ (lit "helper-address 192.0.2.7")); [exact G1|]. apply (ph_more (lit "helper-address") (lit " ") _ (lit "192.0.2.7")); [exact G1|]. constructor.
  - apply hl_global; [exact (QQ "8"%string ltac:(split; [discriminate|reflexivity]))|]. exists (lit " "), (lit "ip helper-address global 192.0.2.8"), (lit " "). split; [reflexivity|split; [reflexivity|split; [|reflexivity]]].
    apply (ph_more (lit "ip") (lit " ") _ (lit "helper-address global 192.0.2.8")); [exact G1|]. apply (ph_more (lit "helper-address") (lit " ") _ (lit "global 192.0.2.8")); [exact G1|]. apply (ph_more (lit "global") (lit " ") _ (lit "192.0.2.8")); [exact G1|]. constructor.
  - apply hl_vrf; [exact (QQ "9"%string ltac:(split; [discriminate|reflexivity]))|split; [discriminate|reflexivity]|now apply no_quad|]. exists (lit " "), (lit "ip  helper-address vrf RED 192.0.2.9"), []. split; [reflexivity|split; [reflexivity|split; [|reflexivity]]].
    apply (ph_more (lit "ip") (lit "  ") _ (lit "helper-address vrf RED 192.0.2.9")); [exact G2|]. apply (ph_more (lit "helper-address") (lit " ") _ (lit "vrf RED 192.0.2.9")); [exact G1|].
    apply (ph_more (lit "vrf") (lit " ") _ (lit "RED 192.0.2.9")); [exact G1|]. apply (ph_more (lit "RED") (lit " ") _ (lit "192.0.2.9")); [exact G1|]. constructor.
Qed.
(** The VRF must have no address in its name: that would be reported instead.  And a line about
    helper addresses that has none, such as a description, becomes an entry without address. *)
Theorem C60_helpers_refuted :
  ip_helper_addresses [lit " ip helper-address vrf CE-10.0.0.1 192.0.2.9"] = Ok [{| h_addr := lit "10.0.0.1"; h_vrf := lit "CE-10.0.0.1"; h_global := false |}] /\
  ip_helper_addresses [lit " description no helper-address here"] = Ok [{| h_addr := []; h_vrf := []; h_global := false |}].
Proof. split; vm_compute; reflexivity. Qed.
Print Assumptions C60_helpers_refuted.

(** ** The tracked object of the interface *)
(** What [hsrp_track] reports is not always the tracked object: a second blank before the number
    stays in the name, an object of one character is lost, and "decrement" becomes part of the name. *)
Theorem C70_track_refuted : let own := lit "interface Vlan1" in
  hsrp_track own [lit " standby 1 track Serial0/0 20"] = Ok (lit "Serial0/0") /\
  hsrp_track own [lit " standby 1 track Serial0/0  20"] = Ok (lit "Serial0/0 ") /\
  hsrp_track own [lit " standby 1 track 5 20"] = Ok [] /\ has_hsrp_track own [lit " standby 1 track 5 20"] = Ok false /\
  hsrp_track own [lit " standby 1 track 5 decrement 20"] = Ok (lit "5 decrement").
Proof. vm_compute. repeat split; reflexivity. Qed.
Print Assumptions C70_track_refuted.
