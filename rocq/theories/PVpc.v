(** C82: NX-OS vPC domains. *)
From Coq Require Import Ascii String Arith NArith ZArith Bool List Lia.
From Verif Require Import PyStr PyStrFacts PyBase SearchModel SearchProofs IntfModel IntfSpec IntfFacts PyRe PyReFacts PyReTmpl PyReSent PyReLazy IosSpec IosModel IosFacts PIos PAsaIntf NxosSpec NxosModel PNxos.
Import ListNotations.
Local Open Scope char_scope.
Local Open Scope Z_scope.

(** ** Settings *)

Lemma opens_flag p w lines : reads (lit p) [Run sp true; Grp 1 [Lit w]] 1 -> w <> [] -> 
  answers_yes (opens [w]) lines (first_match to_bool (Ok false) (pattern false (lit p)) 1 lines).
Proof.
  intros R NE. apply (template_yes _ [Run sp true; Grp 1 [Lit w]] 0); [exact R| |].
  - intros t (i & q & e & -> & [I1 I2] & P & _). apply phrase_one in P as ->. exists e, [(1%nat, w)]. apply D_run; [now apply all_sp|auto|discriminate|]. eapply D_grp; [apply D_lit; constructor|constructor].
  - intros t s' c HD. apply D_run_eq in HD as (i & r & -> & I1 & I2 & HD). apply D_grp_eq in HD as (x & r2 & c1 & -> & HD & HN). apply D_lit_inv in HD as (-> & ->). apply D_nil_eq in HN as (-> & ->). apply all_sp in I1. split.
    + exists i, w, r2. split; [reflexivity|]. split; [split; auto|]. split; [constructor|exact I].
    + eexists. split; [reflexivity|exact NE].
Qed.
Theorem C82_settings : forall own below, let lines := own :: below in
  answers (fun t n => exists d, numeral d n /\ line_of gap (no_more is_digit) [lit "role"; lit "priority"; d] t) lines (-1) (vpc_role_priority own below) /\
  answers (fun t n => exists d, numeral d n /\ line_of gap (no_more is_digit) [lit "system-priority"; d] t) lines (-1) (vpc_system_priority own below) /\
  answers (fun t n => exists d, numeral d n /\ line_of gap (no_more is_digit) [lit "auto-recovery"; lit "reload-delay"; d] t) lines (-1) (vpc_reload_delay own below) /\
  answers (fun t v => word v /\ line_of gap word_ends [lit "system-mac"; v] t) lines [] (vpc_system_mac own below) /\
  answers_yes (opens [lit "peer-config-check-bypass"]) lines (vpc_peer_config_check_bypass own below) /\
  answers_yes (opens [lit "peer-switch"]) lines (vpc_peer_switch own below) /\
  answers_yes (opens [lit "peer-gateway"]) lines (vpc_peer_gateway own below) /\
  answers_yes (opens [lit "auto-recovery"]) lines (vpc_auto_recovery own below) /\
  answers_yes (opens [lit "layer3"; lit "peer-router"]) lines (vpc_layer3_peer_router own below).
Proof.
  intros own below lines. unfold lines.
  split; [apply (number_answers _ true Open [lit "role"; lit "priority"] []); reflexivity|].
  split; [apply (number_answers _ true Open [lit "system-priority"] []); reflexivity|].
  split; [apply (number_answers _ true Open [lit "auto-recovery"; lit "reload-delay"] []); reflexivity|].
  split; [apply (word_answers _ true Open [lit "system-mac"] []); reflexivity|].
  split; [apply (opens_flag _ (lit "peer-config-check-bypass")); [reflexivity|discriminate]|].
  split; [apply (opens_flag _ (lit "peer-switch")); [reflexivity|discriminate]|].
  split; [apply (opens_flag _ (lit "peer-gateway")); [reflexivity|discriminate]|].
  split; [apply (opens_flag _ (lit "auto-recovery")); [reflexivity|discriminate]|].
  apply (template_yes _ [Run sp true; Grp 1 [Lit (lit "layer3"); Run sp true; Lit (lit "peer-router")]] 0); [reflexivity| |].
  - intros t (i & q & e & -> & [I1 I2] & P & _). apply phrase_cons in P as (g & q' & -> & [G1 G2] & P). apply phrase_one in P as ->. exists e, [(1%nat, lit "layer3" ++ g ++ lit "peer-router")].
    apply D_run; [now apply all_sp|auto|discriminate|]. eapply D_grp; [|constructor]. rewrite <- !app_assoc. apply D_lit. apply D_run; [now apply all_sp|auto|discriminate|]. apply D_lit. constructor.
  - intros t s' c HD. apply D_run_eq in HD as (i & r & -> & I1 & I2 & HD). apply D_grp_eq in HD as (x & r2 & c1 & -> & HD & HN). apply D_nil_eq in HN as (-> & ->).
    apply D_lit_eq in HD as (r3 & E1 & HD). apply D_run_eq in HD as (g & r4 & -> & G1 & G2 & HD). apply D_lit_eq in HD as (r5 & -> & HD). apply D_nil_eq in HD as (-> & ->). apply all_sp in I1, G1.
    assert (EW : x = lit "layer3" ++ g ++ lit "peer-router"). { apply (app_inv_tail r5). rewrite E1, <- !app_assoc. reflexivity. } subst x. split.
    + eexists i, _, r5. split; [reflexivity|]. split; [split; auto|]. split; [constructor; [split; auto|constructor]|exact I].
    + eexists. split; [reflexivity|discriminate].
Qed.
Print Assumptions C82_settings.

(** The domain: the digits of "vpc domain N", which is not indented; "-1" for any other text. *)
Definition domain_line (t d : str) : Prop := d <> [] /\ forallb is_digit d = true /\ line_of (fun i => i = []) line_end [lit "vpc"; lit "domain"; d] t.
Theorem C82_domain : forall own, (forall d, domain_line own d -> vpc_domain_id own = d) /\ ((forall d, ~ domain_line own d) -> vpc_domain_id own = lit "-1").
Proof.
  intros own. pose (T := [Lit (lit "vpc"); Run sp true; Lit (lit "domain"); Run sp true; Grp 1 [Run dg true]; End]).
  assert (R : reads (lit "^vpc\s+domain\s+(\d+)$") T 1) by reflexivity. unfold vpc_domain_id. split.
  - intros d (D1 & D2 & i & q & e & -> & -> & P & LE). apply phrase_cons in P as (g & q' & -> & [G1 G2] & P). apply phrase_cons in P as (g' & q'' & -> & [G1' G2'] & P). apply phrase_one in P as ->.
    assert (HD : D true T ([] ++ (lit "vpc" ++ g ++ lit "domain" ++ g' ++ d) ++ e) e [] [(1%nat, d)]).
    { unfold T. cbn [app]. rewrite <- !app_assoc. apply (D_lit true (lit "vpc")). apply D_run; [now apply all_sp|auto|intros _; apply head_stops; reflexivity|]. apply D_lit.
      assert (DH : nonwhite_head (d ++ e) = true). { apply head_app. destruct d as [|c d]; [congruence|]. cbn in *. apply andb_true_iff in D2 as [D2 _]. now rewrite (digit_nonspace _ D2). }
      apply D_run; [now apply all_sp|auto|intros _; now apply head_stops|].
      eapply D_grp; [apply D_run; [now apply all_dg|auto|intros _; apply white_stops_dg; now apply line_end_white|constructor]|]. apply D_end; [exact LE|constructor]. }
    apply (reads_some _ _ _ _ _ _ R) in HD as (m & ->). reflexivity.
  - intros N0. destruct (rx_find _ own) as [m|] eqn:E; [|reflexivity]. exfalso. apply (reads_shape _ _ _ _ _ R) in E as (s' & c & HD & _). unfold T in HD.
    apply D_lit_eq in HD as (r2 & -> & HD). apply D_run_eq in HD as (g & r3 & -> & G1 & G2 & HD). apply D_lit_eq in HD as (r4 & -> & HD). apply D_run_eq in HD as (g' & r5 & -> & G1' & G2' & HD).
    apply D_grp_eq in HD as (d & r6 & c1 & -> & HD & HN). apply D_run_inv in HD as (V1 & V2 & ->). apply D_end_eq in HN as (LE & _). apply all_sp in G1, G1'. apply all_dg in V1.
    apply (N0 d). split; [auto|]. split; [exact V1|]. exists [], (lit "vpc" ++ g ++ lit "domain" ++ g' ++ d), r6. split; [cbn [app]; rewrite <- !app_assoc; reflexivity|]. split; [reflexivity|].
    split; [|exact LE]. constructor; [split; auto|]. constructor; [split; auto|]. constructor.
Qed.
Print Assumptions C82_domain.

(** ** Keepalives *)

Lemma row_split {R} l2 l1 : forall i s c (k : nat -> str -> caps -> option R) x, mat (row (l1 ++ l2)) i s c k = Some x ->
  exists i' s' c', M (row l1) i s c i' s' c' /\ mat (row l2) i' s' c' k = Some x.
Proof.
  induction l1 as [|a l1 IH]; intros i s c k x E; [exists i, s, c; split; [constructor|exact E]|]. cbn [app] in E. rewrite row_cons in E.
  apply mat_sound in E as (i1 & s1 & c1 & HM & E). apply IH in E as (i2 & s2 & c2 & HM2 & E). exists i2, s2, c2. split; [|exact E]. destruct l1 as [|b l1].
  - apply M_eps_iff in HM2 as (-> & -> & ->). exact HM.
  - apply M_cat_iff. eauto.
Qed.
Lemma search_at r s : forall i m c, search_from r i s = Some (m, c) -> exists u v, s = u ++ v /\ match_at r (i + length u) v = Some (m, c).
Proof.
  induction s as [|x s IH]; intros i m c E; cbn [search_from] in E.
  - destruct (match_at r i []) as [[m' c']|] eqn:F; [|discriminate]. injection E as -> ->. exists [], []. split; [reflexivity|]. cbn [length]. now rewrite Nat.add_0_r.
  - destruct (match_at r i (x :: s)) as [[m' c']|] eqn:F.
    + injection E as -> ->. exists [], (x :: s). split; [reflexivity|]. cbn [length]. now rewrite Nat.add_0_r.
    + apply IH in E as (u & v & -> & E). exists (x :: u), v. split; [reflexivity|]. cbn [length]. now rewrite Nat.add_succ_r.
Qed.
Definition keep_pre (kw : str) : list re := map chr (lit "peer-keepalive") ++ rplus true (RSet sp) :: RStar false (RSet dot) :: map chr kw ++ [rplus true (RSet sp)].
Definition keep_T (kw : str) : list item := [Lit (lit "peer-keepalive"); Run sp true; Run dot false; Lit kw; Run sp true].
Lemma all_dot w : all_in dot w <-> no_newline w.
Proof.
  apply all_in_iff. intros c. unfold in_set, dot. cbn [cs_neg cs_icase cs_items existsb cls_has]. rewrite orb_false_r.
  destruct c as [[] [] [] [] [] [] [] []]; reflexivity.
Qed.

(** The pattern of the option [kw] with a value of the kind [k]. *)
Definition keep_ok (p : string) (kw : str) (k : slot) : Prop :=
  reads_any (lit p) (row (keep_pre kw ++ flat_map flat1 (items k))) 1 /\ greed (row (keep_pre kw)) = den (keep_T kw) /\
  greed (row (keep_pre kw ++ flat_map flat1 (items k))) = den (keep_T kw ++ items k).
Definition value_kind (k : slot) : Prop := k = N 1 \/ k = G 1 \/ k = H 1.
Definition more_of (k : slot) : ascii -> bool := match k with G _ => visible | _ => is_digit end.

Lemma keep_pre_shape kw t s' c' : D false (keep_T kw) t s' [] c' -> c' = [] /\ exists g x g', t = lit "peer-keepalive" ++ g ++ x ++ kw ++ g' ++ s' /\ gap g /\ no_newline x /\ gap g'.
Proof.
  intros HD. unfold keep_T in HD. apply D_lit_eq in HD as (r & -> & HD). apply D_run_eq in HD as (g & r2 & -> & G1 & G2 & HD). apply D_run_eq in HD as (x & r3 & -> & X1 & _ & HD).
  apply D_lit_eq in HD as (r4 & -> & HD). apply D_run_eq in HD as (g' & r5 & -> & G1' & G2' & HD). apply D_nil_eq in HD as (-> & ->). apply all_sp in G1, G1'. apply all_dot in X1.
  split; [reflexivity|]. exists g, x, g'. split; [reflexivity|]. split; [split; auto|]. split; [exact X1|split; auto].
Qed.
Lemma keep_shape p kw k t m : keep_ok p kw k -> value_kind k -> rx_find (pattern false (lit p)) t = Some m ->
  exists v, fits k v /\ keeps kw (more_of k) t v /\ group 1 m = Ok (Some v).
Proof.
  intros (R & GR & _) VK E. rewrite (any_find _ _ _ _ R) in E. destruct (search _ t) as [[m' c]|] eqn:S0; [|discriminate]. injection E as <-.
  apply search_at in S0 as (u & v & -> & S0). unfold match_at in S0. apply row_split in S0 as (i' & s' & c' & HM & S0).
  apply greed_fwd in HM. rewrite GR in HM. apply shape in HM. apply keep_pre_shape in HM as (-> & g & x & g' & -> & G1 & X1 & G2).
  change (row (flat_map flat1 (items k))) with (den (items k)) in S0. pose proof S0 as S1. apply mat_sound in S1 as (i2 & s2 & c2 & HM & _). apply shape in HM.
  rewrite <- (List.app_nil_r (items k)) in HM. apply D_items_inv in HM as (w & r & -> & FW & _). destruct (extend_one k w r FW) as (w' & e' & EX & FW' & EB). rewrite EX in *.
  assert (HD : D true (items k) (w' ++ e') e' [] (cap1 k w' ++ [])).
  { rewrite <- (List.app_nil_r (items k)). apply D_items; [|exact FW'|intros _; exact EB|constructor]. destruct VK as [-> |[-> | -> ]]; reflexivity. }
  erewrite eval in S0; [|exact HD|reflexivity]. injection S0 as _ <-. exists w'. split; [exact FW'|]. split.
  - exists u, g, x, g', e'. split; [reflexivity|]. split; [exact G1|]. split; [exact X1|]. split; [exact G2|]. destruct VK as [-> |[-> | -> ]]; exact EB.
  - destruct VK as [-> |[-> | -> ]]; reflexivity.
Qed.
Lemma keep_found p kw k t v : keep_ok p kw k -> value_kind k -> fits k v -> keeps kw (more_of k) t v -> rx_find (pattern false (lit p)) t <> None.
Proof.
  intros (R & _ & GR) VK FV (u & g & x & g' & e & -> & [G1 G2] & X1 & [G3 G4] & _). rewrite (any_find _ _ _ _ R).
  assert (HD : D false (keep_T kw ++ items k) (lit "peer-keepalive" ++ g ++ x ++ kw ++ g' ++ v ++ e) e [] (cap1 k v ++ [])).
  { unfold keep_T. cbn [app]. apply D_lit. apply D_run; [now apply all_sp|auto|discriminate|]. apply D_run; [now apply all_dot|discriminate|discriminate|]. apply D_lit. apply D_run; [now apply all_sp|auto|discriminate|].
    rewrite <- (List.app_nil_r (items k)). apply D_items; [|exact FV|discriminate|constructor]. destruct VK as [-> |[-> | -> ]]; reflexivity. }
  apply unshape with (i := length u) in HD. rewrite <- GR in HD. apply greed_bwd in HD.
  pose proof (search_from_complete (row (keep_pre kw ++ flat_map flat1 (items k))) u 0 _ _ _ _ HD) as K. fold (search (row (keep_pre kw ++ flat_map flat1 (items k)))) in K.
  unfold search. destruct (search_from _ 0 _) as [[m c]|]; [discriminate|congruence].
Qed.
Lemma answers_any {V} (conv : option str -> result V) r (P : str -> V -> Prop) default lines :
  (forall t v, P t v -> rx_find r t <> None) -> (forall t m, rx_find r t = Some m -> exists v, P t v /\ (do x <- group 1 m; conv x) = Ok v) ->
  answers P lines default (first_match conv (Ok default) r 1 lines).
Proof.
  intros F B. induction lines as [|t lines IH]; [right; split; [intros u v []|reflexivity]|]. cbn [first_match]. destruct (rx_find r t) as [m|] eqn:E.
  - destruct (B _ _ E) as (v & Pv & Ev). left. exists [], t, lines, v. split; [reflexivity|]. split; [intros u v' []|]. split; [exact Pv|exact Ev].
  - assert (NT : forall v, ~ P t v) by (intros v Pv; now apply F in Pv). destruct IH as [(pre & u & post & v & -> & N0 & Pu & ->)|(N0 & ->)].
    + left. exists (t :: pre), u, post, v. split; [reflexivity|]. split; [intros x v' [<- |Ix]; [apply NT|now apply N0]|]. auto.
    + right. split; [|reflexivity]. intros x v' [<- |Ix]; [apply NT|now apply N0].
Qed.
Lemma keep_number p kw d lines : keep_ok p kw (N 1) ->
  answers (fun t n => exists v, numeral v n /\ keeps kw is_digit t v) lines d (first_match to_int (Ok d) (pattern false (lit p)) 1 lines).
Proof.
  intros OK. apply answers_any.
  - intros t n (v & NV & K). apply (keep_found p kw (N 1) t v OK (or_introl eq_refl)); [|exact K]. split; [destruct (numeral_head _ _ NV) as (c & r & -> & _); discriminate|now apply numeral_digits in NV].
  - intros t m E. apply (keep_shape p kw (N 1) t m OK (or_introl eq_refl)) in E as (v & [V1 V2] & K & ->). exists (digits_Z v). split; [exists v; split; [now apply digits_numeral|exact K]|]. cbn [bind]. now apply to_int_digits.
Qed.
Lemma keep_word p kw lines : keep_ok p kw (G 1) ->
  answers (fun t v => word v /\ keeps kw visible t v) lines [] (first_match to_str (Ok []) (pattern false (lit p)) 1 lines).
Proof.
  intros OK. apply answers_any.
  - intros t v (WV & K). now apply (keep_found p kw (G 1) t v OK (or_intror (or_introl eq_refl))).
  - intros t m E. apply (keep_shape p kw (G 1) t m OK (or_intror (or_introl eq_refl))) in E as (v & FV & K & ->). exists v. split; [split; assumption|reflexivity].
Qed.
Lemma keep_quad p kw lines : keep_ok p kw (H 1) ->
  answers (fun t v => quad v /\ keeps kw is_digit t v) lines [] (first_match to_str (Ok []) (pattern false (lit p)) 1 lines).
Proof.
  intros OK. apply answers_any.
  - intros t v (WV & K). now apply (keep_found p kw (H 1) t v OK (or_intror (or_intror eq_refl))).
  - intros t m E. apply (keep_shape p kw (H 1) t m OK (or_intror (or_intror eq_refl))) in E as (v & FV & K & ->). exists v. split; [split; assumption|reflexivity].
Qed.
Ltac keep_ok_tac := split; [reflexivity|split; reflexivity].

(** Each option is that of the first line that gives it, after "peer-keepalive" and white space. *)
Theorem C82_keepalive : forall own below, let lines := own :: below in
  answers (fun t v => quad v /\ keeps (lit "destination") is_digit t v) lines [] (keep_destination own below) /\
  answers (fun t v => quad v /\ keeps (lit "source") is_digit t v) lines [] (keep_source own below) /\
  answers (fun t v => word v /\ keeps (lit "vrf") visible t v) lines [] (keep_vrf own below) /\
  answers (fun t v => word v /\ keeps (lit "precedence") visible t v) lines [] (keep_precedence own below) /\
  answers (fun t v => word v /\ keeps (lit "tos") visible t v) lines [] (keep_tos own below) /\
  answers (fun t n => exists v, numeral v n /\ keeps (lit "hold-timeout") is_digit t v) lines (-1) (keep_hold_timeout own below) /\
  answers (fun t n => exists v, numeral v n /\ keeps (lit "interval") is_digit t v) lines (-1) (keep_interval own below) /\
  answers (fun t n => exists v, numeral v n /\ keeps (lit "timeout") is_digit t v) lines (-1) (keep_timeout own below) /\
  answers (fun t n => exists v, numeral v n /\ keeps (lit "udp-port") is_digit t v) lines (-1) (keep_udp_port own below).
Proof.
  intros own below lines. unfold lines.
  split; [apply keep_quad; keep_ok_tac|]. split; [apply keep_quad; keep_ok_tac|]. split; [apply keep_word; keep_ok_tac|]. split; [apply keep_word; keep_ok_tac|]. split; [apply keep_word; keep_ok_tac|].
  split; [apply keep_number; keep_ok_tac|]. split; [apply keep_number; keep_ok_tac|]. split; [apply keep_number; keep_ok_tac|]. apply keep_number; keep_ok_tac.
Qed.
Print Assumptions C82_keepalive.

(** The TOS byte: any word is taken, and int() may reject it. *)
Theorem C82_tos_byte : forall own below,
  (exists pre t post v, own :: below = pre ++ t :: post /\ (forall u w, In u pre -> word w -> ~ keeps (lit "tos-byte") visible u w) /\ word v /\ keeps (lit "tos-byte") visible t v /\
     keep_tos_byte own below = match py_int v with Some n => Ok n | None => Err ValueError end) \/
  ((forall u w, In u (own :: below) -> word w -> ~ keeps (lit "tos-byte") visible u w) /\ keep_tos_byte own below = Ok (-1)).
Proof.
  intros own below. unfold keep_tos_byte, iter_int. generalize (own :: below) as lines.
  assert (OK : keep_ok "peer-keepalive\s+.*?tos-byte\s+(\S+)" (lit "tos-byte") (G 1)) by keep_ok_tac.
  induction lines as [|t lines IH]; [right; split; [intros u w []|reflexivity]|]. cbn [first_match]. destruct (rx_find _ t) as [m|] eqn:E.
  - apply (keep_shape _ _ (G 1) t m OK (or_intror (or_introl eq_refl))) in E as (v & FV & K & Gm). left. exists [], t, lines, v. split; [reflexivity|]. split; [intros u w []|]. split; [exact FV|]. split; [exact K|].
    unfold typed_group. rewrite Gm. reflexivity.
  - assert (NT : forall w, word w -> ~ keeps (lit "tos-byte") visible t w). { intros w Ww K. now apply (keep_found _ _ (G 1) t w OK (or_intror (or_introl eq_refl)) Ww K). }
    destruct IH as [(pre & u & post & v & -> & N0 & Wu & Pu & Eu)|(N0 & Eu)].
    + left. exists (t :: pre), u, post, v. split; [reflexivity|]. split; [intros x w [<- |Ix]; [apply NT|now apply N0]|]. auto.
    + right. split; [intros x w [<- |Ix]; [apply NT|now apply N0]|exact Eu].
Qed.
Print Assumptions C82_tos_byte.

(** "timeout" is read from a hold-timeout: a keepalive with a hold-timeout has a timeout, and the
    hold-timeout is reported in place of a timeout that comes later. *)
Theorem C82_timeout_refuted : (forall own below t v, In t (own :: below) -> keeps (lit "hold-timeout") is_digit t v -> (exists n, numeral v n) -> keep_timeout own below <> Ok (-1)) /\
  keep_timeout (lit "vpc domain 1") [lit " peer-keepalive destination 10.0.0.2 interval 1000 hold-timeout 3 timeout 5"] = Ok 3 /\
  keep_tos_byte (lit "vpc domain 1") [lit " peer-keepalive destination 10.0.0.2 tos-byte 0x20"] = Err ValueError.
Proof.
  split; [|split; reflexivity]. intros own below t v It (u & g & x & g' & e & -> & G1 & X1 & G2 & NE) (n & NV) E.
  destruct (C82_keepalive own below) as (_ & _ & _ & _ & _ & _ & _ & A & _). destruct A as [(pre & t' & post & n' & _ & _ & (w & NW & _) & E')|(N0 & _)].
  - rewrite E in E'. injection E' as <-. destruct NW as [NW _]. lia.
  - apply (N0 _ n It). exists v. split; [exact NV|]. exists u, g, (x ++ lit "hold-"), g', e. split; [rewrite <- !app_assoc; reflexivity|]. split; [exact G1|]. split; [|split; assumption].
    unfold no_newline in *. rewrite forallb_app, X1. reflexivity.
Qed.
Print Assumptions C82_timeout_refuted.

(** ARP synchronization is looked for anywhere in a line, so that "no ip arp synchronize" has it. *)
Theorem C82_arp : forall own below,
  answers_yes (fun t => exists u g g' e, t = u ++ lit "ip" ++ g ++ lit "arp" ++ g' ++ lit "synchronize" ++ e /\ gap g /\ gap g') (own :: below) (vpc_ip_arp_synchronize own below) /\
  vpc_ip_arp_synchronize (lit "vpc domain 1") [lit " no ip arp synchronize"] = Ok true.
Proof.
  intros own below. split; [|reflexivity]. unfold vpc_ip_arp_synchronize, iter_bool. generalize (own :: below) as lines.
  pose (T := [Grp 1 [Lit (lit "ip"); Run sp true; Lit (lit "arp"); Run sp true; Lit (lit "synchronize")]]).
  assert (R : reads_any (lit "(ip\s+arp\s+synchronize)") (den T) 1) by reflexivity.
  assert (F : forall t, (exists u g g' e, t = u ++ lit "ip" ++ g ++ lit "arp" ++ g' ++ lit "synchronize" ++ e /\ gap g /\ gap g') -> rx_find (pattern false (lit "(ip\s+arp\s+synchronize)")) t <> None).
  { intros t (u & g & g' & e & -> & [G1 G2] & [G3 G4]). rewrite (any_find _ _ _ _ R).
    assert (HD : D false T (lit "ip" ++ g ++ lit "arp" ++ g' ++ lit "synchronize" ++ e) e [] [(1%nat, lit "ip" ++ g ++ lit "arp" ++ g' ++ lit "synchronize")]).
    { unfold T. replace (lit "ip" ++ g ++ lit "arp" ++ g' ++ lit "synchronize" ++ e) with ((lit "ip" ++ g ++ lit "arp" ++ g' ++ lit "synchronize") ++ e) by (rewrite <- !app_assoc; reflexivity).
      eapply D_grp; [|constructor]. rewrite <- !app_assoc. apply D_lit. apply D_run; [now apply all_sp|auto|discriminate|]. apply D_lit. apply D_run; [now apply all_sp|auto|discriminate|]. apply D_lit. constructor. }
    apply unshape with (i := length u) in HD. pose proof (search_from_complete (den T) u 0 _ _ _ _ HD) as K. unfold search. destruct (search_from _ 0 _) as [[m c]|]; [discriminate|congruence]. }
  assert (B : forall t m, rx_find (pattern false (lit "(ip\s+arp\s+synchronize)")) t = Some m ->
    (exists u g g' e, t = u ++ lit "ip" ++ g ++ lit "arp" ++ g' ++ lit "synchronize" ++ e /\ gap g /\ gap g') /\ typed_group to_bool 1 m = Ok true).
  { intros t m E. rewrite (any_find _ _ _ _ R) in E. destruct (search (den T) t) as [[m' c]|] eqn:S0; [|discriminate]. injection E as <-. apply search_some in S0 as (u & v & i' & s' & -> & HM & _).
    apply shape in HM. unfold T in HM. apply D_grp_eq in HM as (w & r & c1 & -> & HD & HN). apply D_nil_eq in HN as (-> & ->).
    apply D_lit_eq in HD as (r3 & E1 & HD). apply D_run_eq in HD as (g & r4 & -> & G1 & G2 & HD). apply D_lit_eq in HD as (r5 & -> & HD). apply D_run_eq in HD as (g' & r6 & -> & G3 & G4 & HD).
    apply D_lit_eq in HD as (r7 & -> & HD). apply D_nil_eq in HD as (-> & ->). apply all_sp in G1, G3. split.
    - exists u, g, g', r7. split; [now rewrite E1|]. split; split; auto.
    - destruct w as [|x w]; [|reflexivity]. exfalso. apply (f_equal (@length ascii)) in E1. repeat rewrite app_length in E1. cbn in E1. lia. }
  induction lines as [|t lines IH]; [right; split; [reflexivity|intros t []]|]. cbn [first_match]. destruct (rx_find (pattern false (lit "(ip\s+arp\s+synchronize)")) t) as [m|] eqn:E.
  - destruct (B _ _ E) as (P & K). left. split; [exact K|]. exists t. split; [now left|exact P].
  - destruct IH as [(-> & u & Iu & Pu)|(-> & N0)]; [left; split; [reflexivity|]; exists u; split; [now right|exact Pu]|]. right. split; [reflexivity|]. intros x [<- |Ix]; [intros P; now apply F in P|now apply N0].
Qed.
Print Assumptions C82_arp.

Definition vpc_own : str := lit "vpc domain 100".
Definition vpc_below : list str := map lit ["  role priority 10"; "  system-mac 00:23:04:ee:be:01"; "  peer-switch"; "  layer3 peer-router";
  "  peer-keepalive destination 192.0.2.2 source 192.0.2.1 vrf KEEP udp-port 3200 interval 400 timeout 5"; "  auto-recovery reload-delay 360"]%string.
Example C82_ex : vpc_domain_id vpc_own = lit "100" /\ domain_line vpc_own (lit "100") /\ vpc_role_priority vpc_own vpc_below = Ok 10 /\ vpc_system_priority vpc_own vpc_below = Ok (-1) /\
  vpc_system_mac vpc_own vpc_below = Ok (lit "00:23:04:ee:be:01") /\ vpc_peer_switch vpc_own vpc_below = Ok true /\ vpc_peer_gateway vpc_own vpc_below = Ok false /\ vpc_layer3_peer_router vpc_own vpc_below = Ok true /\
  vpc_reload_delay vpc_own vpc_below = Ok 360 /\ keep_destination vpc_own vpc_below = Ok (lit "192.0.2.2") /\ keep_source vpc_own vpc_below = Ok (lit "192.0.2.1") /\ keep_vrf vpc_own vpc_below = Ok (lit "KEEP") /\
  keep_udp_port vpc_own vpc_below = Ok 3200 /\ keep_interval vpc_own vpc_below = Ok 400 /\ keep_timeout vpc_own vpc_below = Ok 5 /\ keep_hold_timeout vpc_own vpc_below = Ok (-1).
Proof.
  split; [reflexivity|]. split.
  { split; [discriminate|]. split; [reflexivity|]. exists [], vpc_own, []. split; [reflexivity|]. split; [reflexivity|]. split; [|now left].
    change vpc_own with (lit "vpc" ++ [" "] ++ lit "domain" ++ [" "] ++ lit "100"). constructor; [split; [reflexivity|discriminate]|]. constructor; [split; [reflexivity|discriminate]|]. constructor. }
  repeat split.
Qed.
