(** C78: ASA interface, name, route and hostname lines. *)
From Coq Require Import Ascii String Arith NArith ZArith Bool List Lia.
From Verif Require Import PyStr PyStrFacts PyBase SearchModel SearchProofs IpModel IpSpec PIp PIpText IntfModel IntfSpec IntfFacts PyRe PyReFacts PyReTmpl PyReSent PyReLazy IosSpec IosModel IosFacts PIos NameSpec NameModel NameFacts PName TrunkModel PortModel AsaIntfSpec AsaIntfModel.
Import ListNotations.
Local Open Scope char_scope.
Local Open Scope Z_scope.

(** ** Commands *)

Lemma template_yes p T n (P : str -> Prop) lines : reads (lit p) T (Datatypes.S n) ->
  (forall t, P t -> exists s' c, D false T t s' [] c) ->
  (forall t s' c, D false T t s' [] c -> P t /\ exists x, cap 1 c = Some x /\ x <> []) ->
  answers_yes P lines (first_match to_bool (Ok false) (pattern false (lit p)) 1 lines).
Proof.
  intros R F B.
  assert (X0 : answers (fun t v => P t /\ v = true) lines false (first_match to_bool (Ok false) (pattern false (lit p)) 1 lines)).
  { apply first_match_answers.
    - intros t v [Pt ->]. destruct (F t Pt) as (s' & c & HD). apply (reads_found _ _ _ _ _ _ _ R) in HD. destruct (rx_find (pattern false (lit p)) t) as [m|] eqn:E; [|congruence].
      exists m. split; [reflexivity|]. apply (reads_shape _ _ _ _ _ R) in E as (s2 & c2 & HD2 & G0). destruct (B _ _ _ HD2) as (_ & x & C1 & NE).
      unfold group. rewrite G0. cbn [seq map nth_error bind to_bool]. rewrite C1. cbn. now destruct x.
    - intros t m E. apply (reads_shape _ _ _ _ _ R) in E as (s2 & c2 & HD2 & _). destruct (B _ _ _ HD2) as [Pt _]. eauto. }
  destruct X0 as [(pre & t & post & v & -> & _ & [Pt ->] & ->)|[N1 ->]].
  - left. split; [reflexivity|]. exists t. split; [apply in_elt|exact Pt].
  - right. split; [reflexivity|]. intros t Ht Pt. now apply (N1 t true Ht).
Qed.
Lemma D_end_eq b T s s' c c' : D b (End :: T) s s' c c' -> line_end s /\ D b T s s' c c'.
Proof. intros H0. inversion H0; subst. split; assumption. Qed.

Lemma phrase_one w p : phrase [w] p -> p = w.
Proof. intros P. inversion P as [|? ? ? ? ? Z0]; subst; [reflexivity|inversion Z0]. Qed.
Lemma phrase_cons w y ys p : phrase (w :: y :: ys) p -> exists g q, p = w ++ g ++ q /\ gap g /\ phrase (y :: ys) q.
Proof. intros P. inversion P; subst. eauto. Qed.
Definition access_T : list item := [Run sp false; Grp 1 [Lit (lit "switchport"); One sp; Lit (lit "mode"); Run sp true; Lit (lit "access")]; Run sp false; End].
Definition trunk_T : list item := [Run sp false; Grp 1 [Lit (lit "switchport"); Run sp true; Lit (lit "mode"); Run sp true; Lit (lit "trunk")]; Run sp false; End].
Lemma loose_end e : white e -> exists z e', e = z ++ e' /\ white z /\ line_end e'.
Proof. intros H0. exists e, []. rewrite List.app_nil_r. repeat split; auto. now left. Qed.

Theorem C78_commands : forall own below, let lines := own :: below in
  answers (text_line (lit "description") true) lines [] (asa_description own below) /\
  answers (number_cmd ["delay"]%string []%string) lines 0 (asa_manual_delay own below) /\
  answers_yes (fun t => exists n, number_cmd ["speed"]%string []%string t n) lines (asa_has_manual_speed own below) /\
  answers_yes (fun t => exists v, text_line (lit "duplex") true t v) lines (asa_has_manual_duplex own below) /\
  answers_yes (fun t => exists r, forallb (fun c => negb (is_space c)) r = true /\ says_loosely [lit "shut" ++ r] t) lines (asa_is_shutdown own below) /\
  answers_yes (fun t => exists i r, t = i ++ lit "switchport" ++ r /\ white i) lines (asa_is_switchport own below) /\
  answers_yes (fun t => exists a, joined (lit "switchport") (lit "mode") a /\ says_loosely [a; lit "access"] t) lines (asa_has_manual_switch_access own below) /\
  answers_yes (says_loosely [lit "switchport"; lit "mode"; lit "trunk"]) lines (asa_has_manual_switch_trunk own below) /\
  answers (number_cmd ["switchport"; "access"; "vlan"]%string []%string) lines 0 (asa_access_vlan own below).
Proof.
  intros own below lines. unfold lines.
  split; [apply (text_answers _ (lit "description") true); reflexivity|].
  split; [exact (proj1 (proj2 (C58_numbers own below)))|].
  split; [exact (proj1 (proj2 (C59_flags own below)))|].
  split; [exact (proj2 (proj2 (C59_texts own below)))|].
  split; [exact (proj2 (proj2 (C59_flags own below)))|].
  split; [|split; [|split]].
  - apply (template_yes _ [Run sp false; Grp 1 [Lit (lit "switchport")]; Run sp false] 0); [reflexivity| |].
    + intros t (i & r & -> & WI). exists r, [(1%nat, lit "switchport")]. apply D_run; [now apply all_sp|discriminate|discriminate|].
      eapply D_grp; [apply D_lit; constructor|]. apply (D_run _ _ _ _ [] r); [constructor|discriminate|discriminate|constructor].
    + intros t s' c HD. apply D_run_eq in HD as (i & r & -> & WI & _ & HD). apply D_grp_eq in HD as (w & r2 & c1 & -> & HD & HN). apply all_sp in WI.
      apply D_lit_inv in HD as (-> & ->). apply D_run_eq in HN as (z & r3 & -> & _ & _ & HN). apply D_nil_eq in HN as (-> & ->). split; [eauto|]. eexists. split; [reflexivity|discriminate].
  - apply (template_yes _ access_T 0); [reflexivity| |].
    + intros t (a & (x & X1 & ->) & i & p & e & -> & WI & P & WE). apply phrase_cons in P as (g & q & -> & G0 & P). apply phrase_one in P as ->.
      exists [], [(1%nat, lit "switchport" ++ x :: lit "mode" ++ g ++ lit "access")]. unfold access_T. apply D_run; [now apply all_sp|discriminate|discriminate|].
      replace ((lit "switchport" ++ [x] ++ lit "mode") ++ g ++ lit "access") with (lit "switchport" ++ x :: lit "mode" ++ g ++ lit "access") by (rewrite <- !app_assoc; reflexivity).
      eapply D_grp.
      * rewrite <- !app_assoc. apply D_lit. cbn [app]. apply D_one; [now rewrite in_sp|]. rewrite <- app_assoc. apply D_lit. rewrite <- app_assoc. destruct G0 as [G1 G2].
        apply D_run; [now apply all_sp|auto|discriminate|]. apply D_lit. constructor.
      * rewrite <- (List.app_nil_r e). apply D_run; [now apply all_sp|discriminate|discriminate|]. apply D_end; [now left|constructor].
    + intros t s' c HD. apply D_run_eq in HD as (i & r & -> & WI & _ & HD). apply D_grp_eq in HD as (w & r2 & c1 & -> & HD & HN). apply all_sp in WI.
      apply D_lit_eq in HD as (r3 & E1 & HD). apply D_one_eq in HD as (x & r4 & -> & X1 & HD). apply D_lit_eq in HD as (r5 & -> & HD). apply D_run_eq in HD as (g & r6 & -> & G1 & G2 & HD).
      apply D_lit_eq in HD as (r7 & -> & HD). apply D_nil_eq in HD as (-> & ->). rewrite in_sp in X1. apply all_sp in G1.
      assert (EW : w = (lit "switchport" ++ [x] ++ lit "mode") ++ g ++ lit "access").
      { apply (app_inv_tail r7). rewrite E1, <- !app_assoc. reflexivity. }
      apply D_run_eq in HN as (z & r8 & -> & WZ & _ & HN). apply D_end_eq in HN as (LE & HN). apply D_nil_eq in HN as (-> & ->). apply all_sp in WZ. subst w. split.
      * exists (lit "switchport" ++ [x] ++ lit "mode"). split; [exists x; auto|]. eexists i, _, (z ++ r8). split; [reflexivity|]. split; [exact WI|]. split; [constructor; [split; auto|constructor]|].
        apply white_app. split; [exact WZ|now apply line_end_white].
      * eexists. split; [reflexivity|discriminate].
  - apply (template_yes _ trunk_T 0); [reflexivity| |].
    + intros t (i & p & e & -> & WI & P & WE). apply phrase_cons in P as (g & q & -> & G0 & P). apply phrase_cons in P as (g' & q' & -> & G0' & P). apply phrase_one in P as ->.
      exists [], [(1%nat, lit "switchport" ++ g ++ lit "mode" ++ g' ++ lit "trunk")]. unfold trunk_T. apply D_run; [now apply all_sp|discriminate|discriminate|].
      eapply D_grp.
      * rewrite <- !app_assoc. apply D_lit. destruct G0 as [G1 G2], G0' as [G3 G4]. apply D_run; [now apply all_sp|auto|discriminate|]. apply D_lit. 
        apply D_run; [now apply all_sp|auto|discriminate|]. apply D_lit. constructor.
      * rewrite <- (List.app_nil_r e). apply D_run; [now apply all_sp|discriminate|discriminate|]. apply D_end; [now left|constructor].
    + intros t s' c HD. apply D_run_eq in HD as (i & r & -> & WI & _ & HD). apply D_grp_eq in HD as (w & r2 & c1 & -> & HD & HN). apply all_sp in WI.
      apply D_lit_eq in HD as (r3 & E1 & HD). apply D_run_eq in HD as (g0 & r4 & -> & G3 & G4 & HD). apply D_lit_eq in HD as (r5 & -> & HD). apply D_run_eq in HD as (g & r6 & -> & G1 & G2 & HD).
      apply D_lit_eq in HD as (r7 & -> & HD). apply D_nil_eq in HD as (-> & ->). apply all_sp in G1, G3.
      assert (EW : w = lit "switchport" ++ g0 ++ lit "mode" ++ g ++ lit "trunk").
      { apply (app_inv_tail r7). rewrite E1, <- !app_assoc. reflexivity. }
      apply D_run_eq in HN as (z & r8 & -> & WZ & _ & HN). apply D_end_eq in HN as (LE & HN). apply D_nil_eq in HN as (-> & ->). apply all_sp in WZ. subst w. split.
      * eexists i, _, (z ++ r8). split; [reflexivity|]. split; [exact WI|]. split; [constructor; [split; auto|]; constructor; [split; auto|constructor]|].
        apply white_app. split; [exact WZ|now apply line_end_white].
      * eexists. split; [reflexivity|discriminate].
  - apply (number_answers _ false Strict (map lit ["switchport"; "access"; "vlan"]%string) []); reflexivity.
Qed.
Print Assumptions C78_commands.

(** Autonegotiation: an Ethernet interface without a speed and a duplex setting. *)
Theorem C78_autonegotiation : forall own below, let lines := own :: below in
  (asa_has_autonegotiation own below = Ok true <->
   interface_of (fun r => exists a c s, r = a ++ c :: lit "thernet" ++ s /\ is_space c = false /\ ~ In "010" a) own /\
   (forall t n, In t lines -> ~ number_cmd ["speed"]%string []%string t n) /\ (forall t v, In t lines -> ~ text_line (lit "duplex") true t v)) /\
  exists b, asa_has_autonegotiation own below = Ok b.
Proof.
  intros own below lines. destruct (C78_commands own below) as (_ & _ & S0 & D0 & _). unfold asa_has_autonegotiation. fold lines in S0, D0.
  assert (E0 : asa_is_ethernet_intf own = true <-> interface_of (fun r => exists a c s, r = a ++ c :: lit "thernet" ++ s /\ is_space c = false /\ ~ In "010" a) own) by exact (ethernet_iff own).
  destruct (asa_is_ethernet_intf own) eqn:E; cbn [negb].
  - destruct S0 as [(-> & t & It & n & Pt)|(-> & N1)]; cbn [bind].
    + split; [|eauto]. split; [discriminate|]. intros (_ & NS & _). exfalso. now apply (NS t n).
    + destruct D0 as [(-> & t & It & v & Pt)|(-> & N2)]; cbn [bind].
      * split; [|eauto]. split; [discriminate|]. intros (_ & _ & ND). exfalso. now apply (ND t v).
      * split; [|eauto]. split; [|reflexivity]. intros _. split; [now apply E0|]. split; intros t x It Pt; [apply (N1 t It)|apply (N2 t It)]; eauto.
  - split; [|eauto]. split; [discriminate|]. intros (HE & _). apply E0 in HE. discriminate.
Qed.
Print Assumptions C78_autonegotiation.

(** ** Addresses *)

Definition standby_T : list item :=
  Run sp true :: Lit (lit "ip") :: Run sp true :: Lit (lit "address") :: Run sp true :: quad_items ++ Run sp true :: quad_items ++
  [One sp; Lit (lit "standby"); Run sp true; Grp 1 [Run ns true]; Run sp false; End].
Lemma gap_stop f g s : gap g -> (forall c, is_space c = true -> f c = false) -> no_more f (g ++ s).
Proof. intros [G1 G2] F. destruct g as [|c g]; [congruence|]. cbn. apply F. unfold white in G1. cbn in G1. now apply andb_true_iff in G1 as [G1 _]. Qed.
Lemma space_no_digit c : is_space c = true -> is_digit c = false.
Proof. intros E. destruct (is_digit c) eqn:F; [apply digit_nonspace in F; congruence|reflexivity]. Qed.
Lemma head_stops s : nonwhite_head s = true -> stops sp s.
Proof. destruct s as [|c s]; [discriminate|]. unfold nonwhite_head, stops. intros E. rewrite in_sp. now apply negb_true_iff. Qed.
Lemma head_app w s : nonwhite_head w = true -> nonwhite_head (w ++ s) = true.
Proof. now destruct w. Qed.
Lemma word_head w : word w -> nonwhite_head w = true.
Proof. intros [NE F]. destruct w as [|c w]; [congruence|]. cbn in *. now apply andb_true_iff in F as [F _]. Qed.
Lemma standby_fwd t s : has_standby t s -> exists s' , D true standby_T t s' [] [(1%nat, s)].
Proof.
  intros (Ws & a & m & b & Qa & Qm & (x & X1 & ->) & i & p & e & -> & [I1 I2] & P & WE).
  apply phrase_cons in P as (g1 & q1 & -> & G1 & P). apply phrase_cons in P as (g2 & q2 & -> & G2 & P). apply phrase_cons in P as (g3 & q3 & -> & G3 & P).
  apply phrase_cons in P as (g4 & q4 & -> & G4 & P). apply phrase_one in P as ->. exists []. unfold standby_T. rewrite <- !app_assoc.
  apply D_run; [now apply all_sp|auto|intros _; apply head_stops; reflexivity|]. apply D_lit. destruct G1 as [G1 G1'].
  apply D_run; [now apply all_sp|auto|intros _; apply head_stops; reflexivity|]. apply D_lit. destruct G2 as [G2 G2'].
  apply D_run; [now apply all_sp|auto|intros _; apply head_stops, head_app; now apply quad_head|].
  apply D_quad; [exact Qa|intros _; apply gap_stop; [exact G3|exact space_no_digit]|]. destruct G3 as [G3 G3'].
  apply D_run; [now apply all_sp|auto|intros _; apply head_stops, head_app; now apply quad_head|].
  apply D_quad; [exact Qm|intros _; cbn; now apply space_no_digit|]. cbn [app]. apply D_one; [now rewrite in_sp|]. apply D_lit. destruct G4 as [G4 G4'].
  apply D_run; [now apply all_sp|auto|intros _; apply head_stops, head_app; now apply word_head|].
  assert (ST : stops ns e). { destruct e as [|c e]; [exact I|]. unfold stops. rewrite in_ns. unfold white in WE. cbn [forallb] in WE. apply andb_true_iff in WE as [WE _]. now rewrite WE. }
  eapply D_grp; [apply D_run; [apply all_ns; apply Ws|intros _; apply Ws|intros _; exact ST|constructor]|].
  rewrite <- (List.app_nil_r e). apply D_run; [now apply all_sp|discriminate|intros _; exact I|]. apply D_end; [now left|constructor].
Qed.
Lemma standby_shape t s' c : D false standby_T t s' [] c -> exists s, has_standby t s.
Proof.
  unfold standby_T. intros HD. apply D_run_eq in HD as (i & r1 & -> & I1 & I2 & HD). apply D_lit_eq in HD as (r2 & -> & HD). apply D_run_eq in HD as (g1 & r3 & -> & G1 & G1' & HD).
  apply D_lit_eq in HD as (r4 & -> & HD). apply D_run_eq in HD as (g2 & r5 & -> & G2 & G2' & HD). apply D_quad_inv in HD as (a & r6 & -> & Qa & HD).
  apply D_run_eq in HD as (g3 & r7 & -> & G3 & G3' & HD). apply D_quad_inv in HD as (m & r8 & -> & Qm & HD). apply D_one_eq in HD as (x & r9 & -> & X1 & HD). apply D_lit_eq in HD as (r10 & -> & HD).
  apply D_run_eq in HD as (g4 & r11 & -> & G4 & G4' & HD). apply D_grp_eq in HD as (w & r12 & c1 & -> & HW & HD). apply D_run_inv in HW as (W1 & W2 & ->).
  apply D_run_eq in HD as (z & r13 & -> & WZ & _ & HD). apply D_end_eq in HD as (LE & HD). apply all_sp in I1, G1, G2, G3, G4, WZ. apply all_ns in W1. rewrite in_sp in X1.
  exists w. split; [split; [now apply W2|exact W1]|]. exists a, m, (m ++ [x] ++ lit "standby"). split; [exact Qa|]. split; [exact Qm|]. split; [exists x; auto|].
  exists i, (lit "ip" ++ g1 ++ lit "address" ++ g2 ++ a ++ g3 ++ (m ++ [x] ++ lit "standby") ++ g4 ++ w), (z ++ r13). split; [rewrite <- !app_assoc; reflexivity|]. split; [split; auto|]. split.
  - repeat (constructor; [split; auto|]). constructor.
  - apply white_app. split; [exact WZ|now apply line_end_white].
Qed.

(** The address and the mask of the first line that gives one, and the standby address. *)
Theorem C78_addresses : forall own below, let lines := own :: below in
  answers has_addr lines [] (asa_ipv4_addr own below) /\ answers has_mask lines [] (asa_ipv4_netmask own below) /\
  answers has_standby lines [] (asa_ipv4_standby_addr own below).
Proof.
  intros own below lines. split; [|split].
  - apply (sentence_answers to_str _ 1 true [W (lit "ip"); W (lit "address"); H 1] Open 1); try reflexivity; try discriminate; auto.
    + intros ws F. slots. eexists. reflexivity.
    + intros t v. split.
      * intros (Qv & HL). exists [lit "ip"; lit "address"; v]. split; [repeat (constructor; auto)|]. split; [exact HL|reflexivity].
      * intros (ws & F & HL & C1). slots. injection C1 as <-. split; assumption.
  - apply (sentence_answers to_str _ 1 true [W (lit "ip"); W (lit "address"); Q; H 1] Open 1); try reflexivity; try discriminate; auto.
    + intros ws F. slots. eexists. reflexivity.
    + intros t v. split.
      * intros (Qv & a & Qa & HL). exists [lit "ip"; lit "address"; a; v]. split; [repeat (constructor; auto)|]. split; [exact HL|reflexivity].
      * intros (ws & F & HL & C1). slots. injection C1 as <-. split; [assumption|]. eexists. split; [|exact HL]. assumption.
  - apply first_match_answers.
    + intros t v HS. destruct (standby_fwd t v HS) as (s' & HD). destruct (reads_some (lit standby_pattern) standby_T 1 t s' _ eq_refl HD) as (m & E).
      eexists. split; [exact E|reflexivity].
    + intros t m E. apply (reads_shape (lit standby_pattern) standby_T 1 t m eq_refl) in E as (s' & c & HD & _). now apply standby_shape in HD.
Qed.
Print Assumptions C78_addresses.

Lemma answer_first {V} (P : str -> V -> Prop) pre t post v lines d r : answers P lines d r -> lines = pre ++ t :: post -> (forall u x, In u pre -> ~ P u x) -> P t v ->
  (forall x, P t x -> x = v) -> r = Ok v.
Proof.
  intros [(pre' & t' & post' & v' & E & N1 & Pt & ->)|[N1 ->]] E0 N0 Pv U.
  - destruct (first_unique (fun u => exists x, P u x) pre t post pre' t' post') as [_ <-]; eauto; try congruence.
    + intros u Hu (x & Px). now apply (N0 u x).
    + intros u Hu (x & Px). now apply (N1 u x).
    + f_equal. auto.
  - exfalso. apply (N1 t v); [rewrite E0; apply in_elt|exact Pv].
Qed.
Lemma addr_unique t a b : has_addr t a -> has_addr t b -> a = b.
Proof.
  assert (R : reads (lit "^\s+ip\s+address\s+(\d+\.\d+\.\d+\.\d+)") (line_T true [W (lit "ip"); W (lit "address"); H 1] Open) 1) by reflexivity.
  assert (E0 : forall a, has_addr t a -> exists r, rx_find (pattern false (lit "^\s+ip\s+address\s+(\d+\.\d+\.\d+\.\d+)")) t = Some r /\ group 1 r = Ok (Some a)).
  { intros x (Q1 & HL). destruct (line_fwd _ _ _ _ _ t [lit "ip"; lit "address"; x] R eq_refl ltac:(repeat (constructor; auto)) HL) as (r & E). eexists. split; [exact E|reflexivity]. }
  intros K1 K2. apply E0 in K1 as (r & E1 & E2), K2 as (r' & E1' & E2'). congruence.
Qed.
Lemma mask_unique t a b : has_mask t a -> has_mask t b -> a = b.
Proof.
  set (p := "^\s+ip\s+address\s+\d+\.\d+\.\d+\.\d+\s+(\d+\.\d+\.\d+\.\d+)"%string).
  assert (R : reads (lit p) (line_T true [W (lit "ip"); W (lit "address"); Q; H 1] Open) 1) by reflexivity.
  assert (E0 : forall m, has_mask t m -> exists r, rx_find (pattern false (lit p)) t = Some r /\ group 1 r = Ok (Some m)).
  { intros x (Q1 & a0 & Qa & HL). destruct (line_fwd _ _ _ _ _ t [lit "ip"; lit "address"; a0; x] R eq_refl ltac:(repeat (constructor; auto)) HL) as (r & E). eexists. split; [exact E|reflexivity]. }
  intros K1 K2. apply E0 in K1 as (r & E1 & E2), K2 as (r' & E1' & E2'). congruence.
Qed.
Lemma standby_unique t a b : has_standby t a -> has_standby t b -> a = b.
Proof.
  assert (E0 : forall m, has_standby t m -> exists r, rx_find (pattern false (lit standby_pattern)) t = Some r /\ group 1 r = Ok (Some m)).
  { intros v HS. destruct (standby_fwd t v HS) as (s' & HD). destruct (reads_some (lit standby_pattern) standby_T 1 t s' _ eq_refl HD) as (m & E). eexists. split; [exact E|reflexivity]. }
  intros K1 K2. apply E0 in K1 as (r & E1 & E2), K2 as (r' & E1' & E2'). congruence.
Qed.
(** A line with a mask has an address, and a line with a standby address has a mask. *)
Lemma phrase_cut ws : forall y ys p, ws <> [] -> phrase (ws ++ y :: ys) p -> exists q g r, p = q ++ g ++ r /\ phrase ws q /\ gap g /\ phrase (y :: ys) r.
Proof.
  induction ws as [|w ws IH]; intros y ys p NE P; [congruence|]. cbn [app] in P. inversion P as [|? g ? q G0 P']; subst; [destruct ws; discriminate|].
  destruct ws as [|w' ws]; [exists w, g, q; repeat split; auto; try apply G0; constructor|].
  apply IH in P' as (q1 & g1 & r1 & -> & P1 & G1 & P2); [|discriminate]. exists (w ++ g ++ q1), g1, r1. rewrite <- !app_assoc. repeat split; auto; try apply G1. now constructor.
Qed.
Lemma line_cut (cut : str -> Prop) ws y ys t : ws <> [] -> line_of gap cut (ws ++ y :: ys) t -> line_of gap (no_more is_digit) ws t.
Proof.
  intros NE (i & p & e & -> & I0 & P & E). apply phrase_cut in P as (q & g & r & -> & P1 & G1 & P2); [|exact NE]. exists i, q, (g ++ r ++ e). rewrite <- !app_assoc. split; [reflexivity|]. split; [exact I0|]. split; [exact P1|].
  apply gap_stop; [exact G1|exact space_no_digit].
Qed.
Lemma mask_addr t m : has_mask t m -> exists a, has_addr t a.
Proof. intros (Qm & a & Qa & HL). exists a. split; [exact Qa|]. now apply (line_cut _ [lit "ip"; lit "address"; a] m []) in HL. Qed.
Lemma standby_mask t s : has_standby t s -> exists m, has_mask t m.
Proof.
  intros (Ws & a & m & b & Qa & Qm & (x & X1 & ->) & HL). exists m. split; [exact Qm|]. exists a. split; [exact Qa|].
  destruct HL as (i & p & e & -> & I0 & P & E). apply (phrase_cut [lit "ip"; lit "address"; a]) in P as (q & g & r & -> & P1 & G1 & P2); [|discriminate].
  apply phrase_cons in P2 as (g4 & q4 & -> & G4 & P4). exists i, (q ++ g ++ m), (x :: lit "standby" ++ g4 ++ q4 ++ e). split; [rewrite <- !app_assoc; reflexivity|]. split; [exact I0|]. split.
  - revert P1. clear -G1. intros P1. apply phrase_cons in P1 as (g1 & q1 & -> & G2 & P1). apply phrase_cons in P1 as (g2 & q2 & -> & G3 & P1). apply phrase_one in P1 as ->.
    rewrite <- !app_assoc. repeat (constructor; [assumption|]). constructor.
  - cbn. now apply space_no_digit.
Qed.

(** An address and a mask in the usual notation on the first line with an address: the object,
    its length, its network, and the networks it lies in. *)
Theorem C78_usual : forall own below pre t post ip p, own :: below = pre ++ t :: post ->
  (forall u a, In u pre -> ~ has_addr u a) -> valid 32 ip p ->
  line_of gap (no_more is_digit) [lit "ip"; lit "address"; IpModel.dotted ip; IpModel.dotted (mask_of p)] t ->
  asa_ipv4_addr_object own below = Some (obj 32 ip p) /\ asa_has_no_ipv4 own below = false /\ asa_ipv4_masklength own below = p /\
  asa_ip_network_object own below = Ok (first 32 ip p, p) /\
  (forall jp q, valid 32 jp q -> exists r, asa_in_ipv4_subnet own below (Some (obj 32 jp q)) = Ok (Some r) /\ (r = true <-> included 32 ip p jp q)) /\
  (forall nets, nets <> [] -> Forall (fun n => valid 32 (fst n) (snd n)) nets ->
     exists r, asa_in_ipv4_subnets own below (Some (map (fun n => Some (obj 32 (fst n) (snd n))) nets)) = Ok (Some r) /\
       (r = true <-> Exists (fun n => included 32 ip p (fst n) (snd n)) nets)) /\
  (forall js, 0 <= js < 2 ^ 32 -> has_standby t (IpModel.dotted js) -> asa_ipv4_standby_addr_object own below = Some (obj 32 js p)).
Proof.
  intros own below pre t post ip p E N1 HV HL.
  assert (HM : has_mask t (IpModel.dotted (mask_of p))). { split; [apply dotted_quad|]. exists (IpModel.dotted ip). split; [apply dotted_quad|exact HL]. }
  assert (HA : has_addr t (IpModel.dotted ip)). { split; [apply dotted_quad|]. now apply (line_cut _ [lit "ip"; lit "address"; IpModel.dotted ip] (IpModel.dotted (mask_of p)) []) in HL. }
  assert (N2 : forall u m, In u pre -> ~ has_mask u m). { intros u m Hu Hm. apply mask_addr in Hm as (a & Hm). now apply (N1 u a). }
  assert (N3 : forall u m, In u pre -> ~ has_standby u m). { intros u m Hu Hm. apply standby_mask in Hm as (a & Hm). now apply (N2 u a). }
  destruct (C78_addresses own below) as (A1 & A2 & A3).
  assert (E1 : asa_ipv4_addr own below = Ok (IpModel.dotted ip)). { eapply answer_first; eauto. intros x Hx. eapply addr_unique; eauto. }
  assert (E2 : asa_ipv4_netmask own below = Ok (IpModel.dotted (mask_of p))). { eapply answer_first; eauto. intros x Hx. eapply mask_unique; eauto. }
  assert (K : forall j, valid 32 j p -> ip4_of_str (IpModel.dotted j ++ "/" :: IpModel.dotted (mask_of p)) = Ok (obj 32 j p)).
  { intros j Hj. pose proof (C49_netmask [] [] ["/"] j p eq_refl eq_refl (or_introl eq_refl) Hj) as K. cbn [app] in K. now rewrite List.app_nil_r in K. }
  assert (O : asa_ipv4_addr_object own below = Some (obj 32 ip p)). { unfold asa_ipv4_addr_object, object_of. rewrite E1, E2. cbn [bind]. now rewrite K. }
  assert (IN : forall jp q, valid 32 jp q -> exists r, contains4 (Some (obj 32 jp q)) (Some (obj 32 ip p)) = Ok r /\ (r = true <-> included 32 ip p jp q)).
  { intros jp q Hq. destruct (C30_containment jp q ip p Hq HV) as (r & K1 & K2). eauto. }
  split; [exact O|]. split; [unfold asa_has_no_ipv4; now rewrite O|]. split; [unfold asa_ipv4_masklength; now rewrite O|].
  split; [unfold asa_ip_network_object; rewrite E1, E2; cbn [bind]; now rewrite K|]. split; [|split].
  - intros jp q Hq. unfold asa_in_ipv4_subnet. rewrite O. destruct (IN jp q Hq) as (r & -> & Hr). eauto.
  - intros nets NE FN. unfold asa_in_ipv4_subnets.
    assert (L0 : forall l tmp, Forall (fun n => valid 32 (fst n) (snd n)) l -> (l <> [] \/ tmp = Some (Some false)) ->
      exists r, subnets_loop own below tmp (map (fun n => Some (obj 32 (fst n) (snd n))) l) = Ok (Some r) /\ (r = true <-> Exists (fun n => included 32 ip p (fst n) (snd n)) l)).
    { induction l as [|[jp q] l IH]; intros tmp F HT.
      - destruct HT as [HT| ->]; [congruence|]. exists false. split; [reflexivity|]. split; [discriminate|]. intros X0. inversion X0.
      - inversion F as [|? ? F1 F2]; subst. cbn [map subnets_loop fst snd] in *. unfold asa_in_ipv4_subnet. rewrite O. destruct (IN jp q F1) as (r & -> & Hr). cbn [bind]. destruct r.
        + exists true. split; [reflexivity|]. split; [|reflexivity]. intros _. left. now apply Hr.
        + destruct (IH (Some (Some false)) F2 (or_intror eq_refl)) as (r & -> & Hr2). exists r. split; [reflexivity|]. rewrite Hr2. split; [now right|].
          intros X0. inversion X0 as [? ? X1|? ? X1]; subst; [|exact X1]. apply Hr in X1. discriminate. }
    apply L0; auto.
  - intros js Hj HS. assert (E3 : asa_ipv4_standby_addr own below = Ok (IpModel.dotted js)). { eapply answer_first; eauto. intros x Hx. eapply standby_unique; eauto. }
    unfold asa_ipv4_standby_addr_object, object_of. rewrite E3, E2. cbn [bind]. rewrite K; [reflexivity|]. split; [exact Hj|apply HV].
Qed.
Print Assumptions C78_usual.

(** Without an address: no object, the length is 0, no network, and None for every network. *)
Theorem C78_none : forall own below, (forall u a, In u (own :: below) -> ~ has_addr u a) ->
  asa_ipv4_addr own below = Ok [] /\ asa_ipv4_addr_object own below = None /\ asa_has_no_ipv4 own below = true /\ asa_ipv4_masklength own below = 0 /\
  asa_ip_network_object own below = Err ValueError /\ (forall net, asa_in_ipv4_subnet own below net = Ok None) /\
  (forall nets, nets <> [] -> ~ In None nets -> asa_in_ipv4_subnets own below (Some nets) = Ok None).
Proof.
  intros own below N1. destruct (C78_addresses own below) as (A1 & A2 & _).
  assert (E1 : asa_ipv4_addr own below = Ok []). { destruct A1 as [(pre & t & post & v & E & _ & Pt & _)|[_ ->]]; [|reflexivity]. exfalso. apply (N1 t v); [rewrite E; apply in_elt|exact Pt]. }
  assert (E2 : asa_ipv4_netmask own below = Ok []).
  { destruct A2 as [(pre & t & post & v & E & _ & Pt & _)|[_ ->]]; [|reflexivity]. exfalso. apply mask_addr in Pt as (a & Pt). apply (N1 t a); [rewrite E; apply in_elt|exact Pt]. }
  assert (O : asa_ipv4_addr_object own below = None). { unfold asa_ipv4_addr_object, object_of. rewrite E1, E2. reflexivity. }
  split; [exact E1|]. split; [exact O|]. split; [unfold asa_has_no_ipv4; now rewrite O|]. split; [unfold asa_ipv4_masklength; now rewrite O|].
  split; [unfold asa_ip_network_object; rewrite E1, E2; reflexivity|]. split; [intros net; unfold asa_in_ipv4_subnet; now rewrite O|].
  intros nets NE NN. unfold asa_in_ipv4_subnets.
  assert (L0 : forall l tmp, ~ In None l -> (l <> [] \/ tmp = Some None) -> subnets_loop own below tmp l = Ok None).
  { induction l as [|n l IH]; intros tmp F HT; [now destruct HT as [HT| ->]|]. cbn [subnets_loop]. unfold asa_in_ipv4_subnet. rewrite O. cbn [bind].
    destruct n as [n|]; [|exfalso; apply F; now left]. cbn [contains4 bind]. apply IH; auto. intros X0. apply F. now right. }
  apply L0; auto.
Qed.
Print Assumptions C78_none.

(** Asking whether the interface lies in one of no networks fails. *)
Theorem C78_no_networks_refuted : forall own below, asa_in_ipv4_subnets own below (Some []) = Err UnboundLocal.
Proof. reflexivity. Qed.
Print Assumptions C78_no_networks_refuted.

(** The IPv6 standby address: the last word of the first child of five words "ipv6 address A standby S". *)
Theorem C78_standby6 : forall kids,
  (exists pre t post a s, kids = pre ++ t :: post /\ words t = [lit "ipv6"; lit "address"; a; lit "standby"; s] /\ asa_ipv6_standby_addr kids = s /\
     forall u a' s', In u pre -> words u <> [lit "ipv6"; lit "address"; a'; lit "standby"; s']) \/
  ((forall u a s, In u kids -> words u <> [lit "ipv6"; lit "address"; a; lit "standby"; s]) /\ asa_ipv6_standby_addr kids = []).
Proof.
  induction kids as [|t kids IH]; [right; split; [intros u a s []|reflexivity]|]. cbn [asa_ipv6_standby_addr]. cbv zeta.
  assert (X0 : forall l : list str, (Nat.eqb (length l) 5 && strs_eqb (firstn 2 l) [lit "ipv6"; lit "address"] && str_eqb (nth 3 l []) (lit "standby") = true) <->
     exists a s, l = [lit "ipv6"; lit "address"; a; lit "standby"; s]).
  { intros l. split.
    - intros E. apply andb_true_iff in E as [E E3]. apply andb_true_iff in E as [E1 E2]. apply Nat.eqb_eq in E1.
      destruct l as [|x1 [|x2 [|x3 [|x4 [|x5 [|]]]]]]; try discriminate E1. cbn [firstn nth] in *. apply str_eqb_eq in E3. subst x4.
      cbn [strs_eqb] in E2. apply andb_true_iff in E2 as [E2 E4]. apply andb_true_iff in E4 as [E4 _]. apply str_eqb_eq in E2, E4. subst. eauto.
    - intros (a & s & ->). reflexivity. }
  destruct (_ && _ && _) eqn:E.
  - apply X0 in E as (a & s & E). left. exists [], t, kids, a, s. rewrite E. repeat split; auto.
  - assert (N0 : forall a s, words t <> [lit "ipv6"; lit "address"; a; lit "standby"; s]). { intros a s Ew. assert (X1 := proj2 (X0 (words t)) (ex_intro _ a (ex_intro _ s Ew))). congruence. }
    destruct IH as [(pre & t' & post & a & s & -> & Ew & -> & N1)|[N1 ->]].
    + left. exists (t :: pre), t', post, a, s. repeat split; auto. intros u a' s' [<-|Hu]; auto.
    + right. split; [|reflexivity]. intros u a s [<-|Hu]; auto.
Qed.
Print Assumptions C78_standby6.

(** PIM: the pattern of has_ip_pim_sparse_mode is not valid.  Every interface with an address
    raises, every other answers False. *)
Theorem C78_pim_refuted : forall own below,
  ((exists u a, In u (own :: below) /\ has_addr u a) -> asa_has_ip_pim_sparse_mode own below = Err ReErr) /\
  ((forall u a, In u (own :: below) -> ~ has_addr u a) -> asa_has_ip_pim_sparse_mode own below = Ok false).
Proof.
  intros own below. destruct (C78_addresses own below) as (A1 & _). unfold asa_has_ip_pim_sparse_mode. split.
  - intros (u & a & Iu & Ha). destruct A1 as [(pre & t & post & v & E & _ & Pt & ->)|[N1 _]]; [|exfalso; now apply (N1 u a)]. cbn [bind].
    destruct Pt as (Qv & _). apply quad_head in Qv. destruct v; [discriminate|]. reflexivity.
  - intros N1. now rewrite (proj1 (C78_none own below N1)).
Qed.
Print Assumptions C78_pim_refuted.

Definition v4 (a b c d : Z) : Z := ((a * 256 + b) * 256 + c) * 256 + d.
Definition asa_own : str := lit "interface GigabitEthernet0/1".
Definition asa_below : list str := map lit [" description Inside network"; " nameif inside"; " security-level 100"; " delay 10";
  " ip address 10.1.2.1 255.255.255.0 standby 10.1.2.2"; " ipv6 address 2001:db8::1/64 standby 2001:db8::2"; " shutdown"; " switchport mode  trunk "; " switchport access vlan 20"]%string.
Example C78_ex :
  asa_description asa_own asa_below = Ok (lit "Inside network") /\ asa_manual_delay asa_own asa_below = Ok 10 /\ asa_is_shutdown asa_own asa_below = Ok true /\
  asa_is_switchport asa_own asa_below = Ok true /\ asa_has_manual_switch_trunk asa_own asa_below = Ok true /\ asa_has_manual_switch_access asa_own asa_below = Ok false /\
  asa_access_vlan asa_own asa_below = Ok 20 /\ asa_has_autonegotiation asa_own asa_below = Ok true /\
  asa_ipv4_addr asa_own asa_below = Ok (lit "10.1.2.1") /\ asa_ipv4_standby_addr asa_own asa_below = Ok (lit "10.1.2.2") /\ asa_ipv6_standby_addr asa_below = lit "2001:db8::2" /\
  asa_ipv4_masklength asa_own asa_below = 24 /\ asa_ip_network_object asa_own asa_below = Ok (first 32 (v4 10 1 2 1) 24, 24) /\
  asa_in_ipv4_subnets asa_own asa_below (Some (map (fun n => Some (obj 32 (fst n) (snd n))) [(v4 192 0 2 0, 24); (v4 10 0 0 0, 8)])) = Ok (Some true).
Proof. vm_compute. repeat split; reflexivity. Qed.
(** The line in it meets the hypotheses of C78_usual. *)
Example C78_usual_case : let t := lit " ip address 10.1.2.1 255.255.255.0 standby 10.1.2.2" in
  valid 32 (v4 10 1 2 1) 24 /\ line_of gap (no_more is_digit) [lit "ip"; lit "address"; IpModel.dotted (v4 10 1 2 1); IpModel.dotted (mask_of 24)] t /\ has_standby t (IpModel.dotted (v4 10 1 2 2)).
Proof.
  split; [vm_compute; repeat split; discriminate|]. split.
  - exists (lit " "), (lit "ip address 10.1.2.1 255.255.255.0"), (lit " standby 10.1.2.2"). split; [reflexivity|]. split; [split; [reflexivity|discriminate]|]. split; [|reflexivity].
    change (phrase (map lit ["ip"; "address"; "10.1.2.1"; "255.255.255.0"]%string) (lit "ip" ++ [" "] ++ lit "address" ++ [" "] ++ lit "10.1.2.1" ++ [" "] ++ lit "255.255.255.0")).
    cbn [map]. repeat (apply ph_more; [split; [reflexivity|discriminate]|]). constructor.
  - split; [split; [discriminate|reflexivity]|]. exists (IpModel.dotted (v4 10 1 2 1)), (IpModel.dotted (mask_of 24)), (lit "255.255.255.0 standby").
    split; [apply dotted_quad|]. split; [apply dotted_quad|]. split; [exists " "; split; reflexivity|].
    exists (lit " "), (lit "ip address 10.1.2.1 255.255.255.0 standby 10.1.2.2"), []. split; [reflexivity|]. split; [split; [reflexivity|discriminate]|]. split; [|reflexivity].
    change (phrase (map lit ["ip"; "address"; "10.1.2.1"; "255.255.255.0 standby"; "10.1.2.2"]%string) (lit "ip" ++ [" "] ++ lit "address" ++ [" "] ++ lit "10.1.2.1" ++ [" "] ++ lit "255.255.255.0 standby" ++ [" "] ++ lit "10.1.2.2")).
    cbn [map]. repeat (apply ph_more; [split; [reflexivity|discriminate]|]). constructor.
Qed.
Example C78_none_case : asa_in_ipv4_subnets asa_own [lit " shutdown"] (Some [Some (obj 32 (v4 10 0 0 0) 8)]) = Ok None /\ asa_has_ip_pim_sparse_mode asa_own [lit " shutdown"] = Ok false /\
  asa_has_ip_pim_sparse_mode asa_own (asa_below ++ [lit " ip pim sparse-mode"]) = Err ReErr.
Proof. vm_compute. repeat split; reflexivity. Qed.
