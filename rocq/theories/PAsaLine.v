(** C78, continued: kinds and names of ASA interfaces; name, route and hostname lines. *)
From Coq Require Import Ascii String Arith NArith ZArith Bool List Lia.
From Verif Require Import PyStr PyStrFacts PyBase SearchModel SearchProofs IpModel IntfModel IntfSpec IntfFacts PyRe PyReFacts PyReTmpl PyReSent PyReLazy IosSpec IosModel IosFacts PIos NameSpec NameModel NameFacts PName PortModel AsaIntfSpec AsaIntfModel PAsaIntf.
Import ListNotations.
Local Open Scope char_scope.
Local Open Scope Z_scope.

(** ** Kinds and names *)

Definition virtual_asa : list str := map lit ["Loopback"; "Tunnel"; "Virtual-Template"; "Port-Channel"]%string.
Definition virtual_asa_re : re :=
  row (map chr (lit "interface") ++ [rplus true (RSet sp); RGrp 1 (alts (map (fun w => row (map chr w)) virtual_asa))]).
Lemma virtual_asa_iff t : asa_is_virtual_intf t = true <-> interface_of (fun r => exists w s, r = w ++ s /\ In w virtual_asa) t.
Proof.
  assert (R : reads_re (lit "^interface\s+(Loopback|Tunnel|Virtual-Template|Port-Channel)") virtual_asa_re 1) by reflexivity.
  assert (NE : map (fun w => row (map chr w)) virtual_asa <> []) by discriminate.
  unfold asa_is_virtual_intf, line_match. split.
  - destruct (rx_find _ t) as [m|] eqn:E; [|discriminate]. intros _. apply (re_shape _ _ _ _ _ R) in E as (i & s & c & HM & _). unfold virtual_asa_re in HM.
    apply row_app_M in HM as (i1 & s1 & c1 & HM & HR). apply chars1_M in HM as (-> & _ & _). apply row_cons_M in HR as (i2 & s2 & c2 & HS & HG).
    change (rplus true (RSet sp)) with (den [Run sp true]) in HS. apply shape in HS. apply D_run_eq in HS as (g & r & -> & G1 & G2 & HS). apply D_nil_eq in HS as (-> & _). apply all_sp in G1.
    cbn [row] in HG. apply M_grp_iff in HG as (w1 & c3 & _ & _ & _ & HG). apply alts_M in HG as (a & Ia & HG); [|exact NE]. apply in_map_iff in Ia as (w & <- & Iw). apply chars1_M in HG as (-> & _ & _).
    exists g, (w ++ s). split; [reflexivity|]. split; [split; auto|eauto].
  - intros (g & r & -> & [G1 G2] & w & s & -> & Iw).
    assert (HM : exists j c, M virtual_asa_re 0 (lit "interface" ++ g ++ w ++ s) [] j s c).
    { eexists _, _. unfold virtual_asa_re. eapply row_app_M'; [apply chars1_M'|]. eapply row_cons_M'.
      - change (rplus true (RSet sp)) with (den [Run sp true]). apply (unshape false). apply D_run; [now apply all_sp|auto|discriminate|constructor].
      - cbn [row]. apply M_grp. apply alts_M; [exact NE|]. exists (row (map chr w)). split; [now apply (in_map (fun w => row (map chr w)))|apply chars1_M']. }
    destruct HM as (j & c & HM). destruct (rx_find _ _) as [m|] eqn:E.
    + apply (re_shape _ _ _ _ _ R) in E as (i & s' & c' & HM' & G0). unfold virtual_asa_re in HM'. apply row_app_M in HM' as (i1 & s1 & c1 & HM' & HR). apply row_cons_M in HR as (i2 & s2 & c2 & HS & HG).
      cbn [row] in HG. apply M_grp_iff in HG as (w1 & c3 & E3 & -> & -> & HG). unfold group. rewrite G0. cbn [seq map nth_error cap Nat.eqb].
      apply alts_M in HG as (a & Ia & HG); [|exact NE]. apply in_map_iff in Ia as (v & <- & Iv). apply chars1_M in HG as (-> & _ & _). apply app_inv_tail in E3. subst w1.
      destruct Iv as [<-|[<-|[<-|[<-|[]]]]]; reflexivity.
    + exfalso. unfold reads_re in R. unfold pattern in E. cbn [rx_find] in E. destruct (compile false _) as [[r0 e0]|]; [|discriminate]. cbn in R. injection R as -> _.
      match type of E with context [search ?r0 ?x0] => change r0 with (RCat RBol virtual_asa_re) in E; destruct (search (RCat RBol virtual_asa_re) x0) as [[u x]|] eqn:Y; [discriminate|] end. rewrite search_bol in Y. destruct (match_at virtual_asa_re 0 _) eqn:Z; [discriminate|].
      apply (match_at_complete _ _ _ _ _ _ HM Z).
Qed.
Lemma asa_intf_iff t : asa_is_intf t = true <-> interface_of (fun r => exists c d s, r = c :: d :: s /\ is_space c = false /\ d <> "010") t.
Proof.
  unfold asa_is_intf. rewrite (kind_iff _ (kind_re (RCat (rplus true (RSet ns)) (rplus true (RSet dot)))) [Run ns true; Run dot true]); try reflexivity.
  apply interface_of_iff. intros u. split.
  - intros (s' & c' & HD). apply D_run_eq in HD as (w & r & -> & W1 & W2 & HD). apply D_run_eq in HD as (v & r2 & -> & V1 & V2 & _).
    destruct w as [|c w]; [exfalso; now apply W2|]. apply Forall_inv in W1 as C1. rewrite in_ns in C1. apply negb_true_iff in C1.
    assert (DN : forall d, in_set dot d = true -> d <> "010") by (intros d; rewrite in_dot; intros X0 ->; discriminate).
    assert (SN : forall d, in_set ns d = true -> d <> "010") by (intros d; rewrite in_ns; intros X0 ->; discriminate).
    destruct w as [|d w].
    + destruct v as [|d v]; [exfalso; now apply V2|]. exists c, d, (v ++ r2). repeat split; auto. apply DN. now apply Forall_inv in V1.
    + exists c, d, (w ++ v ++ r2). repeat split; auto. apply SN. now apply Forall_inv_tail, Forall_inv in W1.
  - intros (c & d & s & -> & C1 & ND). eexists _, _. apply (D_run _ _ _ _ [c] (d :: s)); [constructor; [rewrite in_ns; now rewrite C1|constructor]|discriminate|discriminate|].
    apply (D_run _ _ _ _ [d] s); [constructor; [rewrite in_dot; apply negb_true_iff; now apply Ascii.eqb_neq|constructor]|discriminate|discriminate|constructor].
Qed.
Theorem C78_kinds : forall t,
  (asa_is_intf t = true <-> interface_of (fun r => exists c d s, r = c :: d :: s /\ is_space c = false /\ d <> "010") t) /\
  (asa_is_subintf t = true <-> interface_of (fun r => exists w d s, r = w ++ "." :: d :: s /\ word w /\ is_digit d = true) t) /\
  (asa_is_loopback_intf t = true <-> interface_of (fun r => exists c s, r = c :: lit "oopback" ++ s /\ is_space c = false) t) /\
  (asa_is_ethernet_intf t = true <-> interface_of (fun r => exists a c s, r = a ++ c :: lit "thernet" ++ s /\ is_space c = false /\ ~ In "010" a) t) /\
  (asa_is_virtual_intf t = true <-> interface_of (fun r => exists w s, r = w ++ s /\ In w (map lit ["Loopback"; "Tunnel"; "Virtual-Template"; "Port-Channel"]%string)) t).
Proof. intros t. split; [apply asa_intf_iff|]. split; [apply subintf_iff|]. split; [apply loopback_iff|]. split; [apply ethernet_iff|apply virtual_asa_iff]. Qed.
Print Assumptions C78_kinds.

Lemma slashed_ints b l : slashed b l -> ints (split_on "/" b) = Ok l /\ l <> [].
Proof.
  assert (NS : forall d n, numeral d n -> has_char "/" d = false).
  { intros d n Hd. apply has_char_false. intros E. apply numeral_digits in Hd. rewrite forallb_forall in Hd. apply Hd in E. discriminate. }
  assert (PI : forall d n, numeral d n -> py_int d = Some n).
  { intros d n Hd. destruct (numeral_head _ _ Hd) as (c & r & -> & _). pose proof (py_int_digits (c :: r)) as X0. rewrite X0; [f_equal; now apply numeral_value|..]; first [discriminate|now apply numeral_digits in Hd]. }
  induction 1 as [d n Hd|d n s l Hd _ [IH NE]].
  - rewrite split_on_nochar by (eapply NS; eauto). cbn [ints]. rewrite (PI d n Hd). split; [reflexivity|discriminate].
  - rewrite split_on_app by (eapply NS; eauto). cbn [ints]. rewrite (PI d n Hd), IH. split; [reflexivity|discriminate].
Qed.
(** The type, the numbers, the port and the name of a line "interface <type> <number>[.<subinterface>] ...". *)
Theorem C78_naming : forall t T b s l, no_newline t -> named_so t T b s -> slashed b l ->
  asa_port_type t = T /\ asa_ordinal_list t = Ok l /\ (exists l' z, l = l' ++ [z] /\ asa_port t = Ok z) /\
  forall ws, says_loosely (lit "interface" :: ws) t -> Forall word ws -> asa_name t = join [" "] ws.
Proof.
  intros t T b s l NL HN HS. destruct (C68_numbers t T b s HN) as (I0 & T0 & N0 & _). destruct (slashed_ints b l HS) as [EI NE].
  assert (AI : asa_is_intf t = true).
  { destruct HN as (g & e & -> & [T1 T2] & HG & (_ & (c & r & -> & C0) & _) & _ & _). apply asa_intf_iff. destruct T as [|x T]; [congruence|]. cbn [forallb] in T2. apply andb_true_iff in T2 as [X1 T2].
    exists [" "], ((x :: T) ++ g ++ (c :: r) ++ s ++ e). split; [reflexivity|]. split; [split; [reflexivity|discriminate]|]. apply ltr_kinds in X1 as [X1 _].
    destruct T as [|y T].
    - destruct g as [|y g].
      + exists x, c, (r ++ s ++ e). repeat split; auto. intros ->. discriminate.
      + exists x, y, (g ++ (c :: r) ++ s ++ e). repeat split; auto. intros ->. unfold no_newline in NL. rewrite !forallb_app in NL. cbn in NL. now rewrite !andb_false_r in NL.
    - exists x, y, (T ++ g ++ (c :: r) ++ s ++ e). repeat split; auto. cbn in T2. apply andb_true_iff in T2 as [Y1 _]. intros ->. discriminate. }
  unfold asa_port. assert (OL : asa_ordinal_list t = Ok l).
  { unfold asa_ordinal_list. rewrite AI. cbn [negb]. unfold interface_number in N0. rewrite I0 in N0. cbn [bind] in N0. injection N0 as ->.
    destruct b as [|c b]; [exfalso; destruct HN as (g & e & _ & _ & _ & ([X _] & _) & _); congruence|exact EI]. }
  split; [exact T0|]. split; [exact OL|]. split.
  - rewrite OL. cbn [bind]. destruct (exists_last NE) as (l' & z & ->). exists l', z. split; [reflexivity|]. now rewrite rev_app_distr.
  - intros ws HL FW. unfold asa_name. rewrite AI. exact (proj1 (C68_name t ws HL FW)).
Qed.
Print Assumptions C78_naming.

(** ** Name lines *)

Definition name_T : list item := Lit (lit "name") :: Run sp true :: Grp 1 quad_items :: One sp :: [Grp 2 [Run ns true]].
Lemma name_fwd t a n : names t a n -> exists s', D true name_T t s' [] [(2%nat, n); (1%nat, a)].
Proof.
  intros (Qa & Wn & g & c & e & -> & [G1 G2] & C1 & E). exists e. unfold name_T. apply D_lit. apply D_run; [now apply all_sp|auto|intros _; apply head_stops, head_app; now apply quad_head|].
  eapply D_grp.
  - rewrite <- (List.app_nil_r quad_items). apply D_quad; [exact Qa|intros _; cbn; now apply space_no_digit|constructor].
  - apply D_one; [now rewrite in_sp|]. eapply D_grp; [|constructor]. apply D_run; [apply all_ns; apply Wn|intros _; apply Wn|intros _; now apply (stops_iff _ _ _ in_ns)|constructor].
Qed.
Lemma name_shape t s' c : D false name_T t s' [] c -> exists a n, names t a n.
Proof.
  unfold name_T. intros HD. apply D_lit_eq in HD as (r1 & -> & HD). apply D_run_eq in HD as (g & r2 & -> & G1 & G2 & HD). apply D_grp_eq in HD as (a & r3 & c1 & -> & HQ & HD).
  rewrite <- (List.app_nil_r quad_items) in HQ. apply D_quad_inv in HQ as (a' & r4 & E & Qa & HQ). apply D_nil_eq in HQ as (-> & _). apply app_inv_tail in E. subst a'.
  apply D_one_eq in HD as (x & r5 & -> & X1 & HD). apply D_grp_eq in HD as (w & r6 & c2 & -> & HW & HD). apply D_run_inv in HW as (W1 & W2 & _). apply all_ns in W1. apply all_sp in G1. rewrite in_sp in X1.
  destruct (extend_one A w r6 (conj (W2 eq_refl) W1)) as (n & e & E & Fn & En). exists a, n. split; [exact Qa|]. split; [exact Fn|]. exists g, x, e. split; [now rewrite E|].
  split; [split; auto|]. split; [exact X1|exact En].
Qed.
Theorem C78_names : forall t,
  (forall a n, asa_name_line t = Ok (a, n) <-> names t a n) /\
  ((forall a n, ~ names t a n) -> asa_name_line t = Err ValueError) /\
  (asa_name_for t = true <-> exists x r, t = x ++ r /\ lower x = lit "name ").
Proof.
  intros t. assert (R : reads (unverbose false false (lit name_pattern)) name_T 2) by reflexivity.
  assert (F0 : forall a n, names t a n -> asa_name_line t = Ok (a, n)).
  { intros a n HN. destruct (name_fwd t a n HN) as (s' & HD). destruct (reads_some _ _ _ _ _ _ R HD) as (m & E). unfold asa_name_line. rewrite E. reflexivity. }
  assert (B0 : forall m, rx_find (pattern false (unverbose false false (lit name_pattern))) t = Some m -> exists a n, names t a n).
  { intros m E. apply (reads_shape _ _ _ _ _ R) in E as (s' & c & HD & _). now apply name_shape in HD. }
  split; [|split].
  - intros a n. split; [|apply F0]. intros E. destruct (rx_find (pattern false (unverbose false false (lit name_pattern))) t) as [m|] eqn:E1.
    + destruct (B0 m eq_refl) as (a' & n' & HN). rewrite (F0 _ _ HN) in E. injection E as <- <-. exact HN.
    + unfold asa_name_line in E. rewrite E1 in E. discriminate.
  - intros N1. unfold asa_name_line. destruct (rx_find _ t) as [m|] eqn:E1; [|reflexivity]. destruct (B0 m eq_refl) as (a' & n' & HN). now apply N1 in HN.
  - unfold asa_name_for. rewrite TreePost.contains_spec. split.
    + intros (a & b & E). assert (L0 : (length (a ++ lit "name " ++ b) <= 5)%nat). { rewrite <- E. unfold lower. rewrite map_length, firstn_length. lia. }
      rewrite !app_length in L0. change (length (lit "name ")) with 5%nat in L0. destruct a; [|cbn in L0; lia]. destruct b; [|cbn in L0; lia].
      exists (firstn 5 t), (skipn 5 t). split; [now rewrite firstn_skipn|exact E].
    + intros (x & r & -> & E). exists [], []. assert (L0 : length x = 5%nat) by (rewrite <- (map_length lower_char x); change (map lower_char x) with (lower x); now rewrite E).
      assert (F5 : firstn 5 (x ++ r) = x) by (rewrite <- L0, firstn_app, Nat.sub_diag, firstn_all; apply List.app_nil_r). rewrite F5. exact E.
Qed.
Print Assumptions C78_names.
(** A line that is taken for a name line may still not be read: two blanks before the name, or a
    capital letter. *)
Theorem C78_name_refuted : exists t, words t = map lit ["name"; "10.1.1.1"; "mailserver"]%string /\ asa_name_for t = true /\ asa_name_line t = Err ValueError.
Proof. exists (lit "name 10.1.1.1  mailserver"). vm_compute. repeat split; reflexivity. Qed.
Print Assumptions C78_name_refuted.

(** ** Routes *)

(** The patterns of these attributes are not valid: they raise re.error for every line; the
    network object is None, and the line cannot be shown. *)
Theorem C78_route_refuted : forall t,
  asa_address_family t = Err ReErr /\ asa_network t = Err ReErr /\ asa_netmask t = Err ReErr /\ asa_nexthop_str t = Err ReErr /\ asa_network_object t = None /\
  asa_routeinfo t = Err ReErr /\ forall show, asa_route_repr show t = Err ReErr.
Proof.
  intros t. assert (F : asa_address_family t = Err ReErr) by reflexivity.
  assert (I0 : asa_routeinfo t = Err ReErr).
  { unfold asa_routeinfo. assert (T0 : exists k, asa_tracking_object_name t = Ok k).
    { unfold asa_tracking_object_name. destruct (rx_find _ t) as [m|] eqn:E; [|eauto]. unfold pattern in E. cbn [rx_find] in E.
      destruct (compile false (lit track_pattern)) as [[r e]|] eqn:C0; [|discriminate]. destruct (search r t) as [[u c]|]; [|discriminate]. injection E as <-.
      assert (E2 : fst e = 2%nat) by (vm_compute in C0; injection C0 as _ <-; reflexivity). cbn [group m_groups]. rewrite E2. cbn [seq map nth_error bind]. destruct (cap 2 c); eexists; reflexivity. }
    destruct T0 as (k & ->). reflexivity. }
  repeat (split; [reflexivity|]). split; [exact I0|]. intros show. unfold asa_route_repr. now rewrite I0.
Qed.
Print Assumptions C78_route_refuted.

(** The administrative distance: the digits at the end of the line, whatever they are; 1 without
    them. *)
Definition dist_re : re := RCat (RGrp 1 (rplus true (RSet dg))) REol.
Lemma dist_reads : option_map (fun x => (fst x, fst (snd x))) (compile false (lit "(\d+)$")) = Some (dist_re, 1%nat).
Proof. reflexivity. Qed.
Lemma dist_M i s c i' s' c' : M dist_re i s c i' s' c' -> exists d, s = d ++ s' /\ d <> [] /\ forallb is_digit d = true /\ line_end s' /\ c' = (1%nat, d) :: c.
Proof.
  change dist_re with (den [Grp 1 [Run dg true]; End]). intros HM. apply shape in HM. apply D_grp_eq in HM as (d & r & c1 & -> & HD & HM). apply D_run_inv in HD as (D1 & D2 & ->).
  apply D_end_eq in HM as (LE & HM). apply D_nil_eq in HM as (-> & ->). exists d. apply all_dg in D1. repeat split; auto.
Qed.
Lemma dist_M' i d c : d <> [] -> forallb is_digit d = true -> exists i' c', M dist_re i d c i' [] c'.
Proof.
  intros NE F. assert (HD : D false [Grp 1 [Run dg true]; End] (d ++ []) [] c ((1%nat, d) :: c)).
  { eapply D_grp; [apply D_run; [now apply all_dg|auto|discriminate|constructor]|]. apply D_end; [now left|constructor]. }
  rewrite List.app_nil_r in HD. eexists _, _. change dist_re with (den [Grp 1 [Run dg true]; End]). exact (unshape _ _ _ _ _ _ HD _).
Qed.
Theorem C78_distance : forall t, no_newline t ->
  (forall u d n, t = u ++ d -> numeral d n -> (forall v c, u = v ++ [c] -> is_digit c = false) -> asa_admin_distance t = Ok n) /\
  ((forall v c, t = v ++ [c] -> is_digit c = false) -> asa_admin_distance t = Ok 1).
Proof.
  intros t NN. unfold asa_admin_distance, match_typed, pattern. cbn [rx_find]. pose proof dist_reads as R. destruct (compile false (lit "(\d+)$")) as [[r e]|]; [|discriminate].
  cbn [option_map fst snd] in R. injection R as -> E1. rewrite E1.
  assert (NE : forall x y : str, t = x ++ y -> line_end y -> y = []).
  { intros x y -> [->| ->]; [reflexivity|]. unfold no_newline in NN. rewrite forallb_app in NN. apply andb_true_iff in NN as [_ NN]. discriminate. }
  split.
  - intros u d n E0 Nd HU. pose proof (numeral_digits _ _ Nd) as DD. assert (ND : d <> []) by (destruct (numeral_head _ _ Nd) as (c & r0 & -> & _); discriminate).
    destruct (search dist_re t) as [[m c]|] eqn:S0.
    + apply search_from_sound in S0 as (u' & v' & i' & s' & E & HM & _ & LM). cbn [Nat.add] in *. apply dist_M in HM as (d' & -> & ND' & DD' & LE & ->).
      assert (X0 : s' = []) by (eapply NE; [rewrite E; apply app_assoc|exact LE]). subst s'. rewrite List.app_nil_r in *.
      assert (ED : d' = d).
      { rewrite E0 in E. apply app_eq_app in E as (l & [[-> ->]|[-> ->]]).
        - destruct l as [|x l]; [reflexivity|]. exfalso.
          destruct (exists_last (l := x :: l) ltac:(discriminate)) as (v & c0 & El). rewrite El in *. specialize (HU (u' ++ v) c0 (app_assoc _ _ _)).
          rewrite forallb_app in DD'. apply andb_true_iff in DD' as [DD' _]. rewrite forallb_app in DD'. cbn in DD'. rewrite HU in DD'. cbn in DD'. now rewrite andb_false_r in DD'.
        - destruct l as [|x l]; [now rewrite List.app_nil_l|]. exfalso. destruct (dist_M' (length u) ((x :: l) ++ d') [] ND DD) as (i2 & c2 & HM2).
          apply match_at_complete in HM2. apply HM2. apply (LM u ((x :: l) ++ d')); [exact E0|rewrite app_length; cbn; lia]. }
      subst d'. cbn [seq map group m_groups nth_error bind cap Nat.eqb]. rewrite to_int_digits by assumption. f_equal. now apply numeral_value.
    + exfalso. destruct (dist_M' (length u) d [] ND DD) as (i2 & c2 & HM2). now apply (search_none _ _ S0 u d _ _ _ E0) in HM2.
  - intros HL. destruct (search dist_re t) as [[m c]|] eqn:S0; [|reflexivity]. exfalso. apply search_some in S0 as (u & v & i' & s' & E & HM & _).
    apply dist_M in HM as (d & -> & ND & DD & LE & _). assert (X0 : s' = []) by (eapply NE; [rewrite E; apply app_assoc|exact LE]). subst s'. rewrite List.app_nil_r in *.
    destruct (exists_last ND) as (v & c0 & ->). specialize (HL (u ++ v) c0). rewrite <- app_assoc in HL. specialize (HL E). rewrite forallb_app in DD. cbn in DD. rewrite HL in DD. cbn in DD. now rewrite andb_false_r in DD.
Qed.
Print Assumptions C78_distance.
(** So a route without a distance takes the last digits of the next hop. *)
Theorem C78_distance_refuted : asa_route_for (lit "ip route 0.0.0.0 0.0.0.0 10.1.1.254") = true /\ asa_admin_distance (lit "ip route 0.0.0.0 0.0.0.0 10.1.1.254") = Ok 254 /\
  asa_route_for (lit "route outside 0.0.0.0 0.0.0.0 10.1.1.254 1") = false.
Proof. vm_compute. repeat split; reflexivity. Qed.
Print Assumptions C78_distance_refuted.

(** ** Hostnames *)
Theorem C78_hostname : forall t,
  (exists g h e, t = lit "hostname" ++ g ++ h ++ e /\ gap g /\ word h /\ word_ends e /\ asa_hostname t = Ok h) \/
  ((forall g h e, t = lit "hostname" ++ g ++ h ++ e -> gap g -> ~ word h) /\ asa_hostname t = Ok []).
Proof.
  intros t. assert (R : reads (lit "^hostname\s+(\S+)") [Lit (lit "hostname"); Run sp true; Grp 1 [Run ns true]] 1) by reflexivity. unfold asa_hostname, match_typed.
  destruct (rx_find _ t) as [m|] eqn:E.
  - left. apply (reads_shape _ _ _ _ _ R) in E as E'. destruct E' as (s' & c & HD & _). apply D_lit_eq in HD as (r1 & -> & HD). apply D_run_eq in HD as (g & r2 & -> & G1 & G2 & HD).
    apply D_grp_eq in HD as (w & r3 & c1 & -> & HW & _). apply D_run_inv in HW as (W1 & W2 & _). apply all_sp in G1. apply all_ns in W1.
    destruct (extend_one A w r3 (conj (W2 eq_refl) W1)) as (h & e & Eh & Fh & En). exists g, h, e. rewrite Eh in *. repeat split; auto; try apply Fh.
    assert (HD : D true [Lit (lit "hostname"); Run sp true; Grp 1 [Run ns true]] (lit "hostname" ++ g ++ h ++ e) e [] [(1%nat, h)]).
    { apply D_lit. apply D_run; [now apply all_sp|auto|intros _; apply head_stops, head_app; now apply word_head|]. eapply D_grp; [|constructor].
      apply D_run; [apply all_ns; apply Fh|intros _; apply Fh|intros _; now apply (stops_iff _ _ _ in_ns)|constructor]. }
    destruct (reads_some _ _ _ _ _ _ R HD) as (m' & E'). rewrite E' in E. injection E as <-. reflexivity.
  - right. split; [|reflexivity]. intros g h e -> [G1 G2] [H1 H2]. eapply (reads_found _ _ _ false _ e _ R); [|exact E]. apply D_lit. apply D_run; [now apply all_sp|auto|discriminate|].
    eapply D_grp; [|constructor]. apply D_run; [now apply all_ns|auto|discriminate|constructor].
Qed.
Print Assumptions C78_hostname.

Example C78_line_ex :
  asa_name (lit "interface  Ethernet 0/1") = lit "Ethernet 0/1" /\ asa_ordinal_list (lit "interface GigabitEthernet1/0/3.100") = Ok [1; 0; 3] /\ asa_port (lit "interface GigabitEthernet1/0/3.100") = Ok 3 /\
  asa_port_type (lit "interface GigabitEthernet1/0/3.100") = lit "GigabitEthernet" /\ asa_is_virtual_intf (lit "interface Tunnel1") = true /\ asa_is_virtual_intf (lit "interface tunnel1") = false /\
  asa_name_line (lit "name 10.1.1.1 mailserver description x") = Ok (lit "10.1.1.1", lit "mailserver") /\
  asa_admin_distance (lit "ip route 10.0.0.0 255.0.0.0 10.1.1.254 200") = Ok 200 /\ asa_admin_distance (lit "ip route 10.0.0.0 255.0.0.0 Null0 tag x") = Ok 1 /\ asa_hostname (lit "hostname  fw1 ") = Ok (lit "fw1").
Proof. vm_compute. repeat split; reflexivity. Qed.
Example C78_naming_case : exists s, named_so (lit "interface GigabitEthernet1/0/3.100") (lit "GigabitEthernet") (lit "1/0/3") s /\ slashed (lit "1/0/3") [1; 0; 3].
Proof.
  exists (lit ".100"). split.
  - exists [], []. split; [reflexivity|]. split; [split; [discriminate|reflexivity]|]. split; [reflexivity|]. split; [|split; [|constructor]].
    + split; [split; [discriminate|reflexivity]|]. split; [eexists _, _; split; reflexivity|]. intros (a & d & E & _).
      assert (X0 : In "." (lit "1/0/3")) by (rewrite E; apply in_elt). vm_compute in X0. repeat (destruct X0 as [X0|X0]; [discriminate|]). exact X0.
    + change (NameSpec.dotted ("." :: lit "100" ++ [])). constructor; [split; [discriminate|reflexivity]|constructor].
  - change (lit "1/0/3") with (lit "1" ++ "/" :: lit "0" ++ "/" :: lit "3").
    assert (N0 : forall d, d <> [] -> forallb is_digit d = true -> numeral d (digits_Z d)) by exact digits_numeral.
    constructor; [apply (N0 (lit "1")); [discriminate|reflexivity]|]. constructor; [apply (N0 (lit "0")); [discriminate|reflexivity]|]. constructor. apply (N0 (lit "3")); [discriminate|reflexivity].
Qed.
