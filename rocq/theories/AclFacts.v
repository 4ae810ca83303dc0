(** The pattern of access list lines as a pattern of words. *)
From Coq Require Import Ascii String Arith NArith ZArith Bool List Lia.
From Verif Require Import PyStr PyStrFacts PyBase PyBaseFacts SearchModel PyRe PyReFacts PyReTok AclModel AclSpec.
Import ListNotations.
Local Open Scope char_scope.

(** an expression without groups *)
Definition rx (s : str) : re := match compile false s with Some (r, _) => r | None => REps end.
Definition r_word : re := Eval vm_compute in rx (lit "\S+").
Definition r_quad : re := Eval vm_compute in rx (lit "\d+\.\d+\.\d+\.\d+").
Definition r_digits : re := Eval vm_compute in rx (lit "\d+").
Definition r_action : re := Eval vm_compute in rx (lit "permit|deny").
Definition r_proto : re := Eval vm_compute in rx acl_protocols.
Definition r_any : re := Eval vm_compute in rx (lit "any|any4").
Definition r_op : re := Eval vm_compute in rx (lit "eq|neq|lt|gt").
Definition r_level : re := Eval vm_compute in rx acl_loglevels.
Definition r_icmp : re := Eval vm_compute in rx (acl_icmp_protocols ++ lit "|\d+").
Definition r_lit (s : string) : re := chars (lit s) REps.
Fixpoint seqs (l : list wre) : wre := match l with [] => WEps | x :: r => WCat x (seqs r) end.
Definition wl (s : string) : wre := WLit (lit s).
Definition tok (n : nat) (a : re) : wre := WTok (Some n) a.
Definition two (s : string) (x : wre) : wre := seqs [wl s; WSp; x].
Definition addr1 (og o net mask : nat) : wre :=
  WAlt (two "object-group" (tok og r_word)) (WAlt (two "object" (tok o r_word)) (seqs [tok net r_word; WSp; tok mask r_quad])).
Definition addr2 (any host o og net mask : nat) : wre :=
  WAlt (tok any r_any) (WAlt (two "host" (tok host r_word)) (WAlt (two "object" (tok o r_word)) (WAlt (two "object-group" (tok og r_word)) (seqs [tok net r_word; WSp; tok mask r_quad])))).
Definition ports (op p lo hi og : nat) : wre :=
  wopt (WCat WSp (WAlt (seqs [tok op r_op; WSp; tok p r_word]) (WAlt (seqs [wl "range"; WSp; tok lo r_word; WSp; tok hi r_word]) (two "object-group" (tok og r_word))))).
Definition logs (lg lv iv : nat) : wre :=
  wopt (seqs [WSp; tok lg (r_lit "log"); wopt (WCat WSp (tok lv r_level)); wopt (seqs [WSp; wl "interval"; WSp; tok iv r_digits])]).
Definition disables (n : nat) : wre := wopt (WCat WSp (tok n (r_lit "disable"))).
Definition whens (i t : nat) : wre := wopt (WAlt (WCat WSp (tok i (r_lit "inactive"))) (seqs [WSp; wl "time-range"; WSp; tok t r_word])).
Definition tail (lg lv iv d i t : nat) : wre := seqs [logs lg lv iv; disables d; whens i t].
Definition service (s p : nat) : wre := WAlt (two "object-group" (tok s r_word)) (tok p r_proto).
Definition head (n : nat) (kind : string) (a : nat) : list wre := [wl "access-list"; WSp; tok n r_word; WSp; wl kind; WSp; tok a r_action; WSp].
Definition w0 : wre := seqs [wl "access-list"; WSp; tok 2 r_word; WSp; tok 3 (r_lit "remark"); WSp].
Definition w1 : wre := seqs (head 5 "extended" 6 ++ [service 7 8; WSp; addr1 9 10 11 12; WSp; addr1 13 14 15 16; tail 17 18 19 20 21 22]).
Definition w2 : wre := seqs (head 23 "extended" 24 ++ [service 25 26; WSp; addr2 27 28 29 30 31 32; ports 33 34 35 36 37; WSp; addr2 38 39 40 41 42 43; ports 44 45 46 47 48; tail 49 50 51 52 53 54]).
Definition w3 : wre := seqs (head 55 "standard" 56).
Definition dst3 : wre := WAlt (tok 57 r_any) (WAlt (two "host" (tok 58 r_word)) (seqs [tok 59 r_word; WSp; tok 60 r_quad])).
Definition w4 : wre := seqs (head 61 "extended" 62 ++ [tok 63 (r_lit "icmp"); WSp; addr2 64 65 66 67 68 69; WSp]).
Definition dst4 : wre := addr2 70 71 72 73 74 75.
Definition rest4 : wre := seqs [wopt (WCat WSp (tok 76 r_icmp)); tail 77 78 79 80 81 82].
Definition r_remark : re := Eval vm_compute in RCat (RGrp 4 (rx (lit "\S.+?"))) REol.
Definition acl_re : re :=
  RAlt (RGrp 1 (RCat RBol (RCat (tr w0) r_remark)))
  (RAlt (RCat RBol (RCat (tr w1) to_end))
  (RAlt (RCat RBol (RCat (tr w2) to_end))
  (RAlt (RCat RBol (RCat (tr w3) (tr dst3)))
        (RCat RBol (RCat (tr w4) (RCat (tr dst4) (tr rest4))))))).
Lemma acl_same : option_map (fun x => flat (fst x) REps) (compile false re_acl) = Some (flat acl_re REps).
Proof. vm_compute. reflexivity. Qed.

(** ** From captures to the dictionary *)
Definition acl_names : list (str * nat) := Eval vm_compute in match compile false re_acl with Some (_, e) => snd e | None => [] end.
Definition G (c : caps) : groups := fun nm => match find (fun x => str_eqb (fst x) nm) acl_names with Some (_, n) => cap n c | None => None end.
Lemma acl_env : option_map snd (compile false re_acl) = Some (82, acl_names).
Proof. vm_compute. reflexivity. Qed.
Lemma acl_numbers : Forall (fun x => 1 <= snd x <= 82) acl_names.
Proof. apply Forall_forall. intros x. unfold acl_names. cbn [In]. intros K. repeat (destruct K as [<-|K]; [cbn; lia|]). destruct K. Qed.
Lemma mat_map {R R'} (h : R -> R') r : forall i s c (k : nat -> str -> caps -> option R), mat r i s c (fun i s c => option_map h (k i s c)) = option_map h (mat r i s c k).
Proof.
  induction r as [|q|a IHa b IHb|a IHa b IHb|g a IH|n a IH| |]; intros i s c k; cbn [mat]; try reflexivity.
  - destruct s; [reflexivity|]. now destruct (in_set q a).
  - rewrite <- IHa. apply mat_ext. intros. apply IHb.
  - rewrite IHa, IHb. now destruct (mat a i s c k).
  - generalize (length s) as f. intros f. revert i s c. induction f as [|f IHf]; intros i s c; cbn [star_loop]; cbv zeta.
    + destruct g; [reflexivity|now destruct (k i s c)].
    + replace (mat a i s c (fun i' s' c' => if Nat.eqb i' i then None else star_loop (mat a) g (fun i s c => option_map h (k i s c)) f i' s' c'))
        with (option_map h (mat a i s c (fun i' s' c' => if Nat.eqb i' i then None else star_loop (mat a) g k f i' s' c'))).
      * destruct g; [now destruct (mat a i s c _)|now destruct (k i s c)].
      * rewrite <- IH. apply mat_ext. intros i' s' c'. destruct (Nat.eqb i' i); [reflexivity|]. now rewrite IHf.
  - apply IH.
  - now destruct (Nat.eqb i 0).
  - destruct s as [|x [|? ?]]; [reflexivity|now destruct (Ascii.eqb x "010")|reflexivity].
Qed.
Definition take (t : str) : option caps := mat acl_re 0 t [] (fun _ _ c => Some c).
Lemma truthy_ext g g' : (forall n, g n = g' n) -> forall l, any_of g l = any_of g' l.
Proof. intros E l. unfold any_of. induction l as [|x l IH]; [reflexivity|]. cbn [existsb]. now rewrite E, IH. Qed.
Lemma first_ext g g' : (forall n, g n = g' n) -> forall l, first_of g l = first_of g' l.
Proof. intros E l. unfold first_of. induction l as [|x l IH]; [reflexivity|]. cbn [fold_right]. now rewrite E, IH. Qed.
Lemma chain_ext g g' : (forall n, g n = g' n) -> forall l, or_chain g l = or_chain g' l.
Proof. intros E l. induction l as [|x l IH]; [reflexivity|]. destruct l as [|y l]; [apply E|]. cbn [or_chain] in *. now rewrite E, IH. Qed.
Lemma dict_ext g g' : (forall n, g n = g' n) -> result_dict g = result_dict g'.
Proof.
  intros E. unfold result_dict, acl_protocol, src_addr_method, dst_addr_method, is_remark.
  rewrite !(truthy_ext g g' E), !(first_ext g g' E), !(chain_ext g g' E), !E. reflexivity.
Qed.
Lemma match_take r t : compile false re_acl = Some r -> option_map snd (match_at (fst r) 0 t) = take t.
Proof.
  intros E. pose proof acl_same as F. rewrite E in F. cbn [option_map] in F. injection F as F. unfold match_at, take. rewrite <- mat_map. cbn [option_map snd]. now apply flat_same.
Qed.
Lemma acl_found t c : take t = Some c -> acl_result t = result_dict (G c).
Proof.
  intros T. unfold acl_result, acl_line, pattern. cbn [rx_find]. pose proof acl_env as N. destruct (compile false re_acl) as [[r e]|] eqn:E; [|discriminate N]. cbn [option_map snd] in N. injection N as ->.
  pose proof (match_take (r, (82, acl_names)) t E) as MT. cbn [fst] in MT. rewrite T in MT. destruct (match_at r 0 t) as [[m c']|] eqn:F; [|discriminate MT]. cbn in MT. injection MT as ->.
  assert (S0 : search r t = Some (m, c)) by (unfold search; destruct t; cbn [search_from]; now rewrite F). rewrite S0. cbn [bind]. apply dict_ext. intros nm. unfold named. rewrite E. cbn [snd m_groups]. unfold G.
  destruct (find _ acl_names) as [[x n]|] eqn:FN; [|reflexivity]. apply find_some in FN as [IN _]. pose proof (proj1 (Forall_forall _ _) acl_numbers _ IN) as B. cbn [snd] in B.
  rewrite (nth_indep _ None (cap 0 c)) by (rewrite map_length, seq_length; cbn [fst]; lia). rewrite (map_nth (fun j => cap j c) (seq 1 (fst (82, acl_names))) 0). rewrite seq_nth by (cbn [fst]; lia). f_equal. lia.
Qed.

(** ** Words *)
Lemma w_word w : is_word w -> whole r_word w = true.
Proof.
  intros [NW FW]. apply (whole_plus (mkSet false false [CNotSpace])). split; [exact NW|]. eapply Forall_impl; [|exact FW]. intros x E. unfold in_set. cbn [cs_neg cs_icase cs_items existsb cls_has]. now rewrite E.
Qed.
Lemma in_dg x : in_set (mkSet false false [CDigit]) x = is_digit x.
Proof. unfold in_set. cbn [cs_neg cs_icase cs_items existsb cls_has]. now rewrite orb_false_r, xorb_false_l. Qed.
Lemma all_dg w : all_in (mkSet false false [CDigit]) w <-> Forall (fun x => is_digit x = true) w.
Proof. unfold all_in. rewrite !Forall_forall. split; intros K x I0; specialize (K x I0); now rewrite in_dg in *. Qed.
Lemma w_digits w : whole r_digits w = true <-> digits w.
Proof. unfold digits. rewrite (whole_plus (mkSet false false [CDigit])). now rewrite all_dg. Qed.
Lemma w_quad w : whole r_quad w = true <-> quad w.
Proof.
  rewrite whole_iff. unfold quad. set (dp := rplus true (RSet (mkSet false false [CDigit]))). change r_quad with (RCat dp (RCat (chr ".") (RCat dp (RCat (chr ".") (RCat dp (RCat (chr ".") dp)))))).
  assert (D : forall i s c i' s' c', M dp i s c i' s' c' <-> exists u, s = u ++ s' /\ digits u /\ i' = i + length u /\ c' = c).
  { intros. unfold dp. rewrite M_plus_iff. unfold digits. split; intros (u & K); exists u; rewrite all_dg in *; tauto. }
  split.
  - intros (i & c & HM). apply M_cat_iff in HM as (i1 & s1 & c1 & A & HM). apply D in A as (a & -> & Da & -> & ->). apply M_cat_iff in HM as (i2 & s2 & c2 & A & HM). apply M_chr_iff in A as (-> & -> & ->).
    apply M_cat_iff in HM as (i3 & s3 & c3 & A & HM). apply D in A as (b & -> & Db & -> & ->). apply M_cat_iff in HM as (i4 & s4 & c4 & A & HM). apply M_chr_iff in A as (-> & -> & ->).
    apply M_cat_iff in HM as (i5 & s5 & c5 & A & HM). apply D in A as (d & -> & Dd & -> & ->). apply M_cat_iff in HM as (i6 & s6 & c6 & A & HM). apply M_chr_iff in A as (-> & -> & ->).
    apply D in HM as (e & -> & De & -> & ->). exists a, b, d, e. rewrite app_nil_r. auto.
  - intros (a & b & d & e & Da & Db & Dd & De & ->). eexists _, _. apply M_cat_iff. eexists _, _, _. split; [apply D; exists a; split; [reflexivity|split; [exact Da|split; reflexivity]]|].
    apply M_cat_iff. eexists _, _, _. split; [apply M_chr_iff; repeat split; reflexivity|]. apply M_cat_iff. eexists _, _, _. split; [apply D; exists b; split; [reflexivity|split; [exact Db|split; reflexivity]]|].
    apply M_cat_iff. eexists _, _, _. split; [apply M_chr_iff; repeat split; reflexivity|]. apply M_cat_iff. eexists _, _, _. split; [apply D; exists d; split; [reflexivity|split; [exact Dd|split; reflexivity]]|].
    apply M_cat_iff. eexists _, _, _. split; [apply M_chr_iff; repeat split; reflexivity|]. apply D. exists e. split; [symmetry; apply app_nil_r|split; [exact De|split; reflexivity]].
Qed.
(** words of a list of literals *)
Definition lits (l : list string) (w : str) : bool := existsb (fun k => str_eqb w (lit k)) l.
Lemma lits_iff l w : lits l w = true <-> one_of l w.
Proof. unfold lits, one_of. rewrite existsb_exists. split; intros (k & I0 & E); exists k; (split; [exact I0|]); now apply str_eqb_eq. Qed.
Ltac by_lits := intros w; rewrite whole_flat; unfold flat; repeat rewrite whole_alt.
Lemma flat_alt_one a b w : whole (flat (RAlt a b) REps) w = whole a w || whole b w.
Proof. now rewrite <- whole_flat, whole_alt. Qed.
Lemma lit_flat r l w : flat r REps = chars (lit l) REps -> whole r w = str_eqb w (lit l).
Proof. intros E. now rewrite whole_flat, E, whole_lit. Qed.
Lemma w_any w : whole r_any w = lits ["any"; "any4"]%string w.
Proof. unfold r_any. rewrite whole_alt. rewrite (lit_flat _ "any"), (lit_flat _ "any4") by reflexivity. unfold lits. cbn [existsb]. now rewrite orb_false_r. Qed.
Lemma w_action w : whole r_action w = lits ["permit"; "deny"]%string w.
Proof. unfold r_action. rewrite whole_alt. rewrite (lit_flat _ "permit"), (lit_flat _ "deny") by reflexivity. unfold lits. cbn [existsb]. now rewrite orb_false_r. Qed.
Lemma w_op w : whole r_op w = lits ["eq"; "neq"; "lt"; "gt"]%string w.
Proof. unfold r_op. rewrite !whole_alt. rewrite (lit_flat _ "eq"), (lit_flat _ "neq"), (lit_flat _ "lt"), (lit_flat _ "gt") by reflexivity. unfold lits. cbn [existsb]. now rewrite orb_false_r. Qed.
Lemma w_lit s w : whole (r_lit s) w = str_eqb w (lit s).
Proof. apply whole_lit. Qed.
Lemma w_proto w : whole r_proto w = true <-> one_of (map fst numbers) w \/ digits w.
Proof.
  rewrite <- w_digits, <- lits_iff. unfold r_proto. rewrite !whole_alt.
  rewrite (lit_flat _ "ip"), (lit_flat _ "tcp"), (lit_flat _ "udp"), (lit_flat _ "ah"), (lit_flat _ "eigrp"), (lit_flat _ "esp"), (lit_flat _ "gre"), (lit_flat _ "igmp"), (lit_flat _ "igrp"), (lit_flat _ "ipinip"), (lit_flat _ "ipsec"), (lit_flat _ "ospf"), (lit_flat _ "pcp"), (lit_flat _ "pim"), (lit_flat _ "pptp"), (lit_flat _ "snp") by reflexivity.
  change (RCat (RSet (mkSet false false [CDigit])) (RStar true (RSet (mkSet false false [CDigit])))) with r_digits. unfold lits, numbers. cbn [existsb map fst]. rewrite !orb_true_iff. intuition congruence.
Qed.
Lemma w_level w : whole r_level w = true <-> one_of levels w.
Proof.
  unfold r_level. rewrite !whole_alt.
  rewrite (lit_flat _ "alerts"), (lit_flat _ "critical"), (lit_flat _ "debugging"), (lit_flat _ "emergencies"), (lit_flat _ "errors"), (lit_flat _ "informational"), (lit_flat _ "notifications"), (lit_flat _ "warnings") by reflexivity.
  rewrite <- lits_iff. assert (D : whole (RSet (mkSet false false [CRange "0" "7"])) w = lits ["0"; "1"; "2"; "3"; "4"; "5"; "6"; "7"]%string w).
  { destruct w as [|x [|y w]]; [reflexivity| |unfold whole; cbn [mat]; destruct (in_set _ x); cbn [ends]; unfold lits; cbn; rewrite !andb_false_r; reflexivity]. revert x. intros x. destruct x as [b0 b1 b2 b3 b4 b5 b6 b7]. destruct b0, b1, b2, b3, b4, b5, b6, b7; reflexivity. }
  rewrite D. unfold lits, levels. cbn [existsb]. rewrite !orb_true_iff. intuition congruence.
Qed.
