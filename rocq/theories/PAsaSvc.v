(** C71: an ASA service group stands for the ports its lines name. *)
From Coq Require Import Ascii String Arith NArith ZArith Bool List Lia Sorted.
From Verif Require Import PyStr PyStrFacts PyBase CfgModel SearchModel IntfSpec IosSpec RangeSpec RangeFacts PyRe PyReFacts PyReTmpl PyReSent PyReLazy PyReGets IosModel RouteModel L4Model L4Spec PL4 AsaModel AsaSvcSpec PAsa PDiff2.
Import ListNotations.
Local Open Scope char_scope.

(** ** The pattern of the lines *)

Definition wd (s : string) : list re := map chr (lit s).
Definition tcp_udp : re := RAlt (row (wd "tcp")) (RAlt (row (wd "udp")) (row (wd "tcp-udp"))).
Definition srv_tail : list re := [rplus true (RSet sp); RGrp 3 (rplus true (RSet ns)); rplus true (RSet sp); RGrp 4 (rplus true (RSet ns))].
Definition srv : re := RGrp 1 (row (RBol :: RStar true (RSet sp) :: wd "service-object" ++ rplus true (RSet sp) :: RGrp 2 tcp_udp :: srv_tail)).
Definition eq_range : re := RAlt (row (wd "eq")) (row (wd "range")).
Definition prt_tail : list re := [rplus true (RSet sp); RGrp 7 (row [RSet ns; rplus true (RSet dot)])].
Definition prt : re := RGrp 5 (row (RBol :: RStar true (RSet sp) :: wd "port-object" ++ rplus true (RSet sp) :: RGrp 6 eq_range :: prt_tail)).
Definition grp : re := RGrp 8 (row (RBol :: RStar true (RSet sp) :: wd "group-object" ++ [rplus true (RSet sp); RGrp 9 (rplus true (RSet ns))])).
Lemma port_reads : option_map (fun x => (fst x, fst (snd x))) (compile false portobject) = Some (RAlt srv (RAlt prt grp), 9).
Proof. vm_compute. reflexivity. Qed.
Lemma port_names m : named portobject (lit "protocol") m = nth 1 (m_groups m) None /\ named portobject (lit "s_port") m = nth 3 (m_groups m) None /\
  named portobject (lit "operator") m = nth 5 (m_groups m) None /\ named portobject (lit "p_port") m = nth 6 (m_groups m) None /\ named portobject (lit "groupobject") m = nth 8 (m_groups m) None.
Proof. repeat split; reflexivity. Qed.

Lemma gets_row a l i s c i1 s1 c1 i2 s2 c2 : gets a i s c i1 s1 c1 -> gets (row l) i1 s1 c1 i2 s2 c2 -> gets (row (a :: l)) i s c i2 s2 c2.
Proof. intros A0 B0 R k x K. rewrite row_cons. apply A0. now apply B0. Qed.
Lemma gets_word w l i s c i2 s2 c2 : gets (row l) (i + length w) s c i2 s2 c2 -> gets (row (map chr w ++ l)) i (w ++ s) c i2 s2 c2.
Proof.
  revert i. induction w as [|x w IH]; intros i B0; cbn [map app length] in *.
  - now rewrite Nat.add_0_r in B0.
  - eapply gets_row; [apply gets_set; now apply in_chr|]. apply IH. now rewrite Nat.add_succ_comm.
Qed.
Lemma gets_bol s c : gets RBol 0 s c 0 s c.
Proof. intros R k x K. exact K. Qed.
Lemma gets_all n a i w c i' c' : i' = i + length w -> gets a i w c i' [] c' -> gets (RGrp n a) i w c i' [] ((n, w) :: c').
Proof. intros E G0. pose proof (gets_grp n a i w [] c i' c' E) as K. rewrite app_nil_r in K. exact (K G0). Qed.
(** A group of alternatives, the first of which leads nowhere *)
Lemma gets_other n a b l i s c i' s' c' : (forall i' s' c', ~ M (row (RGrp n a :: l)) i s c i' s' c') -> gets (row (RGrp n b :: l)) i s c i' s' c' -> gets (row (RGrp n (RAlt a b) :: l)) i s c i' s' c'.
Proof.
  intros N0 G0 R k x K. specialize (G0 R k x K). rewrite row_cons, mat_grp in *. rewrite mat_alt. pose proof (mat_none _ _ _ _ k N0) as E. rewrite row_cons, mat_grp in E. now rewrite E.
Qed.
Lemma gets_this n a b l i s c i' s' c' : gets (row (RGrp n a :: l)) i s c i' s' c' -> gets (row (RGrp n (RAlt a b) :: l)) i s c i' s' c'.
Proof. intros G0 R k x K. specialize (G0 R k x K). rewrite row_cons, mat_grp in *. now rewrite mat_alt, G0. Qed.
Lemma M_row a l i s c i' s' c' : M (row (a :: l)) i s c i' s' c' -> exists i1 s1 c1, M a i s c i1 s1 c1 /\ M (row l) i1 s1 c1 i' s' c'.
Proof.
  destruct l as [|b l]; cbn [row]; intros HM.
  - exists i', s', c'. split; [exact HM|constructor].
  - now apply M_cat_iff in HM.
Qed.
Lemma M_word w l : forall i s c i' s' c', M (row (map chr w ++ l)) i s c i' s' c' -> exists s1, s = w ++ s1 /\ M (row l) (i + length w) s1 c i' s' c'.
Proof.
  induction w as [|x w IH]; intros i s c i' s' c' HM; cbn [map app length] in *.
  - exists s. split; [reflexivity|now rewrite Nat.add_0_r].
  - apply M_row in HM as (i1 & s1 & c1 & HX & HM). apply M_chr_iff in HX as (-> & -> & ->). apply IH in HM as (s2 & -> & HM). exists s2. split; [reflexivity|]. now rewrite <- Nat.add_succ_comm.
Qed.

(** The line begins with the word [w]. *)
Definition begins (w t : str) : Prop := exists a x b, t = a ++ w ++ x :: b /\ white a /\ is_space x = true.
Lemma begins_words w t : word w -> begins w t -> exists r, words t = w :: r.
Proof.
  intros Ww (a & x & b & -> & Wa & X0). apply (leads_words [w]); [constructor; [exact Ww|constructor]|]. exists a, w, (x :: b).
  split; [reflexivity|]. split; [exact Wa|]. split; [apply ph_one|]. unfold word_ends, no_more. now rewrite X0.
Qed.
Lemma begins_one v w t : word v -> word w -> begins v t -> begins w t -> v = w.
Proof. intros Wv Ww Bv Bw. apply begins_words in Bv as (r & E); [|exact Wv]. apply begins_words in Bw as (r' & E'); [|exact Ww]. rewrite E in E'. now injection E'. Qed.
Lemma M_begins n w l i t c i' s' c' : M (RGrp n (row (RBol :: RStar true (RSet sp) :: map chr w ++ rplus true (RSet sp) :: l))) i t c i' s' c' -> i = 0 /\ begins w t.
Proof.
  intros HM. apply M_grp_iff in HM as (v & c2 & _ & _ & _ & HM). apply M_row in HM as (i1 & s1 & c1 & HB & HM). apply M_bol_iff in HB as (-> & -> & -> & ->). split; [reflexivity|].
  apply M_row in HM as (i2 & s2 & c3 & HB & HM). apply M_star_iff in HB as (a & -> & Wa & _). apply M_word in HM as (s3 & -> & HM). apply M_row in HM as (i4 & s4 & c4 & HB & _).
  apply M_plus_iff in HB as (g & -> & NE & Wg & _). destruct g as [|x g]; [congruence|]. exists a, x, (g ++ s4). repeat split; [now apply all_sp|]. inversion Wg as [|? ? X0 _]. now rewrite in_sp in X0.
Qed.
Lemma gap_head g s : gap g -> PyReTmpl.stops ns (g ++ s).
Proof. intros [Wg NE]. destruct g as [|x g]; [congruence|]. unfold white in Wg. cbn [forallb] in Wg. apply andb_true_iff in Wg as [X0 _]. unfold PyReTmpl.stops. cbn [app]. now rewrite in_ns, X0. Qed.
Lemma sp_stops s : match s with [] => True | x :: _ => is_space x = false end -> PyReTmpl.stops sp s.
Proof. unfold PyReTmpl.stops. destruct s as [|x s]; [auto|]. now rewrite in_sp. Qed.
Lemma gets_lead n w g l a s i' s' c' v : white a -> gap g -> nonwhite_head w = true -> match s with [] => True | x :: _ => is_space x = false end ->
  a ++ w ++ g ++ s = v ++ s' -> i' = length v -> gets (row l) (length a + length w + length g) s [] i' s' c' ->
  gets (RGrp n (row (RBol :: RStar true (RSet sp) :: map chr w ++ rplus true (RSet sp) :: l))) 0 (a ++ w ++ g ++ s) [] i' s' ((n, v) :: c').
Proof.
  intros Wa [Wg NG] Hw Hs E -> G0. rewrite E. apply gets_grp; [reflexivity|]. rewrite <- E. eapply gets_row; [apply gets_bol|]. eapply gets_row; [apply (gets_star sp 0 a); [now apply all_sp|]|].
  - destruct w as [|x w]; [discriminate|]. apply sp_stops. cbn. cbn in Hw. now apply negb_true_iff in Hw.
  - apply gets_word. eapply gets_row; [apply gets_plus; [exact NG|now apply all_sp|now apply sp_stops]|]. exact G0.
Qed.
Lemma alt_found r t i s c : option_map (fun x => (fst x, fst (snd x))) (compile false portobject) = Some (r, 9) -> gets r 0 t [] i s c ->
  exists u, rx_find (pattern false portobject) t = Some (mkMatch u (map (fun j => cap j c) (seq 1 9))).
Proof.
  intros HR G0. apply gets_match in G0. unfold pattern. cbn [rx_find]. destruct (compile false portobject) as [[r' e]|]; [|discriminate]. cbn [option_map fst snd] in HR. injection HR as -> HR.
  eexists. unfold search. destruct t; cbn [search_from]; rewrite G0, HR; reflexivity.
Qed.
Lemma alt_none r t : option_map (fun x => (fst x, fst (snd x))) (compile false portobject) = Some (r, 9) -> (forall u v i s c, t = u ++ v -> ~ M r (length u) v [] i s c) ->
  rx_find (pattern false portobject) t = None.
Proof.
  intros HR N0. unfold pattern. cbn [rx_find]. destruct (compile false portobject) as [[r' e]|]; [|discriminate]. cbn [option_map fst snd] in HR. injection HR as -> HR.
  destruct (search r t) as [[m c]|] eqn:E; [|reflexivity]. exfalso. apply search_some in E as (u & v & i & s & -> & HM & _). exact (N0 u v _ _ _ eq_refl HM).
Qed.
Lemma w_service : word (lit "service-object"). Proof. split; [discriminate|reflexivity]. Qed.
Lemma w_port : word (lit "port-object"). Proof. split; [discriminate|reflexivity]. Qed.
Lemma w_group : word (lit "group-object"). Proof. split; [discriminate|reflexivity]. Qed.
Lemma w_desc : word (lit "description"). Proof. split; [discriminate|reflexivity]. Qed.
Lemma gap_begins a w g s : white a -> gap g -> begins w (a ++ w ++ g ++ s).
Proof. intros Wa [Wg NG]. destruct g as [|x g]; [congruence|]. exists a, x, (g ++ s). repeat split; [exact Wa|]. unfold white in Wg. cbn [forallb] in Wg. now apply andb_true_iff in Wg as [X0 _]. Qed.

(** A line of ports *)
Definition operator (op : str) : Prop := op = lit "eq" \/ op = lit "range".
Lemma port_found a g1 op g2 x r : white a -> gap g1 -> operator op -> gap g2 -> is_space x = false -> r <> [] -> ~ In "010" r ->
  exists u, rx_find (pattern false portobject) (a ++ lit "port-object" ++ g1 ++ op ++ g2 ++ x :: r) =
    Some (mkMatch u [None; None; None; None; Some (a ++ lit "port-object" ++ g1 ++ op ++ g2 ++ x :: r); Some op; Some (x :: r); None; None]).
Proof.
  intros Wa Gg1 O Gg2 X0 NR NL. set (t := a ++ lit "port-object" ++ g1 ++ op ++ g2 ++ x :: r).
  destruct (alt_found _ t (length t) [] [(5, t); (7, x :: r); (6, op)] port_reads) as (u & E); [|exists u; exact E].
  apply gets_right.
  { intros i' s' c' HM. apply M_begins in HM as [_ B0]. pose proof (begins_one _ _ _ w_service w_port B0 (gap_begins a (lit "port-object") g1 (op ++ g2 ++ x :: r) Wa Gg1)) as K. discriminate K. }
  apply gets_left. unfold prt. unfold wd. unfold t at 1. apply gets_lead; [exact Wa|exact Gg1|reflexivity|destruct O as [-> | ->]; reflexivity|now rewrite app_nil_r|reflexivity|].
  assert (Tl : forall i, gets (row prt_tail) i (g2 ++ x :: r) [(6, op)] (i + length (g2 ++ x :: r)) [] [(7, x :: r); (6, op)]).
  { intros i. unfold prt_tail. eapply gets_row; [apply gets_plus; [apply Gg2|apply all_sp, Gg2|now apply sp_stops]|]. cbn [row].
    apply gets_all; [rewrite app_length; cbn [length]; lia|]. eapply gets_cat; [apply gets_set; now rewrite in_ns, X0|].
    replace (i + length (g2 ++ x :: r)) with (S (i + length g2) + length r) by (rewrite app_length; cbn; lia). pose proof (gets_plus dot (S (i + length g2)) r [] [(6, op)] NR) as G0. rewrite app_nil_r in G0. apply G0; [|exact I].
    apply Forall_forall. intros z Hz. unfold in_set. cbn [cs_neg cs_icase cs_items existsb cls_has dot]. destruct (Ascii.eqb_spec z "010") as [->|NE]; [contradiction|].
    rewrite orb_false_r. apply negb_true_iff. destruct ((code "010" <=? code z)%N && (code z <=? code "010")%N) eqn:K; [|reflexivity]. exfalso. apply NE.
    apply in_chr. unfold in_set. cbn [cs_neg cs_icase cs_items existsb cls_has]. now rewrite K. }
  assert (Op : gets (row (RGrp 6 (row (map chr op)) :: prt_tail)) (length a + length (lit "port-object") + length g1) (op ++ g2 ++ x :: r) [] (length t) [] [(7, x :: r); (6, op)]).
  { eapply gets_row.
    - apply gets_grp; [reflexivity|]. pose proof (gets_word op [] (length a + length (lit "port-object") + length g1) (g2 ++ x :: r) [] _ _ _ (gets_eps _ _ _)) as G0. rewrite app_nil_r in G0. exact G0.
    - replace (length t) with (length a + length (lit "port-object") + length g1 + length op + length (g2 ++ x :: r)); [apply Tl|]. unfold t. rewrite !app_length. lia. }
  unfold eq_range. destruct O as [-> | ->].
  - apply gets_this. exact Op.
  - apply gets_other; [|exact Op]. intros i' s' c' HM. apply M_row in HM as (i1 & s1 & c1 & HM & _). apply M_grp_iff in HM as (v & c2 & E & _ & _ & HM). rewrite <- (app_nil_r (wd "eq")) in HM. apply M_word in HM as (s2 & E2 & _).
    apply (f_equal (fun s => nth 0 s "000")) in E2. discriminate E2.
Qed.

(** A line of a service *)
Lemma service_found a g1 pr g2 d g3 w e prs : white a -> gap g1 -> transports pr prs -> gap g2 -> word d -> gap g3 -> word w -> word_ends e ->
  exists u v, rx_find (pattern false portobject) (a ++ lit "service-object" ++ g1 ++ pr ++ g2 ++ d ++ g3 ++ w ++ e) =
    Some (mkMatch u [Some v; Some pr; Some d; Some w; None; None; None; None; None]).
Proof.
  intros Wa Gg1 T0 Gg2 Wd Gg3 Ww We. set (v := a ++ lit "service-object" ++ g1 ++ pr ++ g2 ++ d ++ g3 ++ w). set (t := a ++ lit "service-object" ++ g1 ++ pr ++ g2 ++ d ++ g3 ++ w ++ e).
  destruct (alt_found _ t (length v) e [(1, v); (4, w); (3, d); (2, pr)] port_reads) as (u & E); [|exists u, v; exact E].
  apply gets_left. unfold srv, wd. unfold t at 1. apply gets_lead; [exact Wa|exact Gg1|reflexivity|destruct T0; reflexivity|unfold v; now rewrite <- !app_assoc|reflexivity|].
  assert (Hd : forall x s, word x -> match x ++ s with [] => True | y :: _ => is_space y = false end).
  { intros [|y x] s [NE K]; [congruence|]. cbn [forallb app] in *. apply andb_true_iff in K as [K _]. now apply negb_true_iff in K. }
  assert (We' : PyReTmpl.stops ns e). { destruct e as [|y e]; [exact I|]. unfold PyReTmpl.stops. rewrite in_ns. exact We. }
  assert (Tl : forall i, gets (row srv_tail) i (g2 ++ d ++ g3 ++ w ++ e) [(2, pr)] (i + length (g2 ++ d ++ g3 ++ w)) e [(4, w); (3, d); (2, pr)]).
  { intros i. unfold srv_tail. eapply gets_row; [apply gets_plus; [apply Gg2|apply all_sp, Gg2|now apply sp_stops, Hd]|].
    eapply gets_row; [apply gets_grp; [reflexivity|]; apply gets_plus; [apply Wd|apply all_ns, Wd|now apply gap_head]|].
    eapply gets_row; [apply gets_plus; [apply Gg3|apply all_sp, Gg3|now apply sp_stops, Hd]|]. cbn [row].
    apply gets_grp; [rewrite !app_length; lia|]. replace (i + length (g2 ++ d ++ g3 ++ w)) with (i + length g2 + length d + length g3 + length w) by (rewrite !app_length; lia).
    apply gets_plus; [apply Ww|apply all_ns, Ww|exact We']. }
  assert (Op : gets (row (RGrp 2 (row (map chr pr)) :: srv_tail)) (length a + length (lit "service-object") + length g1) (pr ++ g2 ++ d ++ g3 ++ w ++ e) [] (length v) e [(4, w); (3, d); (2, pr)]).
  { eapply gets_row.
    - apply gets_grp; [reflexivity|]. pose proof (gets_word pr [] (length a + length (lit "service-object") + length g1) (g2 ++ d ++ g3 ++ w ++ e) [] _ _ _ (gets_eps _ _ _)) as G0. rewrite app_nil_r in G0. exact G0.
    - replace (length v) with (length a + length (lit "service-object") + length g1 + length pr + length (g2 ++ d ++ g3 ++ w)); [apply Tl|]. unfold v. rewrite !app_length. lia. }
  assert (No : forall q s i i' s' c', M (row (RGrp 2 (row (wd q)) :: srv_tail)) i s [] i' s' c' -> exists y r, s = lit q ++ y :: r /\ is_space y = true).
  { intros q s i i' s' c' HM. apply M_row in HM as (i1 & s1 & c1 & HM & HM2). apply M_grp_iff in HM as (z & c2 & E & _ & _ & HM). rewrite <- (app_nil_r (wd q)) in HM. apply M_word in HM as (s2 & E2 & HM). inversion HM; subst.
    apply M_row in HM2 as (i3 & s3 & c3 & HM2 & _). apply M_plus_iff in HM2 as (g & -> & NE & Wg & _). destruct g as [|y g]; [congruence|]. inversion Wg as [|? ? Y _]. rewrite in_sp in Y.
    exists y, (g ++ s3). auto. }
  unfold tcp_udp. destruct T0.
  - apply gets_this. exact Op.
  - apply gets_other; [|apply gets_this; exact Op]. intros i' s' c' HM. apply No in HM as (y & r & E & _). apply (f_equal (fun s => nth 0 s "000")) in E. discriminate E.
  - apply gets_other; [|apply gets_other; [|exact Op]]; intros i' s' c' HM; apply No in HM as (y & r & E & Y).
    + apply (f_equal (fun s => nth 3 s "000")) in E. cbn in E. subst y. discriminate Y.
    + apply (f_equal (fun s => nth 0 s "000")) in E. discriminate E.
Qed.
Lemma remark_none t : described t -> rx_find (pattern false portobject) t = None.
Proof.
  intros (i & r & -> & Wi). apply (alt_none _ _ port_reads). intros u v i1 s c E HM.
  assert (K : forall w, word w -> w <> lit "description" -> length u = 0 -> begins w v -> False).
  { intros w Ww NE L0 B0. destruct u; [|discriminate]. cbn [app] in E. subst v. apply NE, (begins_one _ _ _ Ww w_desc B0). exists i, " ", r. repeat split. exact Wi. }
  apply M_alt_iff in HM as [HM|HM]; [|apply M_alt_iff in HM as [HM|HM]]; apply M_begins in HM as [L0 B0]; eapply K; try exact B0; try exact L0; try exact w_service; try exact w_port; try exact w_group; discriminate.
Qed.

(** ** The objects of a line *)
Lemma l4_ext o p l : l4_protocol o = p -> l4_ports o = l -> o = {| l4_protocol := p; l4_ports := l |}.
Proof. now destruct o; cbn; intros -> ->. Qed.
Lemma token_space w : forallb token_char w = true -> forallb (fun c => negb (is_space c)) w = true. Proof. auto. Qed.
Lemma text_object pr op rest names o : protocol_names pr names -> l4_protocol o = pr -> port_text op rest names (l4_ports o) -> l4_object pr (op ++ " " :: rest) (lit "asa") = Ok o.
Proof.
  intros P E [(-> & L2 & p & Np & Rp & El)|(-> & v & g & w & a & b & -> & Bg & NG & _ & Nv & Nw & AB & Sl & Il)].
  - rewrite (l4_ext o pr [p] E El). destruct (C38_eq pr names [] [] rest [] p P eq_refl eq_refl eq_refl Np) as [K _]. cbn [app] in K. rewrite app_nil_r in K. exact (K Rp).
  - destruct (C38_range pr names [] [] v g w [] a b P eq_refl eq_refl Bg NG eq_refl Nv Nw) as [K _]. cbn [app] in K. rewrite app_nil_r in K. destruct (K AB) as (l & E1 & Sl' & Il'). 
    rewrite (l4_ext o pr l E); [exact E1|]. apply ascending_unique; [exact Sl|exact Sl'|]. intros x. now rewrite Il, Il'.
Qed.
Lemma line_object pr t o : port_line pr t o -> exists m op rest, rx_find (pattern false portobject) t = Some m /\ op <> [] /\
  sentry (Some m) "protocol" = [] /\ sentry (Some m) "operator" = op /\ sentry (Some m) "p_port" = rest /\ l4_object pr (op ++ " " :: rest) (lit "asa") = Ok o.
Proof.
  intros (i & g1 & op & g2 & rest & names & -> & Wi & G1 & G2 & P & E & PT).
  assert (K : operator op /\ exists x r, rest = x :: r /\ is_space x = false /\ r <> [] /\ ~ In "010" r).
  { destruct PT as [(-> & L2 & p & Np & Rp & El)|(-> & v & g & w & a & b & -> & Bg & NG & NL & Nv & Nw & AB & Sl & Il)].
    - split; [now left|]. destruct (named_token pr names rest p P Np) as [_ T0]. destruct rest as [|x r]; [cbn in L2; lia|]. exists x, r. cbn [forallb] in T0. apply andb_true_iff in T0 as [X0 T0]. unfold token_char in X0. apply negb_true_iff in X0.
      repeat split; [exact X0|intros ->; cbn in L2; lia|]. intros I0. rewrite forallb_forall in T0. apply T0 in I0. discriminate I0.
    - split; [now right|]. destruct (named_token pr names v a P Nv) as [V1 V2]. destruct (named_token pr names w b P Nw) as [W1 W2]. destruct v as [|x r]; [congruence|]. cbn [forallb] in V2. apply andb_true_iff in V2 as [X0 V2]. unfold token_char in X0. apply negb_true_iff in X0.
      exists x, (r ++ g ++ w). repeat split; [exact X0| |].
      + destruct r; [|discriminate]. destruct g; [congruence|discriminate].
      + rewrite !in_app_iff. intros [I0|[I0|I0]]; [rewrite forallb_forall in V2; apply V2 in I0; discriminate I0|exact (NL I0)|rewrite forallb_forall in W2; apply W2 in I0; discriminate I0]. }
  destruct K as (O & x & r & -> & X0 & NR & NL). destruct (port_found i g1 op g2 x r Wi G1 O G2 X0 NR NL) as (u & F). eexists _, op, (x :: r). split; [exact F|]. split; [destruct O as [-> | ->]; discriminate|].
  unfold sentry. cbv beta iota. match goal with |- context [named portobject _ ?m] => destruct (port_names m) as (-> & _ & -> & -> & _) end.
  repeat split. exact (text_object _ _ _ _ _ P E PT).
Qed.
Lemma F2_one {A B} (P : A -> B -> Prop) a l : Forall2 P [a] l -> exists o, l = [o] /\ P a o.
Proof. intros F. inversion F as [|? o ? r Po F1]; subst. inversion F1; subst. eauto. Qed.
Lemma F2_two {A B} (P : A -> B -> Prop) a b l : Forall2 P [a; b] l -> exists o o', l = [o; o'] /\ P a o /\ P b o'.
Proof. intros F. inversion F as [|? o ? r Po F1]; subst. apply F2_one in F1 as (o' & -> & Po'). eauto. Qed.
Lemma child_ports proto prs t os : transports proto prs -> Forall2 (fun pr o => port_line pr t o) prs os -> svcgroup_child proto t = Ok os.
Proof.
  intros T0 F. assert (K : forall pr o m op rest, rx_find (pattern false portobject) t = Some m -> sentry (Some m) "operator" = op -> sentry (Some m) "p_port" = rest -> port_line pr t o -> l4_object pr (op ++ " " :: rest) (lit "asa") = Ok o).
  { intros pr o m op rest E E1 E2 PL. apply line_object in PL as (m' & op' & rest' & E' & _ & _ & E1' & E2' & R). rewrite E in E'. injection E' as <-. now rewrite <- E1, <- E2, E1', E2'. }
  assert (G0 : forall pr o, port_line pr t o -> exists m op rest, svcgroup_child proto t = svc_objects proto (op ++ " " :: rest) /\ rx_find (pattern false portobject) t = Some m /\ sentry (Some m) "operator" = op /\ sentry (Some m) "p_port" = rest).
  { intros pr o PL. destruct (line_object _ _ _ PL) as (m & op & rest & E & NE & E0 & E1 & E2 & R). exists m, op, rest. split; [|auto]. unfold svcgroup_child. cbv zeta. rewrite E, E0, E1, E2. now destruct op. }
  destruct T0.
  - apply F2_one in F as (o & -> & PL). destruct (G0 _ _ PL) as (m & op & rest & -> & E & E1 & E2). unfold svc_objects. change (str_eqb (lit "tcp") (lit "tcp-udp")) with false. cbv iota. now rewrite (K _ _ _ _ _ E E1 E2 PL).
  - apply F2_one in F as (o & -> & PL). destruct (G0 _ _ PL) as (m & op & rest & -> & E & E1 & E2). unfold svc_objects. change (str_eqb (lit "udp") (lit "tcp-udp")) with false. cbv iota. now rewrite (K _ _ _ _ _ E E1 E2 PL).
  - apply F2_two in F as (o & o2 & -> & PL & PL2). destruct (G0 _ _ PL) as (m & op & rest & -> & E & E1 & E2). unfold svc_objects. change (str_eqb (lit "tcp-udp") (lit "tcp-udp")) with true. cbv iota. now rewrite (K _ _ _ _ _ E E1 E2 PL), (K _ _ _ _ _ E E1 E2 PL2).
Qed.
Lemma child_service proto prs t os : service_line prs t os -> svcgroup_child proto t = Ok os.
Proof.
  intros (i & p & g1 & pr & g2 & d & g3 & w & e & -> & -> & Wi & G1 & G2 & G3 & Wd & We & T0 & F).
  assert (Ww : word w). { assert (exists q o, l4_protocol o = q /\ exists names z, protocol_names q names /\ names_port names w z /\ (1 <= z <= 65535)%Z /\ l4_ports o = [z]) as (q & o & _ & nm & z & P & Nz & _); [|exact (named_token _ _ _ _ P Nz)]. destruct T0; [apply F2_one in F as (o & _ & Ho)|apply F2_one in F as (o & _ & Ho)|apply F2_two in F as (o & _ & _ & Ho & _)]; eauto. }
  assert (K : forall q o, (l4_protocol o = q /\ exists names z, protocol_names q names /\ names_port names w z /\ (1 <= z <= 65535)%Z /\ l4_ports o = [z]) -> l4_object q w (lit "asa") = Ok o).
  { intros q o (Eq & nm & z & P & Nz & Rz & El). rewrite (l4_ext o q [z] Eq El). destruct (C38_plain q nm [] w [] z P eq_refl eq_refl Nz) as [K _]. cbn [app] in K. rewrite app_nil_r in K. exact (K Rz). }
  destruct (service_found i g1 pr g2 d g3 w e prs Wi G1 T0 G2 Wd G3 Ww We) as (u & v & E). unfold svcgroup_child. cbv zeta. rewrite E. unfold sentry. cbv beta iota.
  match goal with |- context [named portobject _ ?m] => destruct (port_names m) as (-> & -> & _) end. cbn [m_groups nth or_empty].
  destruct T0; unfold svc_objects.
  - change (truth (lit "tcp")) with true. change (str_eqb (lit "tcp") (lit "tcp-udp")) with false. cbv iota. apply F2_one in F as (o & -> & Ho). now rewrite (K _ _ Ho).
  - change (truth (lit "udp")) with true. change (str_eqb (lit "udp") (lit "tcp-udp")) with false. cbv iota. apply F2_one in F as (o & -> & Ho). now rewrite (K _ _ Ho).
  - change (truth (lit "tcp-udp")) with true. change (str_eqb (lit "tcp-udp") (lit "tcp-udp")) with true. cbv iota. apply F2_two in F as (o & o2 & -> & Ho & Ho2). now rewrite (K _ _ Ho), (K _ _ Ho2).
Qed.
Lemma child_remark proto t : described t -> svcgroup_child proto t = Ok [].
Proof.
  intros D0. unfold svcgroup_child. cbv zeta. rewrite (remark_none _ D0). destruct D0 as (i & r & -> & _). cbn [sentry truth].
  assert (C0 : contains (lit "description ") (i ++ lit "description " ++ r) = true) by (apply PDiff2.contains_iff; eauto). now rewrite C0.
Qed.
Lemma children_services proto prs kids l : transports proto prs -> services prs kids l -> svcgroup_children proto kids = Ok l.
Proof.
  intros T0. induction 1 as [|t r os l F _ IH|t r ps os l F _ IH|t r l F _ IH]; cbn [svcgroup_children]; [reflexivity| | |].
  - rewrite (child_ports proto prs t os T0 F). cbn [bind]. now rewrite IH.
  - rewrite (child_service proto ps t os F). cbn [bind]. now rewrite IH.
  - rewrite (child_remark proto t F). cbn [bind]. now rewrite IH.
Qed.

(** ** The line of the group *)
Lemma head_reads : reads (lit "^object-group\s+service\s+\S+(\s+.+)*$") [Lit (lit "object-group"); Run sp true; Lit (lit "service"); Run sp true; Run ns true; Many 1 [Run sp true; Run dot true]; End] 1.
Proof. reflexivity. Qed.
Lemma head_protocol w x p prs : service_head (text_of w x) p -> transports p prs -> is_svcgroup (text_of w x) = true /\ svc_protocol w x = Ok p.
Proof.
  intros (g1 & name & g2 & E & W1 & Wn & G2) T0. split.
  - unfold is_svcgroup. rewrite E. apply PDiff2.contains_iff. exists [], []. reflexivity.
  - assert (Tp : p <> [] /\ (match p with [] => True | y :: _ => is_space y = false end) /\ all_in dot p /\ strip (g2 ++ p) = p).
    { assert (Sp : forall q, forallb (fun c => negb (is_space c)) q = true -> q <> [] -> strip (g2 ++ q) = q).
      { intros q Hq NQ. pose proof (strip_one g2 q [] (proj1 G2) eq_refl NQ Hq) as K. now rewrite app_nil_r in K. }
      destruct T0; (split; [discriminate|]; split; [reflexivity|]; split; [repeat constructor|apply Sp; [reflexivity|discriminate]]). }
    destruct Tp as (NP & Hp & Dp & Sp). unfold svc_protocol, group_text, line_re_match_typed.
    destruct (reads_some _ _ 1 (text_of w x) [] [(1, g2 ++ p)] head_reads) as (u & EM).
    { rewrite E. change (lit "object-group service " ++ g1 ++ name ++ g2 ++ p) with (lit "object-group" ++ [" "] ++ lit "service" ++ (" " :: g1) ++ name ++ g2 ++ p).
      apply D_lit. apply D_run; [repeat constructor|discriminate|reflexivity|]. apply D_lit. apply D_run; [apply all_sp; exact W1|discriminate| |].
      - intros _. apply sp_stops. destruct Wn as [NE K]. destruct name as [|y name]; [congruence|]. cbn [forallb app] in *. apply andb_true_iff in K as [K _]. now apply negb_true_iff in K.
      - apply D_run; [apply all_ns, Wn|intros _; apply Wn|intros _; now apply gap_head|]. rewrite <- (app_nil_r (g2 ++ p)). eapply D_more with (c1 := []).
        + intros K. apply app_eq_nil in K as [_ K]. contradiction.
        + rewrite app_nil_r. apply D_run; [apply all_sp, G2|intros _; apply G2|intros _; now apply sp_stops|]. rewrite <- (app_nil_r p). apply D_run; [exact Dp|auto|intros _; exact I|]. constructor.
        + rewrite app_nil_r. apply D_stop; [|apply D_end; [now left|constructor]]. intros _ i c1 i' s' c' HM. apply M_cat_iff in HM as (i1 & s1 & c2 & HM & _). apply M_plus_iff in HM as (v & Ev & NV & _). destruct v; [congruence|discriminate Ev]. }
    rewrite EM. unfold group. cbn [m_groups seq map cap Nat.eqb nth_error bind to_str]. now rewrite Sp.
Qed.

(** Every service group whose lines are lines of ports, services or remarks stands for the ports
    these lines name, for each of its protocols, line by line. *)
Theorem C71_services : forall w x p prs l, service_head (text_of w x) p -> transports p prs ->
  services prs (map (text_of w) (children_of w x)) l -> ports w x = Ok l.
Proof.
  intros w x p prs l HH T0 SL. destruct (head_protocol w x p prs HH T0) as [Ec Ep]. unfold ports. rewrite Ec. cbn [negb]. rewrite Ep. cbn [bind]. now apply (children_services p prs).
Qed.
Print Assumptions C71_services.
Example services_ex : let w := asa_w ["object-group service WEB tcp-udp"; " description x"; " port-object eq www"; " port-object range 20 21"; " service-object tcp destination https"]%string in
  exists l, services [lit "tcp"; lit "udp"] (map (text_of w) (children_of w 0)) l /\ service_head (text_of w 0) (lit "tcp-udp") /\
    map l4_ports l = [[80]; [80]; [20; 21]; [20; 21]; [443]]%Z.
Proof.
  eexists. split; [|split].
  - change (map _ _) with [lit " description x"; lit " port-object eq www"; lit " port-object range 20 21"; lit " service-object tcp destination https"].
    apply se_remark; [exists [" "], (lit "x"); split; reflexivity|].
    eapply se_port with (os := [{| l4_protocol := lit "tcp"; l4_ports := [80%Z] |}; {| l4_protocol := lit "udp"; l4_ports := [80%Z] |}]).
    { constructor; [|constructor; [|constructor]]; exists [" "], [" "], (lit "eq"), [" "], (lit "www"); eexists; (split; [reflexivity|]; split; [reflexivity|]; split; [split; [reflexivity|discriminate]|]; split; [split; [reflexivity|discriminate]|]; split; [constructor|]; split; [reflexivity|]; left; split; [reflexivity|]; split; [cbn; lia|]; exists 80%Z; split; [left; cbn; tauto|]; split; [lia|reflexivity]). }
    eapply se_port with (os := [{| l4_protocol := lit "tcp"; l4_ports := [20; 21]%Z |}; {| l4_protocol := lit "udp"; l4_ports := [20; 21]%Z |}]).
    { constructor; [|constructor; [|constructor]]; exists [" "], [" "], (lit "range"), [" "], (lit "20 21"); eexists; (split; [reflexivity|]; split; [reflexivity|]; split; [split; [reflexivity|discriminate]|]; split; [split; [reflexivity|discriminate]|]; split; [constructor|]; split; [reflexivity|]; right; split; [reflexivity|]; exists (lit "20"), [" "], (lit "21"), 20%Z, 21%Z;
        split; [reflexivity|]; split; [reflexivity|]; split; [discriminate|]; split; [cbn; intros [K|[]]; discriminate K|]; split; [right; reflexivity|]; split; [right; reflexivity|]; split; [lia|]; split; [repeat constructor; lia|]; intros z; cbn; lia). }
    eapply (se_service _ _ _ [lit "tcp"] [{| l4_protocol := lit "tcp"; l4_ports := [443%Z] |}] []); [|constructor].
    exists [" "], (lit "service-object"), [" "], (lit "tcp"), [" "], (lit "destination"), [" "], (lit "https"), []. repeat split; try discriminate; [constructor|].
    constructor; [|constructor]. split; [reflexivity|]. exists asa_tcp_ports, 443%Z. split; [constructor|]. split; [left; cbn; tauto|]. split; [lia|reflexivity].
  - exists [], (lit "WEB"), [" "]. repeat split; discriminate.
  - reflexivity.
Qed.
