(** C75: IPv6 addresses and secondary addresses of an interface, and its switchport flags. *)
From Coq Require Import Ascii String Arith NArith ZArith Bool List Lia.
From Verif Require Import PyStr PyStrFacts PyBase PyBaseFacts SearchModel SearchProofs IntfSpec IpModel IpSpec IpFacts PIpText IosModel IosSpec IosFacts PIos FactoryFacts PyRe PyReFacts PyReTmpl PyReSent PyReLazy PyReGets PyReWords TrunkModel TrunkFacts PHsrp Ip6TextModel Ip6TextSpec Ip6Facts PIp6Text PortModel PortSpec.
Import ListNotations.
Local Open Scope char_scope.
Local Open Scope Z_scope.

(** ** Lines *)
Lemma leads_line ws s t : leads ws t s <-> exists i g u, t = i ++ u ++ s /\ gap g /\ (ws = [] /\ i = g /\ u = [] \/ exists p, gap i /\ phrase ws p /\ u = p ++ g).
Proof.
  split.
  - induction 1 as [g s G0|w ws g t s G0 L0 IH]; [exists g, g, []; split; [reflexivity|]; auto|].
    destruct IH as (i & g' & u & -> & G1 & [(-> & -> & ->)|(p & Gi & Ph & ->)]).
    + exists g, g', (w ++ g'). split; [now rewrite <- !app_assoc|]. split; [exact G1|]. right. exists w. repeat split; auto; try apply G0. constructor.
    + exists g, g', ((w ++ i ++ p) ++ g'). split; [now rewrite <- !app_assoc|]. split; [exact G1|]. right. exists (w ++ i ++ p). repeat split; auto; try apply G0. now constructor.
  - intros (i & g & u & -> & G0 & [(-> & -> & ->)|(p & Gi & Ph & ->)]); [now constructor|]. revert i Gi. induction Ph as [w|w g' ws p Gg Ph IH]; intros i Gi.
    + rewrite <- app_assoc. constructor; [exact Gi|]. now constructor.
    + rewrite <- !app_assoc. constructor; [exact Gi|]. specialize (IH g' Gg). now rewrite <- app_assoc in IH.
Qed.
Lemma phrase_snoc ws w p : phrase (ws ++ [w]) p -> ws <> [] -> exists q g, phrase ws q /\ gap g /\ p = q ++ g ++ w.
Proof.
  revert p. induction ws as [|x ws IH]; intros p Ph NE; [congruence|]. cbn [app] in Ph. inversion Ph as [|? g ? p' G0 Ph']; subst.
  - destruct ws; discriminate.
  - destruct ws as [|y ws].
    + cbn [app] in Ph'. inversion Ph'; subst; [|match goal with Hp : phrase [] _ |- _ => inversion Hp end]. exists x, g. split; [constructor|]. now split.
    + destruct (IH p' Ph' ltac:(discriminate)) as (q & g' & Pq & Gq & ->). exists (x ++ g ++ q), g'. split; [now constructor|]. split; [exact Gq|]. now rewrite <- !app_assoc.
Qed.
Lemma phrase_end ws w q g : phrase ws q -> gap g -> phrase (ws ++ [w]) (q ++ g ++ w).
Proof.
  induction 1 as [x|x g' ws p Gg Ph IH]; intros G0; cbn [app].
  - constructor; [exact G0|constructor].
  - rewrite <- !app_assoc. constructor; [exact Gg|]. now apply IH.
Qed.
(** A line of words and a last word, by what leads to it *)
Lemma line_leads ws w (cut : str -> Prop) t : ws <> [] -> line_of gap cut (ws ++ [w]) t <-> exists e, cut e /\ leads ws t (w ++ e).
Proof.
  intros NE. split.
  - intros (i & p & e & -> & Gi & Ph & Ce). apply phrase_snoc in Ph as (q & g & Pq & Gg & ->); [|exact NE]. exists e. split; [exact Ce|]. apply leads_line. exists i, g, (q ++ g). split; [now rewrite <- !app_assoc|]. split; [exact Gg|]. right. now exists q.
  - intros (e & Ce & L0). apply leads_line in L0 as (i & g & u & -> & Gg & [(-> & _)|(p & Gi & Ph & ->)]); [congruence|]. exists i, (p ++ g ++ w), e. split; [now rewrite <- !app_assoc|]. split; [exact Gi|]. split; [now apply phrase_end|exact Ce].
Qed.
Definition kw6 : list str := [lit "ipv6"; lit "address"].
Lemma kw6_solid : Forall solid kw6.
Proof. constructor; [reflexivity|]. constructor; [reflexivity|constructor]. Qed.

(** ** The object *)
Definition mask6_re : re := RCat (chr "/") (RGrp 2 (rplus true (RSet dg))).
Definition obj6_re : re := lead_re kw6 (RCat (RGrp 1 (rplus false (RSet ns))) mask6_re).
Lemma obj6_reads : reads_re (lit v6obj_pattern) obj6_re 2.
Proof. reflexivity. Qed.
Definition found6 (t : str) (c : caps) : Prop := exists a m, addr6_line t a m /\ c = [(2, m); (1, a)]%nat.
Lemma M_mask6 i s c i' s' c' : M mask6_re i s c i' s' c' -> exists m, s = "/"%char :: m ++ s' /\ number_text m /\ c' = (2, m)%nat :: c.
Proof.
  intros HM. apply M_cat_iff in HM as (i1 & s1 & c1 & H1 & H2). apply M_chr_iff in H1 as (-> & -> & ->). apply M_grp_iff in H2 as (m & c2 & -> & _ & -> & H2).
  apply M_plus_iff in H2 as (m' & E & NM & F & _ & ->). apply app_inv_tail in E as <-. apply all_dg in F. exists m. repeat split; auto.
Qed.
Lemma gets_lazy1 n q rest i w s c i' s' c' : all_in q w -> w <> [] ->
  (forall u v, w = u ++ v -> u <> [] -> v <> [] -> forall c0 i0 s0 c1, ~ M rest (i + length u)%nat (v ++ s) c0 i0 s0 c1) ->
  gets rest (i + length w)%nat s ((n, w) :: c) i' s' c' -> gets (RCat (RGrp n (rplus false (RSet q))) rest) i (w ++ s) c i' s' c'.
Proof.
  intros A0 NW No G0 R k x K. rewrite mat_cat, mat_grp. unfold rplus. rewrite mat_cat. destruct w as [|y w]; [congruence|]. inversion A0 as [|? ? Y A1]; subst. cbn [app]. rewrite set_step by assumption.
  apply (lazy_first q s c _ x w (S i) A1).
  - intros u v E NV. rewrite E, <- app_assoc, app_comm_cons. replace (S i + length u - i)%nat with (i + length (y :: u) - i)%nat by (cbn [length]; lia). rewrite firstn_len. apply mat_none. intros i0 s0 c0 HM.
    replace (S i + length u)%nat with (i + length (y :: u))%nat in HM by (cbn [length]; lia). refine (No (y :: u) v _ _ NV _ _ _ _ HM); [now rewrite E|discriminate].
  - replace (S i + length w - i)%nat with (i + length (y :: w) - i)%nat by (cbn [length]; lia). rewrite app_comm_cons, firstn_len. replace (S i + length w)%nat with (i + length (y :: w))%nat by (cbn [length]; lia). now apply G0.
Qed.

(** The first slash before a digit *)
Lemma first_slash d s0 : is_digit d = true -> forall r, exists u e v, r ++ "/"%char :: d :: s0 = u ++ "/"%char :: e :: v /\ is_digit e = true /\
  (exists z, r = u ++ z) /\ (forall u1 f v1, u = u1 ++ "/"%char :: f :: v1 -> is_digit f = false).
Proof.
  intros Dd. induction r as [|y r IH].
  - exists [], d, s0. split; [reflexivity|]. split; [exact Dd|]. split; [now exists []|]. intros [|? ?] f v1 E; discriminate E.
  - destruct IH as (u & e & v & E & De & (z & Ez) & Sh). 
    destruct (Ascii.eqb y "/" && match r ++ "/"%char :: d :: s0 with x :: _ => is_digit x | [] => false end) eqn:B.
    + apply andb_true_iff in B as [B1 B2]. apply Ascii.eqb_eq in B1 as ->. cbn [app]. destruct (r ++ "/"%char :: d :: s0) as [|x l] eqn:El; [discriminate B2|].
      exists [], x, l. split; [reflexivity|]. split; [exact B2|]. split; [now eexists|]. intros [|? ?] f v1 E1; discriminate E1.
    + exists (y :: u), e, v. cbn [app]. split; [now rewrite E|]. split; [exact De|]. split; [exists z; now rewrite Ez|]. intros [|y1 u1] f v1 E1.
      * cbn [app] in E1. injection E1 as -> ->. rewrite E in B. exact B.
      * injection E1 as -> ->. now apply (Sh u1 f v1).
Qed.
Lemma digits_off s : exists m e, s = m ++ e /\ forallb is_digit m = true /\ no_more is_digit e.
Proof.
  induction s as [|x s (m & e & -> & F & NM)]; [exists [], []; repeat split|]. destruct (is_digit x) eqn:Dx.
  - exists (x :: m), e. repeat split; auto. cbn [forallb]. now rewrite Dx.
  - exists [], (x :: m ++ e). repeat split; auto.
Qed.
Lemma obj6_complete t c : found6 t c -> exists i s, gets obj6_re 0 t [] i s c.
Proof.
  intros (a & m & (Wa & [NM Fm] & Sh & Ln) & ->). change [lit "ipv6"; lit "address"; a ++ "/"%char :: m] with (kw6 ++ [a ++ "/"%char :: m]) in Ln. apply line_leads in Ln as (e & NMe & L0); [|discriminate].
  rewrite <- app_assoc in L0. cbn [app] in L0. eexists _, _. eapply gets_lead; [exact L0|exact kw6_solid| |].
  - destruct Wa as [NA Fa]. destruct a as [|x a]; [congruence|]. cbn in Fa |- *. apply andb_true_iff in Fa as [Fx _]. now apply negb_true_iff in Fx.
  - apply gets_lazy1; [apply all_ns; exact (proj2 Wa)|exact (proj1 Wa)| |].
    + intros u v E NU NV c0 i0 s0 c1 HM. apply M_mask6 in HM as (m' & E' & (NM' & Fm') & _). destruct v as [|y v]; [congruence|]. cbn [app] in E'. injection E' as -> E'.
      destruct v as [|z v].
      * cbn [app] in E'. destruct m' as [|d m']; [congruence|]. injection E' as E1 E2. subst d. cbn in Fm'. discriminate Fm'.
      * cbn [app] in E'. destruct m' as [|d m']; [congruence|]. injection E' as E1 E2. subst d. cbn in Fm'. rewrite (Sh u z v E NU) in Fm'. discriminate Fm'.
    + eapply gets_cat; [apply gets_set; now apply in_chr|]. apply gets_grp; [reflexivity|]. apply gets_plus; [exact NM|now apply all_dg|]. destruct e as [|x e]; [exact I|]. unfold PyReTmpl.stops. rewrite in_dg. exact NMe.
Qed.
Lemma obj6_sound t i s c : M obj6_re 0 t [] i s c -> exists c', found6 t c'.
Proof.
  intros HM. apply M_lead in HM as (s1 & L0 & HM). apply M_cat_iff in HM as (i2 & s2 & c2 & H1 & H2). apply M_grp_iff in H1 as (a & c3 & -> & _ & -> & H1).
  apply M_plus_iff in H1 as (a' & E & NA & Fa & _ & _). apply app_inv_tail in E as <-. apply all_ns in Fa. apply M_mask6 in H2 as (m & -> & (NM & Fm) & _).
  destruct m as [|d m]; [congruence|]. cbn [forallb] in Fm. apply andb_true_iff in Fm as [Dd Fm]. destruct a as [|x a]; [congruence|].
  destruct (first_slash d (m ++ s) Dd a) as (u & e & v & E & De & (z & Ez) & Sh). destruct (digits_off v) as (m' & e' & Ev & Fm' & NMe).
  exists [(2, e :: m'); (1, x :: u)]%nat, (x :: u), (e :: m'). split; [|reflexivity]. subst a v. split.
  - split; [discriminate|]. cbn [forallb] in Fa |- *. rewrite forallb_app in Fa. apply andb_true_iff in Fa as [Fx Fa]. apply andb_true_iff in Fa as [Fu _]. now rewrite Fx, Fu.
  - split; [split; [discriminate|cbn [forallb]; now rewrite De]|]. split.
    + intros [|u1 u2] f v1 E1 NU; [congruence|]. injection E1 as -> E1. now apply (Sh u2 f v1).
    + change [lit "ipv6"; lit "address"; (x :: u) ++ "/"%char :: e :: m'] with (kw6 ++ [(x :: u) ++ "/"%char :: e :: m']). apply line_leads; [discriminate|]. exists e'. split; [exact NMe|].
      cbn [app] in L0, E |- *. rewrite <- (app_assoc u). cbn [app]. rewrite E in L0. exact L0.
Qed.
Lemma name_at p nm k : option_map (fun x => option_map snd (find (fun y => str_eqb (fst y) (lit nm)) (snd (snd x)))) (compile false (lit p)) = Some (Some k) ->
  exists r0 e, compile false (lit p) = Some (r0, e) /\ option_map snd (find (fun x => str_eqb (fst x) (lit nm)) (snd e)) = Some k.
Proof. destruct (compile false (lit p)) as [[r0 e]|]; [|discriminate]. intros E. injection E as E. now exists r0, e. Qed.

(** The first line "ipv6 address A/M", indented, decides the object. *)
Theorem C75_object : forall own below, let lines := own :: below in
  (exists pre t post a m, lines = pre ++ t :: post /\ (forall u a' m', In u pre -> ~ addr6_line u a' m') /\ addr6_line t a m /\
     ((a = lit "dhcp" \/ a = lit "negotiated") /\ ipv6_addr_object own below = Ok None \/
      a <> lit "dhcp" /\ a <> lit "negotiated" /\ ipv6_addr_object own below = (do o <- ip6_of_str (a ++ "/"%char :: m); Ok (Some o)))) \/
  ((forall u a m, In u lines -> ~ addr6_line u a m) /\ ipv6_addr_object own below = Ok None).
Proof.
  intros own below lines. unfold ipv6_addr_object.
  destruct (known_first v6obj_pattern obj6_re 2 found6 obj6_reads obj6_complete obj6_sound own below) as [(pre & t & post & c & E & N1 & (a & m & HA & ->) & HV)|[N1 HV]].
  - left. exists pre, t, post, a, m. split; [exact E|]. split; [intros u a' m' Hu HA'; apply (N1 u [(2, m'); (1, a')]%nat Hu); now exists a', m'|]. split; [exact HA|].
    destruct (name_at v6obj_pattern "v6addr" 1 eq_refl) as (r0 & e & C0 & F0). rewrite (HV "v6addr"%string 0%nat r0 e C0 F0) by lia.
    destruct (name_at v6obj_pattern "v6masklength" 2 eq_refl) as (r1 & e1 & C1 & F1). rewrite (HV "v6masklength"%string 1%nat r1 e1 C1 F1) by lia.
    cbn [cap Nat.eqb]. destruct (str_eqb_spec a (lit "dhcp")) as [E1|E1]; [now left; auto|]. destruct (str_eqb_spec a (lit "negotiated")) as [E2|E2]; [now left; auto|]. right. auto.
  - right. split; [intros u a m Hu HA; apply (N1 u [(2, m); (1, a)]%nat Hu); now exists a, m|]. now rewrite HV.
Qed.
Print Assumptions C75_object.

(** In the usual notation it is that address with that prefix length. *)
Lemma v6_chars t n : v6_text t n -> forallb (fun c => negb (is_space c)) t = true /\ t <> [] /\ has_char "/" t = false /\ has_char ":" t = true.
Proof.
  intros V. destruct (text_word t n V) as [NT F]. split; [exact F|]. split; [exact NT|]. split; [exact (text_noslash t n V)|].
  assert (J : forall x y l, has_char ":" (join [":"%char] (x :: y :: l)) = true). { intros x y l. change (join [":"%char] (x :: y :: l)) with (x ++ ":"%char :: join [":"%char] (y :: l)). unfold has_char. rewrite existsb_app. cbn [existsb]. now rewrite orb_true_r. }
  destruct V as [l vs G0 L8|hi a lo b m Fa G0 L8 N1].
  - destruct l as [|x [|y l]]; [exfalso|exfalso|apply J].
    + inversion G0 as [l0 vs0 F2|l0 vs0 u q F2 Q0 E1]; subst; [inversion F2; subst; discriminate L8|]. now destruct l0.
    + inversion G0 as [l0 vs0 F2|l0 vs0 u q F2 Q0 E1]; subst; [inversion F2 as [|? ? ? ? ? F3]; subst; inversion F3; subst; discriminate L8|]. destruct l0 as [|? [|? ?]]; try discriminate E1. inversion F2; subst. discriminate L8.
  - unfold has_char. rewrite existsb_app. cbn [lit list_ascii_of_string app existsb Ascii.eqb]. now rewrite orb_true_r.
Qed.
Lemma addr6_unique t a m a' m' : addr6_line t a m -> addr6_line t a' m' -> a = a' /\ m = m'.
Proof.
  intros K1 K2. pose proof (known_same v6obj_pattern obj6_re 2 found6 obj6_reads obj6_complete t [(2, m); (1, a)]%nat [(2, m'); (1, a')]%nat) as K. cbn [map seq cap Nat.eqb] in K.
  specialize (K (ex_intro _ a (ex_intro _ m (conj K1 eq_refl))) (ex_intro _ a' (ex_intro _ m' (conj K2 eq_refl)))). now injection K as -> ->.
Qed.
Lemma no_slash_in a u c v : has_char "/" a = false -> a <> u ++ "/"%char :: c :: v.
Proof. intros NS ->. unfold has_char in NS. rewrite existsb_app in NS. apply orb_false_iff in NS as [_ NS]. discriminate NS. Qed.
Theorem C75_usual : forall own below pre t post a n p, own :: below = pre ++ t :: post ->
  (forall u a m, In u pre -> ~ addr6_line u a m) -> v6_text a n -> 0 <= p <= 128 -> (length (a ++ "/"%char :: show_Z p) <= 43)%nat ->
  line_of gap (no_more is_digit) [lit "ipv6"; lit "address"; a ++ "/"%char :: show_Z p] t ->
  ipv6_addr_object own below = Ok (Some (obj 128 n p)) /\ ipv6_masklength own below = Ok p.
Proof.
  intros own below pre t post a n p E N1 V RP LE HL. destruct (v6_chars a n V) as (Fa & NA & NS & NC).
  assert (HA : addr6_line t a (show_Z p)).
  { split; [now split|]. split; [split; [apply show_Z_nonempty|apply show_Z_digits; lia]|]. split; [|exact HL]. intros u d v Ea _. now apply no_slash_in in Ea. }
  assert (O : ipv6_addr_object own below = Ok (Some (obj 128 n p))).
  { destruct (C75_object own below) as [(pre' & t' & post' & a' & m & E' & N1' & HA' & HO)|[N1' _]].
    - destruct (first_unique (fun u => exists a m, addr6_line u a m) pre t post pre' t' post') as [<- <-]; eauto; try congruence.
      + intros u Hu (x & y & K). now apply (N1 u x y).
      + intros u Hu (x & y & K). now apply (N1' u x y).
      + destruct (addr6_unique _ _ _ _ _ HA HA') as [<- <-]. destruct HO as [([->| ->] & _)|(_ & _ & ->)]; [discriminate NC|discriminate NC|].
        rewrite (C74_reads (a ++ "/"%char :: show_Z p) n p); [reflexivity| |exact LE]. pose proof (wr_slash [] a [] n p eq_refl eq_refl V RP) as K. cbn [app] in K. now rewrite List.app_nil_r in K.
    - exfalso. apply (N1' t a (show_Z p)); [rewrite E; apply in_elt|exact HA]. }
  split; [exact O|]. unfold ipv6_masklength. now rewrite O.
Qed.
Print Assumptions C75_usual.
Theorem C75_none : forall own below,
  ((forall u a m, In u (own :: below) -> ~ addr6_line u a m) \/
   (exists pre t post a m, own :: below = pre ++ t :: post /\ (forall u a' m', In u pre -> ~ addr6_line u a' m') /\ addr6_line t a m /\ (a = lit "dhcp" \/ a = lit "negotiated"))) ->
  ipv6_addr_object own below = Ok None /\ ipv6_masklength own below = Ok 0.
Proof.
  intros own below NA. assert (O : ipv6_addr_object own below = Ok None).
  { destruct (C75_object own below) as [(pre & t & post & a & m & E & N1 & HA & K)|[N1 O]]; [|exact O]. destruct K as [[_ O]|(Nd & Nn & _)]; [exact O|exfalso].
    destruct NA as [NA|(pre' & t' & post' & a' & m' & E' & N1' & HA' & K')].
    - apply (NA t a m); [rewrite E; apply in_elt|exact HA].
    - destruct (first_unique (fun u => exists a m, addr6_line u a m) pre t post pre' t' post') as [<- <-]; eauto; try congruence.
      + intros u Hu (x & y & K). now apply (N1 u x y).
      + intros u Hu (x & y & K). now apply (N1' u x y).
      + destruct (addr6_unique _ _ _ _ _ HA HA') as [-> _]. tauto. }
  split; [exact O|]. unfold ipv6_masklength. now rewrite O.
Qed.
Print Assumptions C75_none.

(** ** The address as a text *)
Definition nslash : cset := mkSet true false [CRange "/" "/"].
Definition addr6_re : re := lead_re kw6 (RGrp 1 (rplus true (RSet nslash))).
Lemma addr6_reads_re : reads_re (lit v6addr_pattern) addr6_re 1.
Proof. reflexivity. Qed.
Lemma in_nslash c : in_set nslash c = negb (Ascii.eqb "/" c).
Proof. destruct c as [[] [] [] [] [] [] [] []]; reflexivity. Qed.
Lemma all_nslash w : all_in nslash w <-> has_char "/" w = false.
Proof.
  rewrite (all_in_iff nslash (fun c => negb (Ascii.eqb "/" c)) w in_nslash). unfold has_char. induction w as [|x w IH]; [now split|]. cbn [forallb existsb]. rewrite andb_true_iff, orb_false_iff, negb_true_iff, IH. reflexivity.
Qed.
Definition found_text (t : str) (c : caps) : Prop := exists v, addr6_text t v /\ c = [(1, v)]%nat.
(** A greedy run that has to give back its last character *)
Lemma star_back {R} q y e c (k : nat -> str -> caps -> option R) x : in_set q y = true -> PyReTmpl.stops q e -> forall w i, all_in q w ->
  k (S (i + length w)) e c = None -> k (i + length w)%nat (y :: e) c = Some x -> mat (RStar true (RSet q)) i (w ++ y :: e) c k = Some x.
Proof.
  intros Y S0 w i F KN KS. rewrite mat_star, app_length. cbn [length]. generalize (length e) as extra. intros extra. replace (length w + S extra)%nat with (S (length w + extra)) by lia.
  revert i KN KS. induction F as [|z w Z0 F IH]; intros i KN KS; cbn [length app Nat.add].
  - rewrite Nat.add_0_r in KN, KS. rewrite loop_S, set_step by assumption. replace (Nat.eqb (S i) i) with false by (symmetry; apply Nat.eqb_neq; lia).
    replace (star_loop (mat (RSet q)) true k extra (S i) e c) with (@None R); [exact KS|]. symmetry. destruct extra as [|f]; [exact KN|]. rewrite loop_S, set_stops by exact S0. exact KN.
  - rewrite loop_S, set_step by assumption. replace (Nat.eqb (S i) i) with false by (symmetry; apply Nat.eqb_neq; lia). rewrite IH; [reflexivity| |]; cbn [length] in KN, KS; replace (S i + length w)%nat with (i + S (length w))%nat by lia; assumption.
Qed.
Lemma gets_back r i g y e c i' s' c' : gap g -> is_space y = true -> (match e with z :: _ => is_space z = false | [] => True end) -> (forall i0 i1 s1 c1, ~ M r i0 e c i1 s1 c1) ->
  gets r (i + length g)%nat (y :: e) c i' s' c' -> gets (RCat spaces r) i (g ++ y :: e) c i' s' c'.
Proof.
  intros [F NG] Y He NM G0 R k x K. rewrite mat_cat. unfold spaces, rplus. rewrite mat_cat. destruct g as [|z g]; [congruence|]. cbn [app]. apply (all_in_iff sp is_space _ in_sp) in F. inversion F as [|? ? Z0 F']; subst.
  rewrite set_step by assumption. apply star_back; [now rewrite in_sp| |exact F'| |].
  - destruct e as [|w e]; [exact I|]. unfold PyReTmpl.stops. now rewrite in_sp.
  - apply mat_none. intros i0 s0 c0. apply NM.
  - cbn [length] in G0. replace (S i + length g)%nat with (i + S (length g))%nat by lia. now apply G0.
Qed.
Lemma gets_lead_last ws r : forall i t y e c i' s' c', leads ws t (y :: e) -> Forall solid ws -> is_space y = true -> (match e with z :: _ => is_space z = false | [] => True end) -> (forall i0 i1 s1 c1, ~ M r i0 e c i1 s1 c1) ->
  gets r (i + (length t - length (y :: e)))%nat (y :: e) c i' s' c' -> gets (lead_re ws r) i t c i' s' c'.
Proof.
  induction ws as [|w ws IH]; intros i t y e c i' s' c' L0 F Y He NM G0; cbn [lead_re].
  - inversion L0 as [g s Gg|]; subst. apply gets_back; auto. rewrite app_length in G0. replace (length g + length (y :: e) - length (y :: e))%nat with (length g) in G0 by lia. exact G0.
  - inversion L0 as [|? ? g u ? Gg L1]; subst. inversion F as [|? ? Sw F']; subst. eapply gets_cat; [apply gets_spaces; [exact Gg|destruct w; [destruct Sw|exact Sw]]|].
    apply gets_chars. apply (IH _ u y e); auto. assert (length (y :: e) <= length u)%nat as LE. { clear -L1. induction L1; rewrite ?app_length; lia. }
    rewrite !app_length in G0. match type of G0 with gets _ ?a _ _ _ _ _ => match goal with |- gets _ ?b _ _ _ _ _ => replace b with a by lia end end. exact G0.
Qed.
Lemma text6_complete t c : found_text t c -> exists i s, gets addr6_re 0 t [] i s c.
Proof.
  intros (v & (NS & Ln & x & r & Ev & HX) & ->). change [lit "ipv6"; lit "address"; v] with (kw6 ++ [v]) in Ln. apply line_leads in Ln as (e & Ce & L0); [|discriminate].
  assert (ST : PyReTmpl.stops nslash e). { destruct Ce as [->|(r0 & ->)]; [exact I|reflexivity]. }
  assert (K : forall i, gets (RGrp 1 (rplus true (RSet nslash))) i (v ++ e) [] (i + length v) e [(1, v)]%nat).
  { intros i. apply gets_grp; [reflexivity|]. apply gets_plus; [rewrite Ev; discriminate|now apply all_nslash|exact ST]. }
  destruct (is_space x) eqn:Sx.
  - destruct HX as [HX|HX]; [discriminate HX|]. subst r v. cbn [app] in *. eexists _, _. eapply gets_lead_last; [exact L0|exact kw6_solid|exact Sx| | |apply K].
    + destruct Ce as [->|(r0 & ->)]; [exact I|reflexivity].
    + intros i0 i1 s1 c1 HM. apply M_grp_iff in HM as (w & c2 & _ & _ & _ & HM). apply M_plus_iff in HM as (w' & E & NW & F & _ & _). destruct w' as [|z w']; [congruence|]. apply all_nslash in F.
      destruct Ce as [->|(r0 & ->)]; [discriminate E|]. injection E as <- _. discriminate F.
  - eexists _, _. eapply gets_lead; [exact L0|exact kw6_solid| |apply K]. rewrite Ev. exact Sx.
Qed.
Lemma white_off s : exists g e, s = g ++ e /\ forallb is_space g = true /\ no_more is_space e.
Proof.
  induction s as [|x s (m & e & -> & F & NM)]; [exists [], []; repeat split|]. destruct (is_space x) eqn:Dx.
  - exists (x :: m), e. repeat split; auto. cbn [forallb]. now rewrite Dx.
  - exists [], (x :: m ++ e). repeat split; auto.
Qed.
Lemma slash_off s : exists v e, s = v ++ e /\ has_char "/" v = false /\ (e = [] \/ exists r, e = "/"%char :: r).
Proof.
  induction s as [|x s (m & e & -> & F & NM)]; [exists [], []; repeat split; now left|]. destruct (Ascii.eqb "/" x) eqn:Dx.
  - apply Ascii.eqb_eq in Dx as <-. exists [], ("/"%char :: m ++ e). repeat split; auto. right. eauto.
  - exists (x :: m), e. repeat split; auto. unfold has_char in *. cbn [existsb]. now rewrite Dx.
Qed.
Lemma leads_more ws : forall t g s, leads ws t (g ++ s) -> forallb is_space g = true -> leads ws t s.
Proof.
  induction ws as [|w ws IH]; intros t g s L0 F; inversion L0 as [g0 s0 Gg|w0 ws0 g0 t0 s0 Gg L1]; subst.
  - rewrite app_assoc. constructor. destruct Gg as [F0 N0]. split; [|now destruct g0]. unfold white in *. rewrite forallb_app. now rewrite F0, F.
  - constructor; [exact Gg|]. now apply (IH t0 g).
Qed.
Lemma text6_sound t i s c : M addr6_re 0 t [] i s c -> exists c', found_text t c'.
Proof.
  intros HM. apply M_lead in HM as (s1 & L0 & HM). apply M_grp_iff in HM as (w & c2 & -> & _ & _ & HM). apply M_plus_iff in HM as (w' & E & NW & F & _ & _). apply app_inv_tail in E as <-. apply all_nslash in F.
  destruct (slash_off s) as (v0 & e & -> & NS & He). rewrite app_assoc in L0. assert (NS' : has_char "/" (w ++ v0) = false) by (unfold has_char in *; rewrite existsb_app; now rewrite F, NS).
  assert (NE' : w ++ v0 <> []) by (now destruct w). remember (w ++ v0) as v eqn:Ev. clear Ev w F NW v0 NS. destruct (white_off v) as (g & u & -> & Fg & NM).
  assert (ND : forall x l, has_char "/" (x ++ l) = false -> has_char "/" l = false). { intros x l K. unfold has_char in *. rewrite existsb_app in K. now apply orb_false_iff in K as [_ K]. }
  destruct u as [|x u].
  - rewrite app_nil_r in *. destruct (exists_last NE') as (g1 & y & ->). rewrite forallb_app in Fg. apply andb_true_iff in Fg as [Fg Fy]. rewrite <- app_assoc in L0. apply leads_more in L0; [|exact Fg].
    exists [(1, [y])]%nat, [y]. split; [|reflexivity]. split; [exact (ND _ _ NS')|]. split; [|exists y, []; auto]. change [lit "ipv6"; lit "address"; [y]] with (kw6 ++ [[y]]). apply line_leads; [discriminate|]. exists e. auto.
  - rewrite <- app_assoc in L0. apply leads_more in L0; [|exact Fg]. exists [(1, x :: u)]%nat, (x :: u). split; [|reflexivity]. split; [exact (ND _ _ NS')|]. split; [|exists x, u; auto].
    change [lit "ipv6"; lit "address"; x :: u] with (kw6 ++ [x :: u]). apply line_leads; [discriminate|]. exists e. auto.
Qed.
Lemma dyn6_answers p how lines : reads (lit p) (line_T true [W (lit "ipv6"); W (lit "address"); L 1 (lit how)] Loose) 1 -> nonwhite_head (lit how) = true ->
  answers (fun t v => dynamic6 how t /\ v = lit how) lines [] (first_match to_str (Ok []) (pattern false (lit p)) 1 lines).
Proof.
  intros R PR. eapply quad_answers; [exact R| |discriminate|reflexivity|].
  - cbn [forallb proper]. now rewrite PR.
  - intros t v. split.
    + intros (HL & ->). eexists. split; [|split; [exact HL|reflexivity]]. repeat constructor.
    + intros (ws & F & HL & C1). slots. injection C1 as <-. now split.
Qed.
(** The text of the first line "ipv6 address V"; but nothing if some line says that the address is
    dynamic. *)
Theorem C75_addr : forall own below, let lines := own :: below in
  ((exists t, In t lines /\ (dynamic6 "dhcp" t \/ dynamic6 "autoconfig" t \/ dynamic6 "negotiated" t)) -> ipv6_addr own below = Ok []) /\
  ((forall t, In t lines -> ~ dynamic6 "dhcp" t /\ ~ dynamic6 "autoconfig" t /\ ~ dynamic6 "negotiated" t) ->
   answers addr6_text lines [] (ipv6_addr own below)).
Proof.
  intros own below lines.
  assert (A1 : answers addr6_text lines [] (iter_str v6addr_pattern 1 own below)).
  { destruct (known_answers v6addr_pattern addr6_re 1 found_text addr6_reads_re text6_complete text6_sound 1 own below ltac:(lia) ltac:(intros t c (v & _ & ->); discriminate)) as [(pre & t & post & v & E & N1 & (c & (v0 & Pv & ->) & Cv) & HE)|[N1 HE]].
    - cbn [cap Nat.eqb] in Cv. injection Cv as ->. left. exists pre, t, post, v. split; [exact E|]. split; [|now split]. intros u v' Hu Pu. apply (N1 u v' Hu). exists [(1, v')]%nat. split; [now exists v'|reflexivity].
    - right. split; [|exact HE]. intros u v' Hu Pu. apply (N1 u v' Hu). exists [(1, v')]%nat. split; [now exists v'|reflexivity]. }
  assert (A2 : answers (fun t v => dynamic6 "dhcp" t /\ v = lit "dhcp") lines [] (iter_str "^\s+ipv6\s+address\s+(dhcp)\s*$" 1 own below))
    by exact (dyn6_answers "^\s+ipv6\s+address\s+(dhcp)\s*$" "dhcp" lines eq_refl eq_refl).
  assert (A3 : answers (fun t v => dynamic6 "autoconfig" t /\ v = lit "autoconfig") lines [] (iter_str "^\s+ipv6\s+address\s+(autoconfig)\s*$" 1 own below))
    by exact (dyn6_answers "^\s+ipv6\s+address\s+(autoconfig)\s*$" "autoconfig" lines eq_refl eq_refl).
  assert (A4 : answers (fun t v => dynamic6 "negotiated" t /\ v = lit "negotiated") lines [] (iter_str "^\s+ipv6\s+address\s+(negotiated)\s*$" 1 own below))
    by exact (dyn6_answers "^\s+ipv6\s+address\s+(negotiated)\s*$" "negotiated" lines eq_refl eq_refl).
  unfold ipv6_addr. destruct (answers_ok _ _ _ _ A1) as (v & E1). rewrite E1 in *. cbn [bind].
  assert (B : forall how r, answers (fun t v => dynamic6 how t /\ v = lit how) lines [] r ->
    (r = Ok (lit how) /\ exists t, In t lines /\ dynamic6 how t) \/ (r = Ok [] /\ forall t, In t lines -> ~ dynamic6 how t)).
  { intros how r [(pre & t & post & v' & E & _ & [Pt ->] & ->)|[N1 ->]].
    - left. split; [reflexivity|]. exists t. split; [rewrite E; apply in_elt|exact Pt].
    - right. split; [reflexivity|]. intros t Ht Pt. now apply (N1 t (lit how) Ht). }
  destruct (B _ _ A2) as [(-> & t2 & I2 & D2)|[-> N2]]; destruct (B _ _ A3) as [(-> & t3 & I3 & D3)|[-> N3]]; destruct (B _ _ A4) as [(-> & t4 & I4 & D4)|[-> N4]]; cbn [bind];
    try (split; [intros _; reflexivity|]; intros HN; exfalso; first [destruct (HN t2 I2); tauto|destruct (HN t3 I3); tauto|destruct (HN t4 I4); tauto]).
  split; [|intros _; exact A1]. intros (t & It & [Dt|[Dt|Dt]]); exfalso; [now apply (N2 t It)|now apply (N3 t It)|now apply (N4 t It)].
Qed.
Print Assumptions C75_addr.

(** ** Secondary addresses *)
Definition plus_ns : re := rplus true (RSet ns).
Definition sec_tail : re := RCat spaces (chars (lit "secondary") (RCat (RStar true (RSet sp)) REol)).
Definition sec_re : re := RCat (RStar true (RSet sp)) (chars (lit "ip") (lead_re [lit "address"] (RCat (RGrp 1 (RCat plus_ns (RCat spaces plus_ns))) sec_tail))).
Lemma sec_reads : reads_re (lit secondary_pattern) sec_re 1.
Proof. reflexivity. Qed.
Definition sec_at (t a g m : str) : Prop :=
  word a /\ word m /\ gap g /\ exists i u g' w, t = i ++ lit "ip" ++ u /\ white i /\ leads [lit "address"] u ((a ++ g ++ m) ++ g' ++ lit "secondary" ++ w) /\ gap g' /\ white w.
Definition found_sec (t : str) (c : caps) : Prop := exists a g m, sec_at t a g m /\ c = [(1, a ++ g ++ m)]%nat.
Lemma sec_line t a m : secondary_line t a m <-> exists g, sec_at t a g m.
Proof.
  split.
  - intros (Wa & Wm & i & p & e & -> & Wi & Ph & We). inversion Ph as [|? g1 ? p1 G1 P1]; subst. inversion P1 as [|? g2 ? p2 G2 P2]; subst. inversion P2 as [|? g3 ? p3 G3 P3]; subst. inversion P3 as [|? g4 ? p4 G4 P4]; subst.
    inversion P4 as [|? ? ? ? ? Px]; subst; [|inversion Px].
    exists g3. split; [exact Wa|]. split; [exact Wm|]. split; [exact G3|]. exists i, (g1 ++ lit "address" ++ g2 ++ (a ++ g3 ++ m) ++ g4 ++ lit "secondary" ++ e), g4, e.
    split; [rewrite <- !app_assoc; reflexivity|]. split; [exact Wi|]. split; [constructor; [exact G1|]; now constructor|]. now split.
  - intros (g & Wa & Wm & G3 & i & u & g' & w & -> & Wi & L0 & G4 & Ww). split; [exact Wa|]. split; [exact Wm|].
    inversion L0 as [|? ? g1 u1 s1 G1 L1]; subst. inversion L1 as [g2 s2 G2|]; subst. exists i, (lit "ip" ++ g1 ++ lit "address" ++ g2 ++ a ++ g ++ m ++ g' ++ lit "secondary"), w.
    split; [rewrite <- !app_assoc; reflexivity|]. split; [exact Wi|]. split; [|exact Ww]. apply ph_more; [exact G1|]. apply ph_more; [exact G2|]. apply ph_more; [exact G3|]. apply ph_more; [exact G4|]. constructor.
Qed.
Lemma stops_word m s : word m -> PyReTmpl.stops sp (m ++ s).
Proof. intros [NM F]. destruct m as [|x m]; [congruence|]. cbn [app]. unfold PyReTmpl.stops. rewrite in_sp. cbn [forallb] in F. apply andb_true_iff in F as [F _]. now apply negb_true_iff in F. Qed.
Lemma stops_gap g s : gap g -> PyReTmpl.stops ns (g ++ s).
Proof. intros [F NG]. destruct g as [|x g]; [congruence|]. cbn [app]. unfold PyReTmpl.stops. rewrite in_ns. cbn [forallb] in F. apply andb_true_iff in F as [F _]. now rewrite F. Qed.
Lemma head_word m s : word m -> match m ++ s with x :: _ => is_space x = false | [] => True end.
Proof. intros [NM F]. destruct m as [|x m]; [congruence|]. cbn [app forallb] in *. apply andb_true_iff in F as [F _]. now apply negb_true_iff in F. Qed.
Lemma sec_complete t c : found_sec t c -> exists i s, gets sec_re 0 t [] i s c.
Proof.
  intros (a & g & m & (Wa & Wm & G0 & i & u & g' & w & -> & Wi & L0 & G1 & Ww) & ->). eexists _, _. eapply gets_cat; [apply gets_star; [now apply all_sp|reflexivity]|]. apply gets_chars.
  eapply gets_lead; [exact L0|constructor; [reflexivity|constructor]|rewrite <- app_assoc; now apply head_word|].
  eapply gets_cat; [apply gets_grp; [reflexivity|]|].
  - rewrite <- !app_assoc. eapply gets_cat; [apply gets_plus; [exact (proj1 Wa)|apply all_ns; exact (proj2 Wa)|now apply stops_gap]|]. eapply gets_cat; [apply gets_spaces; [exact G0|now apply head_word]|].
    rewrite !app_length, !Nat.add_assoc. apply gets_plus; [exact (proj1 Wm)|apply all_ns; exact (proj2 Wm)|now apply stops_gap].
  - eapply gets_cat; [apply gets_spaces; [exact G1|reflexivity]|]. apply gets_chars. rewrite <- (app_nil_r w) at 2. eapply gets_cat; [apply gets_star; [now apply all_sp|exact I]|]. apply gets_eol.
Qed.
Lemma sec_sound t i s c : M sec_re 0 t [] i s c -> exists c', found_sec t c'.
Proof.
  intros HM. apply M_cat_iff in HM as (i1 & s1 & c1 & H1 & HM). apply M_star_iff in H1 as (w0 & -> & F0 & -> & ->). apply all_sp in F0. apply M_chars_iff in HM as (s2 & -> & HM). apply M_lead in HM as (s3 & L0 & HM).
  apply M_cat_iff in HM as (i4 & s4 & c4 & H1 & HM). apply M_grp_iff in H1 as (v & c5 & -> & _ & _ & H1). apply M_cat_iff in H1 as (i6 & s6 & c6 & H1 & H2). apply M_plus_iff in H1 as (a & Ea & Na & Fa & -> & ->).
  apply M_cat_iff in H2 as (i7 & s7 & c7 & H2 & H3). apply M_spaces in H2 as (g & -> & G0 & -> & ->). apply M_plus_iff in H3 as (m & -> & Nm & Fm & _ & _). rewrite !app_assoc in Ea. apply app_inv_tail in Ea. rewrite <- app_assoc in Ea. subst v.
  apply M_cat_iff in HM as (i8 & s8 & c8 & H1 & HM). apply M_spaces in H1 as (g' & -> & G1 & -> & ->). apply M_chars_iff in HM as (s9 & -> & HM). apply M_cat_iff in HM as (i10 & s10 & c10 & H1 & HM). apply M_star_iff in H1 as (w & -> & Fw & -> & ->). apply all_sp in Fw. apply M_eol_iff in HM as (He & _ & _ & _).
  exists [(1, a ++ g ++ m)]%nat, a, g, m. split; [|reflexivity]. split; [split; [exact Na|now apply all_ns]|]. split; [split; [exact Nm|now apply all_ns]|]. split; [exact G0|]. exists w0, s2, g', (w ++ s10). split; [reflexivity|]. split; [exact F0|]. split; [exact L0|]. split; [exact G1|].
  unfold white in *. rewrite forallb_app, Fw. now destruct He as [->| ->].
Qed.
Lemma sec_value own below : (exists a g m, (exists pre t post, own :: below = pre ++ t :: post /\ sec_at t a g m /\ (forall a' g' m', sec_at own a' g' m' -> a' ++ g' ++ m' = a ++ g ++ m)) /\ iter_dict secondary_pattern "secondary" own below = Some (Some (a ++ g ++ m))) \/
  ((forall u a g m, In u (own :: below) -> ~ sec_at u a g m) /\ iter_dict secondary_pattern "secondary" own below = None).
Proof.
  destruct (known_first secondary_pattern sec_re 1 found_sec sec_reads sec_complete sec_sound own below) as [(pre & t & post & c & E & N1 & (a & g & m & HA & ->) & HV)|[N1 HV]].
  - left. exists a, g, m. split.
    + exists pre, t, post. split; [exact E|]. split; [exact HA|]. intros a' g' m' HO. destruct pre as [|x pre]; cbn [app] in E; injection E as -> _.
      * pose proof (known_same secondary_pattern sec_re 1 found_sec sec_reads sec_complete t [(1, a' ++ g' ++ m')]%nat [(1, a ++ g ++ m)]%nat) as K. cbn [map seq cap Nat.eqb] in K.
        assert (K1 : found_sec t [(1, a' ++ g' ++ m')]%nat) by now exists a', g', m'. assert (K2 : found_sec t [(1, a ++ g ++ m)]%nat) by now exists a, g, m. specialize (K K1 K2). now injection K.
      * exfalso. apply (N1 x [(1, a' ++ g' ++ m')]%nat); [now left|]. now exists a', g', m'.
    + destruct (name_at secondary_pattern "secondary" 1 eq_refl) as (r0 & e & C0 & F0). rewrite (HV "secondary"%string 0%nat r0 e C0 F0) by lia. reflexivity.
  - right. split; [|apply HV]. intros u a g m Hu HA. apply (N1 u [(1, a ++ g ++ m)]%nat Hu). now exists a, g, m.
Qed.
(** If the address and mask of every line "ip address A M secondary" are in the usual notation, the
    set consists of these addresses, or of these addresses with their prefix lengths.  Each of the lines
    below the interface comes with the lines below it. *)
Theorem C75_secondary : forall fam, (forall own below u, In (own, below) fam -> In u below -> In u (map fst fam)) ->
  (forall t a m, In t (map fst fam) -> secondary_line t a m -> exists ip p, valid 32 ip p /\ a = dotted ip /\ m = dotted (mask_of p)) ->
  let here x f := exists t ip p, In t (map fst fam) /\ valid 32 ip p /\ secondary_line t (dotted ip) (dotted (mask_of p)) /\ x = f ip p in
  (exists l, ip_secondary_addresses fam = Ok l /\ forall x, In x l <-> here x (fun ip p => dotted ip)) /\
  (exists l, ip_secondary_networks fam = Ok l /\ forall x, In x l <-> here x (fun ip p => dotted ip ++ "/"%char :: show_Z p)).
Proof.
  intros fam CL HW here.
  assert (NM : forall g ip p, gap g -> valid 32 ip p -> ip4_of_str (dotted ip ++ g ++ dotted (mask_of p)) = Ok (obj 32 ip p)).
  { intros g ip p [Fg Ng] V. pose proof (C49_netmask [] [] g ip p eq_refl eq_refl (or_intror (conj Ng Fg)) V) as K. cbn [app] in K. now rewrite app_nil_r in K. }
  assert (G0 : forall show fam', incl fam' fam -> exists l, secondaries show fam' = Ok l /\ (forall x, In x l -> here x (fun ip p => show (obj 32 ip p))) /\
    (forall own below ip p, In (own, below) fam' -> valid 32 ip p -> secondary_line own (dotted ip) (dotted (mask_of p)) -> In (show (obj 32 ip p)) l)).
  { intros show. induction fam' as [|[own below] fam' IH]; intros IN.
    - exists []. split; [reflexivity|]. split; [intros x []|intros own below ip p []].
    - destruct IH as (l & El & S1 & S2); [intros y Hy; apply IN; now right|]. cbn [secondaries]. destruct (sec_value own below) as [(a & g & m & (pre & t & post & E & HA & U) & ->)|[N1 ->]].
      + assert (IT : In t (map fst fam)).
        { assert (IT : In t (own :: below)) by (rewrite E; apply in_elt). destruct IT as [<-|IT]; [apply (in_map fst fam (own, below)), IN; now left|]. apply (CL own below t); [apply IN; now left|exact IT]. }
        assert (HL : secondary_line t a m) by (apply sec_line; now exists g). destruct (HW t a m IT HL) as (ip & p & V & -> & ->). destruct HA as (_ & _ & Gg & _). rewrite (NM g ip p Gg V). cbn [bind]. rewrite El. cbn [bind].
        eexists. split; [reflexivity|]. split.
        * intros x [<-|Hx]; [|now apply S1]. exists t, ip, p. auto.
        * intros own' below' ip' p' [HI|HI] V' HL'; [|right; now apply (S2 own' below')]. injection HI as <- <-. left. apply sec_line in HL' as (g1 & HL'). pose proof (U _ _ _ HL') as EQ. destruct HL' as (_ & _ & Gg1 & _).
          pose proof (NM g1 ip' p' Gg1 V') as K. rewrite EQ, (NM g ip p Gg V) in K. f_equal. exact (f_equal (fun r => match r with Ok o => o | Err _ => obj 32 ip p end) K).
      + exists l. split; [exact El|]. split; [exact S1|]. intros own' below' ip' p' [HI|HI] V' HL'; [|now apply (S2 own' below')]. injection HI as <- <-. exfalso. apply sec_line in HL' as (g1 & HL'). now apply (N1 own _ g1 _ (or_introl eq_refl)) in HL'. }
  split.
  - destruct (G0 (fun o => dotted (ip_int o)) fam (incl_refl _)) as (l & El & S1 & S2). exists l. split; [exact El|]. intros x. split; [intros Hx; exact (S1 x Hx)|].
    intros (t & ip & p & IT & V & HL & ->). apply in_map_iff in IT as ([own below] & <- & IT). exact (S2 own below ip p IT V HL).
  - destruct (G0 (fun o => dotted (ip_int o) ++ "/"%char :: show_Z (ip_plen o)) fam (incl_refl _)) as (l & El & S1 & S2). exists l. split; [exact El|]. intros x. split; [intros Hx; exact (S1 x Hx)|].
    intros (t & ip & p & IT & V & HL & ->). apply in_map_iff in IT as ([own below] & <- & IT). exact (S2 own below ip p IT V HL).
Qed.
Print Assumptions C75_secondary.

(** ** Switchport flags *)
Lemma begins_iff ws t : begins_with (map lit ws) (strip t) = true <-> begins ws t.
Proof.
  unfold begins_with, begins. rewrite words_strip. split.
  - intros E. apply strs_eqb_eq in E. exists (skipn (length (map lit ws)) (words t)). rewrite <- E at 1. now rewrite firstn_skipn.
  - intros (rest & ->). apply strs_eqb_eq. rewrite firstn_app, Nat.sub_diag, firstn_all. cbn [firstn]. apply app_nil_r.
Qed.
Lemma some_begins ws kids : existsb (fun t => begins_with (map lit ws) (strip t)) kids = true <-> exists t, In t kids /\ begins ws t.
Proof. rewrite existsb_exists. split; intros (t & It & B); exists t; (split; [exact It|now apply begins_iff]). Qed.
Lemma switch_decided kids : Forall (fun t => words t <> []) kids -> exists b, is_switchport kids = Ok b /\ (b = true <-> is_switch kids).
Proof.
  induction 1 as [|t kids NB F IH]; [exists false; split; [reflexivity|split; [discriminate|intros (u & [] & _)]]|]. cbn [is_switchport]. rewrite words_strip. destruct (words t) as [|w ws] eqn:EW; [congruence|].
  destruct (str_eqb_spec w (lit "switchport")) as [->|NW].
  - exists true. split; [reflexivity|]. split; [intros _|reflexivity]. exists t. split; [now left|]. exists ws. exact EW.
  - destruct IH as (b & -> & IH). exists b. split; [reflexivity|]. rewrite IH. split.
    + intros (u & Iu & B). exists u. split; [now right|exact B].
    + intros (u & [<-|Iu] & B); [|now exists u]. destruct B as (rest & B). rewrite EW in B. cbn [map app] in B. now injection B.
Qed.
Theorem C75_flags : forall own below kids, Forall (fun t => words t <> []) kids ->
  (has_manual_switch_trunk kids = true <-> exists t, In t kids /\ begins ["switchport"; "mode"; "trunk"]%string t) /\
  (exists b, has_switch_portsecurity kids = Ok b /\ (b = true <-> exists t, In t kids /\ begins ["switchport"; "port-security"]%string t)) /\
  (exists b, has_switch_stormcontrol kids = Ok b /\ (b = true <-> is_switch kids /\ exists t, In t kids /\ begins ["storm-control"]%string t)) /\
  (has_manual_disable_cdp kids = true <-> exists t, In t kids /\ reads_as ["no"; "cdp"; "enable"]%string t) /\
  (exists b, has_mac_accessgroup_in own below kids = Ok b /\ (b = true <-> is_switch kids /\ exists t v, In t (own :: below) /\ access_group "mac" "in" t v)) /\
  (exists b, has_mac_accessgroup_out own below kids = Ok b /\ (b = true <-> is_switch kids /\ exists t v, In t (own :: below) /\ access_group "mac" "out" t v)).
Proof.
  intros own below kids F. destruct (switch_decided kids F) as (b & Eb & Hb).
  assert (MAC : forall dir v, answers (access_group "mac" dir) (own :: below) [] (Ok v) -> (truth v = true <-> exists t v, In t (own :: below) /\ access_group "mac" dir t v)).
  { intros dir v [(pre & t & post & v' & E & _ & Pt & Ev)|[N1 Ev]]; injection Ev as ->.
    - split; [intros _; exists t, v'; split; [rewrite E; apply in_elt|exact Pt]|]. intros _. destruct Pt as ([NW _] & _). now destruct v'.
    - split; [discriminate|]. intros (t & v & It & Pt). now apply (N1 t v It) in Pt. }
  split; [apply (some_begins ["switchport"; "mode"; "trunk"]%string)|]. split; [|split; [|split; [|split]]].
  - unfold has_switch_portsecurity. rewrite Eb. cbn [bind]. destruct b; cbn [negb].
    + eexists. split; [reflexivity|]. apply (some_begins ["switchport"; "port-security"]%string).
    + exists false. split; [reflexivity|]. split; [discriminate|]. intros (t & It & rest & B). apply Hb. exists t. split; [exact It|]. eexists. exact B.
  - unfold has_switch_stormcontrol. rewrite Eb. cbn [bind]. destruct b; cbn [negb].
    + eexists. split; [reflexivity|]. rewrite (some_begins ["storm-control"]%string kids). intuition.
    + exists false. split; [reflexivity|]. split; [discriminate|]. intros [K _]. now apply Hb.
  - unfold has_manual_disable_cdp. rewrite existsb_exists. split; intros (t & It & B); exists t; (split; [exact It|]).
    + rewrite words_strip in B. apply andb_true_iff in B as [B1 B2]. apply Nat.eqb_eq in B1. apply strs_eqb_eq in B2. unfold reads_as. rewrite <- B1, firstn_all in B2. exact B2.
    + rewrite words_strip. unfold reads_as in B. rewrite B. reflexivity.
  - unfold has_mac_accessgroup_in. rewrite Eb. cbn [bind]. destruct b; cbn [negb].
    + eexists. split; [reflexivity|]. rewrite (MAC "in"%string _ (proj1 (C59_mac own below))). intuition.
    + exists false. split; [reflexivity|]. split; [discriminate|]. intros [K _]. now apply Hb.
  - unfold has_mac_accessgroup_out. rewrite Eb. cbn [bind]. destruct b; cbn [negb].
    + eexists. split; [reflexivity|]. rewrite (MAC "out"%string _ (proj2 (C59_mac own below))). intuition.
    + exists false. split; [reflexivity|]. split; [discriminate|]. intros [K _]. now apply Hb.
Qed.
Print Assumptions C75_flags.

(** The encapsulation is the last word of the first line "switchport trunk encap E": the keyword is
    not written out. *)
Theorem C75_encap : forall kids,
  answers (fun t v => words t = map lit ["switchport"; "trunk"; "encap"]%string ++ [v]) kids [] (Ok (manual_switch_trunk_encap kids)) /\
  (has_manual_switch_trunk_encap kids = true <-> exists t v, In t kids /\ words t = map lit ["switchport"; "trunk"; "encap"]%string ++ [v]).
Proof.
  intros kids. assert (A : answers (fun t v => words t = map lit ["switchport"; "trunk"; "encap"]%string ++ [v]) kids [] (Ok (manual_switch_trunk_encap kids))).
  { induction kids as [|t kids IH]; [right; split; [intros u v []|reflexivity]|]. cbn [manual_switch_trunk_encap]. rewrite words_strip. destruct (Nat.eqb (length (words t)) 4 && strs_eqb (firstn 3 (words t)) [lit "switchport"; lit "trunk"; lit "encap"]) eqn:B.
    - apply andb_true_iff in B as [B1 B2]. apply Nat.eqb_eq in B1. apply strs_eqb_eq in B2. left. exists [], t, kids, (nth 3 (words t) []). split; [reflexivity|]. split; [intros u v []|]. split; [|reflexivity].
      destruct (words t) as [|w1 [|w2 [|w3 [|w4 [|w5 ws]]]]]; try discriminate B1. cbn [firstn] in B2. injection B2 as -> -> ->. reflexivity.
    - assert (NT : forall v, words t <> map lit ["switchport"; "trunk"; "encap"]%string ++ [v]). { intros v E. rewrite E in B. discriminate B. }
      destruct IH as [(pre & u & post & v & -> & N1 & Pu & Ev)|[N1 Ev]].
      + left. exists (t :: pre), u, post, v. split; [reflexivity|]. split; [|now split]. intros x v' [<-|Hx]; [apply NT|now apply N1].
      + right. split; [|exact Ev]. intros x v' [<-|Hx]; [apply NT|now apply N1]. }
  split; [exact A|]. unfold has_manual_switch_trunk_encap. destruct A as [(pre & t & post & v & E & N1 & Pt & Ev)|[N1 Ev]]; injection Ev as ->.
  - split; [intros _; exists t, v; split; [rewrite E; apply in_elt|exact Pt]|]. intros _. destruct v as [|x v]; [exfalso|reflexivity].
    apply words_line in Pt as [FW _]; [|discriminate]. rewrite Forall_forall in FW. destruct (FW []) as [K _]; [do 3 right; now left|congruence].
  - split; [discriminate|]. intros (t & v & It & Pt). now apply (N1 t v It) in Pt.
Qed.
Print Assumptions C75_encap.

(** The flag of DTP is never true: a line that does not match counts like one that does. *)
Definition dtp_re : re := RCat (RStar true (RSet sp)) (RCat (RGrp 1 (chars (lit "switchport") (RCat (RSet sp) (chars (lit "noneg") (RStar true (RSet ns)))))) (RCat (RStar true (RSet sp)) REol)).
Lemma dtp_reads : reads_re (lit "^\s*(switchport\snoneg\S*)\s*$") dtp_re 1.
Proof. reflexivity. Qed.
Theorem C75_negotiation_is_seen_refuted : forall kids,
  has_dtp kids = (do s <- is_switchport kids; Ok false) /\
  exists ks, is_switch ks /\ (forall t w, In t ks -> In w (words t) -> w <> lit "nonegotiate") /\ has_dtp ks = Ok false.
Proof.
  intros kids. split.
  - unfold has_dtp. destruct (is_switchport kids) as [b|e] eqn:Eb; cbn [bind]; [|reflexivity]. destruct b; cbn [negb]; [|reflexivity]. destruct kids as [|t kids]; [discriminate Eb|]. cbn [dtp_loop].
    assert (K : exists v, re_match1 "^\s*(switchport\snoneg\S*)\s*$" t = Ok (Some v)); [|destruct K as (v & ->); reflexivity].
    unfold re_match1. destruct (rx_find (pattern false (lit "^\s*(switchport\snoneg\S*)\s*$")) t) as [m|] eqn:Fm; [|now exists []].
    destruct (re_shape _ _ _ _ _ dtp_reads Fm) as (i & s & c & HM & Eg). apply M_cat_iff in HM as (i1 & s1 & c1 & _ & HM). apply M_cat_iff in HM as (i2 & s2 & c2 & H1 & HM). apply M_grp_iff in H1 as (w & c3 & _ & _ & -> & _).
    apply M_cat_iff in HM as (i4 & s4 & c4 & H1 & HM). apply M_star_iff in H1 as (w1 & _ & _ & _ & ->). apply M_eol_iff in HM as (_ & _ & _ & ->). exists w. unfold group. rewrite Eg. reflexivity.
  - exists [lit " switchport"; lit " switchport mode trunk"]. split; [|split].
    + exists (lit " switchport"). split; [now left|]. now exists [].
    + intros t w [<-|[<-|[]]] Iw; cbn in Iw; repeat (destruct Iw as [<-|Iw]; [discriminate|]); destruct Iw.
    + vm_compute. reflexivity.
Qed.
Print Assumptions C75_negotiation_is_seen_refuted.
(** The keyword of the configuration is "encapsulation", and it is not seen. *)
Theorem C75_encapsulation_is_seen_refuted : exists kids, In (lit " switchport trunk encapsulation dot1q") kids /\
  manual_switch_trunk_encap kids = [] /\ has_manual_switch_trunk_encap kids = false.
Proof. exists [lit " switchport trunk encapsulation dot1q"]. split; [now left|]. now split. Qed.
Print Assumptions C75_encapsulation_is_seen_refuted.
(** The text of the address of the interface need not be that of an address. *)
Theorem C75_addr_is_an_address_refuted : exists t v, ipv6_addr (lit "interface GigabitEthernet0/1") [t] = Ok v /\ v <> [] /\ says_below [lit "ipv6"; lit "address"; lit "FE80::1"; lit "link-local"] t /\ forall n, ~ v6_text v n.
Proof.
  exists (lit " ipv6 address FE80::1 link-local"), (lit "FE80::1 link-local"). split; [vm_compute; reflexivity|]. split; [discriminate|]. split.
  - exists [" "%char], (lit "ipv6 address FE80::1 link-local"), []. split; [reflexivity|]. split; [now split|]. split; [|reflexivity].
    apply (ph_more (lit "ipv6") [" "%char] _ (lit "address FE80::1 link-local")); [now split|]. apply (ph_more (lit "address") [" "%char] _ (lit "FE80::1 link-local")); [now split|]. apply (ph_more (lit "FE80::1") [" "%char] _ (lit "link-local")); [now split|]. constructor.
  - intros n V. apply text_word in V as [_ V]. discriminate V.
Qed.
Print Assumptions C75_addr_is_an_address_refuted.

(** ** Cases *)
Definition port : str := lit "interface GigabitEthernet0/1".
Example port_object : ipv6_addr_object port (map lit [" description x"; " ipv6 address 2001:DB8::1/64 eui-64"; " ipv6 address 2001:DB8::2/48"]%string) = Ok (Some (obj 128 (value [8193; 3512; 0; 0; 0; 0; 0; 1]) 64)) /\
  ipv6_masklength port (map lit [" ipv6 address 2001:DB8::2/48"]%string) = Ok 48 /\
  ipv6_addr_object port (map lit [" ipv6 address FE80::1 link-local"]%string) = Ok None /\
  ipv6_masklength port (map lit [" ipv6 address dhcp/3"]%string) = Ok 0 /\
  ipv6_addr_object port (map lit [" ipv6 address 2001:DB8::2/129"]%string) = Err ValueError.
Proof. vm_compute. repeat split. Qed.
Example port_line : addr6_line (lit " ipv6 address 2001:DB8::1/64 eui-64") (lit "2001:DB8::1") (lit "64") /\ v6_text (lit "2001:DB8::1") (value [8193; 3512; 0; 0; 0; 0; 0; 1]) /\ addr6_text (lit " ipv6 address FE80::1 link-local") (lit "FE80::1 link-local") /\
  secondary_line (lit " ip address 10.0.0.1 255.0.0.0 secondary") (dotted 167772161) (dotted (mask_of 8)) /\ dynamic6 "autoconfig" (lit " ipv6 address autoconfig ").
Proof.
  assert (GP : gap [" "%char]) by now split. split; [|split; [|split; [|split]]].
  - split; [now split|]. split; [now split|]. split.
    + intros u d v E _. apply (f_equal (has_char "/")) in E. unfold has_char in E at 2. rewrite existsb_app in E. cbn [existsb Ascii.eqb Bool.eqb] in E. rewrite orb_true_r in E. discriminate E.
    + exists [" "%char], (lit "ipv6 address 2001:DB8::1/64"), (lit " eui-64"). split; [reflexivity|]. split; [exact GP|]. split; [|reflexivity].
      apply (ph_more (lit "ipv6") [" "%char] _ (lit "address 2001:DB8::1/64") GP). apply (ph_more (lit "address") [" "%char] _ (lit "2001:DB8::1/64") GP). constructor.
  - apply Ip6Facts.addr6_sound. vm_compute. reflexivity.
  - split; [reflexivity|]. split.
    + exists [" "%char], (lit "ipv6 address FE80::1 link-local"), []. split; [reflexivity|]. split; [exact GP|]. split; [|now left].
      apply (ph_more (lit "ipv6") [" "%char] _ (lit "address FE80::1 link-local") GP). apply (ph_more (lit "address") [" "%char] _ (lit "FE80::1 link-local") GP). constructor.
    + eexists _, _. split; [reflexivity|now left].
  - split; [now split|]. split; [now split|]. exists [" "%char], (lit "ip address 10.0.0.1 255.0.0.0 secondary"), []. split; [reflexivity|]. split; [reflexivity|]. split; [|reflexivity].
    apply (ph_more (lit "ip") [" "%char] _ (lit "address 10.0.0.1 255.0.0.0 secondary") GP). apply (ph_more (lit "address") [" "%char] _ (lit "10.0.0.1 255.0.0.0 secondary") GP). apply (ph_more (lit "10.0.0.1") [" "%char] _ (lit "255.0.0.0 secondary") GP). apply (ph_more (lit "255.0.0.0") [" "%char] _ (lit "secondary") GP). constructor.
  - exists [" "%char], (lit "ipv6 address autoconfig"), [" "%char]. split; [reflexivity|]. split; [exact GP|]. split; [|reflexivity].
    apply (ph_more (lit "ipv6") [" "%char] _ (lit "address autoconfig") GP). apply (ph_more (lit "address") [" "%char] _ (lit "autoconfig") GP). constructor.
Qed.
Example port_addr : ipv6_addr port (map lit [" ipv6 address 2001:DB8::1/64"; " ipv6 address 2001:DB8::2/64"]%string) = Ok (lit "2001:DB8::1") /\
  ipv6_addr port (map lit [" ipv6 address 2001:DB8::1/64"; " ipv6 address autoconfig"]%string) = Ok [] /\ ipv6_addr port (map lit [" ipv6 address   /64"]%string) = Ok [" "%char] /\ ipv6_addr port (map lit [" ipv6 address /64"]%string) = Ok [].
Proof. vm_compute. repeat split. Qed.
Example port_secondary : let fam := map (fun t => (lit t, [])) [" ip address 10.0.0.1 255.0.0.0"; " ip address 10.1.0.1 255.255.0.0 secondary"; " ip address 10.2.0.1  255.255.255.0 secondary "]%string in
  ip_secondary_addresses fam = Ok (map lit ["10.1.0.1"; "10.2.0.1"]%string) /\ ip_secondary_networks fam = Ok (map lit ["10.1.0.1/16"; "10.2.0.1/24"]%string).
Proof. vm_compute. repeat split. Qed.
Example port_flags : let kids := map lit [" switchport"; " switchport mode trunk"; " switchport trunk encap dot1q"; " switchport port-security maximum 2"; " storm-control broadcast level 1"; " no cdp enable"; " mac access-group M in"]%string in
  Forall (fun t => words t <> []) kids /\ has_manual_switch_trunk kids = true /\ has_switch_portsecurity kids = Ok true /\ has_switch_stormcontrol kids = Ok true /\ has_manual_disable_cdp kids = true /\
  has_mac_accessgroup_in port kids kids = Ok true /\ has_mac_accessgroup_out port kids kids = Ok false /\ manual_switch_trunk_encap kids = lit "dot1q" /\ has_switch_stormcontrol (map lit [" storm-control broadcast level 1"]%string) = Ok false.
Proof. split; [repeat (constructor; [discriminate|]); constructor|]. vm_compute. repeat split. Qed.
