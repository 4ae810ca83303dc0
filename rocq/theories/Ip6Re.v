(** The pattern of IPv6 texts, and what it finds. *)
From Coq Require Import Ascii String Arith NArith ZArith Bool List Lia.
From Verif Require Import PyStr PyStrFacts PyBase SearchModel IpModel IntfSpec IntfFacts IntfRe PyRe PyReFacts PyReTmpl PyReSent PyReLazy PyReGets PJunosRe PIpRe Ip6TextModel Ip6TextSpec Ip6Facts.
Import ListNotations.
Local Open Scope char_scope.

Definition hx : cset := mkSet false false [CRange "0" "9"; CRange "a" "f"; CRange "A" "F"].
Definition hxc : cset := mkSet false false [CRange "0" "9"; CRange "a" "f"; CRange "A" "F"; CRange ":" ":"].
Definition sl : cset := mkSet false false [CRange "/" "/"; CSpace].
Definition hg : re := rrep 1 4 (RSet hx).
Definition gc : re := RCat hg (chr ":").
Definition cg : re := RCat (chr ":") hg.
Definition opt1 : re := RGrp 2 (RCat hg (rrep 7 7 cg)).
Definition opt2 : re := RGrp 3 (RCat (rplus false (RSet hxc)) quad0).
Definition optk (k : nat) : re := RGrp (3 + k) (RCat (rrep k k gc) (rrep 1 (7 - k) cg)).
Definition opt9 : re := RGrp 10 (RCat (chr ":") (rrep 1 7 cg)).
Definition opt10 : re := RGrp 11 (RCat (rrep 1 7 gc) (chr ":")).
Definition opt11 : re := RGrp 12 (RCat (chr ":") (chr ":")).
Definition mask_re : re := RStar true (RGrp 13 (RCat (RSet sl) (RGrp 14 digits_re))).
Definition re6 : re := RCat (RGrp 1 (RAlt opt1 (RAlt opt2 (RAlt (optk 1) (RAlt (optk 2) (RAlt (optk 3) (RAlt (optk 4) (RAlt (optk 5) (RAlt (optk 6) (RAlt opt9 (RAlt opt10 opt11))))))))))) mask_re.
Definition look_re : re := RCat (chr ":") (RCat (chr ":") (RCat (chr ":") (RCat (rplus false (RSet ns)) REol))).
Definition names6 : list (str * nat) := [(lit "masklen", 14); (lit "opt11", 12); (lit "opt10", 11); (lit "opt9", 10); (lit "opt8", 9); (lit "opt7", 8); (lit "opt6", 7); (lit "opt5", 6); (lit "opt4", 5); (lit "opt3", 4); (lit "opt2", 3); (lit "opt1", 2); (lit "addr", 1)].
Lemma reads6 : compile false pattern6 = Some (re6, (14, names6)).
Proof. vm_compute. reflexivity. Qed.
Lemma look_reads : compile false (lit look6) = Some (look_re, (0, [])).
Proof. vm_compute. reflexivity. Qed.

(** ** Sets *)
Lemma in_hx c : in_set hx c = is_hex c.
Proof. destruct c as [[] [] [] [] [] [] [] []]; reflexivity. Qed.
Lemma in_hxc c : in_set hxc c = (is_hex c || Ascii.eqb c ":")%bool.
Proof. destruct c as [[] [] [] [] [] [] [] []]; reflexivity. Qed.
Lemma all_hx w : all_in hx w <-> forallb is_hex w = true.
Proof. unfold all_in. rewrite forallb_forall, Forall_forall. split; intros K x I; specialize (K x I); rewrite in_hx in *; exact K. Qed.
Definition hexes (h : str) : Prop := h <> [] /\ forallb is_hex h = true /\ length h <= 4.
Lemma hextet_hexes h v : hextet h v -> hexes h.
Proof. intros HT. pose proof (hextet_nonnil _ _ HT). destruct HT as [HN L]. apply hex_number_chars in HN. now repeat split. Qed.
Lemma hextets_hexes l vs : Forall2 hextet l vs -> Forall hexes l.
Proof. induction 1 as [|h v l vs F _ IH]; constructor; [exact (hextet_hexes _ _ F)|exact IH]. Qed.
Lemma digit_hex c : is_digit c = true -> is_hex c = true.
Proof. destruct c as [[] [] [] [] [] [] [] []]; intros K; try discriminate K; reflexivity. Qed.
Lemma digits_hex d : forallb is_digit d = true -> forallb is_hex d = true.
Proof. rewrite !forallb_forall. intros F x I. apply digit_hex, F, I. Qed.
(** The characters [a] up to the first one that is not a hexadecimal digit *)
Lemma hex_cut a b x y s z : forallb is_hex a = true -> forallb is_hex b = true -> is_hex x = false -> is_hex y = false -> a ++ x :: s = b ++ y :: z -> a = b /\ x = y /\ s = z.
Proof.
  intros FA FB X Y. revert b FB. induction a as [|c a IH]; intros [|d b] FB E; cbn [app] in E; injection E as E1 E2; subst.
  - auto.
  - cbn in FB. rewrite X in FB. discriminate FB.
  - cbn in FA. rewrite Y in FA. discriminate FA.
  - cbn [forallb] in FA, FB. apply andb_true_iff in FA as [_ FA], FB as [_ FB]. destruct (IH FA b FB E2) as (-> & -> & ->). auto.
Qed.
Definition no_hex (s : str) : Prop := match s with [] => True | c :: _ => is_hex c = false end.
Lemma no_hex_stops s : no_hex s -> PyReTmpl.stops hx s.
Proof. destruct s; [auto|]. cbn [no_hex]. unfold PyReTmpl.stops. rewrite in_hx. auto. Qed.

(** ** Repetition *)
Lemma M_upto n q i s c i' s' c' : M (rupto n (RSet q)) i s c i' s' c' -> exists w, s = w ++ s' /\ all_in q w /\ length w <= n /\ i' = i + length w /\ c' = c.
Proof.
  revert i s. induction n as [|n IH]; intros i s HM; cbn [rupto] in HM.
  - apply M_eps_iff in HM as (-> & -> & ->). exists []. repeat split; [constructor|cbn; lia|cbn; lia].
  - unfold ropt in HM. apply M_alt_iff in HM as [HM|HM].
    + apply M_cat_iff in HM as (i1 & s1 & c1 & HM & HM2). apply M_set_iff in HM as (x & -> & X & -> & ->). apply IH in HM2 as (w & -> & F & L & -> & ->). exists (x :: w). repeat split; [now constructor|cbn; lia|cbn; lia].
    + apply M_eps_iff in HM as (-> & -> & ->). exists []. repeat split; [constructor|cbn; lia|cbn; lia].
Qed.
Lemma gets_upto n q i w s c : all_in q w -> length w <= n -> PyReTmpl.stops q s -> gets (rupto n (RSet q)) i (w ++ s) c (i + length w) s c.
Proof.
  revert i w. induction n as [|n IH]; intros i w F L St; cbn [rupto].
  - destruct w; [|cbn in L; lia]. cbn. rewrite Nat.add_0_r. apply gets_eps.
  - destruct w as [|x w].
    + cbn [app length]. rewrite Nat.add_0_r. apply gets_skip. intros i' s' c' HM. apply M_cat_iff in HM as (i1 & s1 & c1 & HM & _). apply M_set_iff in HM as (x & -> & X & _). unfold PyReTmpl.stops in St. congruence.
    + inversion F as [|? ? F0 F1]; subst. apply gets_opt. cbn [app]. eapply gets_cat; [now apply gets_set|]. replace (i + length (x :: w)) with (S i + length w) by (cbn; lia). apply IH; [exact F1|cbn in L; lia|exact St].
Qed.
Lemma M_hg i s c i' s' c' : M hg i s c i' s' c' -> exists h, s = h ++ s' /\ hexes h /\ i' = i + length h /\ c' = c.
Proof.
  unfold hg, rrep. change (4 - 1) with 3. cbn [rtimes]. intros HM. apply M_cat_iff in HM as (i1 & s1 & c1 & HM & HM2). apply M_set_iff in HM as (x & -> & X & -> & ->). apply M_upto in HM2 as (w & -> & F & L & -> & ->).
  exists (x :: w). split; [reflexivity|]. split; [|split; [cbn; lia|reflexivity]]. split; [discriminate|]. rewrite in_hx in X. apply all_hx in F. cbn [forallb]. rewrite X, F. split; [reflexivity|cbn; lia].
Qed.
Lemma gets_hg i h s c : hexes h -> no_hex s -> gets hg i (h ++ s) c (i + length h) s c.
Proof.
  intros (NH & F & L) St. destruct h as [|x h]; [congruence|]. cbn [forallb] in F. apply andb_true_iff in F as [X F]. unfold hg, rrep. change (4 - 1) with 3. cbn [rtimes app].
  eapply gets_cat; [apply gets_set; now rewrite in_hx|]. replace (i + length (x :: h)) with (S i + length h) by (cbn; lia). apply gets_upto; [now apply all_hx|cbn in L; lia|now apply no_hex_stops].
Qed.
Lemma gets_chr x i s c : gets (chr x) i (x :: s) c (S i) s c.
Proof. apply gets_set. now apply in_chr. Qed.

Definition gcs (l : list str) : str := concat (map (fun h => h ++ [":"]) l).
Definition cgs (l : list str) : str := concat (map (fun h => ":" :: h) l).
Lemma gcs_cons h l s : gcs (h :: l) ++ s = h ++ ":" :: gcs l ++ s.
Proof. unfold gcs. cbn [map concat]. now rewrite <- !app_assoc. Qed.
Lemma cgs_cons h l s : cgs (h :: l) ++ s = ":" :: h ++ cgs l ++ s.
Proof. unfold cgs. cbn [map concat app]. now rewrite <- !app_assoc. Qed.
Lemma gets_gc i h s c : hexes h -> gets gc i (h ++ ":" :: s) c (i + length h + 1) s c.
Proof. intros HH. unfold gc. eapply gets_cat; [apply gets_hg; [exact HH|reflexivity]|]. replace (i + length h + 1) with (S (i + length h)) by lia. apply gets_chr. Qed.
Lemma gets_cg i h s c : hexes h -> no_hex s -> gets cg i (":" :: h ++ s) c (i + 1 + length h) s c.
Proof. intros HH St. unfold cg. eapply gets_cat; [apply gets_chr|]. replace (i + 1 + length h) with (S i + length h) by lia. now apply gets_hg. Qed.
Lemma gcs_len h l : length (gcs (h :: l)) = length h + 1 + length (gcs l).
Proof. unfold gcs. cbn [map concat]. rewrite !app_length. reflexivity. Qed.
Lemma cgs_len h l : length (cgs (h :: l)) = 1 + length h + length (cgs l).
Proof. unfold cgs. cbn [map concat app length]. rewrite !app_length. reflexivity. Qed.
Lemma gets_gcs l r i s c i' s' c' : Forall hexes l -> gets r (i + length (gcs l)) s c i' s' c' -> gets (rtimes (length l) gc r) i (gcs l ++ s) c i' s' c'.
Proof.
  revert i. induction l as [|h l IH]; intros i F G0; [cbn [length rtimes] in *; cbn in G0; rewrite Nat.add_0_r in G0; exact G0|]. inversion F as [|? ? F0 F1]; subst. rewrite gcs_cons. cbn [length rtimes].
  eapply gets_cat; [apply gets_gc, F0|]. apply IH; [exact F1|]. rewrite gcs_len in G0. replace (i + length h + 1 + length (gcs l)) with (i + (length h + 1 + length (gcs l))) by lia. exact G0.
Qed.
Lemma no_hex_cgs l s : no_hex s -> no_hex (cgs l ++ s).
Proof. destruct l; [auto|]. intros _. reflexivity. Qed.
Lemma gets_cgs l r i s c i' s' c' : Forall hexes l -> no_hex s -> gets r (i + length (cgs l)) s c i' s' c' -> gets (rtimes (length l) cg r) i (cgs l ++ s) c i' s' c'.
Proof.
  revert i. induction l as [|h l IH]; intros i F St G0; [cbn [length rtimes] in *; cbn in G0; rewrite Nat.add_0_r in G0; exact G0|]. inversion F as [|? ? F0 F1]; subst. rewrite cgs_cons. cbn [length rtimes].
  eapply gets_cat; [apply gets_cg; [exact F0|now apply no_hex_cgs]|]. apply IH; [exact F1|exact St|]. rewrite cgs_len in G0. replace (i + 1 + length h + length (cgs l)) with (i + (1 + length h + length (cgs l))) by lia. exact G0.
Qed.
Lemma no_gc i s c i' s' c' : no_hex s -> ~ M gc i s c i' s' c'.
Proof.
  intros St HM. apply M_cat_iff in HM as (i1 & s1 & c1 & HM & _). apply M_hg in HM as (h & -> & (NH & F & _) & _). destruct h as [|x h]; [congruence|]. cbn in St, F. rewrite St in F. discriminate F.
Qed.
Definition no_colon (s : str) : Prop := match s with [] => True | c :: _ => c <> ":" end.
Lemma no_cg i s c i' s' c' : no_colon s -> ~ M cg i s c i' s' c'.
Proof. intros St HM. apply M_cat_iff in HM as (i1 & s1 & c1 & HM & _). apply M_chr_iff in HM as (-> & _). now apply St. Qed.
Lemma no_cg2 i s c i' s' c' : no_hex s -> ~ M cg i (":" :: s) c i' s' c'.
Proof.
  intros St HM. apply M_cat_iff in HM as (i1 & s1 & c1 & HM & HM2). apply M_chr_iff in HM as (E & _). injection E as ->. apply M_hg in HM2 as (h & -> & (NH & F & _) & _). destruct h as [|x h]; [congruence|]. cbn in St, F. rewrite St in F. discriminate F.
Qed.
Lemma gets_gcs_upto l n i s c : Forall hexes l -> length l <= n -> no_hex s -> gets (rupto n gc) i (gcs l ++ s) c (i + length (gcs l)) s c.
Proof.
  revert n i. induction l as [|h l IH]; intros n i F L St.
  - cbn [gcs map concat length app]. rewrite Nat.add_0_r. destruct n as [|n]; cbn [rupto]; [apply gets_eps|]. apply gets_skip. intros i' s' c' HM. apply M_cat_iff in HM as (i1 & s1 & c1 & HM & _). now apply no_gc in HM.
  - inversion F as [|? ? F0 F1]; subst. destruct n as [|n]; [cbn in L; lia|]. cbn [rupto]. apply gets_opt. rewrite gcs_cons. eapply gets_cat; [apply gets_gc, F0|]. rewrite gcs_len.
    replace (i + (length h + 1 + length (gcs l))) with (i + length h + 1 + length (gcs l)) by lia. apply IH; [exact F1|cbn in L; lia|exact St].
Qed.
Lemma gets_cgs_upto l n i s c : Forall hexes l -> length l <= n -> no_hex s -> no_colon s -> gets (rupto n cg) i (cgs l ++ s) c (i + length (cgs l)) s c.
Proof.
  revert n i. induction l as [|h l IH]; intros n i F L St Sc.
  - cbn [cgs map concat length app]. rewrite Nat.add_0_r. destruct n as [|n]; cbn [rupto]; [apply gets_eps|]. apply gets_skip. intros i' s' c' HM. apply M_cat_iff in HM as (i1 & s1 & c1 & HM & _). now apply no_cg in HM.
  - inversion F as [|? ? F0 F1]; subst. destruct n as [|n]; [cbn in L; lia|]. cbn [rupto]. apply gets_opt. rewrite cgs_cons. eapply gets_cat; [apply gets_cg; [exact F0|now apply no_hex_cgs]|]. rewrite cgs_len.
    replace (i + (1 + length h + length (cgs l))) with (i + 1 + length h + length (cgs l)) by lia. apply IH; [exact F1|cbn in L; lia|exact St|exact Sc].
Qed.
Lemma gets_cgs_rep l n i s c : Forall hexes l -> 1 <= length l <= n -> no_hex s -> no_colon s -> gets (rrep 1 n cg) i (cgs l ++ s) c (i + length (cgs l)) s c.
Proof.
  intros F L St Sc. destruct l as [|h l]; [cbn in L; lia|]. inversion F as [|? ? F0 F1]; subst. unfold rrep. cbn [rtimes]. rewrite cgs_cons. eapply gets_cat; [apply gets_cg; [exact F0|now apply no_hex_cgs]|]. rewrite cgs_len.
  replace (i + (1 + length h + length (cgs l))) with (i + 1 + length h + length (cgs l)) by lia. apply gets_cgs_upto; try assumption. cbn in L. lia.
Qed.
Lemma gets_gcs_rep l n i s c : Forall hexes l -> 1 <= length l <= n -> no_hex s -> gets (rrep 1 n gc) i (gcs l ++ s) c (i + length (gcs l)) s c.
Proof.
  intros F L St. destruct l as [|h l]; [cbn in L; lia|]. inversion F as [|? ? F0 F1]; subst. unfold rrep. cbn [rtimes]. rewrite gcs_cons. eapply gets_cat; [apply gets_gc; exact F0|]. rewrite gcs_len.
  replace (i + (length h + 1 + length (gcs l))) with (i + length h + 1 + length (gcs l)) by lia. apply gets_gcs_upto; try assumption. cbn in L. lia.
Qed.

(** ** What does not match *)
Lemma M_gc i s c i' s' c' : M gc i s c i' s' c' -> exists h, s = h ++ ":" :: s' /\ hexes h /\ c' = c.
Proof. intros HM. apply M_cat_iff in HM as (i1 & s1 & c1 & HM & HM2). apply M_hg in HM as (h & -> & HH & _ & ->). apply M_chr_iff in HM2 as (-> & _ & ->). now exists h. Qed.
Lemma M_gcs m l : forall i s c i' s' c', Forall hexes l -> M (rtimes m gc REps) i (gcs l ++ s) c i' s' c' ->
  (m <= length l /\ s' = gcs (skipn m l) ++ s) \/ (length l < m /\ exists i1 c1 h s1, s = h ++ ":" :: s1 /\ hexes h /\ M (rtimes (m - length l - 1) gc REps) i1 s1 c1 i' s' c').
Proof.
  revert l. induction m as [|m IH]; intros l i s c i' s' c' F HM; cbn [rtimes] in HM.
  - apply M_eps_iff in HM as (-> & -> & ->). left. split; [lia|reflexivity].
  - apply M_cat_iff in HM as (i1 & s1 & c1 & HM & HM2). destruct l as [|h l].
    + right. split; [cbn; lia|]. apply M_gc in HM as (h & E & HH & ->). cbn in E. exists i1, c, h, s1. split; [exact E|]. split; [exact HH|]. cbn [length]. replace (S m - 0 - 1) with m by lia. exact HM2.
    + inversion F as [|? ? F0 F1]; subst. apply M_gc in HM as (h' & E & HH & ->). rewrite gcs_cons in E. apply hex_cut in E as (<- & _ & <-); [|apply F0|apply HH|reflexivity|reflexivity].
      apply IH in HM2; [|exact F1]. destruct HM2 as [(L & ->)|(L & R)]; [left|right]; cbn [length skipn]; (split; [lia|]); [reflexivity|]. replace (S m - S (length l) - 1) with (m - length l - 1) by lia. exact R.
Qed.
Lemma head_hexes h s : hexes h -> no_colon (h ++ s).
Proof. intros (NH & F & _). destruct h as [|x h]; [congruence|]. cbn in F |- *. intros ->. discriminate F. Qed.
Lemma no_optk k l i x c i' s' c' : Forall hexes l -> (k <> length l \/ no_hex x) -> ~ M (optk k) i (gcs l ++ ":" :: x) c i' s' c'.
Proof.
  intros F NK HM. unfold optk in HM. apply M_grp_iff in HM as (w & c1 & _ & _ & _ & HM). apply M_cat_iff in HM as (i1 & s1 & c2 & HM & HM2). unfold rrep in HM, HM2. rewrite Nat.sub_diag in HM. cbn [rupto] in HM. cbn [rtimes] in HM2.
  apply M_cat_iff in HM2 as (i2 & s2 & c3 & HM2 & _). apply M_gcs in HM; [|exact F]. destruct HM as [(L & ->)|(L & i3 & c4 & h & s3 & E & (NH & FH & _) & _)].
  - destruct (skipn k l) as [|h l'] eqn:SK.
    + destruct NK as [NK|NK]; [apply (f_equal (@length str)) in SK; rewrite skipn_length in SK; cbn in SK; lia|]. cbn [gcs map concat app] in HM2. now apply no_cg2 in HM2.
    + rewrite gcs_cons in HM2. apply no_cg in HM2; [exact HM2|]. apply head_hexes. eapply Forall_forall in F; [exact F|]. rewrite <- (firstn_skipn k l), SK. apply in_or_app. right. now left.
  - destruct h as [|y h]; [congruence|]. injection E as <- _. discriminate FH.
Qed.
(** Eight groups without "::" *)
Lemma no_opt1_body l m : forall i y c i' s' c', Forall hexes l -> (length l < m -> forall h s, hexes h -> y <> h ++ ":" :: s) -> (length l = m -> no_hex y) -> length l <= m ->
  ~ M (RCat hg (rtimes m cg REps)) i (gcs l ++ y) c i' s' c'.
Proof.
  revert l. induction m as [|m IH]; intros l i y c i' s' c' F N1 N2 L HM; apply M_cat_iff in HM as (i1 & s1 & c1 & HM & HM2); apply M_hg in HM as (h & E & HH & -> & ->).
  - destruct l; [|cbn in L; lia]. cbn in E. destruct h as [|x h]; [now destruct HH|]. subst y. specialize (N2 eq_refl). cbn in N2. destruct HH as (_ & HF & _). cbn in HF. rewrite N2 in HF. discriminate HF.
  - cbn [rtimes] in HM2. apply M_cat_iff in HM2 as (i2 & s2 & c2 & HM2 & HM3). apply M_cat_iff in HM2 as (i3 & s3 & c3 & HM2 & HM4). apply M_chr_iff in HM2 as (-> & -> & ->). destruct l as [|g l].
    + cbn in E. apply (N1 ltac:(cbn; lia) h s3 HH E).
    + inversion F as [|? ? F0 F1]; subst. rewrite gcs_cons in E. apply hex_cut in E as (<- & _ & <-); [|apply F0|apply HH|reflexivity|reflexivity].
      apply (IH l (S (i + length g)) y c i' s' c' F1); [intros L'; apply N1; cbn; lia|intros L'; apply N2; cbn; lia|cbn in L; lia|]. apply M_cat_iff. eauto.
Qed.
Lemma no_opt1 l i y c i' s' c' : Forall hexes l -> (length l < 7 -> forall h s, hexes h -> y <> h ++ ":" :: s) -> (length l = 7 -> no_hex y) -> length l <= 7 -> ~ M opt1 i (gcs l ++ y) c i' s' c'.
Proof. intros F N1 N2 L HM. unfold opt1 in HM. apply M_grp_iff in HM as (w & c1 & _ & _ & _ & HM). exact (no_opt1_body l 7 _ _ _ _ _ _ F N1 N2 L HM). Qed.
Lemma no_opt2 i s c i' s' c' : ~ In "." s -> ~ M opt2 i s c i' s' c'.
Proof.
  intros ND HM. unfold opt2 in HM. apply M_grp_iff in HM as (w & c1 & _ & _ & _ & HM). apply M_cat_iff in HM as (i1 & s1 & c2 & HM & HM2). apply M_consumes in HM as (w' & -> & _). apply M_quad0 in HM2 as (q & -> & Q & _). apply ND. apply in_or_app. right. apply in_or_app. left. now apply PIpRe.quad_dot.
Qed.
Lemma no_opt9 i s c i' s' c' : (no_colon s \/ exists x, s = ":" :: ":" :: x /\ no_hex x) -> ~ M opt9 i s c i' s' c'.
Proof.
  intros NS HM. unfold opt9 in HM. apply M_grp_iff in HM as (w & c1 & _ & _ & _ & HM). apply M_cat_iff in HM as (i1 & s1 & c2 & HM & HM2). apply M_chr_iff in HM as (E & _). destruct NS as [NS|(x & -> & Hx)].
  - rewrite E in NS. now apply NS.
  - injection E as <-. unfold rrep in HM2. cbn [rtimes] in HM2. apply M_cat_iff in HM2 as (i2 & s2 & c3 & HM2 & _). now apply no_cg2 in HM2.
Qed.
Lemma no_opt10 i s c i' s' c' : no_hex s -> ~ M opt10 i s c i' s' c'.
Proof.
  intros NS HM. unfold opt10 in HM. apply M_grp_iff in HM as (w & c1 & _ & _ & _ & HM). apply M_cat_iff in HM as (i1 & s1 & c2 & HM & HM2). unfold rrep in HM. cbn [rtimes] in HM. apply M_cat_iff in HM as (i2 & s2 & c3 & HM & _). now apply no_gc in HM.
Qed.

(** ** What matches *)
Lemma gets_digits i d s c : some_digits d -> not_digit s -> gets digits_re i (d ++ s) c (i + length d) s c.
Proof.
  intros (ND & F) St. apply gets_plus; [exact ND|now apply all_dg|]. destruct s as [|x s]; [exact I|]. cbn in St. unfold PyReTmpl.stops. now rewrite in_dg.
Qed.
Lemma gets_quad0 i q s c : quad q -> not_digit s -> gets quad0 i (q ++ s) c (i + length q) s c.
Proof.
  intros (a & b & g & d & A0 & B0 & C0 & D0 & ->) St. unfold quad0, quad_re. rewrite <- !app_assoc. cbn [app]. rewrite <- !app_assoc. cbn [app]. rewrite <- !app_assoc. cbn [app].
  eapply gets_cat; [apply gets_digits; [exact A0|reflexivity]|]. eapply gets_cat; [apply gets_chr|]. eapply gets_cat; [apply gets_digits; [exact B0|reflexivity]|]. eapply gets_cat; [apply gets_chr|].
  eapply gets_cat; [apply gets_digits; [exact C0|reflexivity]|]. eapply gets_cat; [apply gets_chr|].
  replace (i + length (a ++ "." :: b ++ "." :: g ++ "." :: d)) with (S (S (S (i + length a) + length b) + length g) + length d); [now apply gets_digits|].
  rewrite !app_length. cbn [length]. rewrite !app_length. cbn [length]. rewrite !app_length. cbn [length]. lia.
Qed.
Lemma dot_cut (a b : str) x s z : ~ In x a -> ~ In x b -> a ++ x :: s = b ++ x :: z -> a = b /\ s = z.
Proof.
  revert b. induction a as [|c a IH]; intros [|d b] NA NB E; cbn [app] in E.
  - injection E as ->. auto.
  - injection E as -> _. exfalso. apply NB. now left.
  - injection E as -> _. exfalso. apply NA. now left.
  - injection E as -> E. destruct (IH b) as (-> & ->); [intros I; apply NA; now right|intros I; apply NB; now right|exact E|]. auto.
Qed.
Lemma digits_not d x : forallb is_digit d = true -> is_digit x = false -> ~ In x d.
Proof. intros F X I. rewrite forallb_forall in F. apply F in I. congruence. Qed.
Lemma gets_opt2 i u q s c : u <> [] -> forallb (fun x => is_hex x || Ascii.eqb x ":")%bool u = true -> (exists u', u = u' ++ [":"]) -> quad q -> not_digit s ->
  gets opt2 i (u ++ q ++ s) c (i + length (u ++ q)) s ((3, u ++ q) :: c).
Proof.
  intros NU F (u' & EU) Q St. unfold opt2. rewrite app_assoc. apply gets_grp; [reflexivity|]. rewrite <- app_assoc. destruct u as [|x u]; [congruence|]. cbn [forallb] in F. apply andb_true_iff in F as [X F].
  intros R k y K. rewrite mat_cat. unfold rplus. rewrite mat_cat. cbn [app]. rewrite set_step by (rewrite in_hxc; exact X). apply lazy_first.
  - apply Forall_forall. intros z Iz. rewrite in_hxc. rewrite forallb_forall in F. now apply F.
  - intros w1 w2 E NW. apply mat_none. intros i' s' c' HM. apply M_quad0 in HM as (q' & E' & (a & b & g & d & (NA & FA) & _ & _ & _ & Eq') & _).
    destruct Q as (a0 & b0 & g0 & d0 & (NA0 & FA0) & _ & _ & _ & EQ). rewrite Eq', EQ in E'. rewrite <- !app_assoc in E'. cbn [app] in E'. rewrite app_assoc in E'. symmetry in E'.
    assert (COL : In ":" w2). { destruct (exists_last NW) as (w3 & z & ->). subst u. rewrite app_assoc in EU. destruct u' as [|x' u']; [destruct (w1 ++ w3); discriminate EU|]. injection EU as _ EU. apply app_inj_tail in EU as [_ ->]. apply in_or_app. right. now left. }
    assert (NDOT : ~ In "." w2). { intros I2. assert (I3 : In "." u) by (subst u; apply in_or_app; now right). rewrite forallb_forall in F. apply F in I3. discriminate I3. }
    apply dot_cut in E' as [E' _]; [|now apply digits_not|intros I2; apply in_app_or in I2 as [I2|I2]; [now apply NDOT|revert I2; now apply digits_not]].
    rewrite E', forallb_app in FA. apply andb_true_iff in FA as [FA _]. revert COL. now apply digits_not.
  - apply gets_quad0; [exact Q|exact St|]. replace (S i + length u + length q) with (i + length ((x :: u) ++ q)) by (rewrite app_length; cbn; lia). exact K.
Qed.
Definition sfx (s : str) : Prop := s = [] \/ exists d, some_digits d /\ s = "/" :: d.
Definition mask_caps (s : str) (c : caps) : caps := match s with [] => c | _ :: d => (13, s) :: (14, d) :: c end.
Lemma gets_mask i s c : sfx s -> gets mask_re i s c (i + length s) [] (mask_caps s c).
Proof.
  intros [-> |(d & D0 & ->)] R k x K.
  - cbn [length] in K. rewrite Nat.add_0_r in K. exact K.
  - assert (K2 : forall f, star_loop (mat (RGrp 13 (RCat (RSet sl) (RGrp 14 digits_re)))) true k f (i + S (length d)) [] ((13, "/" :: d) :: (14, d) :: c) = Some x).
    { intros [|f]; cbn [star_loop]; [exact K|]. rewrite mat_none; [exact K|]. intros i' s' c' HM. apply M_grp_iff in HM as (w & c1 & _ & _ & _ & HM). apply M_cat_iff in HM as (i1 & s1 & c2 & HM & _). apply M_set_iff in HM as (y & E & _). discriminate E. }
    unfold mask_re. change (star_loop (mat (RGrp 13 (RCat (RSet sl) (RGrp 14 digits_re)))) true k (S (length d)) i ("/" :: d) c = Some x). rewrite loop_S, mat_grp, mat_cat, set_step, mat_grp by reflexivity.
    pose proof (gets_digits (S i) d [] c D0 I) as G0. rewrite app_nil_r in G0. erewrite G0; [reflexivity|]. cbv beta.
    replace (S i + length d) with (i + S (length d)) by lia. destruct (Nat.eqb_spec (i + S (length d)) i); [lia|].
    replace (i + S (length d) - i) with (length ("/" :: d)) by (cbn; lia). replace (i + S (length d) - S i) with (length d) by lia. rewrite !firstn_all. apply K2.
Qed.
Lemma sfx_no_hex s : sfx s -> no_hex s /\ no_colon s /\ not_digit s /\ ~ In "." s.
Proof.
  intros [-> |(d & (ND & F) & ->)]; cbn; [tauto|]. repeat split; try discriminate. intros [E|I2]; [discriminate E|]. revert I2. now apply digits_not.
Qed.

Definition alts : re := RAlt opt1 (RAlt opt2 (RAlt (optk 1) (RAlt (optk 2) (RAlt (optk 3) (RAlt (optk 4) (RAlt (optk 5) (RAlt (optk 6) (RAlt opt9 (RAlt opt10 opt11))))))))).
Definition takes (t s : str) : Prop := exists j, 2 <= j <= 12 /\ gets alts 0 (t ++ s) [] (length t) s [(j, t)].

Lemma take1 h l s : hexes h -> Forall hexes l -> length l = 7 -> sfx s -> takes (h ++ cgs l) s.
Proof.
  intros HH F L Ss. destruct (sfx_no_hex _ Ss) as (S1 & S2 & S3 & S4). exists 2. split; [lia|]. apply gets_left. unfold opt1. apply gets_grp; [reflexivity|]. rewrite <- app_assoc.
  eapply gets_cat; [apply gets_hg; [exact HH|now apply no_hex_cgs]|]. unfold rrep. rewrite <- L at 1. apply gets_cgs; [exact F|exact S1|]. rewrite app_length. apply gets_eps.
Qed.
Lemma gcs_chars l : Forall hexes l -> forallb (fun x => is_hex x || Ascii.eqb x ":")%bool (gcs l) = true.
Proof.
  induction 1 as [|h l (_ & F & _) _ IH]; [reflexivity|]. unfold gcs. cbn [map concat]. rewrite !forallb_app. fold (gcs l). rewrite IH. cbn. rewrite !andb_true_r.
  rewrite forallb_forall in *. intros x I2. now rewrite (F x I2).
Qed.
Lemma take2_full l q s : Forall hexes l -> length l = 6 -> quad q -> sfx s -> takes (gcs l ++ q) s.
Proof.
  intros F L Q Ss. destruct (sfx_no_hex _ Ss) as (S1 & S2 & S3 & S4). exists 3. split; [lia|]. rewrite <- app_assoc. apply gets_right.
  - intros i' s' c'. apply no_opt1; [exact F| |lia|lia]. intros _ h z HH E. destruct Q as (a & b & g & d & (NA & FA) & _ & _ & _ & ->). rewrite <- app_assoc in E. cbn [app] in E.
    apply hex_cut in E as (_ & E & _); [discriminate E|now apply digits_hex|apply HH|reflexivity|reflexivity].
  - apply gets_left. apply gets_opt2; try assumption.
    + intros E. destruct l as [|h l]; [discriminate L|]. unfold gcs in E. cbn [map concat] in E. destruct h; discriminate E.
    + now apply gcs_chars.
    + destruct (@exists_last _ l) as (l' & h & ->); [destruct l; [discriminate L|discriminate]|]. exists (gcs l' ++ h). unfold gcs. rewrite map_app, concat_app. cbn [map concat]. now rewrite app_nil_r, app_assoc.
Qed.
(** Text with "::": [gcs hi] and a colon, or a colon twice *)
Definition front (hi : list str) : str := match hi with [] => lit "::" | _ => gcs hi ++ [":"] end.
Lemma front_chars hi : Forall hexes hi -> forallb (fun x => is_hex x || Ascii.eqb x ":")%bool (front hi) = true.
Proof. intros F. destruct hi as [|h hi]; [reflexivity|]. unfold front. rewrite forallb_app, gcs_chars by exact F. reflexivity. Qed.
Lemma no_opt1_front hi i y c i' s' c' : Forall hexes hi -> length hi <= 7 -> ~ M opt1 i (front hi ++ y) c i' s' c'.
Proof.
  intros F L. assert (K : forall z, ~ M opt1 i (gcs hi ++ ":" :: z) c i' s' c').
  { intros z. apply no_opt1; [exact F| |reflexivity|exact L]. intros _ h w (NH & FH & _) E. destruct h as [|x h]; [congruence|]. injection E as <- _. discriminate FH. }
  destruct hi as [|h hi]; [exact (K (":" :: y))|]. unfold front. rewrite <- app_assoc. apply K.
Qed.
Lemma take2_short hi lo q s : Forall hexes hi -> Forall hexes lo -> length hi <= 7 -> quad q -> sfx s -> takes (front hi ++ gcs lo ++ q) s.
Proof.
  intros F FL L Q Ss. destruct (sfx_no_hex _ Ss) as (S1 & S2 & S3 & S4). exists 3. split; [lia|]. apply gets_right.
  - rewrite <- app_assoc. intros i' s' c'. now apply no_opt1_front.
  - apply gets_left. rewrite (app_assoc (front hi)), <- (app_assoc (front hi ++ gcs lo)). apply gets_opt2; try assumption.
    + destruct hi as [|h hi]; [discriminate|]. unfold front, gcs. cbn [map concat]. now destruct h.
    + now rewrite forallb_app, front_chars, gcs_chars.
    + destruct lo as [|l lo].
      * unfold gcs at 1. cbn [map concat]. rewrite app_nil_r. destruct hi as [|h hi]; [now exists [":"]|]. now exists (gcs (h :: hi)).
      * destruct (@exists_last _ (l :: lo)) as (l' & h & ->); [discriminate|]. exists (front hi ++ gcs l' ++ h). unfold gcs. rewrite map_app, concat_app. cbn [map concat]. now rewrite app_nil_r, <- !app_assoc.
Qed.
Lemma gets_optk hi lo s : Forall hexes hi -> Forall hexes lo -> 1 <= length lo <= 7 - length hi -> sfx s ->
  gets (optk (length hi)) 0 ((gcs hi ++ cgs lo) ++ s) [] (length (gcs hi ++ cgs lo)) s [(3 + length hi, gcs hi ++ cgs lo)].
Proof.
  intros F FL L Ss. destruct (sfx_no_hex _ Ss) as (S1 & S2 & S3 & S4). unfold optk. apply gets_grp; [reflexivity|]. rewrite <- app_assoc.
  eapply gets_cat with (i1 := 0 + length (gcs hi)).
  - unfold rrep. rewrite Nat.sub_diag. apply gets_gcs; [exact F|]. apply gets_eps.
  - rewrite app_length. apply gets_cgs_rep; assumption.
Qed.
Lemma cgs_colon lo : lo <> [] -> exists x, cgs lo = ":" :: x.
Proof. destruct lo as [|h lo]; [congruence|]. intros _. eexists. reflexivity. Qed.
Lemma hexes_nodot l : Forall hexes l -> ~ In "." (gcs l) /\ ~ In "." (cgs l).
Proof.
  induction 1 as [|h l (_ & F & _) _ [IH1 IH2]]; [split; intros []|]. assert (NH : ~ In "." h) by (intros I2; rewrite forallb_forall in F; apply F in I2; discriminate I2).
  unfold gcs, cgs in *. cbn [map concat]. split; rewrite in_app_iff; [intros [I2|I2]; [|now apply IH1]|intros [[E|I2]|I2]; [discriminate E|now apply NH|now apply IH2]]. apply in_app_iff in I2 as [I2|[E|[]]]; [now apply NH|discriminate E].
Qed.
Lemma take_both hi lo s : Forall hexes hi -> Forall hexes lo -> hi <> [] -> lo <> [] -> length hi + length lo <= 7 -> sfx s -> takes (gcs hi ++ cgs lo) s.
Proof.
  intros F FL NH NL L Ss. destruct (sfx_no_hex _ Ss) as (S1 & S2 & S3 & S4). exists (3 + length hi). assert (L1 : 1 <= length hi) by (destruct hi; [congruence|cbn; lia]). assert (L2 : 1 <= length lo) by (destruct lo; [congruence|cbn; lia]). split; [lia|].
  pose proof (gets_optk hi lo s F FL ltac:(lia) Ss) as G0. destruct (cgs_colon lo NL) as (x & EX).
  assert (N1 : forall i' s' c', ~ M opt1 0 ((gcs hi ++ cgs lo) ++ s) [] i' s' c').
  { intros i' s' c'. pose proof (no_opt1_front hi 0 (x ++ s) [] i' s' c' F ltac:(lia)) as K. destruct hi as [|h hi]; [congruence|]. unfold front in K. rewrite EX. rewrite <- app_assoc in *. exact K. }
  assert (N2 : forall i' s' c', ~ M opt2 0 ((gcs hi ++ cgs lo) ++ s) [] i' s' c').
  { intros i' s' c'. apply no_opt2. destruct (hexes_nodot hi F) as [K1 _]. destruct (hexes_nodot lo FL) as [_ K2]. rewrite !in_app_iff. tauto. }
  assert (NK : forall k, k <> length hi -> forall i' s' c', ~ M (optk k) 0 ((gcs hi ++ cgs lo) ++ s) [] i' s' c').
  { intros k Hk i' s' c'. rewrite EX, <- app_assoc. cbn [app]. apply no_optk; [exact F|now left]. }
  unfold alts. apply gets_right; [exact N1|]. apply gets_right; [exact N2|].
  assert (C : length hi = 1 \/ length hi = 2 \/ length hi = 3 \/ length hi = 4 \/ length hi = 5 \/ length hi = 6) by lia.
  repeat (destruct C as [C|C]; [rewrite C in G0; rewrite C; apply gets_left; exact G0|apply gets_right; [apply NK; lia|]]). rewrite C in G0. rewrite C. apply gets_left. exact G0.
Qed.
Lemma no_optk_start k i x c i' s' c' : 1 <= k -> ~ M (optk k) i (":" :: x) c i' s' c'.
Proof. intros K. apply (no_optk k [] i x c i' s' c'); [constructor|left; cbn; lia]. Qed.
Lemma take_low lo s : Forall hexes lo -> lo <> [] -> length lo <= 7 -> sfx s -> takes (":" :: cgs lo) s.
Proof.
  intros FL NL L Ss. destruct (sfx_no_hex _ Ss) as (S1 & S2 & S3 & S4). exists 10. split; [lia|]. assert (L2 : 1 <= length lo) by (destruct lo; [congruence|cbn; lia]). destruct (cgs_colon lo NL) as (x & EX).
  unfold alts. apply gets_right.
  { intros i' s' c'. rewrite EX. apply (no_opt1_front [] 0 (x ++ s)); [constructor|cbn; lia]. }
  apply gets_right. { intros i' s' c'. apply no_opt2. destruct (hexes_nodot lo FL) as [_ K2]. cbn [app In]. rewrite in_app_iff. intros [E|[I2|I2]]; [discriminate E|now apply K2|now apply S4]. }
  do 6 (apply gets_right; [intros i' s' c'; apply no_optk_start; lia|]). apply gets_left. unfold opt9. apply gets_grp; [reflexivity|]. cbn [app]. eapply gets_cat; [apply gets_chr|]. apply (gets_cgs_rep lo 7 1 s []); try assumption. lia.
Qed.
Lemma take_high hi s : Forall hexes hi -> hi <> [] -> length hi <= 7 -> sfx s -> takes (gcs hi ++ [":"]) s.
Proof.
  intros F NH L Ss. destruct (sfx_no_hex _ Ss) as (S1 & S2 & S3 & S4). exists 11. split; [lia|]. assert (L1 : 1 <= length hi) by (destruct hi; [congruence|cbn; lia]).
  unfold alts. apply gets_right.
  { intros i' s' c'. pose proof (no_opt1_front hi 0 s [] i' s' c' F L) as K. destruct hi; [congruence|exact K]. }
  apply gets_right. { intros i' s' c'. apply no_opt2. destruct (hexes_nodot hi F) as [K1 _]. rewrite !in_app_iff. cbn [In]. intros [[I2|[E|[]]]|I2]; [now apply K1|discriminate E|now apply S4]. }
  rewrite <- app_assoc. cbn [app]. do 6 (apply gets_right; [intros i' s' c'; apply no_optk; [exact F|now right]|]).
  apply gets_right. { intros i' s' c'. apply no_opt9. left. destruct hi as [|h hi]; [congruence|]. rewrite gcs_cons. inversion F; subst. now apply head_hexes. }
  apply gets_left. unfold opt10. change (gcs hi ++ ":" :: s) with (gcs hi ++ [":"] ++ s). rewrite app_assoc. apply gets_grp; [reflexivity|]. rewrite <- app_assoc. cbn [app].
  eapply gets_cat with (i1 := 0 + length (gcs hi)); [apply gets_gcs_rep; [exact F|lia|reflexivity]|]. rewrite app_length. cbn [length]. rewrite (Nat.add_comm (length (gcs hi)) 1). apply gets_chr.
Qed.
Lemma take_bare s : sfx s -> takes (lit "::") s.
Proof.
  intros Ss. destruct (sfx_no_hex _ Ss) as (S1 & S2 & S3 & S4). exists 12. split; [lia|].
  unfold alts. apply gets_right. { intros i' s' c'. apply (no_opt1_front [] 0 s); [constructor|cbn; lia]. }
  apply gets_right. { intros i' s' c'. apply no_opt2. cbn. intros [E|[E|I2]]; [discriminate E|discriminate E|now apply S4]. }
  do 6 (apply gets_right; [intros i' s' c'; apply no_optk_start; lia|]).
  apply gets_right. { intros i' s' c'. apply no_opt9. right. now exists s. }
  apply gets_right. { intros i' s' c'. now apply no_opt10. }
  unfold opt11. apply gets_grp; [reflexivity|]. eapply gets_cat; apply gets_chr.
Qed.

(** ** Every text of an address is taken whole *)
Lemma join_front l : l <> [] -> join [":"] l ++ [":"] = gcs l.
Proof.
  intros NL. induction l as [|h l IH]; [congruence|]. destruct l as [|g l]; [unfold gcs; cbn; now rewrite app_nil_r|]. change (join [":"] (h :: g :: l)) with (h ++ [":"] ++ join [":"] (g :: l)).
  rewrite <- !app_assoc. rewrite IH by discriminate. unfold gcs. cbn [map concat]. now rewrite <- !app_assoc.
Qed.
Lemma join_back h l : join [":"] (h :: l) = h ++ cgs l.
Proof.
  revert h. induction l as [|g l IH]; intros h; [cbn; now rewrite app_nil_r|]. change (join [":"] (h :: g :: l)) with (h ++ [":"] ++ join [":"] (g :: l)). rewrite IH. reflexivity.
Qed.
Lemma join_last l q : join [":"] (l ++ [q]) = gcs l ++ q.
Proof. destruct l as [|h l]; [reflexivity|]. rewrite join_cat by discriminate. rewrite app_assoc, join_front by discriminate. reflexivity. Qed.
Lemma front_eq hi x : join [":"] hi ++ lit "::" ++ x = front hi ++ x.
Proof. destruct hi as [|h hi]; [reflexivity|]. unfold front. rewrite <- join_front by discriminate. now rewrite <- !app_assoc. Qed.
Lemma quad_of t q : dotted_quad t q -> quad t.
Proof.
  intros (a & b & c & d & Ra & Rb & Rc & Rd & -> & _). exists (show_Z a), (show_Z b), (show_Z c), (show_Z d).
  assert (K : forall z, (0 <= z)%Z -> some_digits (show_Z z)) by (intros z Hz; split; [apply PIpText.show_Z_nonempty|now apply PIpText.show_Z_digits]).
  repeat (split; [apply K; lia|]). reflexivity.
Qed.
Theorem takes_text t n s : v6_text t n -> sfx s -> takes t s.
Proof.
  intros [l vs [l0 vs0 F|l0 vs0 q v F Q] L8|hi a lo b m Fa [l0 vs0 F|l0 vs0 q v F Q] L8 N1] Ss.
  - pose proof (F2_len F) as LL. apply hextets_hexes in F. destruct l0 as [|h l0]; [cbn in LL; lia|]. inversion F; subst. rewrite join_back. apply take1; try assumption. cbn in LL. lia.
  - pose proof (F2_len F) as LL. rewrite app_length in L8. cbn in L8. apply hextets_hexes in F. rewrite join_last. apply take2_full; try assumption; [lia|exact (quad_of _ _ Q)].
  - pose proof (F2_len F) as LL. pose proof (F2_len Fa) as La. apply hextets_hexes in F, Fa. rewrite front_eq. destruct hi as [|h hi]; destruct l0 as [|g l0].
    + now apply take_bare.
    + rewrite join_back. change (front [] ++ g ++ cgs l0) with (":" :: cgs (g :: l0)). apply take_low; try assumption; [discriminate|lia].
    + cbn [join]. rewrite app_nil_r. apply (take_high (h :: hi)); try assumption; [discriminate|lia].
    + rewrite join_back. unfold front. rewrite <- app_assoc. change ([":"] ++ g ++ cgs l0) with (cgs (g :: l0)). apply take_both; try assumption; [discriminate|discriminate|lia].
  - pose proof (F2_len F) as LL. pose proof (F2_len Fa) as La. rewrite app_length in L8. cbn in L8. apply hextets_hexes in F, Fa. rewrite front_eq, join_last. apply take2_short; try assumption; [lia|exact (quad_of _ _ Q)].
Qed.
Lemma text_look t n s : v6_text t n -> sfx s -> forall i' s' c', ~ M look_re 0 (t ++ s) [] i' s' c'.
Proof.
  intros T0 Ss i' s' c' HM. unfold look_re in HM. apply M_cat_iff in HM as (i1 & s1 & c1 & HM & HM2). apply M_chr_iff in HM as (E1 & _). apply M_cat_iff in HM2 as (i2 & s2 & c2 & HM & HM3). apply M_chr_iff in HM as (E2 & _).
  apply M_cat_iff in HM3 as (i3 & s3 & c3 & HM & _). apply M_chr_iff in HM as (E3 & _). subst s1 s2.
  assert (HX : forall l vs x, Forall2 hextet l vs -> l <> [] -> join [":"] l ++ x = ":" :: ":" :: ":" :: s3 -> False).
  { intros l vs x F NL E. apply hextets_hexes in F. destruct l as [|h l]; [congruence|]. inversion F as [|? ? (NH & FH & _) _]; subst. rewrite join_back in E. destruct h as [|y h]; [congruence|]. injection E as -> _. discriminate FH. }
  assert (QX : forall q v x, dotted_quad q v -> q ++ x = ":" :: s3 -> False).
  { intros q v x Q E. apply quad_of in Q as (a & b & g & d & (NA & FA) & _ & _ & _ & ->). destruct a as [|y a]; [congruence|]. injection E as -> _. discriminate FA. }
  assert (SX : s = ":" :: s3 -> False). { intros ->. destruct (sfx_no_hex _ Ss) as (_ & C & _). now apply C. }
  revert E1. destruct T0 as [l vs [l0 vs0 F|l0 vs0 q v F Q] L8|hi a lo b m Fa G1 L8 N1]; intros E1.
  - refine (HX l0 vs0 _ F _ E1). intros ->. pose proof (F2_len F) as LL. cbn in LL. lia.
  - pose proof (F2_len F) as LL. rewrite app_length in L8. cbn in L8. rewrite join_cat in E1 by (first [discriminate|destruct l0; [cbn in LL; lia|discriminate]]). rewrite <- !app_assoc in E1. refine (HX l0 vs0 _ F _ E1). intros ->. cbn in LL. lia.
  - rewrite <- !app_assoc in E1. destruct hi as [|h hi]; [|refine (HX (h :: hi) a _ Fa _ E1); discriminate]. injection E1 as E1.
    destruct G1 as [l0 vs0 F|l0 vs0 q v F Q].
    + destruct l0 as [|g l0]; [now apply SX|]. apply hextets_hexes in F. inversion F as [|? ? (NH & FH & _) _]; subst. rewrite join_back in E1. destruct g as [|y g]; [congruence|]. injection E1 as -> _. discriminate FH.
    + rewrite join_last in E1. destruct l0 as [|g l0]; [exact (QX q v _ Q E1)|]. apply hextets_hexes in F. inversion F as [|? ? (NH & FH & _) _]; subst. rewrite <- app_assoc, gcs_cons in E1. destruct g as [|y g]; [congruence|]. injection E1 as -> _. discriminate FH.
Qed.
Theorem search6_text t n s : v6_text t n -> sfx s -> exists m, search6 (t ++ s) = Some m /\ named pattern6 (lit "addr") m = Some t /\
  named pattern6 (lit "masklen") m = match s with [] => None | _ :: d => Some d end.
Proof.
  intros T0 Ss. destruct (takes_text t n s T0 Ss) as (j & Hj & G0).
  assert (G1 : gets re6 0 (t ++ s) [] (length t + length s) [] (mask_caps s [(1, t); (j, t)])).
  { unfold re6. fold alts. eapply gets_cat; [apply gets_grp; [|exact G0]; reflexivity|]. now apply gets_mask. }
  apply gets_match in G1. unfold search6. rewrite look_reads, reads6.
  assert (LK : match_at look_re 0 (t ++ s) = None) by (apply mat_none, (text_look t n s T0 Ss)).
  assert (SU : search_unless look_re re6 0 (t ++ s) = Some (firstn (length t + length s - 0) (t ++ s), mask_caps s [(1, t); (j, t)])).
  { destruct (t ++ s); cbn [search_unless]; rewrite LK, G1; reflexivity. }
  rewrite SU. eexists. split; [reflexivity|]. rewrite !(fun nm k => named_of _ _ _ nm _ k reads6) with (k := 0) (nm := lit "addr") by reflexivity. rewrite (fun nm k => named_of _ _ _ nm _ k reads6) with (k := 13) (nm := lit "masklen") by reflexivity.
  cbn [m_groups fst]. assert (J1 : j <> 1 /\ j <> 14) by lia. destruct Ss as [-> |(d & _ & ->)]; cbn [mask_caps map seq nth cap Nat.eqb].
  - split; [reflexivity|]. do 12 (destruct j as [|j]; [reflexivity || lia|]). cbn. destruct j as [|j]; [reflexivity|]. lia.
  - now split.
Qed.
