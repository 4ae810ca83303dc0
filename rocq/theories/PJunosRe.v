(** The readers of brace-delimited lines and the patterns they stand for. *)
From Coq Require Import Ascii String Arith NArith ZArith Bool List Lia.
From Verif Require Import PyStr PyStrFacts PyBase SearchModel CfgModel JunosModel JunosFacts IntfSpec IntfFacts IntfRe PyRe PyReFacts PyReTmpl PyReSent PyReLazy PyReGets PIntfRe JunosReModel.
Import ListNotations.
Local Open Scope char_scope.

(** ** Repeated groups of one character *)
Definition one (x : ascii) : cset := mkSet false false [CRange x x].
Lemma in_one x c : in_set (one x) c = Ascii.eqb x c.
Proof.
  destruct (Ascii.eqb_spec x c) as [->|N0]; [now apply in_chr|]. apply not_true_iff_false. intros K. apply in_chr in K. congruence.
Qed.
Definition marks (n : nat) (w : str) : caps := rev (map (fun x => (n, [x])) w).
Lemma cap_marks m n w c : cap m (marks n w ++ c) = if Nat.eqb m n then match rev w with [] => cap m c | x :: _ => Some [x] end else cap m c.
Proof.
  unfold marks. rewrite <- map_rev. induction (rev w) as [|x v IH]; cbn [map app cap]; [now destruct (Nat.eqb m n)|]. destruct (Nat.eqb m n) eqn:E; [reflexivity|exact IH].
Qed.
Lemma marks_loop {R} n q (k : nat -> str -> caps -> option R) x s : PyReTmpl.stops q s -> forall w i c fuel, length w <= fuel -> all_in q w ->
  k (i + length w) s (marks n w ++ c) = Some x -> star_loop (mat (RGrp n (RSet q))) true k fuel i (w ++ s) c = Some x.
Proof.
  intros St. induction w as [|y w IH]; intros i c fuel L0 A0 K.
  - cbn [app length] in *. rewrite Nat.add_0_r in K. destruct fuel as [|f]; cbn [star_loop]; cbv zeta; [exact K|]. rewrite mat_grp, set_stops by assumption. exact K.
  - destruct fuel as [|f]; [cbn in L0; lia|]. inversion A0 as [|? ? Y A1]; subst. rewrite loop_S, mat_grp. cbn [app]. rewrite set_step by assumption.
    replace (Nat.eqb (S i) i) with false by (symmetry; apply Nat.eqb_neq; lia). replace (S i - i) with 1 by lia. cbn [firstn].
    rewrite IH; [reflexivity|cbn in L0; lia|assumption|]. rewrite <- K. f_equal; [cbn; lia|]. unfold marks. cbn [map rev]. now rewrite <- app_assoc.
Qed.
Lemma gets_marks n q i w s c : all_in q w -> PyReTmpl.stops q s -> gets (RStar true (RGrp n (RSet q))) i (w ++ s) c (i + length w) s (marks n w ++ c).
Proof. intros A0 St R k x K. cbn [mat]. apply marks_loop; auto. rewrite app_length. lia. Qed.
Lemma M_marks g n q i s c i' s' c' : M (RStar g (RGrp n (RSet q))) i s c i' s' c' -> exists w, s = w ++ s' /\ all_in q w /\ i' = i + length w.
Proof.
  remember (RStar g (RGrp n (RSet q))) as r eqn:E. intros HM. revert E. induction HM; intros E; try discriminate E.
  - exists []. repeat split; [constructor|cbn; lia].
  - injection E as -> ->. apply M_grp_iff in HM1 as (w & cx & -> & -> & _ & HM1). apply M_set_iff in HM1 as (y & E1 & Y & _). apply (app_inv_tail _ w [y]) in E1 as ->.
    destruct (IHHM2 eq_refl) as (v & -> & V & ->). exists (y :: v). repeat split; [now constructor|cbn; lia].
Qed.
(** A lazy group, when what follows fails everywhere before. *)
Lemma gets_lazy n q rest i w s c i' s' c' : all_in q w ->
  (forall u v, w = u ++ v -> v <> [] -> forall c0 i0 s0 c1, ~ M rest (i + length u) (v ++ s) c0 i0 s0 c1) ->
  gets rest (i + length w) s ((n, w) :: c) i' s' c' -> gets (RCat (RGrp n (RStar false (RSet q))) rest) i (w ++ s) c i' s' c'.
Proof.
  intros A0 No G0 R k x K. rewrite mat_cat, mat_grp. apply lazy_first; [assumption| |].
  - intros u v E NV. rewrite mat_none; [reflexivity|]. intros i0 s0 c0. now apply No.
  - rewrite firstn_len. now apply G0.
Qed.
Lemma gets_alt_cat a b e i s c i' s' c' : gets (RCat a e) i s c i' s' c' -> gets (RCat (RAlt a b) e) i s c i' s' c'.
Proof. intros G0 R k x K. rewrite mat_cat, mat_alt. specialize (G0 R k x K). rewrite mat_cat in G0. now rewrite G0. Qed.

(** *** Reading by a pattern text *)
Lemma re_unfound p r n t : reads_re p r n -> rx_find (pattern false p) t = None -> forall i s c, ~ M r 0 t [] i s c.
Proof.
  unfold reads_re, pattern. cbn [rx_find]. destruct (compile false p) as [[r' e]|]; [|discriminate]. cbn [option_map fst snd]. intros [= -> <-] F i s c HM.
  destruct (search (RCat RBol r) t) as [[? ?]|] eqn:Se; [discriminate F|]. apply (search_none _ _ Se [] t i s c eq_refl). eapply M_cat; [constructor|exact HM].
Qed.
Lemma named_of p r e nm m k : compile false p = Some (r, e) -> option_map snd (find (fun x => str_eqb (fst x) nm) (snd e)) = Some (S k) -> named p nm m = nth k (m_groups m) None.
Proof. intros C F. unfold named. rewrite C. destruct (find _ (snd e)) as [[? ?]|]; [|discriminate F]. now injection F as ->. Qed.

(** ** Text *)
Definition tidy (s : str) : Prop := s = [] \/ (match s with c :: _ => is_space c = false | [] => True end /\ exists u d, s = u ++ [d] /\ is_space d = false).
Lemma strip_tidy s : tidy (strip s).
Proof.
  unfold tidy. assert (F : rstrip (strip s) = strip s) by (rewrite strip_alt; apply rstrip_idem). apply rstrip_fix_iff in F as [F|F]; [now left|]. right. split; [|exact F].
  unfold strip. apply lstrip_head.
Qed.
Lemma tidy_end s u v g z : tidy s -> s = u ++ v ++ g ++ z -> white g -> z = [] \/ z = ["010"] -> g ++ z = [].
Proof.
  intros [->|(_ & w & d & E & Hd)] E' Wg Z.
  - destruct u; [|discriminate E']. destruct v; [|discriminate E']. destruct g; [|discriminate E']. now destruct z.
  - destruct (list_eq_dec ascii_dec (g ++ z) []) as [Gz|Gz]; [exact Gz|]. exfalso. destruct (@exists_last _ (g ++ z) Gz) as (r' & y & L0).
    assert (Y : is_space y = true).
    { assert (F : forallb is_space (g ++ z) = true) by (rewrite forallb_app; apply andb_true_iff; split; [exact Wg|destruct Z as [-> | ->]; reflexivity]).
      rewrite L0, forallb_app in F. apply andb_true_iff in F as (_ & F). cbn in F. now destruct (is_space y). }
    rewrite L0, E, !app_assoc in E'. apply app_inj_tail in E' as (_ & ->). congruence.
Qed.
Lemma tidy_head g s : tidy (g ++ s) -> white g -> g = [].
Proof.
  intros [E|(Hd & _)] Wg; [now apply app_eq_nil in E|]. destruct g as [|c g]; [reflexivity|]. unfold white in Wg. cbn [forallb] in Wg. cbn in Hd. now rewrite Hd in Wg.
Qed.
Lemma trim_split f s : exists b, s = trim_end f s ++ b /\ forallb f b = true /\ (forall x y, trim_end f s = x ++ [y] -> f y = false).
Proof.
  unfold trim_end. assert (E0 : s = rev (rev s)) by (symmetry; apply rev_involutive). set (t := rev s) in *. clearbody t. subst s. induction t as [|c t (b & E & F & L0)].
  - exists []. repeat split. intros [|? ?] y K; discriminate K.
  - cbn [drop_while]. destruct (f c) eqn:C.
    + exists (b ++ [c]). repeat split; [|now rewrite forallb_app, F; cbn; rewrite C|exact L0]. cbn [rev]. rewrite app_assoc. now rewrite <- E.
    + exists []. rewrite app_nil_r. repeat split. intros x y K. cbn [rev] in K. apply app_inj_tail in K as (_ & <-). exact C.
Qed.
Lemma one_all x w : all_in (one x) w <-> forallb (Ascii.eqb x) w = true.
Proof. apply all_in_iff, in_one. Qed.
Lemma all_eq x w : forallb (Ascii.eqb x) w = true -> forall y, In y w -> y = x.
Proof. intros F y J. rewrite forallb_forall in F. specialize (F y J). now apply Ascii.eqb_eq in F. Qed.
Lemma cut v (y : ascii) t a b : v ++ y :: t = a ++ b -> (exists a2, a = v ++ y :: a2) \/ (exists b1, b = b1 ++ y :: t).
Proof.
  intros E. apply app_eq_app in E as (l & [(-> & ->)|(-> & E)]); [right; now exists l|]. destruct l as [|z l]; cbn in E.
  - right. exists []. now rewrite <- E.
  - injection E as <- ->. left. now exists l.
Qed.
Lemma drop_split f s : exists p, s = p ++ drop_while f s /\ forallb f p = true /\ match drop_while f s with [] => True | c :: _ => f c = false end.
Proof.
  induction s as [|c s (p & E & F & St)]; cbn [drop_while]; [now exists []|]. destruct (f c) eqn:C; [|exists []; repeat split; exact C].
  exists (c :: p). cbn [app forallb]. rewrite C, <- E. auto.
Qed.

(** ** The brace pattern *)
Definition no_nl : cset := mkSet true false [CRange "010" "010"].
Definition no_brace : cset := mkSet true false [CRange "{" "{"; CRange "}" "}"].
Lemma in_no_nl c : in_set no_nl c = negb (Ascii.eqb newline c). Proof. apply (same_set no_nl (fun c => negb (Ascii.eqb newline c))). vm_compute. reflexivity. Qed.
Lemma in_no_brace c : in_set no_brace c = negb (is_brace c). Proof. apply (same_set no_brace (fun c => negb (is_brace c))). vm_compute. reflexivity. Qed.
Definition stop_re : re := RCat (RStar true (RSet sp)) REol.
Definition first_re : re := RCat (RStar true (RSet sp)) (RCat (RStar true (RGrp 1 (RSet (one "}")))) (RCat (RGrp 2 (RStar false (RSet no_nl)))
  (RCat (RStar true (RGrp 3 (RSet (one "{")))) (RStar true (RSet (one ";")))))).
Definition second_re : re := RCat (RGrp 4 (RStar false (RSet no_brace))) (RCat (RGrp 5 (RSet (one "{"))) (RCat (RGrp 6 (RStar false (RSet no_nl)))
  (RCat (RGrp 7 (RSet (one "}"))) (RCat (RStar true (RSet (one ";"))) (RStar true (RSet sp)))))).
Definition third_re : re := RCat (RGrp 8 (RStar false (RSet no_brace))) (RCat (RStar true (RSet (one ";"))) (RStar true (RSet sp))).
Definition brace_re : re := RCat (RAlt first_re (RAlt second_re third_re)) stop_re.
Lemma brace_reads : compile false brace_pattern = Some (RCat RBol brace_re, (8, [(lit "line3", 8); (lit "braces_close_right", 7); (lit "condition2", 6);
  (lit "braces_open_left", 5); (lit "line2", 4); (lit "braces_open_right", 3); (lit "line1", 2); (lit "braces_close_left", 1)])).
Proof. vm_compute. reflexivity. Qed.
Lemma brace_reads_re : reads_re brace_pattern brace_re 8.
Proof. unfold reads_re. now rewrite brace_reads. Qed.
Lemma get_named m nm k : option_map snd (find (fun x => str_eqb (fst x) (lit nm)) [(lit "line3", 8); (lit "braces_close_right", 7); (lit "condition2", 6);
  (lit "braces_open_left", 5); (lit "line2", 4); (lit "braces_open_right", 3); (lit "line1", 2); (lit "braces_close_left", 1)]) = Some (S k) ->
  named brace_pattern (lit nm) m = nth k (m_groups m) None.
Proof. intros F. unfold named. rewrite brace_reads. cbn [snd]. destruct (find _ _) as [[? ?]|]; [|discriminate F]. now injection F as ->. Qed.

Lemma get_all m :
  named brace_pattern (lit "braces_close_left") m = nth 0 (m_groups m) None /\
  named brace_pattern (lit "line1") m = nth 1 (m_groups m) None /\
  named brace_pattern (lit "braces_open_right") m = nth 2 (m_groups m) None /\
  named brace_pattern (lit "line2") m = nth 3 (m_groups m) None /\
  named brace_pattern (lit "braces_open_left") m = nth 4 (m_groups m) None /\
  named brace_pattern (lit "condition2") m = nth 5 (m_groups m) None /\
  named brace_pattern (lit "braces_close_right") m = nth 6 (m_groups m) None.
Proof. repeat split; apply get_named; reflexivity. Qed.
Lemma branches_of m : brace_branches (fun nm => named brace_pattern (lit nm) m) = brace_branches (fun nm =>
  if String.eqb nm "braces_close_left" then nth 0 (m_groups m) None else if String.eqb nm "line1" then nth 1 (m_groups m) None
  else if String.eqb nm "braces_open_right" then nth 2 (m_groups m) None else if String.eqb nm "line2" then nth 3 (m_groups m) None
  else if String.eqb nm "braces_open_left" then nth 4 (m_groups m) None else if String.eqb nm "condition2" then nth 5 (m_groups m) None
  else nth 6 (m_groups m) None).
Proof.
  destruct (get_all m) as (E0 & E1 & E2 & E3 & E4 & E5 & E6). unfold brace_branches. rewrite E0, E1, E2, E3, E4, E5, E6. reflexivity.
Qed.

Definition open_re : re := RCat (RStar true (RGrp 3 (RSet (one "{")))) (RCat (RStar true (RSet (one ";"))) stop_re).
Lemma M_stop i s c i' s' c' : M stop_re i s c i' s' c' -> c' = c /\ exists g, s = g ++ s' /\ white g /\ (s' = [] \/ s' = ["010"]).
Proof.
  unfold stop_re. intros HM. apply M_cat_iff in HM as (i1 & s1 & c1 & HM & HM2). apply M_star_iff in HM as (g & -> & Wg & _ & ->). apply all_sp in Wg.
  apply M_eol_iff in HM2 as (Z & _ & -> & ->). split; [reflexivity|]. now exists g.
Qed.
Lemma M_open i s c i' s' c' : M open_re i s c i' s' c' -> exists a b g, s = a ++ b ++ g ++ s' /\ forallb (Ascii.eqb "{") a = true /\ forallb (Ascii.eqb ";") b = true /\
  white g /\ (s' = [] \/ s' = ["010"]).
Proof.
  unfold open_re. intros HM. apply M_cat_iff in HM as (i1 & s1 & c1 & HM & HM2). apply M_marks in HM as (a & -> & Ha & _). apply one_all in Ha.
  apply M_cat_iff in HM2 as (i2 & s2 & c2 & HM & HM2). apply M_star_iff in HM as (b & -> & Hb & _). apply one_all in Hb.
  apply M_stop in HM2 as (_ & g & -> & Wg & Z). exists a, b, g. auto.
Qed.
Lemma gets_stop i c : gets stop_re i [] c i [] c.
Proof.
  unfold stop_re. eapply gets_cat; [|apply gets_eol]. pose proof (gets_star sp i [] [] c) as G0. cbn [app length] in G0. rewrite Nat.add_0_r in G0. apply G0; [constructor|exact I].
Qed.
(** Text on one line is matched by the first alternative. *)
Lemma first_found p l a b : let s := p ++ l ++ a ++ b in tidy s -> forallb (Ascii.eqb "}") p = true -> match l ++ a ++ b with [] => True | c :: _ => Ascii.eqb "}" c = false end ->
  forallb (fun c => negb (Ascii.eqb newline c)) l = true -> forallb (Ascii.eqb "{") a = true -> forallb (Ascii.eqb ";") b = true ->
  (forall x y, l = x ++ [y] -> Ascii.eqb "{" y = false) -> (forall x y, l ++ a = x ++ [y] -> Ascii.eqb ";" y = false) ->
  exists i, gets brace_re 0 s [] i [] (marks 3 a ++ (2, l) :: marks 1 p).
Proof.
  intros s Ts Hp Sp Hl Ha Hb La Lb. exists (0 + length p + length l + length a + length b). unfold brace_re. apply gets_alt_cat.
  change (gets (RCat (RStar true (RSet sp)) (RCat (RStar true (RGrp 1 (RSet (one "}")))) (RCat (RGrp 2 (RStar false (RSet no_nl))) open_re))) 0 s [] (0 + length p + length l + length a + length b) [] (marks 3 a ++ (2, l) :: marks 1 p)).
  eapply gets_cat with (i1 := 0) (s1 := s) (c1 := []).
  { apply (gets_star sp 0 [] s []); [constructor|]. destruct s as [|c s0]; [exact I|]. unfold PyReTmpl.stops. rewrite in_sp. destruct Ts as [K|(K & _)]; [discriminate K|exact K]. }
  eapply gets_cat with (i1 := 0 + length p) (s1 := l ++ a ++ b) (c1 := marks 1 p).
  { pose proof (gets_marks 1 (one "}") 0 p (l ++ a ++ b) []) as G0. rewrite app_nil_r in G0. apply G0; [now apply one_all|].
    destruct (l ++ a ++ b) as [|c r]; [exact I|]. unfold PyReTmpl.stops. now rewrite in_one. }
  apply gets_lazy.
  - now apply (all_in_iff no_nl _ _ in_no_nl).
  - intros u v -> NV c0 i0 s0 c1 HM. apply M_open in HM as (a' & b' & g & E & Ha' & Hb' & Wg & Z).
    assert (Gz : g ++ s0 = []).
    { apply (tidy_end s (p ++ u ++ a') b' g s0); auto. unfold s. rewrite <- !app_assoc. do 2 f_equal. exact E. }
    rewrite Gz, app_nil_r in E. destruct (@exists_last _ v NV) as (v' & y & ->). rewrite <- app_assoc in E. cbn [app] in E. apply cut in E as [(a2 & ->)|(b1 & ->)].
    + rewrite app_assoc in La. specialize (La _ _ eq_refl). rewrite forallb_app in Ha'. apply andb_true_iff in Ha' as (_ & Ha'). cbn [forallb] in Ha'. rewrite La in Ha'. discriminate Ha'.
    + rewrite forallb_app in Hb'. apply andb_true_iff in Hb' as (_ & Hb'). cbn [forallb] in Hb'. apply andb_true_iff in Hb' as (Y & Hb'). rewrite forallb_app in Hb'. apply andb_true_iff in Hb' as (Hab & _).
      destruct a as [|z a].
      * rewrite app_nil_r, app_assoc in Lb. specialize (Lb _ _ eq_refl). congruence.
      * cbn [forallb] in *. apply andb_true_iff in Ha as (Ha & _). apply andb_true_iff in Hab as (Hab & _). apply Ascii.eqb_eq in Ha, Hab. congruence.
  - unfold open_re. eapply gets_cat with (i1 := 0 + length p + length l + length a) (s1 := b).
    + apply gets_marks; [now apply one_all|]. destruct b as [|c r]; [exact I|]. unfold PyReTmpl.stops. rewrite in_one. cbn [forallb] in Hb. apply andb_true_iff in Hb as (Hb & _). apply Ascii.eqb_eq in Hb. now subst.
    + eapply gets_cat; [|apply gets_stop]. pose proof (gets_star (one ";") (0 + length p + length l + length a) b [] (marks 3 a ++ (2, l) :: marks 1 p)) as G0. rewrite app_nil_r in G0. apply G0; [now apply one_all|exact I].
Qed.

(** ** Text with a newline *)
Lemma no_nl_all w : all_in no_nl w <-> ~ In newline w.
Proof.
  rewrite (all_in_iff no_nl _ _ in_no_nl), forallb_forall. split.
  - intros F J. specialize (F _ J). now rewrite Ascii.eqb_refl in F.
  - intros N0 c J. apply negb_true_iff, Ascii.eqb_neq. congruence.
Qed.
Definition block (s x cond b : str) : Prop :=
  s = x ++ "{" :: cond ++ "}" :: b /\ forallb (fun c => negb (is_brace c)) x = true /\ ~ In newline cond /\ forallb (Ascii.eqb ";") b = true.
Lemma M_one n x i s c i' s' c' : M (RGrp n (RSet (one x))) i s c i' s' c' -> s = x :: s' /\ c' = (n, [x]) :: c.
Proof.
  intros HM. apply M_grp_iff in HM as (w & c1 & -> & _ & -> & HM). apply M_set_iff in HM as (y & E & Y & _ & ->). apply (app_inv_tail _ w [y]) in E as ->.
  rewrite in_one in Y. apply Ascii.eqb_eq in Y as <-. auto.
Qed.
Lemma M_lazy n q i s c i' s' c' : M (RGrp n (RStar false (RSet q))) i s c i' s' c' -> exists w, s = w ++ s' /\ all_in q w /\ c' = (n, w) :: c.
Proof.
  intros HM. apply M_grp_iff in HM as (w & c1 & -> & _ & -> & HM). apply M_star_iff in HM as (v & E & V & _ & ->). apply app_inv_tail in E as <-. now exists w.
Qed.
Lemma in_all_eq x w y : forallb (Ascii.eqb x) w = true -> In y w -> y = x. Proof. intros F. now apply all_eq. Qed.
Lemma brace_shape s i s' c : tidy s -> In newline s -> M brace_re 0 s [] i s' c ->
  (exists x cond b, block s x cond b /\ c = [(7, ["}"]); (6, cond); (5, ["{"]); (4, x)]) \/
  (forallb (fun c => negb (is_brace c)) s = true /\ exists x, c = [(8, x)]).
Proof.
  intros Ts NL HM. unfold brace_re in HM. apply M_cat_iff in HM as (i1 & s1 & c1 & HM & HE). apply M_stop in HE as (-> & g & -> & Wg & Z).
  apply M_alt_iff in HM as [HM|HM]; [|apply M_alt_iff in HM as [HM|HM]].
  - exfalso. unfold first_re in HM. apply M_cat_iff in HM as (i2 & s2 & c2 & HM & HM2). apply M_star_iff in HM as (h & -> & Wh & _). apply all_sp in Wh.
    pose proof (tidy_head _ _ Ts Wh) as ->. cbn [app] in *. apply M_cat_iff in HM2 as (i3 & s3 & c3 & HM & HM2). apply M_marks in HM as (p & -> & Hp & _). apply one_all in Hp.
    apply M_cat_iff in HM2 as (i4 & s4 & c4 & HM & HM2). apply M_lazy in HM as (l & -> & Hl & _). apply no_nl_all in Hl.
    apply M_cat_iff in HM2 as (i5 & s5 & c5 & HM & HM2). apply M_marks in HM as (a & -> & Ha & _). apply one_all in Ha. apply M_star_iff in HM2 as (b & -> & Hb & _). apply one_all in Hb.
    assert (Gz : g ++ s' = []) by (apply (tidy_end _ (p ++ l ++ a) b g s' Ts); auto; now rewrite <- !app_assoc). rewrite Gz, app_nil_r, !in_app_iff in NL.
    destruct NL as [J|[J|[J|J]]]; [apply (in_all_eq _ _ _ Hp) in J; discriminate J|tauto|apply (in_all_eq _ _ _ Ha) in J; discriminate J|apply (in_all_eq _ _ _ Hb) in J; discriminate J].
  - left. unfold second_re in HM. apply M_cat_iff in HM as (i2 & s2 & c2 & HM & HM2). apply M_lazy in HM as (x & -> & X & ->). apply (all_in_iff no_brace _ _ in_no_brace) in X.
    apply M_cat_iff in HM2 as (i3 & s3 & c3 & HM & HM2). apply M_one in HM as (-> & ->). apply M_cat_iff in HM2 as (i4 & s4 & c4 & HM & HM2). apply M_lazy in HM as (l & -> & Hl & ->). apply no_nl_all in Hl.
    apply M_cat_iff in HM2 as (i5 & s5 & c5 & HM & HM2). apply M_one in HM as (-> & ->). apply M_cat_iff in HM2 as (i6 & s6 & c6 & HM & HM2). apply M_star_iff in HM as (b & -> & Hb & _ & ->). apply one_all in Hb.
    apply M_star_iff in HM2 as (h & -> & Wh & _ & ->). apply all_sp in Wh.
    assert (Gz : (h ++ g) ++ s' = []).
    { apply (tidy_end _ (x ++ "{" :: l ++ "}" :: nil) b (h ++ g) s' Ts); auto; [|unfold white; now rewrite forallb_app, Wh, Wg]. rewrite <- !app_assoc. cbn [app]. now rewrite <- !app_assoc. }
    rewrite <- app_assoc in Gz. rewrite Gz, app_nil_r. exists x, l, b. split; [|reflexivity]. exact (conj eq_refl (conj X (conj Hl Hb))).
  - right. unfold third_re in HM. apply M_cat_iff in HM as (i2 & s2 & c2 & HM & HM2). apply M_lazy in HM as (x & -> & X & ->). apply (all_in_iff no_brace _ _ in_no_brace) in X.
    apply M_cat_iff in HM2 as (i6 & s6 & c6 & HM & HM2). apply M_star_iff in HM as (b & -> & Hb & _ & ->). apply one_all in Hb.
    apply M_star_iff in HM2 as (h & -> & Wh & _ & ->). apply all_sp in Wh.
    assert (Gz : (h ++ g) ++ s' = []).
    { apply (tidy_end _ x b (h ++ g) s' Ts); auto; [|unfold white; now rewrite forallb_app, Wh, Wg]. now rewrite <- !app_assoc. }
    rewrite <- app_assoc in Gz. rewrite Gz, app_nil_r. split; [|now exists x]. rewrite forallb_app, X. cbn [andb]. clear - Hb. apply forallb_forall. intros c J. now rewrite (in_all_eq _ _ _ Hb J).
Qed.
Lemma block_M s x cond b : block s x cond b -> exists i s' c, M brace_re 0 s [] i s' c.
Proof.
  intros (-> & X & Hl & Hb). apply (all_in_iff no_brace _ _ in_no_brace) in X. apply no_nl_all in Hl. apply one_all in Hb.
  eexists. exists []. eexists. unfold brace_re. eapply M_cat.
  - apply M_right, M_left. unfold second_re. eapply M_cat; [apply M_grp_iff; exists x, []; refine (conj eq_refl (conj eq_refl (conj eq_refl _))); apply M_star_iff; now exists x|].
    eapply M_cat; [apply M_grp_iff; eexists ["{"], _; refine (conj eq_refl (conj eq_refl (conj eq_refl _))); apply M_set_iff; exists "{"; repeat split; cbn; lia|].
    eapply M_cat; [apply M_grp_iff; eexists cond, _; refine (conj eq_refl (conj eq_refl (conj eq_refl _))); apply M_star_iff; now exists cond|].
    eapply M_cat; [apply M_grp_iff; eexists ["}"], _; refine (conj eq_refl (conj eq_refl (conj eq_refl _))); apply M_set_iff; exists "}"; repeat split; cbn; lia|].
    eapply M_cat; [apply M_star_iff; exists b; rewrite app_nil_r; now repeat split|]. apply M_star_iff. exists []. repeat split. constructor.
  - unfold stop_re. eapply M_cat; [apply M_star_iff; exists []; repeat split; constructor|]. apply M_eol_iff. auto.
Qed.
Lemma brace_nl s : tidy s -> In newline s ->
  match rx_find (pattern false brace_pattern) s with Some m => brace_branches (fun nm => named brace_pattern (lit nm) m) | None => Err ValueError end =
  match brace_match s with Ok (a, b, t) => Ok (a, b, Some t) | Err e => Err e end.
Proof.
  intros Ts NL. assert (Hn : has_char newline s = true) by (apply not_false_iff_true; rewrite has_char_false; tauto).
  assert (None_of : forall v, (forall x cond b, ~ block s x cond b) -> brace_match s = Ok v -> False).
  { intros v No E. unfold brace_match in E. rewrite Hn in E. destruct (drop_split (fun c => negb (is_brace c)) s) as (x & Es & X & _).
    destruct (drop_while (fun c => negb (is_brace c)) s) as [|o y]; [discriminate E|]. destruct (trim_split (Ascii.eqb ";") y) as (b & Ey & Hb & _).
    destruct (rev (trim_end (Ascii.eqb ";") y)) as [|e c] eqn:Er; [discriminate E|]. apply (f_equal (@rev ascii)) in Er. rewrite rev_involutive in Er. cbn [rev] in Er.
    destruct (Ascii.eqb_spec o "{") as [->|]; [|discriminate E]. destruct (Ascii.eqb_spec e "}") as [->|]; [|discriminate E]. cbn [andb] in E.
    destruct (has_char newline c) eqn:Hc; [discriminate E|]. apply has_char_false in Hc. apply (No x (rev c) b). refine (conj _ (conj X (conj _ Hb))); [|now rewrite <- in_rev].
    rewrite Es, Ey, Er, <- app_assoc. reflexivity. }
  destruct (rx_find (pattern false brace_pattern) s) as [m|] eqn:F.
  - apply (re_shape _ _ _ _ _ brace_reads_re) in F as (i & s' & c & HM & G0). apply (brace_shape _ _ _ _ Ts NL) in HM as [(x & cond & b & B & ->)|(No & x & ->)].
    + rewrite branches_of, G0. unfold brace_branches.
      cbn [map seq nth cap Nat.eqb truthy andb negb or_empty String.eqb Ascii.eqb Bool.eqb]. destruct B as (Es & X & Hl & Hb). unfold brace_match. rewrite Hn, Es.
      rewrite take_while_app, drop_while_app by (try exact X; reflexivity). replace (cond ++ "}" :: b) with ((cond ++ ["}"]) ++ b) by (now rewrite <- app_assoc). rewrite trim_end_app by (try exact Hb; reflexivity).
      rewrite rev_app_distr. cbn [rev app]. rewrite rev_involutive. replace (has_char newline (rev cond)) with false by (symmetry; apply has_char_false; now rewrite <- in_rev). reflexivity.
    + rewrite branches_of, G0. unfold brace_branches.
      cbn [map seq nth cap Nat.eqb truthy andb negb or_empty String.eqb Ascii.eqb Bool.eqb]. unfold brace_match. rewrite Hn.
      replace (drop_while (fun c => negb (is_brace c)) s) with (@nil ascii); [reflexivity|]. rewrite <- (app_nil_r s), drop_while_app by (try exact No; exact I). reflexivity.
  - destruct (brace_match s) as [[[a b] t]|e] eqn:E.
    + exfalso. refine (None_of _ _ eq_refl). intros x cond b0 B. apply block_M in B as (i & s' & c & HM). pose proof F as F'. cbn [rx_find pattern] in F'. rewrite brace_reads in F'.
  destruct (search (RCat RBol brace_re) s) as [[? ?]|] eqn:Se; [discriminate F'|]. apply (search_none _ _ Se [] s i s' c eq_refl). eapply M_cat; [constructor|exact HM].
    + f_equal. clear None_of F. unfold brace_match in E. rewrite Hn in E.
      repeat match type of E with context [match ?x with _ => _ end] => destruct x; try congruence end.
Qed.

(** ** Text on one line *)
Definition erase_re : re := RCat (RStar true (RSet sp)) (RCat (RSet (one "{")) (RCat (RStar true (RSet sp)) (RCat (RSet (one "}")) (RStar true (RSet sp))))).
Lemma erase_reads : compile false (lit "\s*\{\s*\}\s*") = Some (erase_re, (0, [])).
Proof. vm_compute. reflexivity. Qed.
Lemma erase_match i s : match empty_braces s with
  | Some n => exists x m c, match_at erase_re i s = Some (x :: m, c) /\ n = S (length m)
  | None => match_at erase_re i s = None end.
Proof.
  assert (Stp : forall r, PyReTmpl.stops sp (lstrip r)).
  { intros r. pose proof (lstrip_head r) as Hd. destruct (lstrip r) as [|c z]; [exact I|]. unfold PyReTmpl.stops. now rewrite in_sp. }
  assert (No : (forall g h z, s = g ++ "{" :: h ++ "}" :: z -> white g -> white h -> False) -> match_at erase_re i s = None).
  { intros Q0. unfold match_at. apply mat_none. intros i' s' c' HM. unfold erase_re in HM. apply M_cat_iff in HM as (i1 & s1 & c1 & HM & HM2). apply M_star_iff in HM as (g & -> & Wg & _). apply all_sp in Wg.
    apply M_cat_iff in HM2 as (i2 & s2 & c2 & HM & HM2). apply M_set_iff in HM as (y & -> & Y & _). rewrite in_one in Y. apply Ascii.eqb_eq in Y as <-.
    apply M_cat_iff in HM2 as (i3 & s3 & c3 & HM & HM2). apply M_star_iff in HM as (h & -> & Wh & _). apply all_sp in Wh.
    apply M_cat_iff in HM2 as (i4 & s4 & c4 & HM & HM2). apply M_set_iff in HM as (y & -> & Y & _). rewrite in_one in Y. apply Ascii.eqb_eq in Y as <-. now apply (Q0 g h s4). }
  unfold empty_braces. destruct (lstrip_suffix s) as (g & Es & Wg). pose proof (Stp s) as Sg. destruct (lstrip s) as [|c r] eqn:L0.
  { apply No. intros g' h z E _ _. rewrite app_nil_r in Es. subst g. rewrite E in Wg. unfold white in Wg. rewrite forallb_app in Wg. cbn in Wg. now rewrite andb_false_r in Wg. }
  destruct (Ascii.eqb_spec c "{") as [->|Nc].
  2:{ apply No. intros g' h z E Wg' _. rewrite E, lstrip_app_space in L0 by exact Wg'. cbn in L0. congruence. }
  destruct (lstrip_suffix r) as (h & Er & Wh). pose proof (Stp r) as Sh. destruct (lstrip r) as [|c r'] eqn:L1.
  { apply No. intros g' h' z E Wg' Wh'. rewrite E, lstrip_app_space in L0 by exact Wg'. cbn in L0. injection L0 as L0. rewrite <- L0, lstrip_app_space in L1 by exact Wh'. discriminate L1. }
  destruct (Ascii.eqb_spec c "}") as [->|Nc].
  2:{ apply No. intros g' h' z E Wg' Wh'. rewrite E, lstrip_app_space in L0 by exact Wg'. cbn in L0. injection L0 as L0. rewrite <- L0, lstrip_app_space in L1 by exact Wh'. cbn in L1. congruence. }
  destruct (lstrip_suffix r') as (z & Ez & Wz). pose proof (Stp r') as Sz. set (t := lstrip r') in *. clearbody t.
  assert (G0 : gets erase_re i (g ++ "{" :: h ++ "}" :: z ++ t) [] (i + length g + 1 + length h + 1 + length z) t []).
  { unfold erase_re. eapply gets_cat with (i1 := i + length g) (s1 := "{" :: h ++ "}" :: z ++ t); [apply gets_star; [now apply all_sp|exact (eq_refl : in_set sp "{" = false)]|].
    eapply gets_cat; [apply gets_set; reflexivity|]. eapply gets_cat; [apply gets_star; [now apply all_sp|exact (eq_refl : in_set sp "}" = false)]|].
    eapply gets_cat; [apply gets_set; reflexivity|].
    replace (i + length g + 1 + length h + 1 + length z) with (S (S (i + length g) + length h) + length z) by lia. apply gets_star; [now apply all_sp|exact Sz]. }
  apply gets_match in G0. rewrite <- Ez, <- Er, <- Es in G0.
  set (m := firstn (i + length g + 1 + length h + 1 + length z - i) s) in *.
  assert (Lm : length m = length s - length t /\ length s - length t = length g + 1 + length h + 1 + length z).
  { unfold m. rewrite firstn_length, Es, Er, Ez, !app_length. cbn [length]. rewrite !app_length. cbn [length]. rewrite !app_length. lia. }
  clearbody m. destruct m as [|x m]; [cbn in Lm; lia|]. exists x, m, []. split; [exact G0|]. cbn [length] in Lm. lia.
Qed.
Lemma erase_eq s : forall i k, erase erase_re k i s = drop_empty_braces k s.
Proof.
  induction s as [|c s IH]; intros i k; [reflexivity|]. cbn [erase drop_empty_braces]. destruct k as [|k]; [|apply IH].
  pose proof (erase_match i (c :: s)) as E. destruct (empty_braces (c :: s)) as [n|].
  - destruct E as (x & m & d & -> & ->). rewrite IH. f_equal. cbn. lia.
  - rewrite E. now rewrite IH.
Qed.
Lemma brace_line s : tidy s -> ~ In newline s ->
  match rx_find (pattern false brace_pattern) s with Some m => brace_branches (fun nm => named brace_pattern (lit nm) m) | None => Err ValueError end =
  match brace_match s with Ok (a, b, t) => Ok (a, b, Some t) | Err e => Err e end.
Proof.
  intros Ts NL. unfold brace_match. rewrite (proj2 (has_char_false _ _) NL).
  destruct (drop_split (Ascii.eqb "}") s) as (p & Es & Hp & Sp). set (rest := drop_while (Ascii.eqb "}") s) in *. clearbody rest.
  destruct (trim_split (Ascii.eqb ";") rest) as (b & Er & Hb & Lb). set (u := trim_end (Ascii.eqb ";") rest) in *. clearbody u.
  destruct (trim_split (Ascii.eqb "{") u) as (a & Eu & Ha & La). set (l := trim_end (Ascii.eqb "{") u) in *. clearbody l. subst u rest. rewrite <- app_assoc in *.
  destruct (first_found p l a b) as (i & G0).
  - now rewrite <- Es.
  - assumption.
  - assumption.
  - apply forallb_forall. intros c J. apply negb_true_iff, Ascii.eqb_neq. intros <-. apply NL. rewrite Es, !in_app_iff. auto.
  - assumption.
  - assumption.
  - assumption.
  - assumption.
  - rewrite <- Es in G0. destruct (gets_found _ _ _ _ _ _ _ brace_reads_re G0) as (m & F & Gm). rewrite F, branches_of, Gm. unfold brace_branches.
    cbn [map seq nth truthy andb negb or_empty String.eqb Ascii.eqb Bool.eqb]. rewrite !cap_marks. cbn [Nat.eqb cap]. rewrite <- (app_nil_r (marks 1 p)), !cap_marks. cbn [Nat.eqb cap].
    assert (Ep : negb (Nat.eqb (length (l ++ a ++ b)) (length s)) = match rev p with [] => false | _ => true end).
    { rewrite Es, (app_length p). destruct p as [|c p]; [cbn; now rewrite Nat.eqb_refl|]. cbn [rev length]. destruct (rev p); cbn; (destruct (Nat.eqb_spec (length (l ++ a ++ b)) (S (length p + length (l ++ a ++ b)))); [lia|reflexivity]). }
    assert (Ea : negb (Nat.eqb (length l) (length (l ++ a))) = match rev a with [] => false | _ => true end).
    { rewrite app_length. destruct a as [|c a]; [cbn; now rewrite Nat.add_0_r, Nat.eqb_refl|]. cbn [rev length]. destruct (rev a); cbn; (destruct (Nat.eqb_spec (length l) (length l + S (length a))); [lia|reflexivity]). }
    rewrite Ep, Ea. destruct (rev p) as [|x1 p1], (rev a) as [|x2 a1]; cbn [truthy andb negb or_empty]; try reflexivity; try (destruct l; reflexivity).
    destruct l as [|c l]; cbn [truthy andb]; [reflexivity|]. unfold re_erase. rewrite erase_reads. now rewrite erase_eq.
Qed.

(** ** Comments *)
Definition not_one (d : ascii) : cset := mkSet true false [CRange d d].
Definition note_re (d : ascii) : re := RCat (RStar true (RSet sp)) (RCat (RGrp 1 (rplus true (RSet (one d)))) (RCat (RGrp 2 (RStar true (RSet (not_one d)))) REol)).
Definition cls_dec (a b : cls) : {a = b} + {a <> b}. Proof. decide equality; apply ascii_dec. Defined.
Definition cset_dec (a b : cset) : {a = b} + {a <> b}. Proof. decide equality; [apply (list_eq_dec cls_dec)|apply Bool.bool_dec|apply Bool.bool_dec]. Defined.
Definition re_dec (a b : re) : {a = b} + {a <> b}. Proof. decide equality; [apply cset_dec|apply Bool.bool_dec|apply Nat.eq_dec]. Defined.
Definition env_dec (a b : env) : {a = b} + {a <> b}. Proof. decide equality; [apply list_eq_dec; decide equality; [apply Nat.eq_dec|apply (list_eq_dec ascii_dec)]|apply Nat.eq_dec]. Defined.
Definition note_ok (d : ascii) (o : option (re * env)) : bool :=
  match o with
  | Some (r, e) => (if re_dec r (RCat RBol (note_re d)) then true else false) && (if env_dec e (2, [(lit "comment", 2); (lit "delimiter", 1)]) then true else false)
  | None => false
  end.
Lemma note_of d o : note_ok d o = true -> o = Some (RCat RBol (note_re d), (2, [(lit "comment", 2); (lit "delimiter", 1)])).
Proof.
  unfold note_ok. destruct o as [[r e]|]; [|discriminate]. intros E. apply andb_true_iff in E as (E1 & E2).
  destruct (re_dec r (RCat RBol (note_re d))) as [->|]; [|discriminate E1]. now destruct (env_dec e (2, [(lit "comment", 2); (lit "delimiter", 1)])) as [->|]; [|discriminate E2].
Qed.
Lemma note_all : forallb (fun n => (fun d => note_ok d (compile false (comment_pattern d))) (ascii_of_nat n)) (seq 0 256) = true.
Proof. vm_compute. reflexivity. Qed.
Lemma note_reads d : compile false (comment_pattern d) = Some (RCat RBol (note_re d), (2, [(lit "comment", 2); (lit "delimiter", 1)])).
Proof. apply note_of. exact (all_chars (fun d => note_ok d (compile false (comment_pattern d))) note_all d). Qed.
Lemma note_reads_re d : reads_re (comment_pattern d) (note_re d) 2.
Proof. unfold reads_re. now rewrite note_reads. Qed.
Lemma in_not_one d c : in_set (not_one d) c = negb (Ascii.eqb d c).
Proof. unfold not_one. rewrite <- in_one. unfold in_set, one. cbn [cs_neg cs_icase cs_items]. now destruct (existsb _ _). Qed.
Lemma note_found d s : tidy s -> match rx_find (pattern false (comment_pattern d)) s with
  | Some m => comment_match d s = true /\ or_empty (named (comment_pattern d) (lit "delimiter") m) ++ or_empty (named (comment_pattern d) (lit "comment") m) = s
  | None => comment_match d s = false end.
Proof.
  intros Ts. destruct (rx_find (pattern false (comment_pattern d)) s) as [m|] eqn:F.
  - apply (re_shape _ _ _ _ _ (note_reads_re d)) in F as (i & s' & c & HM & G0). unfold note_re in HM. apply M_cat_iff in HM as (i1 & s1 & c1 & HM & HM2). apply M_star_iff in HM as (g & -> & Wg & _ & ->). apply all_sp in Wg.
    pose proof (tidy_head _ _ Ts Wg) as ->. cbn [app] in *. apply M_cat_iff in HM2 as (i2 & s2 & c2 & HM & HM2). apply M_grp_iff in HM as (w & c3 & -> & _ & -> & HM). apply M_plus_iff in HM as (w' & E & NW & Hw & _ & ->). apply app_inv_tail in E as <-. apply one_all in Hw.
    apply M_cat_iff in HM2 as (i3 & s3 & c3 & HM & HM2). apply M_grp_iff in HM as (v & c4 & -> & _ & -> & HM). apply M_star_iff in HM as (v' & E & Hv & _ & ->). apply app_inv_tail in E as <-. apply (all_in_iff (not_one d) _ _ (in_not_one d)) in Hv.
    apply M_eol_iff in HM2 as (Z & _ & -> & ->). assert (Gz : [] ++ s3 = []) by (apply (tidy_end _ w v [] s3 Ts); auto; reflexivity). cbn [app] in Gz. subst s3. rewrite app_nil_r in *. split.
    + unfold comment_match. destruct w as [|x w]; [congruence|]. cbn [forallb] in Hw. apply andb_true_iff in Hw as (X & Hw). apply Ascii.eqb_eq in X as <-. cbn [app starts_with]. rewrite Ascii.eqb_refl. cbn [andb].
      change (d :: w ++ v) with ((d :: w) ++ v). rewrite (drop_while_app _ (d :: w)); [|cbn [forallb]; now rewrite Ascii.eqb_refl|destruct v as [|y v]; [exact I|]; cbn [forallb] in Hv; apply andb_true_iff in Hv as (Hv & _); now apply negb_true_iff in Hv].
      apply negb_true_iff, has_char_false. intros J. rewrite forallb_forall in Hv. specialize (Hv _ J). now rewrite Ascii.eqb_refl in Hv.
    + rewrite (named_of _ _ _ (lit "delimiter") m 0 (note_reads d) eq_refl), (named_of _ _ _ (lit "comment") m 1 (note_reads d) eq_refl), G0. reflexivity.
  - apply not_true_iff_false. intros E. unfold comment_match in E. apply andb_true_iff in E as (E1 & E2). destruct s as [|x s]; [discriminate E1|]. cbn [starts_with] in E1. rewrite andb_true_r in E1. apply Ascii.eqb_eq in E1 as <-.
    destruct (drop_split (Ascii.eqb d) (d :: s)) as (p & Es & Hp & St). set (v := drop_while (Ascii.eqb d) (d :: s)) in *. clearbody v. apply negb_true_iff, has_char_false in E2.
    assert (Np : p <> []) by (intros ->; cbn [app] in Es; subst v; apply E2; now left).
    apply (re_unfound _ _ _ _ (note_reads_re d) F (length p + length v) [] [(2, v); (1, p)]). unfold note_re.
    eapply M_cat; [apply M_star_iff; exists []; repeat split; constructor|]. rewrite Es. eapply M_cat.
    + apply M_grp_iff. exists p, []. refine (conj eq_refl (conj eq_refl (conj eq_refl _))). apply M_plus_iff. exists p. repeat split; [assumption|now apply one_all].
    + eapply M_cat.
      * apply M_grp_iff. exists v, [(1, p)]. rewrite app_nil_r. refine (conj eq_refl (conj eq_refl (conj eq_refl _))). apply M_star_iff. exists v. rewrite app_nil_r. repeat split. apply (all_in_iff (not_one d) _ _ (in_not_one d)).
        apply forallb_forall. intros c J. apply negb_true_iff, Ascii.eqb_neq. congruence.
      * apply M_eol_iff. repeat split; auto.
Qed.

(** The reader of lines with braces does what the patterns of the source say, on every text and with every delimiter. *)
Theorem C26_patterns : forall delim line,
  parse_line_re delim line = match parse_line_braces delim line with Ok (a, b, t) => Ok (a, b, Some t) | Err e => Err e end.
Proof.
  intros delim line. unfold parse_line_re, parse_line_braces. destruct delim as [|d [|d' r]]; try reflexivity. cbv zeta.
  pose proof (strip_tidy line) as Ts. pose proof (note_found d _ Ts) as Hn. destruct (rx_find (pattern false (comment_pattern d)) (strip line)) as [m|].
  - destruct Hn as (-> & ->). reflexivity.
  - rewrite Hn. destruct (in_dec ascii_dec newline (strip line)) as [NL|NL]; [now apply brace_nl|now apply brace_line].
Qed.
Print Assumptions C26_patterns.
Example C26_patterns_ex : parse_line_re (lit "#") (lit "  } then { ") = Ok (-1, 0, Some (lit " then "))%Z /\
  parse_line_re (lit "!") (lit "a { } b;") = Ok (0, 0, Some (lit "ab"))%Z /\ parse_line_re (lit "!") (lit "!! x") = Ok (0, 0, Some (lit "!! x"))%Z /\
  parse_line_re (lit "!") (lit "a" ++ [newline] ++ lit "b{c};") = Ok (0, 0, Some (lit "a" ++ [newline] ++ lit "b {c }"))%Z.
Proof. vm_compute. repeat split. Qed.
