(** C08: banners are found by the patterns of the code. *)
From Coq Require Import Ascii String Arith NArith ZArith Bool List Lia Permutation.
From Verif Require Import PyStr PyStrFacts PyBase CfgModel TreePost IntfSpec IntfFacts SearchModel PyRe BannerReModel PyReFacts PyReTmpl PyReSent PyReLazy PyReFree IntfReModel IntfRe PIntfRe.
Import ListNotations.
Local Open Scope char_scope.

(** ** The expressions *)
Definition word_re (w : str) : re := chars (removelast w) (chr (last w " ")).
Lemma M_word w i s c i' s' c' : w <> [] -> (M (word_re w) i s c i' s' c' <-> s = w ++ s' /\ i' = i + length w /\ c' = c).
Proof.
  intros NE. pose proof (app_removelast_last " " NE) as E. unfold word_re. rewrite M_chars_iff.
  set (a := removelast w) in *. set (z := last w " ") in *. clearbody a z. clear NE. subst w. split.
  - intros (s1 & -> & HM). apply M_chr_iff in HM as (-> & -> & ->). rewrite <- app_assoc, app_length. cbn. repeat split; lia.
  - intros (-> & -> & ->). exists (z :: s'). rewrite <- app_assoc. split; [reflexivity|]. apply M_chr_iff. rewrite app_length. cbn. repeat split; lia.
Qed.
Definition set_re : re := chars (lit "set") (rplus true (RSet sp)).
Definition one_re (n : nat) (w : str) : re :=
  RCat RBol (RCat (RStar true (RGrp n set_re)) (chars (lit "banner") (RCat (rplus true (RSet sp)) (word_re w)))).
Fixpoint all_re (n : nat) (l : list string) : re :=
  match l with [] => word_re (lit "aaa authentication fail-message") | w :: r => RAlt (one_re n (lit w)) (all_re (S n) r) end.

Lemma cls_dec (a b : cls) : {a = b} + {a <> b}. Proof. decide equality; apply Ascii.ascii_dec. Defined.
Lemma cset_dec (a b : cset) : {a = b} + {a <> b}. Proof. decide equality; [apply (list_eq_dec cls_dec)|apply Bool.bool_dec|apply Bool.bool_dec]. Defined.
Lemma re_dec (a b : re) : {a = b} + {a <> b}. Proof. decide equality; [apply cset_dec|apply Bool.bool_dec|apply Nat.eq_dec]. Defined.

(** Every order of a list. *)
Fixpoint inserts {A} (x : A) (l : list A) : list (list A) :=
  match l with [] => [[x]] | y :: r => (x :: l) :: map (cons y) (inserts x r) end.
Fixpoint orders {A} (l : list A) : list (list A) := match l with [] => [[]] | x :: r => flat_map (inserts x) (orders r) end.
Lemma in_inserts {A} (x : A) u v : In (u ++ x :: v) (inserts x (u ++ v)).
Proof. induction u as [|y u IH]; cbn; [destruct v; left; reflexivity|]. right. now apply in_map. Qed.
Lemma in_orders {A} (l : list A) : forall m, Permutation l m -> In m (orders l).
Proof.
  induction l as [|x l IH]; intros m P; cbn [orders].
  - apply Permutation_nil in P. subst. now left.
  - assert (J : In x m) by (apply (Permutation_in _ P); now left). apply in_split in J as (u & v & ->).
    apply Permutation_cons_app_inv in P. apply in_flat_map. exists (u ++ v). split; [now apply IH|apply in_inserts].
Qed.
Definition compiles (l : list string) : bool :=
  match compile false (banner_pattern l) with Some (r, _) => if re_dec r (all_re 1 l) then true else false | None => false end.
Lemma all_compile : forallb compiles (orders banner_words) = true.
Proof. vm_compute. reflexivity. Qed.
Lemma compile_any l : Permutation banner_words l -> exists e, compile false (banner_pattern l) = Some (all_re 1 l, e).
Proof.
  intros P. pose proof all_compile as F. rewrite forallb_forall in F. specialize (F l (in_orders _ _ P)). unfold compiles in F.
  destruct (compile false (banner_pattern l)) as [[r e]|]; [|discriminate F]. destruct (re_dec r (all_re 1 l)) as [->|]; [|discriminate F]. now exists e.
Qed.

(** ** "set set ... banner" *)
Inductive sets : str -> Prop :=
| sets_nil : sets []
| sets_more c g w : is_space c = true -> white g -> sets w -> sets (lit "set" ++ c :: g ++ w).
Lemma M_set i s c i' s' c' : M set_re i s c i' s' c' <-> exists x g, s = lit "set" ++ x :: g ++ s' /\ is_space x = true /\ white g /\ i' = i + 4 + length g /\ c' = c.
Proof.
  unfold set_re. rewrite M_chars_iff. split.
  - intros (s1 & -> & HM). apply M_plus_iff in HM as (w & -> & NE & A & -> & ->). destruct w as [|x g]; [congruence|]. apply all_sp in A. unfold white in A. cbn [forallb] in A.
    apply andb_true_iff in A as (A1 & A2). exists x, g. cbn [length]. repeat split; auto. change (length (lit "set")) with 3. lia.
  - intros (x & g & -> & X & Wg & -> & ->). exists (x :: g ++ s'). split; [reflexivity|]. apply M_plus_iff. exists (x :: g). repeat split; [discriminate| |].
    + apply all_sp. unfold white. cbn [forallb]. now rewrite X, Wg.
    + change (length (lit "set")) with 3. cbn [length]. lia.
Qed.
(** The repetition, with a body that captures what it likes. *)
Lemma star_sets body : (forall i s c i' s' c', M body i s c i' s' c' -> exists d, M set_re i s c i' s' d) ->
  forall i s c i' s' c', M (RStar true body) i s c i' s' c' -> exists w, s = w ++ s' /\ sets w.
Proof.
  intros HB i s c i' s' c' HM. remember (RStar true body) as r eqn:E. induction HM; try discriminate E.
  - exists []. split; [reflexivity|constructor].
  - injection E as -> ->. apply HB in HM1 as (d & HM1). apply M_set in HM1 as (x & g & -> & X & Wg & _ & _). destruct (IHHM2 eq_refl) as (w & -> & W0).
    exists (lit "set" ++ x :: g ++ w). split; [|now constructor]. cbn. now rewrite <- app_assoc.
Qed.
Lemma sets_star body : (forall i s c i' s' c', M set_re i s c i' s' c' -> exists d, M body i s c i' s' d) ->
  forall w, sets w -> forall i s c, exists c', M (RStar true body) i (w ++ s) c (i + length w) s c'.
Proof.
  intros HB w W0. induction W0 as [|x g w X Wg W0 IH]; intros i s c.
  - exists c. rewrite Nat.add_0_r. constructor.
  - destruct (HB i (lit "set" ++ x :: g ++ w ++ s) c (i + 4 + length g) (w ++ s) c) as (d & HM); [apply M_set; exists x, g; auto|].
    destruct (IH (i + 4 + length g) s d) as (c' & HM2). exists c'.
    replace ((lit "set" ++ x :: g ++ w) ++ s) with (lit "set" ++ x :: g ++ w ++ s) by (cbn; now rewrite <- app_assoc).
    eapply M_more; [exact HM|lia|]. replace (i + length (lit "set" ++ x :: g ++ w)) with (i + 4 + length g + length w); [exact HM2|].
    rewrite app_length. cbn. rewrite app_length. lia.
Qed.
Lemma skip_sets_split n s : exists w, s = w ++ skip_sets n s /\ sets w.
Proof.
  revert s. induction n as [|n IH]; intros s; cbn [skip_sets]; [exists []; split; [reflexivity|constructor]|].
  assert (Z : exists w, s = w ++ s /\ sets w) by (exists []; split; [reflexivity|constructor]).
  destruct (starts_with (lit "set") s) eqn:E; [|exact Z]. apply starts_with_spec in E as (r & ->). cbn [skipn lit list_ascii_of_string app].
  destruct r as [|x r]; [exact Z|]. destruct (is_space x) eqn:X; [|exact Z]. destruct (lstrip_suffix r) as (g & E & Wg). destruct (IH (lstrip r)) as (w & E2 & W0).
  exists (lit "set" ++ x :: g ++ w). split; [|now constructor]. cbn. rewrite <- app_assoc, <- E2, <- E. reflexivity.
Qed.
Definition calm (s : str) : Prop := match s with [] => True | c :: _ => is_space c = false /\ c <> "s" end.
Lemma lstrip_gap g s : white g -> match s with [] => True | c :: _ => is_space c = false end -> lstrip (g ++ s) = s.
Proof. intros Wg Hs. rewrite lstrip_app_space by exact Wg. destruct s as [|c s]; [reflexivity|]. now apply lstrip_not_space. Qed.
Lemma sets_head w s : sets w -> calm s -> match w ++ s with [] => True | c :: _ => is_space c = false end.
Proof. intros W0 Hs. destruct W0; [|reflexivity]. cbn [app]. destruct s; [exact Logic.I|exact (proj1 Hs)]. Qed.
Lemma sets_skip w s : sets w -> calm s -> forall n, length w <= n -> skip_sets n (w ++ s) = s.
Proof.
  intros W0 Hs. induction W0 as [|x g w X Wg W0 IH]; intros n Hn.
  - cbn [app]. destruct n as [|n]; [reflexivity|]. cbn [skip_sets]. destruct (starts_with (lit "set") s) eqn:E; [|reflexivity].
    apply starts_with_spec in E as (r & ->). destruct Hs as (_ & Hs). cbn in Hs. congruence.
  - rewrite app_length in Hn. cbn in Hn. rewrite app_length in Hn. destruct n as [|n]; [lia|]. cbn [skip_sets].
    replace ((lit "set" ++ x :: g ++ w) ++ s) with (lit "set" ++ x :: g ++ w ++ s) by (cbn; now rewrite <- app_assoc).
    replace (starts_with (lit "set") (lit "set" ++ x :: g ++ w ++ s)) with true by (symmetry; apply starts_with_spec; eauto).
    cbn [skipn lit list_ascii_of_string app]. rewrite X, lstrip_gap by (try assumption; now apply sets_head). apply IH. lia.
Qed.

(** ** Lines that start a banner *)
Definition fail_message : str := lit "aaa authentication fail-message".
Definition banner_text (t : str) : Prop :=
  (exists w x g k z, sets w /\ t = w ++ lit "banner" ++ x :: g ++ lit k ++ z /\ is_space x = true /\ white g /\ In k banner_words) \/
  (exists a b, t = a ++ fail_message ++ b).
Lemma banner_words_head k : In k banner_words -> exists y r, lit k = y :: r /\ is_space y = false.
Proof. intros J. cbn in J. decompose [or] J; try contradiction; subst k; vm_compute; eexists; eexists; split; reflexivity. Qed.
Lemma banner_line_iff t : is_banner_line t = true <-> banner_text t.
Proof.
  unfold is_banner_line, banner_text. rewrite orb_true_iff, contains_spec. fold fail_message.
  match goal with |- (?P \/ ?Q) <-> (?R \/ ?Q') => assert (X : P <-> R); [|rewrite X; split; (intros [Y|Y]; [now left|right])] end.
  2:{ destruct Y as (a & b & ->). now exists a, b. }
  2:{ destruct Y as (a & b & ->). now exists a, b. }
  set (r := skip_sets (length t) t). split.
  - intros E. apply andb_true_iff in E as (E1 & E2). apply starts_with_spec in E1 as (r1 & E1). destruct (skip_sets_split (length t) t) as (w & Et & W0). fold r in Et.
    rewrite E1 in *. cbn [skipn lit list_ascii_of_string app] in E2. destruct r1 as [|x r1]; [discriminate E2|]. apply andb_true_iff in E2 as (X & E2).
    assert (K : exists k, In k banner_words /\ starts_with (lit k) (lstrip r1) = true).
    { apply existsb_exists in E2 as (y & J & Y). cbn in J. decompose [or] J; try contradiction; subst y;
        [exists "login"%string|exists "motd"%string|exists "incoming"%string|exists "exec"%string|exists "telnet"%string|exists "lcd"%string]; (split; [cbn; tauto|exact Y]). }
    destruct K as (k & Jk & K). apply starts_with_spec in K as (z & K). destruct (lstrip_suffix r1) as (g & Eg & Wg).
    exists w, x, g, k, z. split; [assumption|]. split; [|auto]. rewrite Et, Eg, K. reflexivity.
  - intros (w & x & g & k & z & W0 & E & X & Wg & Jk). assert (R : r = lit "banner" ++ x :: g ++ lit k ++ z).
    { unfold r. rewrite E. apply sets_skip; [assumption|split; [reflexivity|discriminate]|rewrite app_length; lia]. }
    rewrite R. replace (starts_with (lit "banner") (lit "banner" ++ x :: g ++ lit k ++ z)) with true by (symmetry; apply starts_with_spec; eauto).
    cbn [skipn lit list_ascii_of_string app andb]. rewrite X. cbn [andb]. destruct (banner_words_head k Jk) as (y & q & Ey & Y).
    rewrite lstrip_gap by (try assumption; fold (lit k); rewrite Ey; exact Y). apply existsb_exists. exists (lit k). split.
    + cbn in Jk. decompose [or] Jk; try contradiction; subst k; vm_compute; tauto.
    + apply starts_with_spec. now exists z.
Qed.
Lemma M_one n w i s c i' s' c' : w <> [] -> M (one_re n w) i s c i' s' c' ->
  i = 0 /\ exists u x g, sets u /\ is_space x = true /\ white g /\ s = u ++ lit "banner" ++ x :: g ++ w ++ s'.
Proof.
  intros NE HM. unfold one_re in HM. apply M_cat_iff in HM as (i1 & s1 & c1 & HM & HM2). apply M_bol_iff in HM as (-> & -> & -> & ->). split; [reflexivity|].
  apply M_cat_iff in HM2 as (i2 & s2 & c2 & HM & HM2). apply star_sets in HM as (u & -> & U).
  2:{ intros j v d j' v' d' K. apply M_grp_iff in K as (y & d2 & _ & _ & _ & K). eauto. }
  apply M_chars_iff in HM2 as (s3 & -> & HM). apply M_cat_iff in HM as (i3 & s4 & c3 & HM & HM2). apply M_plus_iff in HM as (v & -> & NV & V & _).
  apply M_word in HM2 as (-> & _); [|assumption]. apply all_sp in V. destruct v as [|x g]; [congruence|]. unfold white in V. cbn [forallb] in V. apply andb_true_iff in V as (X & Wg).
  exists u, x, g. auto.
Qed.
Lemma one_M n w u x g s : w <> [] -> sets u -> is_space x = true -> white g -> exists i' c', M (one_re n w) 0 (u ++ lit "banner" ++ x :: g ++ w ++ s) [] i' s c'.
Proof.
  intros NE U X Wg. destruct (sets_star (RGrp n set_re)) with (w := u) (i := 0) (s := lit "banner" ++ x :: g ++ w ++ s) (c := @nil (nat * str)) as (c' & HM); [|assumption|].
  { intros j v d j' v' d' K. destruct (M_consumes _ _ _ _ _ _ _ K) as (y & -> & ->). exists ((n, y) :: d'). apply M_grp_iff. exists y, d'. auto. }
  eexists. exists c'. unfold one_re. eapply M_cat; [constructor|]. eapply M_cat; [exact HM|]. apply M_chars_iff. eexists. split; [reflexivity|].
  eapply M_cat; [apply M_plus_iff; exists (x :: g); split; [reflexivity|]; split; [discriminate|]; split; [apply all_sp; unfold white; cbn [forallb]; now rewrite X, Wg|split; reflexivity]|].
  apply M_word; [assumption|]. split; [reflexivity|]. split; reflexivity.
Qed.
Lemma word_nonempty k : In k banner_words -> lit k <> [].
Proof. intros J. destruct (banner_words_head k J) as (y & r & -> & _). discriminate. Qed.
Lemma M_all l : (forall k, In k l -> In k banner_words) -> forall n i s c i' s' c', M (all_re n l) i s c i' s' c' ->
  (i = 0 /\ exists k u x g, In k l /\ sets u /\ is_space x = true /\ white g /\ s = u ++ lit "banner" ++ x :: g ++ lit k ++ s') \/ (exists b, s = fail_message ++ b).
Proof.
  induction l as [|k l IH]; intros Sub n i s c i' s' c' HM; cbn [all_re] in HM.
  - right. apply M_word in HM as (-> & _); [|discriminate]. now exists s'.
  - apply M_alt_iff in HM as [HM|HM].
    + left. apply M_one in HM as (-> & u & x & g & U & X & Wg & ->); [|apply word_nonempty, Sub; now left]. split; [reflexivity|]. exists k, u, x, g. repeat split; auto. now left.
    + destruct (IH (fun k J => Sub k (or_intror J)) _ _ _ _ _ _ _ HM) as [(-> & k' & u & x & g & J & K)|K]; [left|now right].
      split; [reflexivity|]. exists k', u, x, g. split; [now right|assumption].
Qed.
Lemma all_M l k u x g s : In k l -> (forall k, In k l -> In k banner_words) -> sets u -> is_space x = true -> white g -> forall n,
  exists i' c', M (all_re n l) 0 (u ++ lit "banner" ++ x :: g ++ lit k ++ s) [] i' s c'.
Proof.
  intros J Sub U X Wg. induction l as [|k0 l IH]; intros n; [destruct J|]. cbn [all_re]. destruct J as [->|J].
  - destruct (one_M n (lit k) u x g s) as (i' & c' & HM); auto; [apply word_nonempty, Sub; now left|]. exists i', c'. now apply M_left.
  - destruct (IH J (fun k J => Sub k (or_intror J)) (S n)) as (i' & c' & HM). exists i', c'. now apply M_right.
Qed.
Lemma fail_M l b : forall n i, exists i' c', M (all_re n l) i (fail_message ++ b) [] i' b c'.
Proof.
  induction l as [|k l IH]; intros n i; cbn [all_re].
  - eexists. exists []. apply M_word; [discriminate|]. split; [reflexivity|]. split; reflexivity.
  - destruct (IH (S n) i) as (i' & c' & HM). exists i', c'. now apply M_right.
Qed.
(** A line starts a banner exactly if the pattern is found in it, in whatever order the six words are put. *)
Theorem C08_pattern : forall l t, Permutation banner_words l -> banner_found l t = is_banner_line t.
Proof.
  intros l t P. apply eq_true_iff_eq. rewrite banner_line_iff. destruct (compile_any l P) as (e & C).
  assert (Sub : forall k, In k l -> In k banner_words) by (intros k; apply Permutation_in; now symmetry).
  unfold banner_found. cbn [rx_find pattern]. rewrite C. split.
  - intros E. destruct (search (all_re 1 l) t) as [[m c]|] eqn:Se; [|discriminate E].
    apply search_some in Se as (a & b & i' & s' & -> & HM & _). apply (M_all l Sub) in HM as [(L0 & k & u & x & g & J & U & X & Wg & ->)|(z & ->)].
    + destruct a; [|discriminate L0]. left. exists u, x, g, k, s'. refine (conj U (conj eq_refl (conj X (conj Wg (Sub k J))))) .
    + right. now exists a, z.
  - intros E. destruct (search (all_re 1 l) t) as [[m c]|] eqn:Se; [reflexivity|]. exfalso. destruct E as [(u & x & g & k & z & U & -> & X & Wg & J)|(a & b & ->)].
    + destruct (all_M l k u x g z) with (n := 1) as (i' & c' & HM); auto; [now apply (Permutation_in _ P)|]. exact (search_none _ _ Se [] _ _ _ _ eq_refl HM).
    + destruct (fail_M l b 1 (length a)) as (i' & c' & HM). exact (search_none _ _ Se a _ _ _ _ eq_refl HM).
Qed.
Print Assumptions C08_pattern.

(** ** The delimiter *)
Definition wd : cset := mkSet false false [CWord].
Lemma in_wd c : in_set wd c = is_word c. Proof. apply same_set. vm_compute. reflexivity. Qed.
Lemma in_ns' c : in_set ns c = negb (is_space c). Proof. exact (in_ns c). Qed.
Definition lead_re : re := RCat (RStar true set_re) (chars (lit "banner") (RCat (RSet sp) (RCat (rplus true (RSet wd)) (rplus true (RSet sp))))).
Definition delim_re : re := RCat (RGrp 1 lead_re) (RGrp 2 (RSet ns)).
Lemma delim_reads : compile false (lit delim_pattern) = Some (RCat RBol delim_re, (2, [(lit "bchar", 2); (lit "btype", 1)])).
Proof. vm_compute. reflexivity. Qed.
Lemma delim_reads_re : reads_re (lit delim_pattern) delim_re 2.
Proof. unfold reads_re. now rewrite delim_reads. Qed.
Definition delim_text (t : str) (d : ascii) : Prop :=
  exists w x v y g z, sets w /\ is_space x = true /\ v <> [] /\ forallb is_word v = true /\ is_space y = true /\ white g /\ is_space d = false /\
    t = w ++ lit "banner" ++ x :: v ++ y :: g ++ d :: z.
Lemma word_space c : is_word c = true -> is_space c = false.
Proof. pose proof (all_chars (fun c => implb (is_word c) (negb (is_space c))) ltac:(vm_compute; reflexivity) c) as E. cbn beta in E. intros K. rewrite K in E. cbn in E. now destruct (is_space c). Qed.
Lemma take_while_cut f v s : forallb f v = true -> match s with [] => True | c :: _ => f c = false end -> CfgModel.take_while f (v ++ s) = v.
Proof.
  intros F St. induction v as [|c v IH]; cbn [app CfgModel.take_while].
  - destruct s as [|c s]; [reflexivity|]. cbn [CfgModel.take_while]. now rewrite St.
  - cbn [forallb] in F. apply andb_true_iff in F as (Fc & F). rewrite Fc. f_equal. now apply IH.
Qed.
Lemma take_while_split f s : exists r, s = CfgModel.take_while f s ++ r /\ forallb f (CfgModel.take_while f s) = true.
Proof.
  induction s as [|c s (r & E & F)]; cbn [CfgModel.take_while]; [now exists []|]. destruct (f c) eqn:K; [|now exists (c :: s)].
  exists r. cbn [app forallb]. rewrite <- E, K. auto.
Qed.
Lemma banner_delim_iff t d : banner_delim t = Some d <-> delim_text t d.
Proof.
  unfold banner_delim, delim_text. set (r := skip_sets (length t) t). split.
  - intros E. destruct (starts_with (lit "banner") r) eqn:E1; [|discriminate E]. apply starts_with_spec in E1 as (r1 & E1).
    destruct (skip_sets_split (length t) t) as (w & Et & W0). fold r in Et. rewrite E1 in *. cbn [skipn lit list_ascii_of_string app] in E.
    destruct r1 as [|x r1]; [discriminate E|]. destruct (is_space x) eqn:X; [|discriminate E]. destruct (take_while_split is_word r1) as (r2 & E2 & V).
    destruct (CfgModel.take_while is_word r1) as [|v0 v] eqn:Ev; [discriminate E|]. rewrite E2 in E. rewrite skipn_app, skipn_all, Nat.sub_diag in E. cbn [app skipn] in E.
    destruct r2 as [|y r2]; [discriminate E|]. destruct (is_space y) eqn:Y; [|discriminate E]. destruct (lstrip_suffix r2) as (g & Eg & Wg).
    pose proof (lstrip_head r2) as Hd. destruct (lstrip r2) as [|d' z]; [discriminate E|]. injection E as ->.
    exists w, x, (v0 :: v), y, g, z. refine (conj W0 (conj X (conj _ (conj V (conj Y (conj Wg (conj Hd _))))))); [discriminate|].
    rewrite Et, E2, Eg. reflexivity.
  - intros (w & x & v & y & g & z & W0 & X & NE & V & Y & Wg & Hd & E).
    assert (R : r = lit "banner" ++ x :: v ++ y :: g ++ d :: z).
    { unfold r. rewrite E. apply sets_skip; [assumption|split; [reflexivity|discriminate]|rewrite app_length; lia]. }
    rewrite R. replace (starts_with (lit "banner") (lit "banner" ++ x :: v ++ y :: g ++ d :: z)) with true by (symmetry; apply starts_with_spec; eauto).
    cbn [skipn lit list_ascii_of_string app]. rewrite X, take_while_cut.
    + destruct v as [|v0 v]; [congruence|]. rewrite skipn_app, skipn_all, Nat.sub_diag. cbn [app skipn]. rewrite Y, lstrip_gap; [reflexivity|assumption|exact Hd].
    + assumption.
    + destruct (is_word y) eqn:K; [|reflexivity]. apply word_space in K. congruence.
Qed.
Lemma M_delim s i' s' c' : M delim_re 0 s [] i' s' c' -> exists d, delim_text s d /\ cap 2 c' = Some [d].
Proof.
  unfold delim_re. intros HM. apply M_cat_iff in HM as (i1 & s1 & c1 & HM & HM2). apply M_grp_iff in HM2 as (u & c2 & -> & _ & -> & HM2).
  apply M_set_iff in HM2 as (d & E & Hd & _ & ->). apply (app_inv_tail s' u [d]) in E as ->. rewrite in_ns' in Hd. apply negb_true_iff in Hd. exists d. split; [|reflexivity].
  apply M_grp_iff in HM as (v & c3 & _ & _ & _ & HM). unfold lead_re in HM. apply M_cat_iff in HM as (i2 & s2 & c4 & HM & HM2).
  apply star_sets in HM as (w & -> & W0); [|eauto]. apply M_chars_iff in HM2 as (s3 & -> & HM). apply M_cat_iff in HM as (i3 & s4 & c5 & HM & HM2).
  apply M_set_iff in HM as (x & -> & X & _). apply M_cat_iff in HM2 as (i4 & s5 & c6 & HM & HM2). apply M_plus_iff in HM as (v1 & -> & NE & V & _).
  apply M_plus_iff in HM2 as (g & -> & NG & Hg & _). apply all_sp in Hg. destruct g as [|y g]; [congruence|]. unfold white in Hg. cbn [forallb] in Hg. apply andb_true_iff in Hg as (Y & Wg).
  rewrite in_sp in X. apply (all_in_iff wd _ _ in_wd) in V. exists w, x, v1, y, g, s'. exact (conj W0 (conj X (conj NE (conj V (conj Y (conj Wg (conj Hd eq_refl))))))).
Qed.
Lemma delim_M t d : delim_text t d -> exists i' s' c', M delim_re 0 t [] i' s' c'.
Proof.
  intros (w & x & v & y & g & z & W0 & X & NE & V & Y & Wg & Hd & ->).
  destruct (sets_star set_re) with (w := w) (i := 0) (s := lit "banner" ++ x :: v ++ y :: g ++ d :: z) (c := @nil (nat * str)) as (c' & HM); [eauto|assumption|].
  assert (L0 : exists i1 c1, M lead_re 0 (w ++ lit "banner" ++ x :: v ++ y :: g ++ d :: z) [] i1 (d :: z) c1).
  { eexists. eexists. unfold lead_re. eapply M_cat; [exact HM|]. apply M_chars_iff. eexists. split; [reflexivity|].
    eapply M_cat; [constructor; now rewrite in_sp|]. eapply M_cat.
    - apply M_plus_iff. exists v. split; [reflexivity|]. split; [assumption|]. split; [now apply (all_in_iff wd _ _ in_wd)|split; reflexivity].
    - apply M_plus_iff. exists (y :: g). split; [reflexivity|]. split; [discriminate|]. split; [apply all_sp; unfold white; cbn [forallb]; now rewrite Y, Wg|split; reflexivity]. }
  destruct L0 as (i1 & c1 & HL). destruct (M_consumes _ _ _ _ _ _ _ HL) as (u & E & E1). eexists. eexists. eexists. unfold delim_re. eapply M_cat.
  - apply M_grp_iff. exists u, c1. split; [exact E|]. split; [exact E1|]. split; [reflexivity|exact HL].
  - apply M_grp_iff. exists [d], ((1, u) :: c1). split; [reflexivity|]. split; [reflexivity|]. split; [reflexivity|].
    apply M_set_iff. exists d. split; [reflexivity|]. split; [rewrite in_ns'; now rewrite Hd|]. split; [cbn; lia|reflexivity].
Qed.
(** The delimiter of the model is the group "bchar" of the pattern. *)
Theorem C08_delimiter : forall t, delim_found t = option_map (fun d => [d]) (banner_delim t).
Proof.
  intros t. unfold delim_found. destruct (rx_find (pattern false (lit delim_pattern)) t) as [m|] eqn:F.
  - apply (re_shape _ _ _ _ _ delim_reads_re) in F as (i & s & c & HM & G0). apply M_delim in HM as (d & Dt & C). apply banner_delim_iff in Dt. rewrite Dt. cbn [option_map].
    pose proof (named_at delim_pattern _ _ m "bchar" 1 delim_reads eq_refl) as N0. unfold grp in N0. rewrite N0, G0. exact C.
  - destruct (banner_delim t) as [d|] eqn:E; [|reflexivity]. exfalso. apply banner_delim_iff, delim_M in E as (i & s & c & HM).
    pose proof F as F'. cbn [rx_find pattern] in F'. rewrite delim_reads in F'. destruct (search (RCat RBol delim_re) t) as [[? ?]|] eqn:Se; [discriminate F'|].
    apply (search_none _ _ Se [] t i s c eq_refl). eapply M_cat; [constructor|exact HM].
Qed.
Print Assumptions C08_delimiter.
Example C08_pattern_ex : banner_found banner_words (lit "set banner  motd ^C") = true /\ delim_found (lit "banner motd ^C") = Some (lit "^") /\
  banner_found banner_words (lit " banner motd") = false /\ Permutation banner_words (rev banner_words).
Proof. vm_compute. repeat split. apply (Permutation_rev banner_words). Qed.
