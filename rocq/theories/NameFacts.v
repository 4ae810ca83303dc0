(** Lemmas about the naming attributes. *)
From Coq Require Import Ascii String Arith NArith ZArith Bool List Lia.
From Verif Require Import PyStr PyStrFacts PyBase CfgModel SearchModel IntfModel IntfSpec PyRe PyReFacts PyReTmpl PyReSent PyReLazy IosSpec IosModel IosFacts RouteSpec RouteModel RouteFacts FactorySpec FactoryModel FactoryFacts NameSpec NameModel.
Import ListNotations.
Local Open Scope char_scope.

Definition ltr : cset := mkSet false false [CRange "A" "Z"; CRange "a" "z"; CRange "-" "-"].
Definition ltr_char (c : ascii) : bool := is_alpha c || Ascii.eqb c "-".
Lemma in_ltr c : in_set ltr c = ltr_char c.
Proof. destruct c as [[] [] [] [] [] [] [] []]; reflexivity. Qed.
Lemma all_ltr w : all_in ltr w <-> forallb ltr_char w = true.
Proof. apply all_in_iff, in_ltr. Qed.
Lemma in_dot c : in_set dot c = negb (Ascii.eqb c "010").
Proof. destruct c as [[] [] [] [] [] [] [] []]; reflexivity. Qed.
Lemma space_kinds c : is_space c = true -> is_digit c = false /\ ltr_char c = false /\ Ascii.eqb c "." = false.
Proof. destruct c as [[] [] [] [] [] [] [] []]; vm_compute; intuition congruence. Qed.
Lemma digit_kinds c : is_digit c = true -> is_space c = false /\ ltr_char c = false /\ Ascii.eqb c "." = false.
Proof. destruct c as [[] [] [] [] [] [] [] []]; vm_compute; intuition congruence. Qed.
Lemma ltr_kinds c : ltr_char c = true -> is_space c = false /\ is_digit c = false.
Proof. destruct c as [[] [] [] [] [] [] [] []]; vm_compute; intuition congruence. Qed.

(** ** The pieces *)

Definition dotT : list item := [Lit (lit "."); Run dg true].
Definition wordT : list item := [One sp; Run ns true].
Definition tailT (n : nat) : list item := [Many n wordT; Run sp false; End].
Definition ends_word (s : str) : Prop := match s with [] => True | c :: _ => is_space c = true end.
Lemma trailing_ends e : trailing e -> ends_word e.
Proof. intros [|c w e' C]; cbn; auto. Qed.
Lemma white_ends e : white e -> ends_word e.
Proof. destruct e as [|c e]; cbn; auto. unfold white. cbn. intros E. now apply andb_true_iff in E as [E _]. Qed.
Lemma no_dot s i c i' s' c' : ends_word s -> ~ M (den dotT) i s c i' s' c'.
Proof. intros E HM. apply shape in HM. apply D_lit_eq in HM as (r & -> & _). cbn in E. discriminate. Qed.
Lemma no_word i c i' s' c' : ~ M (den wordT) i [] c i' s' c'.
Proof. intros HM. apply shape in HM. apply D_one_eq in HM as (x & r & E & _). discriminate. Qed.
Lemma tail_D n m e : trailing e -> n <> m -> forall c, exists c', D true (tailT n) e [] c c' /\ cap m c' = cap m c.
Proof.
  intros T NE. induction T as [|x w e X W0 T IH]; intros c.
  - exists c. split; [|reflexivity]. apply D_stop; [intros _ i c1 i' s' c'; apply no_word|]. change (@nil ascii) with (@nil ascii ++ []) at 1. apply D_run; [constructor|discriminate|intros _; exact I|].
    constructor; [now left|constructor].
  - destruct (IH ((n, x :: w) :: c)) as (c' & HD & E). exists c'. split.
    + change (x :: w ++ e) with ((x :: w) ++ e). eapply D_more; [discriminate| |exact HD]. cbn [app]. apply D_one; [now rewrite in_sp|]. destruct W0 as [W1 W2]. apply D_run; [now apply all_ns|auto| |constructor].
      intros _. apply (stops_iff _ _ _ in_ns). apply trailing_ends in T. destruct e; cbn in *; [auto|now rewrite T].
    + rewrite E. cbn [cap]. destruct (Nat.eqb m n) eqn:Q0; [apply Nat.eqb_eq in Q0; congruence|reflexivity].
Qed.
Lemma dotted_D n k m s e : dotted s -> trailing e -> n <> m -> k <> m -> forall c, exists c', D true (Many n dotT :: tailT k) (s ++ e) [] c c' /\ cap m c' = cap m c.
Proof.
  intros DS T NE NE'. induction DS as [|d s [G1 G2] DS IH]; intros c.
  - destruct (tail_D k m e T NE' c) as (c' & HD & E). exists c'. split; [|exact E]. apply D_stop; [|exact HD]. intros _ i c1 i' s' c2. apply no_dot. now apply trailing_ends.
  - destruct (IH ((n, "." :: d) :: c)) as (c' & HD & E). exists c'. split.
    + replace (("." :: d ++ s) ++ e) with (("." :: d) ++ (s ++ e)) by (cbn; now rewrite <- app_assoc). eapply D_more; [discriminate| |exact HD].
      change (("." :: d) ++ s ++ e) with (lit "." ++ (d ++ s ++ e)). apply D_lit. apply D_run; [now apply all_dg|auto| |constructor].
      intros _. apply (stops_iff _ _ _ in_dg). inversion DS; subst; cbn; [|reflexivity]. apply trailing_ends in T. destruct e; cbn in *; auto. now apply space_kinds in T.
    + rewrite E. cbn [cap]. destruct (Nat.eqb m n) eqn:Q0; [apply Nat.eqb_eq in Q0; congruence|reflexivity].
Qed.
(** What these pieces match. *)
Lemma many_inv n U T s s' c c' : D false (Many n U :: T) s s' c c' ->
  exists ws r c1, s = concat ws ++ r /\ Forall (fun w => exists r0 c0 c2, D false U (w ++ r0) r0 c0 c2) ws /\ D false T r s' c1 c'.
Proof.
  remember (Many n U :: T) as L0 eqn:E. intros HD. revert E. induction HD as [| | | | | |n0 U0 T0 s s' c c' A0 HD _|n0 U0 T0 w s s' c c1 c' N0 A0 _ HD IH| |]; intros E; try discriminate; injection E as -> -> ->.
  - exists [], s, c. auto.
  - destruct (IH eq_refl) as (ws & r & c2 & -> & F & H1). exists (w :: ws), r, c2. cbn [concat]. rewrite <- app_assoc. split; [reflexivity|]. split; [|exact H1]. constructor; [|exact F]. eauto.
Qed.
Lemma tail_inv n s s' c c' : D false (tailT n) s s' c c' -> exists e z, s = e ++ z /\ trailing e /\ white z.
Proof.
  intros HD. apply many_inv in HD as (ws & r & c1 & -> & F & HD). apply D_run_eq in HD as (z & r1 & -> & Z & _ & HD). inversion HD as [| | | | |? ? ? ? ? E| | | |]; subst.
  exists (concat ws), (z ++ r1). split; [reflexivity|]. split.
  - clear -F. induction F as [|w ws (r0 & c0 & c2 & HD) F IH]; [constructor|]. cbn [concat]. apply D_one_eq in HD as (x & r & E & X0 & HD). rewrite in_sp in X0.
    apply D_run_eq in HD as (v & r1 & -> & V1 & V2 & HD). apply D_nil_eq in HD as (-> & ->). change (x :: v ++ r1) with ((x :: v) ++ r1) in E. apply app_inv_tail in E. subst w. cbn [app]. constructor; auto. split; [auto|now apply all_ns].
  - apply white_app. apply all_sp in Z. split; [exact Z|now apply line_end_white].
Qed.
Lemma dots_inv n T s s' c c' : D false (Many n dotT :: T) s s' c c' -> exists a r c1, s = a ++ r /\ dotted a /\ D false T r s' c1 c'.
Proof.
  intros HD. apply many_inv in HD as (ws & r & c1 & -> & F & HD). exists (concat ws), r, c1. split; [reflexivity|]. split; [|exact HD].
  clear -F. induction F as [|w ws (r0 & c0 & c2 & HD) F IH]; [constructor|]. cbn [concat]. apply D_lit_eq in HD as (r & E & HD).
  apply D_run_eq in HD as (v & r1 & -> & V1 & V2 & HD). apply D_nil_eq in HD as (-> & ->). change (lit "." ++ v ++ r1) with (("." :: v) ++ r1) in E. apply app_inv_tail in E. subst w. cbn [app]. constructor; auto. split; [auto|now apply all_dg].
Qed.
Definition solid (s : str) : Prop := forallb (fun c => negb (is_space c)) s = true.
Lemma span_unique a r b s : solid a -> solid b -> ends_word r -> ends_word s -> a ++ r = b ++ s -> a = b /\ r = s.
Proof.
  unfold solid. revert b. induction a as [|x a IH]; intros [|y b] SA SB R0 S0 E; cbn [app forallb] in *.
  - auto.
  - subst r. cbn in R0. apply andb_true_iff in SB as [SB _]. now rewrite R0 in SB.
  - subst s. cbn in S0. apply andb_true_iff in SA as [SA _]. now rewrite S0 in SA.
  - injection E as -> E. apply andb_true_iff in SA as [_ SA], SB as [_ SB]. destruct (IH b SA SB R0 S0 E) as [-> ->]. auto.
Qed.
Lemma dotted_solid s : dotted s -> solid s.
Proof.
  unfold solid. induction 1 as [|d s [G1 G2] DS IH]; [reflexivity|]. cbn [forallb]. rewrite forallb_app, IH, andb_true_r. cbn.
  clear -G2. induction d as [|x d IHd]; [reflexivity|]. cbn in *. apply andb_true_iff in G2 as [X0 G2]. rewrite (digit_nonspace _ X0). auto.
Qed.
Lemma solid_app a b : solid (a ++ b) <-> solid a /\ solid b.
Proof. unfold solid. rewrite forallb_app, andb_true_iff. tauto. Qed.
Lemma dotted_split : forall x, dotted x -> forall u s, x = u ++ s -> dotted s -> u <> [] -> exists a d, u = a ++ "." :: d /\ digits d.
Proof.
  induction 1 as [|d r DG DR IH]; intros u s E DS NE.
  - symmetry in E. apply app_eq_nil in E as [-> _]. congruence.
  - destruct u as [|y u]; [congruence|]. cbn [app] in E. injection E as <- E.
    assert (X0 : (exists u2, u = d ++ u2 /\ r = u2 ++ s) \/ exists z d', d = u ++ z :: d' /\ s = z :: d' ++ r).
    { clear -E. revert u E. induction d as [|x d IH]; intros u E; cbn [app] in E; [left; now exists u|]. destruct u as [|y u]; cbn [app] in E.
      - right. exists x, d. auto.
      - injection E as <- E. destruct (IH u E) as [(u2 & -> & ->)|(z & d' & -> & ->)]; [left; now exists u2|right; now exists z, d']. }
    destruct X0 as [(u2 & -> & ->)|(z & d' & -> & ->)].
    + destruct u2 as [|y u2]; [exists [], d; rewrite app_nil_r; auto|]. destruct (IH (y :: u2) s eq_refl DS) as (a & d' & -> & DG'); [discriminate|].
      exists ("." :: d ++ a), d'. cbn [app]. rewrite <- app_assoc. auto.
    + exfalso. destruct DG as [_ DG]. rewrite forallb_app in DG. cbn [forallb] in DG. apply andb_true_iff in DG as [_ DG]. apply andb_true_iff in DG as [DG _].
      inversion DS; subst. discriminate.
Qed.

(** ** interface_number *)

Definition headT : list item := [Lit (lit "interface"); Run sp true; Run ltr true; Run sp false].
Definition num_re : re := RGrp 1 (RCat (rplus true (RSet dg)) (RStar false (RSet dot))).
Definition number_re : re := row (flat_map flat1 headT ++ num_re :: flat_map flat1 (Many 2 dotT :: tailT 3)).
Lemma num_reads : reads_re (lit "^interface\s+[A-Za-z\-]+\s*(\d+.*?)(\.\d+)*(\s\S+)*\s*$") number_re 3.
Proof. reflexivity. Qed.
Lemma row_app' {R} l m i s c (k : nat -> str -> caps -> option R) :
  mat (row (l ++ m)) i s c k = mat (row l) i s c (fun i' s' c' => mat (row m) i' s' c' k).
Proof. apply row_app. intros a b ? ? ? ? ? -> E. now apply mat_ext. Qed.
Lemma head_D T g r : class_word T -> white g -> (exists c r', r = c :: r' /\ is_digit c = true) -> forall c, D true headT (lit "interface " ++ T ++ g ++ r) r c c.
Proof.
  intros [T1 T2] G1 (x & r' & -> & X0) c. change (lit "interface " ++ T ++ g ++ x :: r') with (lit "interface" ++ [" "] ++ T ++ g ++ x :: r'). unfold headT. apply D_lit.
  apply D_run; [repeat constructor|discriminate| |].
  - intros _. destruct T as [|y T]; [congruence|]. cbn in T2. apply andb_true_iff in T2 as [T2 _]. cbn [app stops]. rewrite in_sp. now apply ltr_kinds in T2.
  - apply D_run; [now apply all_ltr|auto| |].
    + intros _. destruct g as [|z g]; cbn [app stops]; rewrite in_ltr.
      * now apply digit_kinds in X0.
      * unfold white in G1. cbn in G1. apply andb_true_iff in G1 as [G1 _]. now apply space_kinds in G1.
    + apply D_run; [now apply all_sp|discriminate| |constructor]. intros _. cbn [stops]. rewrite in_sp. now apply digit_kinds in X0.
Qed.
Lemma digit_run b : (exists c r, b = c :: r /\ is_digit c = true) -> exists d x, b = d ++ x /\ digits d /\ no_more is_digit x.
Proof.
  intros (c & r & -> & C0). assert (X0 : exists d x, r = d ++ x /\ forallb is_digit d = true /\ no_more is_digit x).
  { clear. induction r as [|y r (d & x & -> & F & N0)]; [now exists [], []|]. destruct (is_digit y) eqn:Y0; [exists (y :: d), x; cbn; rewrite Y0; auto|exists [], (y :: d ++ x); cbn; auto]. }
  destruct X0 as (d & x & -> & F & N0). exists (c :: d), x. repeat split; auto; [discriminate|]. cbn. now rewrite C0.
Qed.
Lemma is_intf_named r T : class_word T -> is_intf (lit "interface " ++ T ++ r) = Ok true.
Proof.
  intros [T1 T2]. destruct T as [|y T]; [congruence|]. cbn in T2. apply andb_true_iff in T2 as [T2 _]. unfold is_intf. change (starts_with (lit "interface ") (lit "interface " ++ (y :: T) ++ r)) with true.
  change (nth_error (lit "interface " ++ (y :: T) ++ r) 10) with (Some y). cbv iota beta. f_equal. apply ltr_kinds in T2 as [T2 _]. destruct (Ascii.eqb y " ") eqn:E; [|reflexivity]. apply Ascii.eqb_eq in E. subst. discriminate.
Qed.
Lemma no_more_app f a b : no_more f a -> no_more f b -> no_more f (a ++ b).
Proof. destruct a; auto. Qed.
Lemma ends_no_digit e : ends_word e -> no_more is_digit e.
Proof. destruct e as [|x e]; cbn; auto. intros E. now apply space_kinds in E. Qed.
Lemma dotted_no_digit s e : dotted s -> ends_word e -> no_more is_digit (s ++ e).
Proof. intros [|d s' _ _] E; cbn; auto. now apply ends_no_digit. Qed.
Lemma word_dots x : solid x -> all_in dot x.
Proof.
  unfold solid, all_in. induction x as [|y x IH]; cbn [forallb]; [constructor|]. intros E. apply andb_true_iff in E as [E1 E2]. constructor; auto. rewrite in_dot.
  destruct (Ascii.eqb y "010") eqn:E; [|reflexivity]. apply Ascii.eqb_eq in E. subst. discriminate.
Qed.
Lemma number_of_line T g b s e : class_word T -> white g -> base b -> dotted s -> trailing e ->
  interface_number (lit "interface " ++ T ++ g ++ b ++ s ++ e) = Ok b.
Proof.
  intros HT HG ([B1 B2] & BD & BN) DS TE. unfold interface_number. rewrite is_intf_named by assumption. cbn [bind]. f_equal. unfold line_match.
  destruct (digit_run b BD) as (d & x & -> & DG & NX). change (forallb (fun c => negb (is_space c)) (d ++ x) = true) with (solid (d ++ x)) in B2. apply solid_app in B2 as [SD SX].
  destruct (dotted_D 2 3 1 s e DS TE ltac:(discriminate) ltac:(discriminate) [(1, d ++ x)]) as (c' & HD & EC).
  set (t := lit "interface " ++ T ++ g ++ (d ++ x) ++ s ++ e). set (res := fun i' : nat => (firstn (i' - 0) t, c')).
  pose proof (head_D T g ((d ++ x) ++ s ++ e) HT HG) as HH. assert (BD' : exists c r', (d ++ x) ++ s ++ e = c :: r' /\ is_digit c = true).
  { destruct DG as [D1 D2]. destruct d as [|y d]; [congruence|]. cbn in D2. apply andb_true_iff in D2 as [D2 _]. cbn [app]. eauto. }
  specialize (HH BD' []). fold t in HH.
  set (n0 := 0 + (length t - length ((d ++ x) ++ s ++ e))).
  assert (E : match_at number_re 0 t = Some (res (n0 + length d + length x + (length (s ++ e) - length (@nil ascii))))).
  { unfold match_at, number_re. rewrite row_app'. apply (eval _ _ _ _ _ HH).
    fold n0. rewrite row_cons. unfold num_re. rewrite mat_grp, mat_cat. rewrite <- !app_assoc. destruct DG as [D1 D2]. apply plus_longest; [exact D1|now apply all_dg| |].
    { apply (stops_iff _ _ _ in_dg). apply no_more_app; [exact NX|]. apply dotted_no_digit; [exact DS|now apply trailing_ends]. }
    apply lazy_first; [now apply word_dots| |].
    - intros w1 w2 -> NE. apply mat_none. intros i' s' c1 HM. apply shape in HM. apply dots_inv in HM as (a & r & c2 & E & DA & HM). apply tail_inv in HM as (e1 & z & -> & T1 & Z1).
      assert (ER : ends_word (e1 ++ z)) by (destruct T1; cbn; auto; now apply white_ends). rewrite app_assoc in E. apply solid_app in SX as [_ SX].
      destruct (span_unique (w2 ++ s) e a (e1 ++ z)) as [EA _]; auto; [apply solid_app; split; auto; now apply dotted_solid|now apply dotted_solid|now apply trailing_ends|].
      destruct (dotted_split a DA w2 s (eq_sym EA) DS NE) as (a' & d' & -> & DG'). apply BN. exists (d ++ w1 ++ a'), d'. rewrite <- !app_assoc. auto.
    - replace (n0 + length d + length x - n0) with (length (d ++ x)) by (rewrite app_length; lia). replace (firstn (length (d ++ x)) (d ++ x ++ s ++ e)) with (d ++ x).
      2:{ rewrite (app_assoc d x). now rewrite firstn_app, firstn_all, Nat.sub_diag, firstn_O, app_nil_r. }
      eapply eval; [exact HD|]. reflexivity. }
  unfold res in E. rewrite (re_found _ _ _ _ _ _ num_reads E). change (seq 1 3) with [1; 2; 3]. cbn [map]. rewrite EC. reflexivity.
Qed.

(** ** subinterface_number *)

Definition optT : list item := [Opt [Lit (lit ".")]; Opt [One dg]].
Definition sub_re : re := RGrp 1 (RCat (rplus true (RSet dg)) (RCat (RStar false (RSet dot)) (den optT))).
Definition subnumber_re : re := row (flat_map flat1 headT ++ sub_re :: flat_map flat1 (tailT 2)).
Lemma sub_reads : reads_re (lit "^interface\s+[A-Za-z\-]+\s*(\d+.*?\.?\d?)(\s\S+)*\s*$") subnumber_re 2.
Proof. reflexivity. Qed.
(** What the last two parts of the group take. *)
Definition tip (z : str) : Prop := z = [] \/ z = ["."] \/ exists y, is_digit y = true /\ (z = [y] \/ z = ["."; y]).
Lemma tip_dec z : tip z \/ ~ tip z.
Proof.
  destruct z as [|a [|b [|c z]]].
  - left. now left.
  - destruct (Ascii.eqb a ".") eqn:E; [apply Ascii.eqb_eq in E; subst; left; right; now left|]. destruct (is_digit a) eqn:Y0; [left; right; right; exists a; auto|].
    right. intros [Z|[Z|(y & Y1 & [Z|Z])]]; try discriminate; injection Z as ->; [discriminate|congruence].
  - destruct (Ascii.eqb a "." && is_digit b) eqn:E.
    + apply andb_true_iff in E as [E1 E2]. apply Ascii.eqb_eq in E1. subst. left. right. right. exists b. auto.
    + right. intros [Z|[Z|(y & Y1 & [Z|Z])]]; try discriminate. injection Z as -> ->. rewrite Y1 in E. discriminate.
  - right. intros [Z|[Z|(y & Y1 & [Z|Z])]]; discriminate.
Qed.
Lemma tip_cut x : exists w z, x = w ++ z /\ tip z /\ forall w1 w2, w = w1 ++ w2 -> w2 <> [] -> ~ tip (w2 ++ z).
Proof.
  induction x as [|y x (w & z & -> & TZ & NZ)].
  - exists [], []. repeat split; [now left|]. intros w1 w2 E NE. symmetry in E. apply app_eq_nil in E as [_ E]. congruence.
  - destruct (tip_dec (y :: w ++ z)) as [T0|T0].
    + exists [], (y :: w ++ z). repeat split; auto. intros w1 w2 E NE. symmetry in E. apply app_eq_nil in E as [_ E]. congruence.
    + exists (y :: w), z. repeat split; auto. intros [|v w1] w2 E NE; cbn [app] in E; [now subst w2|]. injection E as -> E. eauto.
Qed.
Lemma no_M_lit i w s c i' s' c' : starts_with w s = false -> ~ M (den [Lit w]) i s c i' s' c'.
Proof.
  intros E HM. apply shape in HM. apply D_lit_eq in HM as (r & -> & _). clear -E. induction w as [|x w IH]; cbn in E; [destruct r; discriminate|]. rewrite Ascii.eqb_refl in E. auto.
Qed.
Lemma no_M_one i q s c i' s' c' : stops q s -> ~ M (den [One q]) i s c i' s' c'.
Proof. intros E HM. apply shape in HM. apply D_one_eq in HM as (x & r & -> & X0 & _). cbn in E. congruence. Qed.
Lemma tip_D z s c : tip z -> ends_word s -> D true optT (z ++ s) s c c.
Proof.
  intros TZ ES.
  assert (K1 : forall T s', D true T s s' c c -> D true (Opt [One dg] :: T) s s' c c).
  { intros T s' HD. apply D_skip; [|exact HD]. intros _ i c1 i' s1 c2. apply no_M_one. apply (stops_iff _ _ _ in_dg). now apply ends_no_digit. }
  assert (K2 : forall y T s', is_digit y = true -> D true T s s' c c -> D true (Opt [One dg] :: T) (y :: s) s' c c).
  { intros y T s' Y0 HD. eapply D_take; [|exact HD]. apply D_one; [now rewrite in_dg|constructor]. }
  assert (K3 : forall y T s' s1, Ascii.eqb "." y = false -> D true T (y :: s1) s' c c -> D true (Opt [Lit (lit ".")] :: T) (y :: s1) s' c c).
  { intros y T s' s1 Y0 HD. apply D_skip; [|exact HD]. intros _ i c1 i' s2 c2. apply no_M_lit. cbn [starts_with lit list_ascii_of_string]. rewrite Y0. reflexivity. }
  assert (K4 : forall T s' s1, D true T s1 s' c c -> D true (Opt [Lit (lit ".")] :: T) ("." :: s1) s' c c).
  { intros T s' s1 HD. eapply D_take; [|exact HD]. change ("." :: s1) with (lit "." ++ s1). apply D_lit. constructor. }
  destruct TZ as [-> | [-> | (y & Y0 & [-> | ->])]]; cbn [app].
  - destruct s as [|y s]; [|apply K3; [|apply K1; constructor]].
    + apply D_skip; [|apply K1; constructor]. intros _ i c1 i' s2 c2. now apply no_M_lit.
    + cbn in ES. apply space_kinds in ES as (_ & _ & ES). now rewrite Ascii.eqb_sym.
  - apply K4, K1. constructor.
  - apply K3; [apply digit_kinds in Y0 as (_ & _ & Y0); now rewrite Ascii.eqb_sym|]. apply K2; [exact Y0|constructor].
  - apply K4, K2; [exact Y0|constructor].
Qed.
Lemma opt_inv b U T s s' c c' : D b (Opt U :: T) s s' c c' -> D b T s s' c c' \/ exists s1 c1, D b U s s1 c c1 /\ D b T s1 s' c1 c'.
Proof. intros HD. inversion HD; subst; eauto. Qed.
Lemma tip_inv T s s' c c' : D false (optT ++ T) s s' c c' -> exists z r, s = z ++ r /\ tip z /\ D false T r s' c c'.
Proof.
  intros HD. unfold optT in HD. cbn [app] in HD.
  assert (X0 : forall s c, D false (Opt [One dg] :: T) s s' c c' -> exists z r, s = z ++ r /\ (z = [] \/ exists y, is_digit y = true /\ z = [y]) /\ D false T r s' c c').
  { intros s0 c0 HD0. apply opt_inv in HD0 as [HD0|(s1 & c1 & H1 & H2)]; [exists [], s0; auto|]. apply D_one_eq in H1 as (y & r & -> & Y0 & H1). apply D_nil_eq in H1 as (-> & ->).
    rewrite in_dg in Y0. exists [y], r. split; [reflexivity|]. split; [right; eauto|exact H2]. }
  apply opt_inv in HD as [HD|(s1 & c1 & H1 & H2)].
  - apply X0 in HD as (z & r & -> & [-> | (y & Y0 & ->)] & HD); [exists [], r|exists [y], r]; (split; [reflexivity|]); (split; [|exact HD]); [now left|right; right; eauto].
  - apply D_lit_eq in H1 as (r & -> & H1). apply D_nil_eq in H1 as (-> & ->). apply X0 in H2 as (z & r2 & -> & [-> | (y & Y0 & ->)] & H2); [exists ["."], r2|exists ["."; y], r2];
      (split; [reflexivity|]); (split; [|exact H2]); [right; now left|right; right; eauto].
Qed.
Lemma tip_solid z : tip z -> solid z.
Proof.
  intros [-> | [-> | (y & Y0 & [-> | ->])]]; try reflexivity; unfold solid; cbn [forallb]; apply digit_kinds in Y0 as (-> & _); reflexivity.
Qed.
Lemma subnumber_of_line T g n e : class_word T -> white g -> word n -> (exists c r, n = c :: r /\ is_digit c = true) -> trailing e ->
  subinterface_number (lit "interface " ++ T ++ g ++ n ++ e) = Ok n.
Proof.
  intros HT HG [B1 B2] BD TE. unfold subinterface_number. rewrite is_intf_named by assumption. cbn [bind]. f_equal. unfold line_match.
  destruct (digit_run n BD) as (d & x & -> & DG & NX). change (forallb (fun c => negb (is_space c)) (d ++ x) = true) with (solid (d ++ x)) in B2. apply solid_app in B2 as [SD SX].
  destruct (tip_cut x) as (w & z & -> & TZ & NZ). apply solid_app in SX as [SW SZ].
  destruct (tail_D 2 1 e TE ltac:(discriminate) [(1, d ++ w ++ z)]) as (c' & HD & EC).
  set (t := lit "interface " ++ T ++ g ++ (d ++ w ++ z) ++ e). set (res := fun i' : nat => (firstn (i' - 0) t, c')).
  pose proof (head_D T g ((d ++ w ++ z) ++ e) HT HG) as HH. assert (BD' : exists c r', (d ++ w ++ z) ++ e = c :: r' /\ is_digit c = true).
  { destruct DG as [D1 D2]. destruct d as [|y d]; [congruence|]. cbn in D2. apply andb_true_iff in D2 as [D2 _]. cbn [app]. eauto. }
  specialize (HH BD' []). fold t in HH. pose proof (trailing_ends _ TE) as EE.
  set (n0 := 0 + (length t - length ((d ++ w ++ z) ++ e))).
  assert (E : match_at subnumber_re 0 t = Some (res (n0 + length d + length w + (length (z ++ e) - length e) + (length e - length (@nil ascii))))).
  { unfold match_at, subnumber_re. rewrite row_app'. apply (eval _ _ _ _ _ HH).
    fold n0. rewrite row_cons. unfold sub_re. rewrite mat_grp, mat_cat. rewrite <- !app_assoc. destruct DG as [D1 D2]. apply plus_longest; [exact D1|now apply all_dg| |].
    { apply (stops_iff _ _ _ in_dg). rewrite app_assoc. apply no_more_app; [exact NX|now apply ends_no_digit]. }
    rewrite mat_cat. apply lazy_first; [now apply word_dots| |].
    - intros w1 w2 -> NE. match goal with |- mat _ ?i ?s ?c ?k = None => destruct (mat (den optT) i s c k) eqn:F; [exfalso|reflexivity] end.
      apply mat_sound in F as (i1 & s1 & c1 & M1 & F). apply mat_sound in F as (i2 & s2 & c2 & M2 & _). apply shape in M1, M2.
      rewrite <- (app_nil_r optT) in M1. apply tip_inv in M1 as (z' & r & E & TZ' & M1). apply D_nil_eq in M1 as (-> & ->). apply tail_inv in M2 as (e1 & y & -> & T1 & Z1).
      assert (ER : ends_word (e1 ++ y)) by (destruct T1; cbn; auto; now apply white_ends). rewrite app_assoc in E. apply solid_app in SW as [_ SW].
      destruct (span_unique (w2 ++ z) e z' (e1 ++ y)) as [EA _]; auto; [apply solid_app; split; auto|now apply tip_solid|]. subst z'. now apply (NZ w1 w2).
    - eapply eval; [apply tip_D; [exact TZ|exact EE]|].
      replace (n0 + length d + length w + (length (z ++ e) - length e) - n0) with (length (d ++ w ++ z)) by (rewrite !app_length; lia). replace (firstn (length (d ++ w ++ z)) (d ++ w ++ z ++ e)) with (d ++ w ++ z).
      2:{ rewrite (app_assoc w z e), (app_assoc d (w ++ z) e). now rewrite firstn_app, firstn_all, Nat.sub_diag, firstn_O, app_nil_r. }
      eapply eval; [exact HD|]. reflexivity. }
  unfold res in E. rewrite (re_found _ _ _ _ _ _ sub_reads E). change (seq 1 2) with [1; 2]. cbn [map]. rewrite EC. reflexivity.
Qed.

(** ** port_type *)

Definition typeT : list item := [Lit (lit "interface"); Run sp true; Grp 1 [Run ltr true]].
Lemma type_reads : reads (lit "^interface\s+([A-Za-z\-]+)") typeT 1.
Proof. reflexivity. Qed.
Lemma class_ltr p : class_word p <-> p <> [] /\ all_in ltr p.
Proof. unfold class_word. rewrite all_ltr. reflexivity. Qed.
Lemma class_nonwhite p : class_word p -> nonwhite_head p = true.
Proof. intros [P1 P2]. destruct p as [|x p]; [congruence|]. cbn [forallb] in P2. apply andb_true_iff in P2 as [P2 _]. apply ltr_kinds in P2 as [P2 _]. cbn. now rewrite P2. Qed.
Lemma class_app_nonwhite p r : class_word p -> nonwhite_head (p ++ r) = true.
Proof. intros P. apply class_nonwhite in P. now destruct p. Qed.
Lemma port_type_is g p r : gap g -> class_word p -> no_more ltr_char r -> port_type (lit "interface" ++ g ++ p ++ r) = p.
Proof.
  intros [G1 G2] P NR. pose proof (proj1 (class_ltr p) P) as [P1 P2]. unfold port_type, line_match.
  assert (HD : D true typeT (lit "interface" ++ g ++ p ++ r) r [] [(1, p)]).
  { unfold typeT. constructor. apply D_run; [now apply all_sp|auto| |].
    - intros _. apply (stops_iff _ _ _ in_sp). apply nonwhite_no_more. now apply class_app_nonwhite.
    - eapply D_grp; [|constructor]. apply D_run; [exact P2|auto| |constructor]. intros _. now apply (stops_iff _ _ _ in_ltr). }
  destruct (reads_some _ _ _ _ _ _ type_reads HD) as (m & ->). reflexivity.
Qed.
Lemma letters_cut s : exists p r, s = p ++ r /\ forallb ltr_char p = true /\ no_more ltr_char r.
Proof.
  induction s as [|x s (p & r & -> & P & NR)]; [exists [], []; repeat split|]. destruct (ltr_char x) eqn:E.
  - exists (x :: p), r. cbn. rewrite E. auto.
  - exists [], (x :: p ++ r). repeat split. exact E.
Qed.
Lemma port_type_spec t : (exists g r, t = lit "interface" ++ g ++ port_type t ++ r /\ gap g /\ class_word (port_type t) /\ no_more ltr_char r) \/
  (port_type t = [] /\ ~ interface_of (fun r => exists c u, r = c :: u /\ ltr_char c = true) t).
Proof.
  destruct (rx_find (pattern false (lit "^interface\s+([A-Za-z\-]+)")) t) as [m|] eqn:E.
  - left. pose proof (reads_shape _ _ _ _ _ type_reads E) as (s' & c & HD & _). unfold typeT in HD. apply D_lit_eq in HD as (r & -> & HD).
    apply D_run_eq in HD as (g & r1 & -> & G1 & G2 & HD). apply D_grp_eq in HD as (p & r2 & c1 & -> & HD & _).
    pose proof HD as HD'. apply D_run_inv in HD as (P1 & P2 & _).
    destruct (letters_cut r2) as (q & r & -> & Q1 & NR). assert (P : class_word (p ++ q)).
    { apply class_ltr. split; [specialize (P2 eq_refl); destruct p; [congruence|discriminate]|]. apply Forall_app. split; [exact P1|now apply all_ltr]. }
    assert (G0 : gap g) by (split; [now apply all_sp|auto]). rewrite (app_assoc p q r). rewrite port_type_is by assumption. exists g, r. auto.
  - right. split; [unfold port_type, line_match; now rewrite E|]. intros (g & r & -> & [G1 G2] & y & u & -> & Y0). apply (reads_found _ _ _ false (lit "interface" ++ g ++ y :: u) u [(1, [y])] type_reads); [|exact E].
    unfold typeT. constructor. apply D_run; [now apply all_sp|auto|discriminate|]. change (y :: u) with ([y] ++ u). eapply D_grp; [|constructor]. apply D_run; [|discriminate|discriminate|constructor].
    repeat constructor. now rewrite in_ltr.
Qed.
Lemma type_of_line T g r : class_word T -> white g -> (exists c u, r = c :: u /\ is_digit c = true) -> port_type (lit "interface " ++ T ++ g ++ r) = T.
Proof.
  intros HT HG (c & u & -> & HC). change (lit "interface " ++ T ++ g ++ c :: u) with (lit "interface" ++ [" "] ++ T ++ (g ++ c :: u)). apply port_type_is; [split; [reflexivity|discriminate]|exact HT|].
  destruct g as [|y g]; cbn [app no_more]; [now apply digit_kinds in HC as (_ & HC & _)|]. unfold white in HG. cbn [forallb] in HG. apply andb_true_iff in HG as [HG _]. now apply space_kinds in HG as (_ & HG & _).
Qed.

(** ** Kinds of interfaces *)

Lemma truth_iff p r T n t : reads_re (lit p) r n -> greed r = den T -> 1 <= n ->
  (forall s s' c, D false T s s' [] c -> exists v, cap 1 c = Some v /\ v <> []) -> (truth (line_match false p t) = true <-> exists s' c, D false T t s' [] c).
Proof.
  intros R E N1 NE. rewrite <- (re_found_greedy _ _ _ _ _ R E). unfold line_match. destruct (rx_find (pattern false (lit p)) t) as [m|] eqn:F; [|split; [discriminate|congruence]].
  split; [discriminate|]. intros _. apply (re_shape _ _ _ _ _ R) in F as (i & s & c & HM & G0). apply greed_fwd in HM. rewrite E in HM. apply shape in HM. destruct (NE _ _ _ HM) as (v & V & NV).
  destruct n as [|n]; [lia|]. unfold group. rewrite G0. cbn [seq map nth_error]. rewrite V. now destruct v.
Qed.
Lemma ns_word w : all_in ns w /\ w <> [] <-> word w.
Proof. unfold word. rewrite (all_in_iff _ _ _ in_ns). tauto. Qed.
(** A template with a part that takes a character. *)
Definition takes (t : item) : bool := match t with Run _ true | One _ | Lit (_ :: _) => true | _ => false end.
Lemma takes_D b U s s' c c' : D b U s s' c c' -> existsb takes U = true -> length s' < length s.
Proof.
  assert (Z : forall b' V x y d d', D b' V x y d d' -> length y <= length x) by (intros ? ? ? ? ? ? Z; apply D_suffix in Z as (v & ->); rewrite app_length; lia).
  induction 1 as [s c|w T s s' c c' HD IH|q b' T w s s' c c' Q1 Q2 Q3 HD IH|q T x s s' c c' Q1 HD IH|n V T w s s' c c1 c' Q1 IHA HD IH|T s s' c c' E HD IH|n V T s s' c c' Q1 HD IH|n V T w s s' c c1 c' N0 Q1 IHA HD IH|V T s s' c c' Q1 HD IH|V T s s1 s' c c1 c' Q1 IHA HD IH];
    cbn [existsb takes orb]; intros E0; try (pose proof (Z _ _ _ _ _ _ HD) as L0); rewrite ?app_length in *; cbn [length].
  - discriminate.
  - destruct w as [|x w]; [|cbn; lia]. cbn in *. auto.
  - destruct b'; [|specialize (IH E0); lia]. specialize (Q2 eq_refl). destruct w; [congruence|cbn; lia].
  - lia.
  - specialize (IH E0). lia.
  - specialize (IH E0). lia.
  - specialize (IH E0). lia.
  - destruct w; [congruence|cbn; lia].
  - specialize (IH E0). lia.
  - specialize (IH E0). apply Z in Q1. lia.
Qed.
Definition kindT (U : list item) : list item := [Lit (lit "interface"); Run sp true; Grp 1 U].
Lemma kind_iff p r U t : reads_re (lit p) r 1 -> greed r = den (kindT U) -> existsb takes U = true ->
  (truth (line_match false p t) = true <-> interface_of (fun u => exists s' c', D false U u s' [] c') t).
Proof.
  intros R E N1. rewrite (truth_iff _ _ _ _ _ R E); [|lia|].
  - split.
    + intros (s' & c & HD). apply D_lit_eq in HD as (u & -> & HD). apply D_run_eq in HD as (g & r1 & -> & G1 & G2 & HD). apply D_grp_eq in HD as (w & r2 & c1 & -> & HD & _).
      exists g, (w ++ r2). split; [reflexivity|]. split; [split; [now apply all_sp|auto]|eauto].
    + intros (g & u & -> & [G1 G2] & s' & c' & HD). destruct (D_suffix _ _ _ _ _ _ HD) as (w & ->). exists s', ((1, w) :: c'). unfold kindT. constructor.
      apply D_run; [now apply all_sp|auto|discriminate|]. eapply D_grp; [exact HD|constructor].
  - intros s s' c HD. apply D_lit_eq in HD as (u & -> & HD). apply D_run_eq in HD as (g & r1 & -> & _ & _ & HD). apply D_grp_eq in HD as (w & r2 & c1 & -> & HD & HN). apply D_nil_eq in HN as (-> & ->).
    cbn [cap Nat.eqb]. exists w. split; [reflexivity|]. intros ->. apply takes_D in HD; [|exact N1]. cbn in HD. lia.
Qed.
Lemma interface_of_iff P Q t : (forall r, P r <-> Q r) -> interface_of P t <-> interface_of Q t.
Proof. intros E. unfold interface_of. split; intros (g & r & -> & G0 & H0); exists g, r; (split; [reflexivity|]); (split; [exact G0|]); now apply E. Qed.
Definition kind_re (r : re) : re := row (map chr (lit "interface") ++ [rplus true (RSet sp); RGrp 1 r]).
Lemma subintf_iff t : is_subintf t = true <-> interface_of (fun r => exists w d s, r = w ++ "." :: d :: s /\ word w /\ is_digit d = true) t.
Proof.
  unfold is_subintf. rewrite (kind_iff _ (kind_re (RCat (rplus false (RSet ns)) (RCat (chr ".") (rplus true (RSet dg))))) [Run ns true; Lit (lit "."); Run dg true]); try reflexivity.
  apply interface_of_iff. intros u. split.
  - intros (s' & c & HD). apply D_run_eq in HD as (w & r & -> & W1 & W2 & HD). apply D_lit_eq in HD as (r3 & -> & HD). apply D_run_eq in HD as (d & r4 & -> & D1 & D2 & HD).
    specialize (D2 eq_refl). destruct d as [|y d]; [congruence|]. exists w, y, (d ++ r4). split; [reflexivity|]. split; [apply ns_word; auto|]. inversion D1; subst. now rewrite <- in_dg.
  - intros (w & d & s & -> & W0 & D0). apply ns_word in W0 as [W1 W2]. exists s, []. apply D_run; [exact W1|auto|discriminate|].
    change ("." :: d :: s) with (lit "." ++ [d] ++ s). constructor. apply D_run; [repeat constructor; now rewrite in_dg|discriminate|discriminate|constructor].
Qed.
Lemma loopback_iff t : is_loopback_intf t = true <-> interface_of (fun r => exists c s, r = c :: lit "oopback" ++ s /\ is_space c = false) t.
Proof.
  unfold is_loopback_intf. rewrite (kind_iff _ (kind_re (row (RSet ns :: map chr (lit "oopback")))) [One ns; Lit (lit "oopback")]); try reflexivity.
  apply interface_of_iff. intros u. split.
  - intros (s' & c & HD). apply D_one_eq in HD as (y & r & -> & Y0 & HD). apply D_lit_eq in HD as (r3 & -> & HD). exists y, r3. split; [reflexivity|]. rewrite in_ns in Y0. now destruct (is_space y).
  - intros (y & s & -> & Y0). exists s, []. apply D_one; [rewrite in_ns; now rewrite Y0|]. constructor. constructor.
Qed.
Lemma ethernet_iff t : is_ethernet_intf t = true <->
  interface_of (fun r => exists a c s, r = a ++ c :: lit "thernet" ++ s /\ is_space c = false /\ ~ In "010" a) t.
Proof.
  unfold is_ethernet_intf. rewrite (kind_iff _ (kind_re (RCat (RStar false (RSet dot)) (row (RSet ns :: map chr (lit "thernet"))))) [Run dot false; One ns; Lit (lit "thernet")]); try reflexivity.
  assert (X0 : forall a, all_in dot a <-> ~ In "010" a).
  { intros a. unfold all_in. rewrite Forall_forall. split.
    - intros F K. apply F in K. rewrite in_dot in K. discriminate.
    - intros F x K. rewrite in_dot. destruct (Ascii.eqb x "010") eqn:E; [|reflexivity]. apply Ascii.eqb_eq in E. subst. contradiction. }
  apply interface_of_iff. intros u. split.
  - intros (s' & c & HD). apply D_run_eq in HD as (a & r & -> & F & _ & HD). apply D_one_eq in HD as (y & r0 & -> & Y0 & HD). apply D_lit_eq in HD as (r3 & -> & HD).
    exists a, y, r3. split; [reflexivity|]. split; [|now apply X0]. rewrite in_ns in Y0. now destruct (is_space y).
  - intros (a & y & s & -> & Y0 & F). exists s, []. apply D_run; [now apply X0|discriminate|discriminate|]. apply D_one; [rewrite in_ns; now rewrite Y0|]. constructor. constructor.
Qed.

(** ** Letters in any case *)

Definition icr (c : ascii) : re := RSet (mkSet false true [CRange c c]).
Definition plain (c : ascii) : bool := (code c <? 128)%N.
Definition all_chars : list ascii := map ascii_of_nat (seq 0 256).
Lemma in_all c : In c all_chars.
Proof. unfold all_chars. apply in_map_iff. exists (nat_of_ascii c). split; [apply ascii_nat_embedding|]. apply in_seq. pose proof (nat_ascii_bounded c). lia. Qed.
Lemma icr_table : forallb (fun x => negb (plain x) || forallb (fun y => Bool.eqb (in_set (mkSet false true [CRange x x]) y) (Ascii.eqb (lower_char y) (lower_char x))) all_chars) all_chars = true.
Proof. vm_compute. reflexivity. Qed.
Lemma in_icr x y : plain x = true -> in_set (mkSet false true [CRange x x]) y = true <-> lower_char y = lower_char x.
Proof.
  intros P. pose proof icr_table as E. rewrite forallb_forall in E. specialize (E x (in_all x)). rewrite P in E. cbn [negb orb] in E. rewrite forallb_forall in E. specialize (E y (in_all y)).
  apply eqb_prop in E. rewrite E. apply Ascii.eqb_eq.
Qed.
Definition isp : cset := mkSet false true [CSpace].
Lemma in_isp c : in_set isp c = is_space c.
Proof. destruct c as [[] [] [] [] [] [] [] []]; vm_compute; reflexivity. Qed.
Lemma ic_M w : forallb plain w = true -> forall i s c i' s' c', M (row (map icr w)) i s c i' s' c' -> exists u, s = u ++ s' /\ lower u = lower w.
Proof.
  induction w as [|x w IH]; intros P i s c i' s' c' HM.
  - apply M_eps_iff in HM as (-> & -> & ->). now exists [].
  - cbn [forallb] in P. apply andb_true_iff in P as [P1 P2]. cbn [map] in HM. apply row_cons_M in HM as (i1 & s1 & c1 & M1 & M2). apply M_set_iff in M1 as (y & -> & Y0 & -> & ->).
    apply IH in M2 as (u & -> & E); [|exact P2]. apply in_icr in Y0; [|exact P1]. exists (y :: u). split; [reflexivity|]. cbn. now f_equal.
Qed.
Lemma ic_M' w : forallb plain w = true -> forall u i s c, lower u = lower w -> M (row (map icr w)) i (u ++ s) c (i + length u) s c.
Proof.
  induction w as [|x w IH]; intros P u i s c E; (destruct u as [|y u]; cbn in E; try discriminate).
  - cbn. rewrite Nat.add_0_r. constructor.
  - injection E as E1 E2. cbn [forallb] in P. apply andb_true_iff in P as [P1 P2]. cbn [map app length]. eapply row_cons_M'; [constructor; now apply in_icr|]. rewrite <- Nat.add_succ_comm. now apply IH.
Qed.
Fixpoint alts (l : list re) : re := match l with [] => REps | [a] => a | a :: r => RAlt a (alts r) end.
Lemma alts_M l : l <> [] -> forall i s c i' s' c', M (alts l) i s c i' s' c' <-> exists a, In a l /\ M a i s c i' s' c'.
Proof.
  induction l as [|a l IH]; intros NE i s c i' s' c'; [congruence|]. destruct l as [|b l].
  - cbn [alts]. split; [intros HM; exists a; split; [now left|exact HM]|]. intros (a' & [<-|[]] & HM). exact HM.
  - change (alts (a :: b :: l)) with (RAlt a (alts (b :: l))). split.
    + intros HM. apply M_alt_iff in HM as [HM|HM]; [exists a; split; [now left|exact HM]|]. apply IH in HM as (a' & I' & K); [|discriminate]. exists a'. split; [now right|exact K].
    + intros (a' & [<-|I'] & HM); [now apply M_left|]. apply M_right. apply IH; [discriminate|eauto].
Qed.
Definition virtual_words : list str := map lit ["Loopback"; "Vlan"; "Tunnel"; "Dialer"; "Virtual-Template"; "Port-Channel"]%string.
Definition virtual_re : re := row (map icr (lit "interface") ++ [rplus true (RSet isp); RGrp 1 (alts (map (fun w => row (map icr w)) virtual_words))]).
Definition virtual_p : string := "^interface\s+(Loopback|Vlan|Tunnel|Dialer|Virtual-Template|Port-Channel)".
Lemma virtual_reads : option_map (fun x => (fst x, fst (snd x))) (compile true (lit virtual_p)) = Some (RCat RBol virtual_re, 1).
Proof. vm_compute. reflexivity. Qed.
Definition virtual_line (t i g w r : str) : Prop := t = i ++ g ++ w ++ r /\ lower i = lit "interface" /\ gap g /\ In (lower w) (map lower virtual_words).
Lemma virtual_plain w : In w virtual_words -> forallb plain w = true /\ w <> [].
Proof. revert w. apply Forall_forall. unfold virtual_words. repeat constructor; discriminate. Qed.
Lemma virtual_M t j s' c' : M virtual_re 0 t [] j s' c' -> exists i g w r, virtual_line t i g w r /\ cap 1 c' = Some w /\ w <> [].
Proof.
  intros HM. unfold virtual_re in HM. apply row_app_M in HM as (i2 & s2 & c2 & C1 & C2). apply ic_M in C1 as (a & -> & E1); [|reflexivity]. apply row_cons_M in C2 as (i3 & s3 & c3 & C2 & C3).
  change (rplus true (RSet isp)) with (den [Run isp true]) in C2. apply shape in C2. apply D_run_eq in C2 as (g & r0 & -> & G1 & G2 & C2). apply D_nil_eq in C2 as (-> & ->).
  cbn [row] in C3. apply M_grp_iff in C3 as (w & c4 & -> & -> & -> & C4). apply alts_M in C4 as (a' & I' & C4); [|discriminate]. apply in_map_iff in I' as (w0 & <- & I').
  destruct (virtual_plain _ I') as [P NE]. apply (ic_M _ P) in C4 as (w' & E' & E2). apply app_inv_tail in E'. subst w'. exists a, g, w, s'. split; [split; [reflexivity|]; split; [exact E1|]; split; [split; [now apply (all_in_iff _ _ _ in_isp)|auto]|]; rewrite E2; now apply in_map|].
  cbn [cap Nat.eqb]. split; [reflexivity|]. intros ->. destruct w0; [congruence|discriminate].
Qed.
Lemma virtual_M' t i g w r : virtual_line t i g w r -> exists j s' c', M virtual_re 0 t [] j s' c'.
Proof.
  intros (-> & E1 & [G1 G2] & I'). apply in_map_iff in I' as (w0 & E2 & I'). destruct (virtual_plain _ I') as [P NE]. do 3 eexists. unfold virtual_re.
  eapply row_app_M'; [apply ic_M'; [reflexivity|exact E1]|]. eapply row_cons_M'.
  - change (rplus true (RSet isp)) with (den [Run isp true]). eapply unshape with (b := false). apply D_run; [now apply (all_in_iff _ _ _ in_isp)|auto|discriminate|constructor].
  - cbn [row]. constructor. apply alts_M; [discriminate|]. exists (row (map icr w0)). split; [apply in_map_iff; eauto|]. apply ic_M'; auto.
Qed.
Lemma virtual_iff t : is_virtual_intf t = true <-> exists i g w r, virtual_line t i g w r.
Proof.
  unfold is_virtual_intf, line_match. fold virtual_p. pose proof virtual_reads as R. unfold pattern. cbn [rx_find]. destruct (compile true (lit virtual_p)) as [[r e]|]; [|discriminate].
  cbn [option_map fst snd] in R. injection R as -> EN. rewrite search_bol. destruct (match_at virtual_re 0 t) as [[m c]|] eqn:F.
  - unfold match_at in F. apply mat_sound in F as (i' & s' & c' & HM & F). injection F as <- <-. apply virtual_M in HM as (i & g & w & r & V & E & NE). split; [eauto 6|]. intros _.
    cbn [group m_groups]. rewrite EN. cbn [seq map nth_error]. rewrite E. now destruct w.
  - split; [discriminate|]. intros (i & g & w & r & V). apply virtual_M' in V as (j & s' & c' & HM). exfalso. unfold match_at in F. revert F. eapply mat_complete; [exact HM|discriminate].
Qed.
