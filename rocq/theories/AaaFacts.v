(** Lemmas about the patterns of the AAA lines. *)
From Coq Require Import Ascii String Arith NArith ZArith Bool List Lia.
From Verif Require Import PyStr PyStrFacts PyBase CfgModel SearchModel IntfModel IntfSpec IntfFacts IpModel IpSpec PyRe PyReFacts PyReTmpl PyReLazy PyReSent IosSpec IosModel IosFacts RouteSpec RouteFacts FactorySpec FactoryModel FactoryFacts AaaSpec AaaModel.
Import ListNotations.
Local Open Scope char_scope.

(** ** A group and the rest of the line *)

Definition ending (n : nat) : list re := [RGrp n (rplus true (RSet ns)); RGrp (S n) (rplus false (RSet dot)); REol].
Lemma row_app' {R} l m i s c (k : nat -> str -> caps -> option R) :
  mat (row (l ++ m)) i s c k = mat (row l) i s c (fun i' s' c' => mat (row m) i' s' c' k).
Proof. apply row_app. intros a b ? ? ? ? ? -> E. now apply mat_ext. Qed.
Lemma no_end {R} i s c (k : nat -> str -> caps -> option R) : s <> [] -> no_newline s -> mat REol i s c k = None.
Proof.
  intros NE F. destruct s as [|x [|y s]]; [congruence| |reflexivity]. unfold no_newline in F. cbn in F. rewrite andb_true_r in F. cbn. now destruct (Ascii.eqb x "010").
Qed.
Lemma newline_app a b : no_newline (a ++ b) <-> no_newline a /\ no_newline b.
Proof. unfold no_newline. rewrite forallb_app, andb_true_iff. tauto. Qed.
Lemma word_ne w : word w -> w <> []. Proof. now intros [H _]. Qed.
Lemma word_ns w : word w -> all_in ns w. Proof. intros [_ H]. now apply all_ns. Qed.
Lemma space_newline x : is_space x = false -> Ascii.eqb x "010" = false.
Proof. intros E. destruct (Ascii.eqb x "010") eqn:F; [|reflexivity]. apply Ascii.eqb_eq in F. subst. discriminate. Qed.
Lemma rest_ok G m : group_and_rest G m -> word G /\ m <> [] /\ no_newline m.
Proof.
  intros [Wg (c & r & -> & C) N0|Wg (x & -> & C)]; (split; [exact Wg|]); (split; [discriminate|]); auto. unfold no_newline. cbn. now rewrite space_newline.
Qed.
Lemma ending_found {R} n G m i c (k : nat -> str -> caps -> option R) x : group_and_rest G m ->
  k (i + length G + length m) [] ((S n, m) :: (n, G) :: c) = Some x -> mat (row (ending n)) i (G ++ m) c k = Some x.
Proof.
  intros GR K. destruct (rest_ok _ _ GR) as (Wg & NE & Nn). unfold ending. rewrite row_cons, mat_grp.
  assert (E : mat (row [RGrp (S n) (rplus false (RSet dot)); REol]) (i + length G) m ((n, firstn (i + length G - i) (G ++ m)) :: c) k = Some x).
  { rewrite row_cons, mat_grp. cbn [row]. rewrite firstn_len. rewrite <- (app_nil_r m) at 1. destruct m as [|y m]; [congruence|]. apply lazy_plus_first.
    - now apply all_dot.
    - intros w1 w2 -> NE2. rewrite app_nil_r. apply no_end; [exact NE2|]. change (y :: w1 ++ w2) with ((y :: w1) ++ w2) in Nn. now apply newline_app in Nn.
    - rewrite mat_eol by now left. replace (i + length G + length (y :: m) - (i + length G)) with (length (y :: m)) by lia. now rewrite firstn_all. }
  destruct GR as [_ (z & r & -> & Z0) _|_ (z & -> & Z0)].
  - apply plus_longest; [apply Wg|now apply word_ns|unfold stops; rewrite in_ns, Z0; reflexivity|exact E].
  - apply plus_best; [apply Wg|now apply word_ns| |exact E].
    intros u s1 EU NU FU. assert (s1 = [] /\ u = [z]) as [-> ->].
    { destruct u as [|a [|b u]]; [congruence| |discriminate]. injection EU as -> <-. auto. }
    apply mat_none. intros i' s' c' HM. apply row_cons_M in HM as (i1 & s1 & c1 & HM & _). apply M_grp_iff in HM as (w & c2 & _ & _ & _ & HM). apply greed_fwd in HM.
    change (greed (rplus false (RSet dot))) with (den [Run dot true]) in HM. apply shape in HM. apply D_run_eq in HM as (v & r & E1 & _ & NV & _).
    symmetry in E1. apply app_eq_nil in E1 as [-> _]. now apply NV.
Qed.
(** The longest word at the beginning. *)
Lemma word_cut s : exists u v, s = u ++ v /\ forallb (fun c => negb (is_space c)) u = true /\ word_ends v.
Proof.
  induction s as [|x s (u & v & -> & U & V0)]; [now exists [], []|]. destruct (is_space x) eqn:E.
  - exists [], (x :: u ++ v). cbn. now rewrite E.
  - exists (x :: u), v. cbn. now rewrite E.
Qed.
Lemma ending_shape n i s c i' s' c' : M (row (ending n)) i s c i' s' c' -> no_newline s -> exists G m, s = G ++ m /\ group_and_rest G m.
Proof.
  intros HM Nn. unfold ending in HM. apply row_cons_M in HM as (i1 & s1 & c1 & H1 & HM). apply row_cons_M in HM as (i2 & s2 & c2 & H2 & HM). cbn [row] in HM.
  apply M_grp_iff in H1 as (w & c3 & -> & -> & -> & H1). change (rplus true (RSet ns)) with (den [Run ns true]) in H1. apply shape in H1.
  apply D_run_eq in H1 as (w1 & r1 & E1 & W1 & N1 & H1). apply D_nil_eq in H1 as [-> ->]. apply app_inv_tail in E1. subst w1.
  apply M_grp_iff in H2 as (v & c4 & -> & -> & -> & H2). apply greed_fwd in H2. change (greed (rplus false (RSet dot))) with (den [Run dot true]) in H2. apply shape in H2.
  apply D_run_eq in H2 as (w1 & r2 & E1 & V1 & NV & H2). apply D_nil_eq in H2 as [-> ->]. apply app_inv_tail in E1. subst w1.
  change REol with (den [End]) in HM. apply shape in HM. inversion HM as [| | | | |? ? ? ? ? E| | | |]; subst.
  apply newline_app in Nn as [Nw Nn]. apply newline_app in Nn as [Nv Ne]. destruct E as [-> | ->]; [|discriminate]. rewrite app_nil_r. apply all_ns in W1.
  destruct (word_cut v) as (a & b & -> & A1 & B1). destruct b as [|y b].
  - rewrite app_nil_r in *. assert (NA : a <> []) by auto. destruct (exists_last NA) as (a' & x & ->). rewrite forallb_app in A1. apply andb_true_iff in A1 as [A1 A2].
    exists (w ++ a'), [x]. rewrite <- app_assoc. split; [reflexivity|]. apply gr_last.
    + split; [destruct w; [now specialize (N1 eq_refl)|discriminate]|]. now rewrite forallb_app, W1, A1.
    + exists x. split; [reflexivity|]. cbn in A2. now destruct (is_space x).
  - exists (w ++ a), (y :: b). rewrite <- app_assoc. split; [reflexivity|]. apply gr_more.
    + split; [destruct w; [now specialize (N1 eq_refl)|discriminate]|]. now rewrite forallb_app, W1, A1.
    + exists y, b. split; [reflexivity|]. cbn in B1. now destruct (is_space y).
    + now apply newline_app in Nv.
Qed.

(** A pattern that ends so, after the template [T]. *)
Lemma aaa_found p T n t c G m r : reads_re (lit p) (row (flat_map flat1 T ++ ending n)) (S n) -> D true T t (G ++ m) [] c -> group_and_rest G m ->
  r = map (fun j => cap j ((S n, m) :: (n, G) :: c)) (seq 1 (S n)) -> exists u, rx_find (pattern false (lit p)) t = Some (mkMatch u r).
Proof.
  intros R HD GR ->. eexists. eapply re_found; [exact R|]. unfold match_at. rewrite row_app'. eapply (eval _ _ _ _ _ HD). apply ending_found; [exact GR|]. reflexivity.
Qed.
Lemma aaa_shape p T n t m : reads_re (lit p) (row (flat_map flat1 T ++ ending n)) (S n) -> no_newline t -> rx_find (pattern false (lit p)) t = Some m ->
  exists G r c, D false T t (G ++ r) [] c /\ group_and_rest G r.
Proof.
  intros R Nt E. apply (re_shape _ _ _ _ _ R) in E as (i & s & c & HM & _). apply row_app_M in HM as (i1 & s1 & c1 & H1 & HM).
  apply (shape T) in H1. destruct (D_suffix _ _ _ _ _ _ H1) as (w & ->). apply newline_app in Nt as [_ Nt]. destruct (ending_shape _ _ _ _ _ _ _ HM Nt) as (G & r & -> & GR). eauto.
Qed.
Lemma typed_found {V} conv (d : V) p g t u r v w : rx_find (pattern false (lit p)) t = Some (mkMatch u r) -> nth_error r g = Some (Some v) -> conv (Some v) = Ok w ->
  typed conv d p (S g) t = Ok w.
Proof. intros E N0 C. unfold typed. rewrite E. cbn [group m_groups]. rewrite N0. cbn. exact C. Qed.
Lemma typed_none {V} conv (d : V) p g t : rx_find (pattern false (lit p)) t = None -> typed conv d p g t = Ok d.
Proof. intros E. unfold typed. now rewrite E. Qed.

(** ** Record types *)

Definition chars (w : str) : re := row (map chr w).
Fixpoint alts (l : list re) : re := match l with [] => REps | [a] => a | a :: r => RAlt a (alts r) end.
Lemma alts_M l : l <> [] -> forall i s c i' s' c', M (alts l) i s c i' s' c' <-> exists a, In a l /\ M a i s c i' s' c'.
Proof.
  induction l as [|a l IH]; intros NE i s c i' s' c'; [congruence|]. destruct l as [|b l].
  - cbn [alts]. split; [intros HM; exists a; split; [now left|exact HM]|]. intros (a' & [<-|[]] & HM). exact HM.
  - change (alts (a :: b :: l)) with (RAlt a (alts (b :: l))). split.
    + intros HM. apply M_alt_iff in HM as [HM|HM]; [exists a; split; [now left|exact HM]|]. apply IH in HM as (a' & I' & K); [|discriminate]. exists a'. split; [now right|exact K].
    + intros (a' & [<-|I'] & HM); [now apply M_left|]. apply M_right. apply IH; [discriminate|eauto].
Qed.
(** The template [T], one of these words as the group [n], the template [T1]. *)
Definition pick (T : list item) (n : nat) (ks : list str) (T1 : list item) : re := row (flat_map flat1 T ++ RGrp n (alts (map chars ks)) :: flat_map flat1 T1).
Lemma pick_shape T n ks T1 t i s c : ks <> [] -> M (pick T n ks T1) 0 t [] i s c ->
  exists r c1 k r1, D false T t r [] c1 /\ r = k ++ r1 /\ In k ks /\ D false T1 r1 s ((n, k) :: c1) c.
Proof.
  intros NE HM. unfold pick in HM. apply row_app_M in HM as (i1 & s1 & c1 & H1 & HM). apply (shape T) in H1. apply row_cons_M in HM as (i2 & s2 & c2 & H2 & HM). apply (shape T1) in HM.
  apply M_grp_iff in H2 as (w & c3 & -> & -> & -> & H2). apply alts_M in H2 as (a & I' & H2); [|destruct ks; [congruence|discriminate]]. apply in_map_iff in I' as (k & <- & I').
  apply chars1_M in H2 as (E & _ & ->). apply app_inv_tail in E. subst w. exists (k ++ s2), c1, k, s2. auto.
Qed.
Lemma pick_found T n ks T1 t r c1 k r1 s c : In k ks -> D false T t (k ++ r1) [] c1 -> r = k -> D false T1 r1 s ((n, k) :: c1) c -> exists i, M (pick T n ks T1) 0 t [] i s c.
Proof.
  intros I' H1 -> H2. eexists. unfold pick. eapply row_app_M'; [exact (unshape _ _ _ _ _ _ H1 0)|]. eapply row_cons_M'; [|exact (unshape _ _ _ _ _ _ H2 _)].
  replace ((n, k) :: c1) with ((n, firstn (0 + (length t - length (k ++ r1)) + length k - (0 + (length t - length (k ++ r1)))) (k ++ r1)) :: c1) by now rewrite firstn_len.
  apply M_grp. apply alts_M; [intros E; apply map_eq_nil in E; subst; destruct I'|]. exists (chars k). split; [now apply in_map|]. apply chars1_M'.
Qed.
(** What is found, if every way to match gives the same groups. *)
Lemma found_unique p r n t c0 i0 s0 c : reads_re (lit p) r n -> M r 0 t [] i0 s0 c0 ->
  (forall i s c1, M r 0 t [] i s c1 -> map (fun j => cap j c1) (seq 1 n) = c) -> exists u, rx_find (pattern false (lit p)) t = Some (mkMatch u c).
Proof.
  intros R HM U. destruct (rx_find (pattern false (lit p)) t) as [[u gs]|] eqn:E.
  - exists u. do 2 f_equal. apply (re_shape _ _ _ _ _ R) in E as (i & s & c1 & H1 & E). cbn [m_groups] in E. rewrite E. eauto.
  - exfalso. unfold reads_re, pattern in *. cbn [rx_find] in E. destruct (compile false (lit p)) as [[r' e]|]; [|discriminate]. cbn [option_map fst snd] in R. injection R as -> EN.
    destruct (search (RCat RBol r) t) as [[? ?]|] eqn:F; [discriminate|]. refine (search_none _ _ F [] t _ _ _ eq_refl _). eapply M_cat; [constructor|exact HM].
Qed.

(** ** The methods *)

Lemma split_bs_none s : forall acc, contains (lit "\s") s = false -> split_bs acc s = [rev acc ++ s].
Proof.
  induction s as [|c s IH]; intros acc N0; [cbn; now rewrite app_nil_r|]. cbn [contains] in N0. apply orb_false_iff in N0 as [N1 N2].
  destruct s as [|d s]; [reflexivity|].
  change (split_bs acc (c :: d :: s)) with (if Ascii.eqb c "\" && Ascii.eqb d "s" then rev acc :: split_bs [] s else split_bs (c :: acc) (d :: s)).
  replace (Ascii.eqb c "\" && Ascii.eqb d "s") with false.
  - rewrite IH by exact N2. cbn [rev]. now rewrite <- app_assoc.
  - symmetry. clear -N1. change (lit "\s") with ["\"; "s"] in N1. cbn [starts_with] in N1. rewrite andb_true_r in N1. now rewrite (Ascii.eqb_sym c), (Ascii.eqb_sym d).
Qed.

Lemma tight_fwd b ws : forall p T s s' c c', tight (map lit ws) p -> D b T s s' c c' -> D b (tight_T ws ++ T) (p ++ s) s' c c'.
Proof.
  induction ws as [|w ws IH]; intros p T s s' c c' P H; [inversion P|]. cbn [map] in *. destruct ws as [|w' ws].
  - inversion P as [|? ? ? ? ? Z]; subst; [|inversion Z]. cbn [tight_T app]. now constructor.
  - inversion P as [|? x ? q X P']; subst. cbn [tight_T app]. rewrite <- app_assoc. cbn [app]. constructor. constructor; [now rewrite in_sp|]. now apply IH.
Qed.
