(** C71: ASA names, object groups and access lists report what the configuration says. *)
From Coq Require Import Ascii String Arith NArith ZArith Bool List Lia.
From Verif Require Import PyStr PyStrFacts PyBase CfgModel SearchModel IntfModel IntfSpec IntfFacts IpModel IpSpec PyRe PyReFacts PyReTmpl PyReLazy PyReSent IosSpec IosModel IosFacts RouteSpec RouteModel RouteFacts FactoryModel FactoryFacts AaaFacts PAaa L4Model AsaModel AsaSpec.
Import ListNotations.
Local Open Scope char_scope.

(** ** Lines *)

Lemma line_D b ks k t ws : forallb proper ks = true -> Forall2 fits ks ws -> line_of (lead_ok b) (tail_ok ks k) ws t -> exists s', D true (line_T b ks k) t s' [] (caps_of ks ws []).
Proof.
  intros PR F (i & q & e & -> & WI & P & E).
  assert (H' : exists s', D true (tail_items k) e s' (caps_of ks ws []) (caps_of ks ws [])).
  { destruct k; cbn [tail_items tail_ok] in *.
    - exists e. constructor; [exact E|constructor].
    - exists []. rewrite <- (app_nil_r e) at 1. apply D_run; [now apply all_sp|discriminate|intros _; exact I|constructor; [now left|constructor]].
    - exists e. constructor. }
  destruct H' as (s' & H'). exists s'. unfold line_T. apply D_run.
  - apply all_sp. destruct b; [apply WI|exact WI].
  - intros ->. apply WI.
  - intros _. apply (stops_iff _ _ _ in_sp). inversion F as [|k0 t0 ks0 ts0 F1 F2]; subst; [inversion P|].
    cbn [forallb] in PR. apply andb_true_iff in PR as [Q1 _]. pose proof (fits_head _ _ Q1 F1) as N1. destruct t0 as [|y t0]; [discriminate|].
    inversion P; subst; cbn in *; now destruct (is_space y).
  - eapply sent_fwd; eauto. now apply tail_ends in E.
Qed.
Lemma line_D_inv b ks t s' c : ks <> [] -> D false (line_T b ks Open) t s' [] c -> exists ws, Forall2 fits ks ws /\ line_of (lead_ok b) (tail_ok ks Open) ws t.
Proof.
  intros NE HD. unfold line_T in HD. apply D_run_eq in HD as (i & r & -> & K1 & K2 & HD). apply sent_shape in HD as (ws & q & e & -> & P & F & HD); [|exact NE].
  apply all_sp in K1. assert (LD : lead_ok b i) by (destruct b; [now split; auto|exact K1]).
  destruct (extend_last ks ws q e F P) as (ws' & q' & e' & -> & P' & F' & E'). exists ws'. split; [exact F'|]. exists i, q', e'. auto.
Qed.
Lemma leads_words ws t : Forall word ws -> leads ws t -> exists r, words t = ws ++ r.
Proof. intros F (i & p & e & -> & Wi & P & We). exists (words e). now apply words_phrase. Qed.

(** ** Alternatives that begin the line *)

Definition balts (l : list (nat * list item)) : re := alts (map (fun x => RGrp (fst x) (RCat RBol (den (snd x)))) l).
Lemma bgrp_M n T i t c i' s' c' : M (RGrp n (RCat RBol (den T))) i t c i' s' c' -> i = 0 /\ exists c1, D false T t s' c c1.
Proof.
  intros HM. apply M_grp_iff in HM as (w0 & c1 & _ & _ & _ & HM). apply M_cat_iff in HM as (i1 & s1 & c2 & HB & HM). apply M_bol_iff in HB as (-> & -> & -> & ->). split; [reflexivity|]. apply shape in HM. eauto.
Qed.
Lemma balts_skip {R} n T l t (k : nat -> str -> caps -> option R) : l <> [] -> (forall s' c, ~ D false T t s' [] c) -> mat (balts ((n, T) :: l)) 0 t [] k = mat (balts l) 0 t [] k.
Proof.
  intros NE ND. destruct l as [|y l]; [congruence|]. unfold balts. cbn [map alts fst snd]. rewrite mat_alt, mat_none; [reflexivity|]. intros i' s' c' HM. apply bgrp_M in HM as [_ (c1 & HD)]. exact (ND _ _ HD).
Qed.
Lemma bgrp_found {R} n T t s' c (k : nat -> str -> caps -> option R) x : D true T t s' [] c -> k (length t - length s') s' ((n, firstn (length t - length s') t) :: c) = Some x ->
  mat (RGrp n (RCat RBol (den T))) 0 t [] k = Some x.
Proof. intros HD K. rewrite mat_grp, mat_cat. cbn [mat Nat.eqb]. eapply (eval _ _ _ _ _ HD). cbn [Nat.add]. now rewrite Nat.sub_0_r. Qed.
Lemma balts_take {R} n T l t s' c (k : nat -> str -> caps -> option R) x : D true T t s' [] c -> k (length t - length s') s' ((n, firstn (length t - length s') t) :: c) = Some x ->
  mat (balts ((n, T) :: l)) 0 t [] k = Some x.
Proof.
  intros HD K. unfold balts. destruct l as [|y l]; cbn [map alts fst snd]; [exact (bgrp_found _ _ _ _ _ _ _ HD K)|]. now rewrite mat_alt, (bgrp_found _ _ _ _ _ _ _ HD K).
Qed.
Lemma balts_found pre n T l t s' c : Forall (fun x => forall s' c, ~ D false (snd x) t s' [] c) pre -> D true T t s' [] c ->
  exists m, search (balts (pre ++ (n, T) :: l)) t = Some (m, (n, m) :: c).
Proof.
  intros F HD. set (m := firstn (length t - length s') t). exists m.
  assert (E : match_at (balts (pre ++ (n, T) :: l)) 0 t = Some (m, (n, m) :: c)).
  { unfold match_at. induction F as [|[n0 T0] pre F1 F2 IH]; cbn [app].
    - apply (balts_take n T l t s' c _ _ HD). now rewrite Nat.sub_0_r.
    - rewrite balts_skip; [exact IH|now destruct pre|exact F1]. }
  unfold search. destruct t; cbn [search_from]; now rewrite E.
Qed.
Lemma balts_none l t : l <> [] -> (forall x s' c, In x l -> ~ D false (snd x) t s' [] c) -> search (balts l) t = None.
Proof.
  intros NE ND. destruct (search (balts l) t) as [[m c]|] eqn:E; [|reflexivity]. exfalso. apply search_some in E as (u & v & i & s & -> & HM & _).
  apply alts_M in HM as (a & I0 & HM); [|destruct l; [congruence|discriminate]]. apply in_map_iff in I0 as (x & <- & I0). apply bgrp_M in HM as [E0 (c1 & HD)]. destruct u; [|discriminate]. exact (ND x _ _ I0 HD).
Qed.
Definition reads_alts (p : str) (l : list (nat * list item)) (n : nat) : Prop :=
  option_map (fun x => (fst x, fst (snd x))) (compile false p) = Some (balts l, n).
Lemma alts_found p pre m T post n t s' c : reads_alts p (pre ++ (m, T) :: post) n -> Forall (fun x => forall s' c, ~ D false (snd x) t s' [] c) pre -> D true T t s' [] c ->
  exists u, rx_find (pattern false p) t = Some (mkMatch u (map (fun j => cap j ((m, u) :: c)) (seq 1 n))).
Proof.
  intros R F HD. destruct (balts_found _ m T post t s' c F HD) as (u & E). exists u. unfold reads_alts, pattern in *. cbn [rx_find]. destruct (compile false p) as [[r e]|]; [|discriminate].
  cbn [option_map fst snd] in R. injection R as -> <-. now rewrite E.
Qed.
Lemma alts_none p l n t : reads_alts p l n -> l <> [] -> (forall x s' c, In x l -> ~ D false (snd x) t s' [] c) -> rx_find (pattern false p) t = None.
Proof.
  intros R NE ND. unfold reads_alts, pattern in *. cbn [rx_find]. destruct (compile false p) as [[r e]|]; [|discriminate]. cbn [option_map fst snd] in R. injection R as -> <-. now rewrite balts_none.
Qed.

(** ** The entries of a group *)

Definition host_T := line_T false [W (lit "network-object"); W (lit "host"); G 2] Open.
Definition net_T := line_T false [W (lit "network-object"); G 4; H 5] Open.
Definition group_T := line_T false [W (lit "group-object"); G 7] Open.
Lemma net_reads : reads_alts netobject [(1, host_T); (3, net_T); (6, group_T)] 7. Proof. vm_compute. reflexivity. Qed.
Lemma net_names m : named netobject (lit "host") m = nth 1 (m_groups m) None /\ named netobject (lit "network") m = nth 3 (m_groups m) None /\
  named netobject (lit "netmask") m = nth 4 (m_groups m) None /\ named netobject (lit "groupobject") m = nth 6 (m_groups m) None.
Proof. repeat split; reflexivity. Qed.
Ltac slots3 := repeat match goal with X : Forall2 fits _ _ |- _ => inversion X; subst; clear X end; cbn [fits] in *; subst.
Lemma host_iff t : (exists s' c, D false host_T t s' [] c) <-> exists h, host_says t h.
Proof.
  split.
  - intros (s' & c & HD). apply line_D_inv in HD as (ws & F & HL); [|discriminate]. slots3. eexists. split; [eassumption|exact HL].
  - intros (h & Wh & HL). destruct (line_D false [W (lit "network-object"); W (lit "host"); G 2] Open t [lit "network-object"; lit "host"; h]) as (s' & HD); [reflexivity|repeat constructor; apply Wh|exact HL|].
    eexists _, _. apply D_weaken. exact HD.
Qed.
Lemma net_iff t : (exists s' c, D false net_T t s' [] c) <-> exists n m, net_says t n m.
Proof.
  split.
  - intros (s' & c & HD). apply line_D_inv in HD as (ws & F & HL); [|discriminate]. slots3. eexists _, _. split; [eassumption|split; [eassumption|exact HL]].
  - intros (n & m & Wn & Qm & HL). destruct (line_D false [W (lit "network-object"); G 4; H 5] Open t [lit "network-object"; n; m]) as (s' & HD); [reflexivity|repeat (constructor; auto)|exact HL|].
    eexists _, _. apply D_weaken. exact HD.
Qed.
Lemma group_iff t : (exists s' c, D false group_T t s' [] c) <-> exists g, group_says t g.
Proof.
  split.
  - intros (s' & c & HD). apply line_D_inv in HD as (ws & F & HL); [|discriminate]. slots3. eexists. split; [eassumption|exact HL].
  - intros (g & Wg & HL). destruct (line_D false [W (lit "group-object"); G 7] Open t [lit "group-object"; g]) as (s' & HD); [reflexivity|repeat constructor; apply Wg|exact HL|].
    eexists _, _. apply D_weaken. exact HD.
Qed.
Lemma net_words t n m : net_says t n m -> exists r, words t = lit "network-object" :: n :: r.
Proof.
  intros (Wn & Qm & i & p & e & -> & Wi & P & _). inversion P as [|? g ? q GG P1]; subst. inversion P1 as [|? g2 ? q2 GG2 P2]; subst.
  destruct (leads_words [lit "network-object"; n] (i ++ (lit "network-object" ++ g ++ n ++ g2 ++ q2) ++ e)) as (r & E); [constructor; [split; [discriminate|reflexivity]|constructor; [exact Wn|constructor]]| |exists r; exact E].
  exists i, (lit "network-object" ++ g ++ n), (g2 ++ q2 ++ e). split; [now rewrite <- !app_assoc|]. split; [exact Wi|]. split; [constructor; [exact GG|constructor]|].
  destruct GG2 as [G1 G2]. destruct g2 as [|y g2]; [congruence|]. unfold white in G1. cbn in *. apply andb_true_iff in G1 as [-> _]. reflexivity.
Qed.
Lemma host_words t h : host_says t h -> exists r, words t = lit "network-object" :: lit "host" :: h :: r.
Proof. intros [Wh HL]. apply leads_words in HL as (r & E); [now exists r|]. constructor; [split; [discriminate|reflexivity]|constructor; [split; [discriminate|reflexivity]|constructor; [exact Wh|constructor]]]. Qed.
Lemma group_words t g : group_says t g -> exists r, words t = lit "group-object" :: g :: r.
Proof. intros [Wh HL]. apply leads_words in HL as (r & E); [now exists r|]. constructor; [split; [discriminate|reflexivity]|constructor; [exact Wh|constructor]]. Qed.

Section Child.
  Variables (ns : list (str * str)) (me : str) (group : str -> result (list str)).
  Notation child := (netgroup_child ns me group).
  Lemma truth_word v : word v -> truth v = true. Proof. intros [NE _]. now destruct v. Qed.
  Lemma child_host t h : host_says t h -> child t = Ok [subst_name ns h].
  Proof.
    intros [Wh HL]. destruct (line_D false [W (lit "network-object"); W (lit "host"); G 2] Open t [lit "network-object"; lit "host"; h]) as (s' & HD); [reflexivity|repeat constructor; apply Wh|exact HL|].
    destruct (alts_found netobject [] 1 host_T [(3, net_T); (6, group_T)] 7 t s' _ net_reads (Forall_nil _) HD) as (u & E).
    unfold netgroup_child, entry. cbv zeta. rewrite E. destruct (net_names (mkMatch u (map (fun j => cap j ((1, u) :: caps_of [W (lit "network-object"); W (lit "host"); G 2] [lit "network-object"; lit "host"; h] [])) (seq 1 7)))) as (-> & -> & -> & ->).
    cbn [m_groups seq map cap caps_of cap1 app nth Nat.eqb or_empty]. change (str_eqb [] (lit "255.255.255.255")) with false. cbv iota. now rewrite (truth_word h Wh).
  Qed.
  Lemma child_net t n m : net_says t n m -> n <> lit "host" ->
    child t = Ok [if str_eqb m (lit "255.255.255.255") then subst_name ns n else subst_name ns n ++ "/" :: m].
  Proof.
    intros HN NH. destruct (net_words _ _ _ HN) as (r0 & EW). destruct HN as (Wn & Qm & HL). destruct (line_D false [W (lit "network-object"); G 4; H 5] Open t [lit "network-object"; n; m]) as (s' & HD); [reflexivity|repeat (constructor; auto)|exact HL|].
    assert (FP : Forall (fun x => forall s' c, ~ D false (snd x) t s' [] c) [(1, host_T)]).
    { constructor; [|constructor]. cbn [snd]. intros s0 c0 K. destruct (proj1 (host_iff t)) as (h & Hh); [eauto|]. apply host_words in Hh as (r & Eh). rewrite EW in Eh. apply (f_equal (fun l => nth 1 l [])) in Eh. exact (NH Eh). }
    destruct (alts_found netobject [(1, host_T)] 3 net_T [(6, group_T)] 7 t s' _ net_reads FP HD) as (u & E).
    unfold netgroup_child, entry. cbv zeta. rewrite E. destruct (net_names (mkMatch u (map (fun j => cap j ((3, u) :: caps_of [W (lit "network-object"); G 4; H 5] [lit "network-object"; n; m] [])) (seq 1 7)))) as (-> & -> & -> & ->).
    cbn [m_groups seq map cap caps_of cap1 app nth Nat.eqb or_empty]. destruct (str_eqb m (lit "255.255.255.255")); cbn [truth]; now rewrite (truth_word n Wn).
  Qed.
  Lemma child_group t g : group_says t g -> child t = if str_eqb g me then Err ValueError else group g.
  Proof.
    intros HG. destruct (group_words _ _ HG) as (r0 & EW). destruct HG as (Wg & HL). destruct (line_D false [W (lit "group-object"); G 7] Open t [lit "group-object"; g]) as (s' & HD); [reflexivity|repeat (constructor; auto)|exact HL|].
    assert (FP : Forall (fun x => forall s' c, ~ D false (snd x) t s' [] c) [(1, host_T); (3, net_T)]).
    { constructor; [|constructor; [|constructor]]; cbn [snd]; intros s0 c0 K.
      - destruct (proj1 (host_iff t)) as (h & Hh); [eauto|]. apply host_words in Hh as (r & Eh). rewrite EW in Eh. discriminate.
      - destruct (proj1 (net_iff t)) as (h & k & Hh); [eauto|]. apply net_words in Hh as (r & Eh). rewrite EW in Eh. discriminate. }
    destruct (alts_found netobject [(1, host_T); (3, net_T)] 6 group_T [] 7 t s' _ net_reads FP HD) as (u & E).
    unfold netgroup_child, entry. cbv zeta. rewrite E. destruct (net_names (mkMatch u (map (fun j => cap j ((6, u) :: caps_of [W (lit "group-object"); G 7] [lit "group-object"; g] [])) (seq 1 7)))) as (-> & -> & -> & ->).
    cbn [m_groups seq map cap caps_of cap1 app nth Nat.eqb or_empty]. change (str_eqb [] (lit "255.255.255.255")) with false. cbv iota. cbn [truth]. now rewrite (truth_word g Wg).
  Qed.
  Lemma child_other t : (forall h, ~ host_says t h) -> (forall n m, ~ net_says t n m) -> (forall g, ~ group_says t g) ->
    child t = if contains (lit "description ") t then Ok [] else Err NotImplementedErr.
  Proof.
    intros N1 N2 N3. unfold netgroup_child, entry. cbv zeta. rewrite (alts_none netobject _ 7 t net_reads); [reflexivity|discriminate|].
    intros x s' c [<- |[<- |[<- |[]]]] K; cbn [snd] in K.
    - destruct (proj1 (host_iff t)) as (h & Hh); [eauto|]. exact (N1 _ Hh).
    - destruct (proj1 (net_iff t)) as (h & k & Hh); [eauto|]. exact (N2 _ _ Hh).
    - destruct (proj1 (group_iff t)) as (h & Hh); [eauto|]. exact (N3 _ Hh).
  Qed.
End Child.
(** Every line is one of these. *)
Lemma member_cases t : (exists h, host_says t h) \/ (exists n m, net_says t n m /\ n <> lit "host") \/ (exists g, group_says t g) \/
  ((forall h, ~ host_says t h) /\ (forall n m, ~ net_says t n m) /\ forall g, ~ group_says t g).
Proof.
  assert (K : forall T, (exists s' c, D false T t s' [] c) \/ ~ exists s' c, D false T t s' [] c).
  { intros T. destruct (mat (den T) 0 t [] (fun _ s' c => Some (s', c))) as [[s' c]|] eqn:E.
    - left. apply mat_sound in E as (i & s0 & c0 & HM & _). apply shape in HM. eauto.
    - right. intros (s' & c & HD). apply unshape with (i := 0) in HD. revert E. change (mat (den T) 0 t [] (fun _ s c => Some (s, c)) <> None). eapply mat_complete; [exact HD|discriminate]. }
  destruct (K host_T) as [K1|K1]; [left; now apply host_iff|]. rewrite host_iff in K1. right. destruct (K net_T) as [K2|K2].
  - left. apply net_iff in K2 as (n & m & HN). exists n, m. split; [exact HN|]. intros ->. apply K1. destruct HN as (Wn & Qm & i & p & e & -> & Wi & P & We).
    inversion P as [|? g ? q GG P1]; subst. inversion P1 as [|? g2 ? q2 GG2 P2]; subst. assert (q2 = m) as -> by (inversion P2 as [|? ? ? ? ? X]; [reflexivity|inversion X]).
    destruct (word_cut e) as (u & v & -> & U0 & V0). exists (m ++ u). split; [destruct Qm as (a & b & c & d & -> & F)|].
    + assert (KD : forall x : str, forallb is_digit x = true -> forallb (fun c => negb (is_space c)) x = true).
      { intros x X0. rewrite forallb_forall in *. intros y Hy. now rewrite (digit_nonspace _ (X0 y Hy)). }
      rewrite Forall_forall in F. destruct (F a ltac:(cbn; auto)) as [A1 A2]. destruct (F b ltac:(cbn; auto)) as [_ B2]. destruct (F c ltac:(cbn; auto)) as [_ C2]. destruct (F d ltac:(cbn; auto)) as [_ D2].
      split; [destruct a; [congruence|discriminate]|]. rewrite forallb_app, U0, andb_true_r. rewrite forallb_app. cbn [forallb]. rewrite forallb_app. cbn [forallb]. rewrite forallb_app. cbn [forallb]. now rewrite !KD.
    + exists i, (lit "network-object" ++ g ++ lit "host" ++ g2 ++ m ++ u), v. split; [rewrite <- !app_assoc; reflexivity|]. split; [exact Wi|]. split; [|exact V0]. constructor; [exact GG|]. constructor; [exact GG2|]. constructor.
  - rewrite net_iff in K2. right. destruct (K group_T) as [K3|K3]; [left; now apply group_iff|]. rewrite group_iff in K3. right. repeat split; intros; intros K0; eauto.
Qed.

(** ** Dictionaries *)

Lemma dget_dset {T} (d : list (str * T)) k v k' : dget (dset d k v) k' = if str_eqb k' k then Some v else dget d k'.
Proof.
  induction d as [|[k0 v0] d IH]; cbn; [reflexivity|]. destruct (str_eqb k k0) eqn:E; cbn.
  - apply str_eqb_eq in E as ->. now destruct (str_eqb k' k0).
  - rewrite IH. destruct (str_eqb k' k0) eqn:E0; [|reflexivity]. apply str_eqb_eq in E0 as ->. destruct (str_eqb k0 k) eqn:E1; [|reflexivity]. apply str_eqb_eq in E1 as ->. rewrite str_eqb_refl in E. discriminate.
Qed.
Lemma latest_cons {T} (P : T -> Prop) y l x : latest P (y :: l) x <-> latest P l x \/ (x = y /\ P y /\ forall z, In z l -> ~ P z).
Proof.
  split.
  - intros (pre & post & E & Px & N0). destruct pre as [|z pre]; cbn in E; injection E as -> ->; [right; auto|left; now exists pre, post].
  - intros [(pre & post & -> & Px & N0)|(-> & Py & N0)]; [exists (y :: pre), post; auto|exists [], l; auto].
Qed.
Lemma latest_snoc {T} (P : T -> Prop) y l x : latest P (l ++ [y]) x <-> (x = y /\ P y) \/ (~ P y /\ latest P l x).
Proof.
  split.
  - intros (pre & post & E & Px & N0). destruct (exists_last (l := x :: post) ltac:(discriminate)) as (q & z & Eq). rewrite Eq, app_assoc in E. apply app_inj_tail in E as [-> <-].
    destruct q as [|z' q]; cbn in Eq; injection Eq as -> Eq; [left; split; [reflexivity|exact Px]|]. right. split; [apply N0; rewrite Eq; apply in_or_app; right; now left|]. exists pre, q. split; [reflexivity|]. split; [exact Px|]. intros u Hu. apply N0. rewrite Eq. apply in_or_app. now left.
  - intros [(-> & Py)|(Ny & pre & post & -> & Px & N0)]; [exists l, []; split; [reflexivity|split; [exact Py|intros ? []]]|]. exists pre, (post ++ [y]). split; [now rewrite <- app_assoc|]. split; [exact Px|]. intros z Hz. apply in_app_or in Hz as [Hz|[<- |[]]]; auto.
Qed.
Lemma latest_in {T} (P : T -> Prop) l x : latest P l x -> In x l /\ P x.
Proof. intros (pre & post & -> & Px & _). split; [apply in_or_app; right; now left|exact Px]. Qed.
Lemma latest_same {T} (P : T -> Prop) l : forall x y, latest P l x -> latest P l y -> x = y.
Proof. induction l as [|z l IH] using rev_ind; intros x y K1 K2; [destruct (latest_in _ _ _ K1) as [[] _]|]. apply latest_snoc in K1, K2. destruct K1 as [(-> & ?)|(? & K1)], K2 as [(-> & ?)|(? & K2)]; tauto || auto. Qed.
Lemma latest_ext {T} (P P' : T -> Prop) l x : (forall y, In y l -> (P y <-> P' y)) -> latest P l x -> latest P' l x.
Proof.
  intros E (pre & post & -> & Px & N0). exists pre, post. split; [reflexivity|]. split; [apply E; [apply in_or_app; right; now left|exact Px]|]. intros y Hy K. apply (N0 y Hy). apply E; [apply in_or_app; right; now right|exact K].
Qed.
Lemma latest_some {T} (P : T -> Prop) l : (forall x, P x \/ ~ P x) -> (exists x, latest P l x) \/ forall x, In x l -> ~ P x.
Proof.
  intros DP. induction l as [|y l IH] using rev_ind; [right; auto|]. destruct (DP y) as [Py|Ny]; [left; exists y; apply latest_snoc; auto|].
  destruct IH as [(x & K)|K]; [left; exists x; apply latest_snoc; auto|right]. intros x Hx. apply in_app_or in Hx as [Hx|[<- |[]]]; auto.
Qed.
Lemma latest_filter {T} (P : T -> Prop) (f : T -> bool) l x : (forall y, In y l -> P y -> f y = true) -> (latest P (filter f l) x <-> latest P l x).
Proof.
  intros F. induction l as [|y l IH] using rev_ind; [tauto|]. rewrite filter_app. cbn. rewrite latest_snoc. assert (IH' := IH (fun z Hz => F z (in_or_app _ _ _ (or_introl Hz)))). destruct (f y) eqn:E.
  - rewrite latest_snoc. tauto.
  - rewrite app_nil_r. split; [intros K; right; split; [|now apply IH']|intros [[-> Py]|[_ K]]; [|now apply IH']].
    + intros Py. rewrite F in E; [discriminate|apply in_or_app; right; now left|exact Py].
    + rewrite F in E; [discriminate|apply in_or_app; right; now left|exact Py].
Qed.
(** Filling a dictionary: the last value for a key stays. *)
Lemma fill_spec {T} step (key : nat -> str) (val : nat -> T) xs : (forall x d, In x xs -> step d x = Ok (dset d (key x) (val x))) -> forall d,
  exists d', fill step d xs = Ok d' /\ forall k v, dget d' k = Some v <-> (exists x, latest (fun x => key x = k) xs x /\ val x = v) \/ ((forall x, In x xs -> key x <> k) /\ dget d k = Some v).
Proof.
  intros F. induction xs as [|y xs IH] using rev_ind; intros d.
  - exists d. split; [reflexivity|]. intros k v. split; [intros E; right; auto|intros [(x & K & _)|[_ E]]; [destruct (latest_in _ _ _ K) as [[] _]|exact E]].
  - destruct (IH (fun x d' Hx => F x d' (in_or_app _ _ _ (or_introl Hx))) d) as (d1 & E1 & K1). exists (dset d1 (key y) (val y)). split.
    + assert (FA : forall l m d0, fill step d0 (l ++ m) = bind (fill step d0 l) (fun d2 => fill step d2 m)).
      { induction l as [|z l IHl]; intros m d0; cbn; [reflexivity|]. destruct (step d0 z); cbn; auto. }
      rewrite FA, E1. cbn. rewrite F by (apply in_or_app; right; now left). reflexivity.
    + intros k v. rewrite dget_dset. destruct (str_eqb k (key y)) eqn:E.
      * apply str_eqb_eq in E as ->. split.
        -- intros [= <-]. left. exists y. split; [apply latest_snoc; auto|reflexivity].
        -- intros [(x & K & <-)|[K _]]; [|exfalso; apply (K y); [apply in_or_app; right; now left|reflexivity]]. apply latest_snoc in K as [[-> _]|[K _]]; [reflexivity|tauto].
      * assert (NE : key y <> k) by (intros <-; rewrite str_eqb_refl in E; discriminate). rewrite K1. split.
        -- intros [(x & K & <-)|[K Ev]]; [left; exists x; split; [apply latest_snoc; auto|reflexivity]|right]. split; [|exact Ev]. intros x Hx. apply in_app_or in Hx as [Hx|[<- |[]]]; auto.
        -- intros [(x & K & <-)|[K Ev]]; [|right; split; [|exact Ev]; intros x Hx; apply K; apply in_or_app; now left]. apply latest_snoc in K as [[-> K]|[_ K]]; [congruence|]. left. eauto.
Qed.

(** ** Names, groups and access lists *)

Section Tables.
  Variable w : world.
  Hypothesis asa : is_asa w = true.
  Lemma names_reads : reads (lit re_names) (line_T false [W (lit "name"); H 1; G 2] Open) 2. Proof. reflexivity. Qed.
  Lemma objnet_reads : reads (lit re_objnet) (line_T false [W (lit "object-group"); W (lit "network"); G 1] Open) 1. Proof. reflexivity. Qed.
  Lemma objacl_reads : reads (lit re_objacl) (line_T false [W (lit "access-list"); G 1] Open) 1. Proof. reflexivity. Qed.
  Lemma name_found t n a : name_line t n a -> exists m, rx_find (pattern false (lit re_names)) t = Some (mkMatch m [Some a; Some n]).
  Proof.
    intros (Qa & Wn & HL). assert (F : Forall2 fits [W (lit "name"); H 1; G 2] [lit "name"; a; n]) by repeat (constructor; auto). destruct (line_fwd _ _ _ _ _ _ _ names_reads eq_refl F HL) as (m & E). exists m. exact E.
  Qed.
  Lemma name_shape t m : rx_find (pattern false (lit re_names)) t = Some m -> exists n a, name_line t n a.
  Proof. intros E. apply (line_shape _ _ _ _ _ _ _ names_reads) in E as (ws & F & HL); [|discriminate]. slots3. eexists _, _. split; [eassumption|split; [eassumption|exact HL]]. Qed.
  Lemma group_found t g : group_line t g -> exists m, rx_find (pattern false (lit re_objnet)) t = Some (mkMatch m [Some g]).
  Proof.
    intros (Wn & HL). assert (F : Forall2 fits [W (lit "object-group"); W (lit "network"); G 1] [lit "object-group"; lit "network"; g]) by repeat (constructor; auto). destruct (line_fwd _ _ _ _ _ _ _ objnet_reads eq_refl F HL) as (m & E). exists m. exact E.
  Qed.
  Lemma group_shape t m : rx_find (pattern false (lit re_objnet)) t = Some m -> exists g, group_line t g.
  Proof. intros E. apply (line_shape _ _ _ _ _ _ _ objnet_reads) in E as (ws & F & HL); [|discriminate]. slots3. eexists. split; [eassumption|exact HL]. Qed.
  Lemma acl_found t g : acl_line t g -> exists m, rx_find (pattern false (lit re_objacl)) t = Some (mkMatch m [Some g]).
  Proof.
    intros (Wn & HL). assert (F : Forall2 fits [W (lit "access-list"); G 1] [lit "access-list"; g]) by repeat (constructor; auto). destruct (line_fwd _ _ _ _ _ _ _ objacl_reads eq_refl F HL) as (m & E). exists m. exact E.
  Qed.
  Lemma acl_shape t m : rx_find (pattern false (lit re_objacl)) t = Some m -> exists g, acl_line t g.
  Proof. intros E. apply (line_shape _ _ _ _ _ _ _ objacl_reads) in E as (ws & F & HL); [|discriminate]. slots3. eexists. split; [eassumption|exact HL]. Qed.
  Definition got p g x : str := match group_text w p g x with Ok s => s | Err _ => [] end.
  Lemma name_got x n a : name_line (text_of w x) n a -> group_text w re_names 1 x = Ok a /\ group_text w re_names 2 x = Ok n.
  Proof. intros E. apply name_found in E as (m & E). unfold group_text, line_re_match_typed. rewrite E. split; reflexivity. Qed.
  Lemma group_got x g : group_line (text_of w x) g -> group_text w re_objnet 1 x = Ok g.
  Proof. intros E. apply group_found in E as (m & E). unfold group_text, line_re_match_typed. now rewrite E. Qed.
  Lemma acl_got x g : acl_line (text_of w x) g -> group_text w re_objacl 1 x = Ok g.
  Proof. intros E. apply acl_found in E as (m & E). unfold group_text, line_re_match_typed. now rewrite E. Qed.
  Lemma hits_in p x : In x (find_objects w (pattern false (lit p))) -> In x (w_conf w) /\ exists m, rx_find (pattern false (lit p)) (text_of w x) = Some m.
  Proof. unfold find_objects, hits. rewrite filter_In. intros [I0 E]. split; [exact I0|]. destruct (rx_find _ _); [eauto|discriminate]. Qed.

  Lemma names_spec : exists ns, names w = Ok ns /\ forall n a, dget ns n = Some a <-> means w n a.
  Proof.
    unfold names. rewrite asa. cbn [negb].
    destruct (fill_spec (fun d x => do a <- group_text w re_names 1 x; do n <- group_text w re_names 2 x; Ok (dset d n a)) (got re_names 2) (got re_names 1) (find_objects w (pattern false (lit re_names)))) with (d := @nil (str * str)) as (ns & E & K).
    { intros x d I0. apply hits_in in I0 as (_ & m & E). apply name_shape in E as (n & a & HL). apply name_got in HL as [E1 E2]. unfold got. rewrite E1, E2. reflexivity. }
    exists ns. split; [exact E|]. intros n a. rewrite K. split.
    - intros [(x & HL & <-)|[_ X]]; [|discriminate]. destruct (latest_in _ _ _ HL) as [I0 EK]. apply hits_in in I0 as (IC & m & EM). apply name_shape in EM as (n' & a' & HN). destruct (name_got _ _ _ HN) as [E1 E2].
      exists x. unfold got in EK |- *. rewrite E2 in EK. subst n'. rewrite E1. split; [|exact HN]. unfold find_objects in HL.
      apply (latest_ext _ (fun x => exists a', name_line (text_of w x) n a')) in HL.
      + rewrite latest_filter in HL; [exact HL|]. intros y _ (b & HB). apply name_found in HB as (m' & HB). unfold hits. now rewrite HB.
      + intros y Hy. apply (hits_in re_names) in Hy as (_ & m' & EM). apply name_shape in EM as (n1 & a1 & HN1). destruct (name_got _ _ _ HN1) as [E3 E4]. unfold got. rewrite E4. split; [intros ->; eauto|].
        intros (b & HB). apply name_got in HB as [_ E5]. congruence.
    - intros (x & HL & HN). left. exists x. unfold got. destruct (name_got _ _ _ HN) as [E1 E2]. rewrite E1. split; [|reflexivity]. unfold find_objects.
      apply (latest_ext (fun x => exists a', name_line (text_of w x) n a')).
      + intros y Hy. apply (hits_in re_names) in Hy as (_ & m' & EM). apply name_shape in EM as (n1 & a1 & HN1). destruct (name_got _ _ _ HN1) as [E3 E4]. rewrite E4. split; [|intros ->; eauto].
        intros (b & HB). apply name_got in HB as [_ E5]. congruence.
      + rewrite latest_filter; [exact HL|]. intros y _ (b & HB). apply name_found in HB as (m' & HB). unfold hits. now rewrite HB.
  Qed.
  Lemma groups_spec : exists d, object_group_network w = Ok d /\ forall g x, dget d g = Some x <-> group_at w g x.
  Proof.
    unfold object_group_network. rewrite asa. cbn [negb].
    destruct (fill_spec (fun d x => do n <- group_text w re_objnet 1 x; Ok (dset d n x)) (got re_objnet 1) (fun x => x) (find_objects w (pattern false (lit re_objnet)))) with (d := @nil (str * nat)) as (d & E & K).
    { intros x d I0. apply hits_in in I0 as (_ & m & E). apply group_shape in E as (g & HL). apply group_got in HL. unfold got. now rewrite HL. }
    exists d. split; [exact E|]. intros g x. rewrite K. unfold group_at.
    assert (EQ : latest (fun x => got re_objnet 1 x = g) (find_objects w (pattern false (lit re_objnet))) x <-> latest (fun x => group_line (text_of w x) g) (w_conf w) x).
    { rewrite <- (latest_filter (fun x => group_line (text_of w x) g) (fun x => hits (pattern false (lit re_objnet)) (text_of w x)) (w_conf w) x).
      - split; apply latest_ext; intros y Hy; apply (hits_in re_objnet) in Hy as (_ & m & EM); apply group_shape in EM as (g' & HG); pose proof (group_got _ _ HG) as E1; unfold got; rewrite E1; split; try (intros ->; exact HG); intros HG'; apply group_got in HG'; congruence.
      - intros y _ HG. apply group_found in HG as (m & EM). unfold hits. now rewrite EM. }
    split; [intros [(y & HL & ->)|[_ X]]; [now apply EQ|discriminate]|intros HL; left; exists x; split; [now apply EQ|reflexivity]].
  Qed.
End Tables.

Lemma acl_spec w : is_asa w = true -> exists d, access_list w = Ok d /\ forall g l, dget d g = Some l <-> l <> [] /\ picked (fun x => acl_line (text_of w x) g) (w_conf w) l.
Proof.
  intros asa. unfold access_list. rewrite asa. cbn [negb]. unfold find_objects.
  set (step := fun (d : list (str * list nat)) x => do n <- group_text w re_objacl 1 x; Ok (dset d n (match dget d n with Some l => l | None => [] end ++ [x]))).
  change (exists d, fill step [] (filter (fun x => hits (pattern false (lit re_objacl)) (text_of w x)) (w_conf w)) = Ok d /\ forall g l, dget d g = Some l <-> l <> [] /\ picked (fun x => acl_line (text_of w x) g) (w_conf w) l).
  assert (FA : forall l m d0, fill step d0 (l ++ m) = bind (fill step d0 l) (fun d2 => fill step d2 m)).
  { induction l as [|z l IHl]; intros m d0; cbn [app fill]; [reflexivity|]. destruct (step d0 z); cbn [bind]; auto. }
  assert (PS : forall (P : nat -> Prop) y l k, picked P (l ++ [y]) k <-> (exists k', k = k' ++ [y] /\ P y /\ picked P l k') \/ (~ P y /\ picked P l k)).
  { intros P y. induction l as [|z l IHl]; intros k; cbn [app].
    - split.
      + intros K. inversion K as [|? ? ? Py K1|? ? ? Py K1]; subst; inversion K1; subst; [left; exists []; split; [reflexivity|split; [exact Py|constructor]]|right; split; [exact Py|constructor]].
      + intros [(k' & -> & Py & K)|[Py K]]; inversion K; subst; [apply pk_take; auto; constructor|apply pk_skip; auto; constructor].
    - split.
      + intros K. inversion K as [|? ? k2 Pz K1|? ? ? Pz K1]; subst; apply IHl in K1 as [(k' & -> & Py & K1)|[Py K1]].
        * left. exists (z :: k'). split; [reflexivity|]. split; [exact Py|now constructor].
        * right. split; [exact Py|now constructor].
        * left. exists k'. split; [reflexivity|]. split; [exact Py|now apply pk_skip].
        * right. split; [exact Py|now apply pk_skip].
      + intros [(k' & -> & Py & K)|[Py K]]; inversion K as [|? ? k2 Pz K1|? ? ? Pz K1]; subst.
        * cbn [app]. constructor; [exact Pz|]. apply IHl. left. eauto.
        * apply pk_skip; [exact Pz|]. apply IHl. left. eauto.
        * constructor; [exact Pz|]. apply IHl. auto.
        * apply pk_skip; [exact Pz|]. apply IHl. auto. }
  assert (FU : forall (P : nat -> Prop) l k1 k2, picked P l k1 -> picked P l k2 -> k1 = k2).
  { intros P l k1 k2 K. revert k2. induction K as [|x l k Px K IH|x l k Px K IH]; intros k2 K2; inversion K2; subst; [reflexivity|f_equal; auto|tauto|tauto|auto]. }
  assert (DA : forall x g, acl_line (text_of w x) g \/ ~ acl_line (text_of w x) g).
  { intros x g. destruct (rx_find (pattern false (lit re_objacl)) (text_of w x)) as [m|] eqn:E.
    - apply acl_shape in E as (g' & HA). pose proof (acl_got _ _ _ HA) as EA. destruct (str_eqb g g') eqn:E0; [apply str_eqb_eq in E0 as ->; now left|]. right. intros HA'. apply acl_got in HA'. rewrite EA in HA'. injection HA' as ->. rewrite str_eqb_refl in E0. discriminate E0.
    - right. intros HA. apply acl_found in HA as (m & HA). congruence. }
  induction (w_conf w) as [|y xs IH] using rev_ind.
  - exists []. split; [reflexivity|]. intros g l. split; [discriminate|]. intros [NE K]. now inversion K; subst.
  - destruct IH as (d & E & K). rewrite filter_app. cbn [filter]. destruct (rx_find (pattern false (lit re_objacl)) (text_of w y)) as [m|] eqn:EM.
    + unfold hits at 2. rewrite EM. rewrite FA, E. apply acl_shape in EM as (g0 & HA). pose proof (acl_got _ _ _ HA) as EA. cbn [bind fill]. unfold step. rewrite EA. cbn [bind].
      eexists. split; [reflexivity|]. intros g l. rewrite dget_dset. destruct (str_eqb g g0) eqn:E0.
      * apply str_eqb_eq in E0 as ->. assert (PK : picked (fun x => acl_line (text_of w x) g0) xs (match dget d g0 with Some l0 => l0 | None => [] end)).
        { destruct (dget d g0) as [l0|] eqn:EG; [now apply K|]. assert (PE : exists k, picked (fun x => acl_line (text_of w x) g0) xs k).
          { clear -DA. induction xs as [|x xs (k & IHk)]; [exists []; constructor|]. destruct (DA x g0); [exists (x :: k); now constructor|exists k; now apply pk_skip]. }
          destruct PE as (k & PE). destruct k; [exact PE|]. exfalso. assert (dget d g0 = Some (n :: k)) by (apply K; split; [discriminate|exact PE]). congruence. }
        rewrite PS. split.
        -- intros [= <-]. split; [intros X0; symmetry in X0; exact (app_cons_not_nil _ _ _ X0)|]. left. eauto.
        -- intros [_ [(k' & -> & _ & PK')|[X _]]]; [|tauto]. now rewrite (FU _ _ _ _ PK PK').
      * assert (NA : ~ acl_line (text_of w y) g). { intros HA'. apply acl_got in HA'. rewrite EA in HA'. injection HA' as ->. rewrite str_eqb_refl in E0. discriminate E0. }
        rewrite K, PS. split; [intros [X Y]; auto|intros [X [(k' & _ & Y & _)|[_ Y]]]; [tauto|auto]].
    + unfold hits at 2. rewrite EM, app_nil_r. exists d. split; [exact E|]. intros g l. rewrite K, PS. assert (NA : ~ acl_line (text_of w y) g) by (intros HA; apply acl_found in HA as (m & HA); congruence).
      split; [intros [X Y]; auto|intros [X [(k' & _ & Y & _)|[_ Y]]]; [tauto|auto]].
Qed.

(** ** Expansion *)

Lemma netgroup_iff t : is_netgroup t = true <-> group_head t.
Proof.
  unfold is_netgroup, group_head. rewrite TreePost.contains_spec. split.
  - intros (a & b & E). exists (firstn 21 t), (skipn 21 t). split; [now rewrite firstn_skipn|]. assert (LE : length (lower (firstn 21 t)) <= 21) by (unfold lower; rewrite map_length, firstn_length; lia).
    rewrite E in LE |- *. rewrite !app_length in LE. change (length (lit "object-group network ")) with 21 in LE. destruct a; [|cbn in LE; lia]. destruct b; [reflexivity|cbn in LE; lia].
  - intros (u & r & -> & E). exists [], []. cbn [app]. assert (LE : length u = 21) by (rewrite <- (map_length lower_char u); change (map lower_char u) with (lower u); now rewrite E).
    rewrite firstn_app, LE, Nat.sub_diag, <- LE, firstn_all. cbn [firstn]. now rewrite !app_nil_r.
Qed.
Scheme expands_mut := Minimality for expands Sort Prop with lists_mut := Minimality for lists Sort Prop.
Combined Scheme expands_lists from expands_mut, lists_mut.
Scheme fails_mut := Minimality for fails Sort Prop with fault_mut := Minimality for fault Sort Prop.
Combined Scheme fails_fault from fails_mut, fault_mut.

Lemma own_reads : reads (lit "^object-group\s+network\s+(\S+)") (sent [W (lit "object-group"); W (lit "network"); G 1]) 1. Proof. reflexivity. Qed.
Lemma own_found t me : own_line t me -> exists u, rx_find (pattern false (lit "^object-group\s+network\s+(\S+)")) t = Some (mkMatch u [Some me]).
Proof.
  intros (Wv & i & q & e & -> & <- & P & E). cbn [app]. destruct (reads_some _ _ 1 (q ++ e) e [(1, me)] own_reads) as (u & EM).
  - rewrite <- (app_nil_r (sent _)). apply (sent_fwd _ [lit "object-group"; lit "network"; me]); auto; [repeat constructor; apply Wv|constructor].
  - exists u. exact EM.
Qed.
Lemma own_shape t m : rx_find (pattern false (lit "^object-group\s+network\s+(\S+)")) t = Some m -> exists me, own_line t me.
Proof.
  intros E. apply (reads_shape _ _ _ _ _ own_reads) in E as (s' & c & HD & _). rewrite <- (app_nil_r (sent _)) in HD. apply sent_shape in HD as (ws & q & e & -> & P & F & HD); [|discriminate].
  destruct (extend_last _ ws q e F P) as (ws' & q' & e' & -> & P' & F' & E'). clear F. slots3. eexists. split; [eassumption|]. exists [], q', e'. auto.
Qed.
Lemma own_spec w x : exists me, netgroup_name w x = Ok me /\ forall me', own_name (text_of w x) me' <-> me' = me.
Proof.
  unfold netgroup_name, group_text, line_re_match_typed. destruct (rx_find (pattern false (lit "^object-group\s+network\s+(\S+)")) (text_of w x)) as [m|] eqn:E.
  - destruct (own_shape _ _ E) as (me & HO). destruct (own_found _ _ HO) as (u & E'). rewrite E in E'. injection E' as ->. exists me. split; [reflexivity|]. intros me'. split.
    + intros [K|[K _]]; [|now apply K in HO]. destruct (own_found _ _ K) as (u' & E'). rewrite E in E'. injection E' as _ <-. reflexivity.
    + intros ->. now left.
  - exists []. split; [reflexivity|]. intros me'. split; [intros [K|[_ K]]; [apply own_found in K as (u & K); congruence|exact K]|]. intros ->. right. split; [|reflexivity]. intros n K. apply own_found in K as (u & K). congruence.
Qed.

Section Expansion.
  Variable w : world.
  Hypothesis asa : is_asa w = true.
  Variable ns : list (str * str).
  Hypothesis Ens : names w = Ok ns.
  Hypothesis Kns : forall n a, dget ns n = Some a <-> means w n a.
  Definition grp (f : nat) (g : str) : result (list str) :=
    do d <- object_group_network w; match dget d g with Some y => network_strings f w y | None => Err ValueError end.
  Lemma unfold_ns f x me : netgroup_name w x = Ok me ->
    network_strings (S f) w x = if is_netgroup (text_of w x) then netgroup_children (netgroup_child ns me (grp f)) (map (text_of w) (children_of w x)) else Err AttributeErr.
  Proof. intros E. cbn [network_strings]. rewrite Ens, E. cbn [bind]. now destruct (is_netgroup (text_of w x)). Qed.
  Lemma grp_cases g : (exists y, group_at w g y /\ forall f, grp f g = network_strings f w y) \/ ((forall y, ~ group_at w g y) /\ forall f, grp f g = Err ValueError).
  Proof.
    destruct (groups_spec w asa) as (d & E & K). unfold grp. rewrite E. cbn [bind]. destruct (dget d g) as [y|] eqn:EG.
    - left. exists y. split; [now apply K|reflexivity].
    - right. split; [|reflexivity]. intros y Y. apply K in Y. congruence.
  Qed.
  Lemma grp_at f g y : group_at w g y -> grp f g = network_strings f w y.
  Proof. intros K. destruct (grp_cases g) as [(z & Z1 & E)|[Z1 _]]; [|now apply Z1 in K]. rewrite E. f_equal. exact (latest_same _ _ _ _ Z1 K). Qed.
  Lemma resolved_iff h a : resolved w h a <-> a = subst_name ns h.
  Proof.
    unfold resolved, subst_name. destruct (dget ns h) as [b|] eqn:E.
    - pose proof (proj1 (Kns h b) E) as M0. split; [intros [M1|[M1 _]]; [apply Kns in M1; congruence|now apply M1 in M0]|intros ->; now left].
    - split; [intros [M1|[_ M1]]; [apply Kns in M1; congruence|exact M1]|intros ->; right; split; [|reflexivity]]. intros a' M1. apply Kns in M1. congruence.
  Qed.
  (** What one line of the group is, and what the loop makes of it. *)
  Lemma line_cases me t : 
    (exists h, member_line t (Host h) /\ forall G, netgroup_child ns me G t = Ok [subst_name ns h]) \/
    (exists n, member_line t (Net n (lit "255.255.255.255")) /\ forall G, netgroup_child ns me G t = Ok [subst_name ns n]) \/
    (exists n m, member_line t (Net n m) /\ m <> lit "255.255.255.255" /\ forall G, netgroup_child ns me G t = Ok [subst_name ns n ++ "/" :: m]) \/
    (exists g, member_line t (Group g) /\ g <> me /\ forall G, netgroup_child ns me G t = G g) \/
    (member_line t (Group me) /\ forall G, netgroup_child ns me G t = Err ValueError) \/
    (member_line t Remark /\ forall G, netgroup_child ns me G t = Ok []) \/
    ((forall m, ~ member_line t m) /\ forall G, netgroup_child ns me G t = Err NotImplementedErr).
  Proof.
    destruct (member_cases t) as [(h & Hh)|[(n & m & Hn & NH)|[(g & Hg)|(N1 & N2 & N3)]]].
    - left. exists h. split; [now constructor|]. intros G. now apply child_host.
    - right. destruct (str_eqb m (lit "255.255.255.255")) eqn:E.
      + left. apply str_eqb_eq in E as ->. exists n. split; [now constructor|]. intros G. rewrite (child_net _ _ _ _ _ _ Hn NH). now rewrite str_eqb_refl.
      + right. left. exists n, m. split; [now constructor|]. split; [intros ->; rewrite str_eqb_refl in E; discriminate|]. intros G. rewrite (child_net _ _ _ _ _ _ Hn NH). now rewrite E.
    - right. right. right. destruct (str_eqb g me) eqn:E.
      + right. left. apply str_eqb_eq in E as ->. split; [now constructor|]. intros G. rewrite (child_group _ _ _ _ _ Hg). now rewrite str_eqb_refl.
      + left. exists g. split; [now constructor|]. split; [intros ->; rewrite str_eqb_refl in E; discriminate|]. intros G. rewrite (child_group _ _ _ _ _ Hg). now rewrite E.
    - right. right. right. right. right. destruct (contains (lit "description ") t) eqn:E.
      + left. split; [apply ml_remark; auto; now apply TreePost.contains_spec|]. intros G. rewrite child_other; auto. now rewrite E.
      + right. split; [|intros G; rewrite child_other; auto; now rewrite E]. intros m HM. inversion HM; subst; try (eapply N1 + eapply N2 + eapply N3; eassumption).
        rewrite (proj2 (TreePost.contains_spec _ _)) in E; [discriminate|assumption].
  Qed.
  (** A line says one thing only. *)
  Lemma member_same t m1 m2 : member_line t m1 -> member_line t m2 -> m1 = m2.
  Proof.
    assert (HH : forall h h', host_says t h -> host_says t h' -> h = h').
    { intros h h' Y1 Y2. apply host_words in Y1 as (r1 & E1), Y2 as (r2 & E2). rewrite E1 in E2. apply (f_equal (fun l => nth 2 l [])) in E2. exact E2. }
    assert (GG : forall h h', group_says t h -> group_says t h' -> h = h').
    { intros h h' Y1 Y2. apply group_words in Y1 as (r1 & E1), Y2 as (r2 & E2). rewrite E1 in E2. apply (f_equal (fun l => nth 1 l [])) in E2. exact E2. }
    assert (HN : forall h n m, host_says t h -> net_says t n m -> n = lit "host").
    { intros h n m Y1 Y2. apply host_words in Y1 as (r1 & E1). apply net_words in Y2 as (r2 & E2). rewrite E1 in E2. apply (f_equal (fun l => nth 1 l [])) in E2. now symmetry. }
    assert (HG : forall h g, host_says t h -> ~ group_says t g).
    { intros h n Y1 Y2. apply host_words in Y1 as (r1 & E1). apply group_words in Y2 as (r2 & E2). rewrite E1 in E2. discriminate. }
    assert (NG : forall h m g, net_says t h m -> ~ group_says t g).
    { intros h m n Y1 Y2. apply net_words in Y1 as (r1 & E1). apply group_words in Y2 as (r2 & E2). rewrite E1 in E2. discriminate. }
    assert (NN : forall n m n' m', n <> lit "host" -> n' <> lit "host" -> net_says t n m -> net_says t n' m' -> n = n' /\ m = m').
    { intros n m n' m' N1 N2 Y1 Y2. pose proof (child_net [] [] (fun _ => Ok []) _ _ _ Y1 N1) as E1. pose proof (child_net [] [] (fun _ => Ok []) _ _ _ Y2 N2) as E2.
      assert (n = n') as <-. { apply net_words in Y1 as (r1 & F1), Y2 as (r2 & F2). rewrite F1 in F2. apply (f_equal (fun l => nth 1 l [])) in F2. exact F2. }
      split; [reflexivity|]. rewrite E1 in E2. assert (OI : forall a b : str, @Ok (list str) [a] = Ok [b] -> a = b) by (now intros a b [= ->]). apply OI in E2. unfold subst_name in E2. cbn [dget] in E2. assert (LN : forall k : str, n <> n ++ "/" :: k) by (intros k Y; apply (f_equal (@length ascii)) in Y; rewrite app_length in Y; cbn in Y; lia).
      destruct (str_eqb m (lit "255.255.255.255")) eqn:Q1, (str_eqb m' (lit "255.255.255.255")) eqn:Q2.
      - apply str_eqb_eq in Q1, Q2. congruence.
      - now apply LN in E2.
      - symmetry in E2. now apply LN in E2.
      - apply app_inv_head in E2. now injection E2. }
    intros K1 K2. inversion K1; subst; inversion K2; subst; try reflexivity.
    all: try (f_equal; auto; fail).
    all: try (exfalso; match goal with X : host_says _ _, Y : net_says _ _ _ |- _ => pose proof (HN _ _ _ X Y); congruence | X : host_says _ _, Y : group_says _ _ |- _ => exact (HG _ _ X Y) | X : net_says _ _ _, Y : group_says _ _ |- _ => exact (NG _ _ _ X Y)
      | X : forall h, ~ host_says _ h, Y : host_says _ ?h |- _ => exact (X h Y) | X : forall h m, ~ net_says _ h m, Y : net_says _ ?h ?m |- _ => exact (X h m Y) | X : forall h, ~ group_says _ h, Y : group_says _ ?h |- _ => exact (X h Y) end).
    match goal with X : net_says _ ?n ?m, Y : net_says _ ?n0 ?m0 |- Net ?n ?m = Net ?n0 ?m0 => destruct (NN n m n0 m0) as [-> ->]; auto end.
  Qed.
  Lemma children_cons f t r : netgroup_children f (t :: r) = bind (f t) (fun l => bind (netgroup_children f r) (fun l' => Ok (l ++ l'))). Proof. reflexivity. Qed.

  Lemma lists_sound f : (forall x l, network_strings f w x = Ok l -> expands w x l) ->
    forall me kids l, netgroup_children (netgroup_child ns me (grp f)) kids = Ok l -> lists w me kids l.
  Proof.
    intros IH me. induction kids as [|t r IHr]; intros l E; [injection E as <-; constructor|]. rewrite children_cons in E.
    destruct (line_cases me t) as [(h & ML & EC)|[(n & ML & EC)|[(n & m & ML & NM & EC)|[(g & ML & NG & EC)|[(ML & EC)|[(ML & EC)|(ML & EC)]]]]]]; rewrite EC in E; cbn [bind] in E; try discriminate.
    - destruct (netgroup_children _ r) as [l'|] eqn:ER; [|discriminate]. injection E as <-. apply (li_host w me t r h _ l' ML); [now apply resolved_iff|auto].
    - destruct (netgroup_children _ r) as [l'|] eqn:ER; [|discriminate]. injection E as <-. apply (li_single w me t r n _ l' ML); [now apply resolved_iff|auto].
    - destruct (netgroup_children _ r) as [l'|] eqn:ER; [|discriminate]. injection E as <-. apply (li_net w me t r n m _ l' ML NM); [now apply resolved_iff|auto].
    - destruct (grp_cases g) as [(y & Y & EG)|[_ EG]]; rewrite EG in E; [|discriminate]. destruct (network_strings f w y) as [l1|] eqn:E1; [|discriminate]. cbn [bind] in E.
      destruct (netgroup_children _ r) as [l'|] eqn:ER; [|discriminate]. injection E as <-. apply (li_group w me t r g y l1 l' ML NG Y); auto.
    - destruct (netgroup_children _ r) as [l'|] eqn:ER; [|discriminate]. injection E as <-. apply (li_remark w me t r l' ML). auto.
  Qed.
  Lemma expands_sound f : forall x l, network_strings f w x = Ok l -> expands w x l.
  Proof.
    induction f as [|f IH]; intros x l E; [discriminate|]. destruct (own_spec w x) as (me & Em & Km). rewrite (unfold_ns f x me Em) in E. destruct (is_netgroup (text_of w x)) eqn:EN; [|discriminate E].
    apply (ex_group w x me); [now apply netgroup_iff|now apply Km|]. exact (lists_sound f IH me _ l E).
  Qed.
  Lemma lists_fault f : (forall x e, network_strings f w x = Err e -> e <> OutOfFuel -> fails w x e) ->
    forall me kids e, netgroup_children (netgroup_child ns me (grp f)) kids = Err e -> e <> OutOfFuel -> exists pre t post l, kids = pre ++ t :: post /\ lists w me pre l /\ fault w me t e.
  Proof.
    intros IH me. induction kids as [|t r IHr]; intros e E NE; [discriminate|]. rewrite children_cons in E.
    assert (LATER : forall l0, netgroup_child ns me (grp f) t = Ok l0 -> (forall r' l', lists w me r' l' -> lists w me (t :: r') (l0 ++ l')) ->
      exists pre t0 post l, t :: r = pre ++ t0 :: post /\ lists w me pre l /\ fault w me t0 e).
    { intros l0 E0 K. rewrite E0 in E. cbn [bind] in E. destruct (netgroup_children _ r) as [l'|e'] eqn:ER; [discriminate E|]. injection E as ->. destruct (IHr e eq_refl NE) as (pre & t0 & post & l & -> & HL & HF). exists (t :: pre), t0, post, (l0 ++ l). split; [reflexivity|]. split; [now apply K|exact HF]. }
    assert (NOW : fault w me t e -> exists pre t0 post l, t :: r = pre ++ t0 :: post /\ lists w me pre l /\ fault w me t0 e).
    { intros HF. exists [], t, r, []. split; [reflexivity|]. split; [constructor|exact HF]. }
    destruct (line_cases me t) as [(h & ML & EC)|[(n & ML & EC)|[(n & m & ML & NM & EC)|[(g & ML & NG & EC)|[(ML & EC)|[(ML & EC)|(ML & EC)]]]]]].
    - eapply LATER; [apply EC|]. intros r' l' K. apply (li_host w me t r' h (subst_name ns h) l' ML); [now apply resolved_iff|exact K].
    - eapply LATER; [apply EC|]. intros r' l' K. apply (li_single w me t r' n (subst_name ns n) l' ML); [now apply resolved_iff|exact K].
    - eapply LATER; [apply EC|]. intros r' l' K. apply (li_net w me t r' n m (subst_name ns n) l' ML NM); [now apply resolved_iff|exact K].
    - destruct (grp_cases g) as [(y & Y & EG)|[Y EG]].
      + destruct (network_strings f w y) as [l1|e1] eqn:E1.
        * eapply LATER; [rewrite EC, EG; exact E1|]. intros r' l' K. apply (li_group w me t r' g y l1 l' ML NG Y); [now apply (expands_sound f)|exact K].
        * rewrite EC, EG, E1 in E. injection E as ->. apply NOW. apply (fu_inside w me t g y e ML NG Y). auto.
      + rewrite EC, EG in E. injection E as <-. apply NOW. exact (fu_unknown w me t g ML Y).
    - rewrite EC in E. injection E as <-. apply NOW. now apply fu_self.
    - eapply LATER; [apply EC|]. intros r' l' K. apply (li_remark w me t r' l' ML). exact K.
    - rewrite EC in E. injection E as <-. apply NOW. now apply fu_unreadable.
  Qed.
  Lemma fails_sound f : forall x e, network_strings f w x = Err e -> e <> OutOfFuel -> fails w x e.
  Proof.
    induction f as [|f IH]; intros x e E NE; [injection E as <-; congruence|]. destruct (own_spec w x) as (me & Em & Km). rewrite (unfold_ns f x me Em) in E. destruct (is_netgroup (text_of w x)) eqn:EN.
    - destruct (lists_fault f IH me _ _ E NE) as (pre & t & post & l & EK & HL & HF). apply (fa_line w x me pre t post l e); auto; [now apply netgroup_iff|now apply Km].
    - injection E as <-. apply fa_class. intros K. apply netgroup_iff in K. congruence.
  Qed.
  Lemma complete : (forall x l, expands w x l -> exists f0, forall f, f0 <= f -> network_strings f w x = Ok l) /\
    (forall me kids l, lists w me kids l -> exists f0, forall f, f0 <= f -> netgroup_children (netgroup_child ns me (grp f)) kids = Ok l).
  Proof.
    apply expands_lists.
    - intros x me l HG HO HL (f0 & IH). exists (S f0). intros f Hf. destruct f as [|f]; [lia|]. destruct (own_spec w x) as (me' & Em & Km). apply Km in HO as ->. rewrite (unfold_ns f x me' Em), (proj2 (netgroup_iff _) HG). apply IH. lia.
    - intros me. exists 0. reflexivity.
    - intros me t r h a l ML R _ (f0 & IH). exists f0. intros f Hf. rewrite children_cons, (IH f Hf). inversion ML; subst. rewrite (child_host _ _ _ _ h) by assumption. apply resolved_iff in R as ->. reflexivity.
    - intros me t r n a l ML R _ (f0 & IH). exists f0. intros f Hf. rewrite children_cons, (IH f Hf). inversion ML; subst. rewrite (child_net _ _ _ _ n (lit "255.255.255.255")) by assumption. rewrite str_eqb_refl. apply resolved_iff in R as ->. reflexivity.
    - intros me t r n m a l ML NM R _ (f0 & IH). exists f0. intros f Hf. rewrite children_cons, (IH f Hf). inversion ML; subst. rewrite (child_net _ _ _ _ n m) by assumption. destruct (str_eqb m (lit "255.255.255.255")) eqn:E; [apply str_eqb_eq in E; congruence|]. apply resolved_iff in R as ->. reflexivity.
    - intros me t r g y l1 l ML NG Y _ (f1 & IH1) _ (f0 & IH). exists (Nat.max f0 f1). intros f Hf. rewrite children_cons, (IH f) by lia. inversion ML; subst. rewrite (child_group _ _ _ _ g) by assumption. destruct (str_eqb g me) eqn:E; [apply str_eqb_eq in E; congruence|]. rewrite (grp_at f g y Y), (IH1 f) by lia. reflexivity.
    - intros me t r l ML _ (f0 & IH). exists f0. intros f Hf. rewrite children_cons, (IH f Hf). inversion ML; subst. rewrite child_other by assumption. rewrite (proj2 (TreePost.contains_spec _ _)) by assumption. reflexivity.
  Qed.
  Lemma children_app f l m : netgroup_children f (l ++ m) = bind (netgroup_children f l) (fun a => bind (netgroup_children f m) (fun b => Ok (a ++ b))).
  Proof. induction l as [|t l IH]; cbn [app]; [cbn; now destruct (netgroup_children f m)|]. rewrite !children_cons, IH. destruct (f t); cbn [bind]; [|reflexivity]. destruct (netgroup_children f l); cbn [bind]; [|reflexivity]. destruct (netgroup_children f m); cbn [bind]; [|reflexivity]. now rewrite app_assoc. Qed.
  Lemma fails_complete : (forall x e, fails w x e -> e <> OutOfFuel /\ exists f0, forall f, f0 <= f -> network_strings f w x = Err e) /\
    (forall me t e, fault w me t e -> e <> OutOfFuel /\ exists f0, forall f, f0 <= f -> netgroup_child ns me (grp f) t = Err e).
  Proof.
    apply fails_fault.
    - intros x HG. split; [discriminate|]. exists 1. intros f Hf. destruct f as [|f]; [lia|]. destruct (own_spec w x) as (me' & Em & Km). rewrite (unfold_ns f x me' Em). destruct (is_netgroup _) eqn:E; [|reflexivity]. now apply netgroup_iff in E.
    - intros x me pre t post l e HG HO EK HL _ (NE & f1 & IH). split; [exact NE|]. destruct (proj2 complete _ _ _ HL) as (f0 & K). exists (S (Nat.max f0 f1)). intros f Hf. destruct f as [|f]; [lia|].
      destruct (own_spec w x) as (me' & Em & Km). apply Km in HO as ->. rewrite (unfold_ns f x me' Em), (proj2 (netgroup_iff _) HG), EK, children_app, (K f) by lia. cbn [bind]. rewrite children_cons, (IH f) by lia. reflexivity.
    - intros me t ML. split; [discriminate|]. exists 0. intros f _. inversion ML; subst. rewrite (child_group _ _ _ _ me) by assumption. now rewrite str_eqb_refl.
    - intros me t g ML NY. split; [discriminate|]. exists 0. intros f _. inversion ML; subst. rewrite (child_group _ _ _ _ g) by assumption. destruct (str_eqb g me); [reflexivity|]. destruct (grp_cases g) as [(y & Y & _)|[_ EG]]; [now apply NY in Y|now rewrite EG].
    - intros me t g y e ML NG Y _ (NE & f0 & IH). split; [exact NE|]. exists f0. intros f Hf. inversion ML; subst. rewrite (child_group _ _ _ _ g) by assumption. destruct (str_eqb g me) eqn:E; [apply str_eqb_eq in E; congruence|]. rewrite (grp_at f g y Y). auto.
    - intros me t NM. split; [discriminate|]. exists 0. intros f _. destruct (line_cases me t) as [(h & ML & EC)|[(n & ML & EC)|[(n & m & ML & _ & EC)|[(g & ML & NG & EC)|[(ML & EC)|[(ML & EC)|(ML & EC)]]]]]]; try (exfalso; exact (NM _ ML)). now rewrite EC.
  Qed.
  Lemma mono f : forall x, network_strings f w x = Err OutOfFuel \/ network_strings (S f) w x = network_strings f w x.
  Proof.
    induction f as [|f IH]; intros x; [now left|]. destruct (own_spec w x) as (me & Em & _). rewrite !(unfold_ns _ x me Em). destruct (is_netgroup (text_of w x)); [|now right].
    induction (map (text_of w) (children_of w x)) as [|t r IHr]; [now right|]. rewrite !children_cons.
    assert (K : netgroup_child ns me (grp f) t = Err OutOfFuel \/ netgroup_child ns me (grp (S f)) t = netgroup_child ns me (grp f) t).
    { destruct (line_cases me t) as [(h & ML & EC)|[(n & ML & EC)|[(n & m & ML & NM & EC)|[(g & ML & NG & EC)|[(ML & EC)|[(ML & EC)|(ML & EC)]]]]]]; rewrite !EC; auto.
      destruct (grp_cases g) as [(y & Y & EG)|[_ EG]]; rewrite !EG; auto. }
    destruct K as [-> | ->]; [now left|]. destruct (netgroup_child ns me (grp f) t) as [l|e]; cbn [bind]; [|now right]. destruct IHr as [-> | ->]; [now left|now right].
  Qed.
  (** Groups that include only groups of a smaller rank need no more fuel than that. *)
  Lemma ranked rank : (forall x t g y, In t (map (text_of w) (children_of w x)) -> member_line t (Group g) -> group_at w g y -> rank y < rank x) ->
    forall f x, rank x < f -> network_strings f w x <> Err OutOfFuel.
  Proof.
    intros RK. induction f as [|f IH]; intros x Hx; [lia|]. destruct (own_spec w x) as (me & Em & _). rewrite (unfold_ns f x me Em). destruct (is_netgroup (text_of w x)); [|discriminate].
    assert (K : forall t, In t (map (text_of w) (children_of w x)) -> netgroup_child ns me (grp f) t <> Err OutOfFuel).
    { intros t I0. destruct (line_cases me t) as [(h & ML & EC)|[(n & ML & EC)|[(n & m & ML & NM & EC)|[(g & ML & NG & EC)|[(ML & EC)|[(ML & EC)|(ML & EC)]]]]]]; rewrite EC; [discriminate|discriminate|discriminate| |discriminate|discriminate|discriminate].
      destruct (grp_cases g) as [(y & Y & EG)|[_ EG]]; rewrite EG; [|discriminate]. apply IH. pose proof (RK x t g y I0 ML Y). lia. }
    induction (map (text_of w) (children_of w x)) as [|t r IHr]; [discriminate|]. rewrite children_cons. pose proof (K t (or_introl eq_refl)) as Kt. destruct (netgroup_child ns me (grp f) t) as [l|e]; cbn [bind]; [|congruence].
    specialize (IHr (fun u Hu => K u (or_intror Hu))). destruct (netgroup_children _ r) as [l'|e]; cbn [bind]; congruence.
  Qed.
End Expansion.

(** ** The theorems *)

(** The dictionary of names: each name with the address of its last definition. *)
Theorem C71_names : forall w, (is_asa w = true -> exists ns, names w = Ok ns /\ forall n a, dget ns n = Some a <-> means w n a) /\
  (is_asa w = false -> names w = Err RequirementFailure).
Proof. intros w. split; [apply names_spec|]. intros E. unfold names. now rewrite E. Qed.
Print Assumptions C71_names.
(** The dictionary of network groups: each name with the last group that has it. *)
Theorem C71_groups : forall w, (is_asa w = true -> exists d, object_group_network w = Ok d /\ forall g x, dget d g = Some x <-> group_at w g x) /\
  (is_asa w = false -> object_group_network w = Err RequirementFailure).
Proof. intros w. split; [apply groups_spec|]. intros E. unfold object_group_network. now rewrite E. Qed.
Print Assumptions C71_groups.
(** The dictionary of access lists: each name with all of its lines, in order. *)
Theorem C71_access_lists : forall w, (is_asa w = true -> exists d, access_list w = Ok d /\ forall g l, dget d g = Some l <-> l <> [] /\ picked (fun x => acl_line (text_of w x) g) (w_conf w) l) /\
  (is_asa w = false -> access_list w = Err RequirementFailure).
Proof. intros w. split; [apply acl_spec|]. intros E. unfold access_list. now rewrite E. Qed.
Print Assumptions C71_access_lists.
(** The strings of a group are the addresses it stands for. *)
Theorem C71_expansion : forall w x l, is_asa w = true -> ((exists f, network_strings f w x = Ok l) <-> expands w x l).
Proof.
  intros w x l asa. destruct (names_spec w asa) as (ns & Ens & Kns). split.
  - intros (f & E). exact (expands_sound w asa ns Ens Kns f x l E).
  - intros K. destruct (proj1 (complete w asa ns Ens Kns) x l K) as (f0 & E). exists f0. now apply E.
Qed.
Print Assumptions C71_expansion.
(** An error tells which line is at fault. *)
Theorem C71_failure : forall w x e, is_asa w = true -> ((exists f, network_strings f w x = Err e /\ e <> OutOfFuel) <-> fails w x e).
Proof.
  intros w x e asa. destruct (names_spec w asa) as (ns & Ens & Kns). split.
  - intros (f & E & NE). exact (fails_sound w asa ns Ens Kns f x e E NE).
  - intros K. destruct (proj1 (fails_complete w asa ns Ens Kns) x e K) as (NE & f0 & E). exists f0. auto.
Qed.
Print Assumptions C71_failure.
(** The result does not depend on how deep the search may go, unless it is given up. *)
Theorem C71_depth : forall w x f f', is_asa w = true -> f <= f' -> network_strings f w x <> Err OutOfFuel -> network_strings f' w x = network_strings f w x.
Proof.
  intros w x f f' asa LE NE. destruct (names_spec w asa) as (ns & Ens & Kns). induction LE as [|f' LE IH]; [reflexivity|]. destruct (mono w asa ns Ens f' x) as [K|K]; [congruence|]. now rewrite K.
Qed.
Print Assumptions C71_depth.
(** If no group includes itself, by whatever detour, the search ends. *)
Theorem C71_terminates : forall w rank, is_asa w = true ->
  (forall x t g y, In t (map (text_of w) (children_of w x)) -> member_line t (Group g) -> group_at w g y -> rank y < rank x) ->
  forall x, (exists l, network_strings (S (rank x)) w x = Ok l /\ expands w x l) \/ exists e, network_strings (S (rank x)) w x = Err e /\ fails w x e.
Proof.
  intros w rank asa RK x. destruct (names_spec w asa) as (ns & Ens & Kns). pose proof (ranked w asa ns Ens rank RK (S (rank x)) x ltac:(lia)) as K. destruct (network_strings (S (rank x)) w x) as [l|e] eqn:E.
  - left. exists l. split; [reflexivity|]. exact (expands_sound w asa ns Ens Kns _ x l E).
  - right. exists e. split; [reflexivity|]. apply (fails_sound w asa ns Ens Kns _ x e E). congruence.
Qed.
Print Assumptions C71_terminates.
(** A group that meets itself on the way, after lines that are in order, is never expanded. *)
Theorem C71_cycle : forall w (C : nat -> Prop), is_asa w = true ->
  (forall x, C x -> exists me pre t post l g y, group_head (text_of w x) /\ own_name (text_of w x) me /\ map (text_of w) (children_of w x) = pre ++ t :: post /\
     lists w me pre l /\ member_line t (Group g) /\ g <> me /\ group_at w g y /\ C y) ->
  forall x, C x -> (forall f, network_strings f w x = Err OutOfFuel) /\ (forall l, ~ expands w x l) /\ forall e, ~ fails w x e.
Proof.
  intros w C asa K. destruct (names_spec w asa) as (ns & Ens & Kns).
  assert (Z0 : forall f x, C x -> network_strings f w x = Err OutOfFuel).
  { induction f as [|f IH]; intros x Cx; [reflexivity|]. destruct (K x Cx) as (me & pre & t & post & l & g & y & HG & HO & EK & HL & ML & NG & Y & Cy).
    destruct (own_spec w x) as (me' & Em & Km). apply Km in HO as ->. rewrite (unfold_ns w ns Ens f x me' Em), (proj2 (netgroup_iff _) HG), EK, children_app, children_cons.
    inversion ML; subst. rewrite (child_group _ _ _ _ g) by assumption. destruct (str_eqb g me') eqn:E; [apply str_eqb_eq in E; congruence|]. rewrite (grp_at w asa f g y Y), (IH y Cy).
    destruct (proj2 (complete w asa ns Ens Kns) _ _ _ HL) as (f0 & E0). cbn [bind].
    destruct (netgroup_children (netgroup_child ns me' (grp w f)) pre) as [a|e] eqn:EP; [reflexivity|]. cbn [bind].
    assert (CM : forall d, netgroup_children (netgroup_child ns me' (grp w f)) pre = Err OutOfFuel \/ netgroup_children (netgroup_child ns me' (grp w (d + f))) pre = netgroup_children (netgroup_child ns me' (grp w f)) pre).
    { induction d as [|d IHd]; [now right|]. destruct IHd as [IHd|IHd]; [now left|]. rewrite <- IHd. cbn [Nat.add]. clear -asa Ens Kns. 
      induction pre as [|u r IHr]; [now right|]. rewrite !children_cons.
      assert (KC : netgroup_child ns me' (grp w (d + f)) u = Err OutOfFuel \/ netgroup_child ns me' (grp w (S (d + f))) u = netgroup_child ns me' (grp w (d + f)) u).
      { destruct (line_cases ns me' u) as [(h & ML & EC)|[(n & ML & EC)|[(n & m & ML & NM & EC)|[(g & ML & NG & EC)|[(ML & EC)|[(ML & EC)|(ML & EC)]]]]]]; rewrite !EC; auto.
        destruct (grp_cases w asa g) as [(z & Z1 & EG)|[_ EG]]; rewrite !EG; auto. exact (mono w asa ns Ens (d + f) z). }
      destruct KC as [-> | ->]; [now left|]. destruct (netgroup_child ns me' (grp w (d + f)) u) as [v|e0]; cbn [bind]; [|now right]. destruct IHr as [-> | ->]; [now left|now right]. }
    destruct (CM f0) as [C1|C1]; [congruence|]. rewrite E0 in C1 by lia. congruence. }
  intros x Cx. split; [intros f; now apply Z0|]. split.
  - intros l HE. apply (proj2 (C71_expansion w x l asa)) in HE as (f & HE). rewrite (Z0 f x Cx) in HE. discriminate.
  - intros e HE. apply (proj2 (C71_failure w x e asa)) in HE as (f & HE & NE). rewrite (Z0 f x Cx) in HE. congruence.
Qed.
Print Assumptions C71_cycle.
(** The objects are those that IPv4Obj() makes of the strings, one for one; the first string it
    does not accept ends the search. *)
Theorem C71_networks : forall w x f l, network_strings f w x = Ok l ->
  network_count f w x = Ok (length l) /\
  (forall os, networks f w x = Ok os <-> Forall2 (fun s o => ip4_of_str s = Ok o) l os) /\
  (forall e, networks f w x = Err e <-> exists pre s post os, l = pre ++ s :: post /\ Forall2 (fun s o => ip4_of_str s = Ok o) pre os /\ ip4_of_str s = Err e).
Proof.
  intros w x f l E. unfold network_count, networks. rewrite E. cbn [bind]. split; [reflexivity|]. clear. split.
  - induction l as [|s l IH]; intros os; cbn [each]; [split; [intros [= <-]; constructor|intros K; now inversion K; subst]|]. split.
    + destruct (ip4_of_str s) as [o|] eqn:E0; [|discriminate]. cbn [bind]. destruct (each ip4_of_str l) as [os'|] eqn:E1; [|discriminate]. intros [= <-]. constructor; [exact E0|now apply IH].
    + intros K. inversion K as [|? o ? os' K1 K2]; subst. rewrite K1. cbn [bind]. apply IH in K2. now rewrite K2.
  - induction l as [|s l IH]; intros e; cbn [each]; [split; [discriminate|intros (pre & s & post & os & K & _); now destruct pre]|]. split.
    + destruct (ip4_of_str s) as [o|e0] eqn:E0; cbn [bind].
      * destruct (each ip4_of_str l) as [os'|e1] eqn:E1; [discriminate|]. intros [= ->]. destruct (proj1 (IH e) eq_refl) as (pre & s1 & post & os & -> & K1 & K2). (exists (s :: pre), s1, post, (o :: os); split; [reflexivity|split; [now constructor|exact K2]]).
      * intros [= ->]. exists [], s, l, []. split; [reflexivity|]. split; [constructor|exact E0].
    + intros (pre & s1 & post & os & K & K1 & K2). destruct pre as [|s0 pre]; cbn [app] in K; injection K as -> ->; [now rewrite K2|]. inversion K1 as [|? o ? os' K3 K4]; subst. rewrite K3. cbn [bind]. rewrite (proj2 (IH e)); [reflexivity|]. exists pre, s1, post, os'. auto.
Qed.
Print Assumptions C71_networks.

(** ** Examples and counterexamples *)

Definition asa_w (l : list string) : world := match parse (mkOpts [] false Asa) (map lit l) with Ok w => w | Err _ => mkW (mkOpts [] false Asa) [] [] end.
Definition fw : world := asa_w ["name 192.0.2.1 web"; "name 192.0.2.9 web"; "object-group network INNER"; " network-object host web"; " network-object 10.1.0.0 255.255.0.0";
  "object-group network OUTER"; " description all of them"; " group-object INNER"; " network-object web 255.255.255.255"; "access-list IN extended permit ip any any"; "access-list OUT remark x"; "access-list IN extended deny ip any any"]%string.
Example names_ex : names fw = Ok [(lit "web", lit "192.0.2.9")]. Proof. vm_compute. reflexivity. Qed.
Example groups_ex : object_group_network fw = Ok [(lit "INNER", 2); (lit "OUTER", 5)]. Proof. vm_compute. reflexivity. Qed.
Example acl_ex : access_list fw = Ok [(lit "IN", [9; 11]); (lit "OUT", [10])]. Proof. vm_compute. reflexivity. Qed.
Example expand_ex : network_strings 2 fw 5 = Ok (map lit ["192.0.2.9"; "10.1.0.0/255.255.0.0"; "192.0.2.9"]%string). Proof. vm_compute. reflexivity. Qed.
Example expands_ex : expands fw 5 (map lit ["192.0.2.9"; "10.1.0.0/255.255.0.0"; "192.0.2.9"]%string).
Proof. apply C71_expansion; [reflexivity|]. exists 2. exact expand_ex. Qed.
Example networks_ex : networks 2 fw 2 = each ip4_of_str (map lit ["192.0.2.9"; "10.1.0.0/255.255.0.0"]%string) /\ exists os, networks 2 fw 2 = Ok os /\ length os = 2.
Proof. split; [vm_compute; reflexivity|]. eexists. split; [vm_compute; reflexivity|reflexivity]. Qed.
(** Two groups that include each other: the properties do not return (Python stops with
    RecursionError), although a group that includes itself is told so. *)
Definition ring : world := asa_w ["object-group network A"; " network-object host 10.0.0.1"; " group-object B"; "object-group network B"; " group-object A"; "object-group network C"; " group-object C"]%string.
Theorem C71_cycle_refuted : (forall f, network_strings f ring 0 = Err OutOfFuel) /\ network_strings 1 ring 5 = Err ValueError.
Proof.
  split; [|vm_compute; reflexivity]. intros f. apply (C71_cycle ring (fun x => x = 0 \/ x = 3)); [reflexivity| |now left].
  destruct (groups_spec ring eq_refl) as (d & E & K). assert (E0 : object_group_network ring = Ok [(lit "A", 0); (lit "B", 3); (lit "C", 5)]) by (vm_compute; reflexivity). rewrite E0 in E. injection E as <-.
  assert (OW : forall x n, netgroup_name ring x = Ok n -> own_name (text_of ring x) n) by (intros x n X0; destruct (own_spec ring x) as (me & Em & Km); apply Km; congruence).
  assert (ML : forall g, word g -> member_line (lit " group-object " ++ g) (Group g)).
  { intros g Wg. constructor. split; [exact Wg|]. exists (lit " "), (lit "group-object " ++ g), []. split; [now rewrite app_nil_r|]. split; [reflexivity|]. split; [|reflexivity].
    apply (ph_more (lit "group-object") (lit " ") _ g); [split; [reflexivity|discriminate]|constructor]. }
  intros x [-> | ->].
  - exists (lit "A"), [lit " network-object host 10.0.0.1"], (lit " group-object B"), [], [lit "10.0.0.1"], (lit "B"), 3.
    split; [apply netgroup_iff; vm_compute; reflexivity|]. split; [apply OW; vm_compute; reflexivity|]. split; [vm_compute; reflexivity|]. split; [|split; [exact (ML (lit "B") ltac:(split; [discriminate|reflexivity]))|split; [discriminate|split; [apply K; reflexivity|now right]]]].
    apply (li_host _ _ _ _ (lit "10.0.0.1") (lit "10.0.0.1") []); [|right; split; [|reflexivity]|constructor].
    + constructor. split; [split; [discriminate|reflexivity]|]. exists (lit " "), (lit "network-object host 10.0.0.1"), []. split; [reflexivity|]. split; [reflexivity|]. split; [|reflexivity].
      apply (ph_more (lit "network-object") (lit " ") _ (lit "host 10.0.0.1")); [split; [reflexivity|discriminate]|]. apply (ph_more (lit "host") (lit " ") _ (lit "10.0.0.1")); [split; [reflexivity|discriminate]|constructor].
    + intros a M0. destruct (names_spec ring eq_refl) as (ns & En & Kn). assert (En' : names ring = Ok []) by (vm_compute; reflexivity). rewrite En' in En. injection En as <-. apply Kn in M0. discriminate M0.
  - exists (lit "B"), [], (lit " group-object A"), [], [], (lit "A"), 0.
    split; [apply netgroup_iff; vm_compute; reflexivity|]. split; [apply OW; vm_compute; reflexivity|]. split; [vm_compute; reflexivity|]. split; [constructor|].
    split; [exact (ML (lit "A") ltac:(split; [discriminate|reflexivity]))|]. split; [discriminate|]. split; [apply K; reflexivity|now left].
Qed.
Print Assumptions C71_cycle_refuted.
Example fault_ex : let w := asa_w ["object-group network A"; " network-object host 10.0.0.1"; " network-object object SRV"]%string in
  network_strings 1 w 0 = Err NotImplementedErr /\ fails w 0 NotImplementedErr.
Proof. cbv zeta. split; [vm_compute; reflexivity|]. apply C71_failure; [reflexivity|]. exists 1. split; [vm_compute; reflexivity|discriminate]. Qed.
Example rank_ex : exists rank, forall x t g y, In t (map (text_of fw) (children_of fw x)) -> member_line t (Group g) -> group_at fw g y -> rank y < rank x.
Proof.
  exists (fun x => x). intros x t g y I0 ML Y. destruct (groups_spec fw eq_refl) as (d & E & K). rewrite groups_ex in E. injection E as <-. apply K in Y.
  assert (GS : group_says t g) by now inversion ML. apply group_words in GS as (r & EW).
  assert (OUT : forall z, 12 <= z -> children_of fw z = []).
  { intros z Hz. unfold children_of. assert (E0 : CfgModel.obj fw z = None) by (unfold CfgModel.obj; apply nth_error_None; assert (EL : length (w_heap fw) = 12) by (vm_compute; reflexivity); now rewrite EL). now rewrite E0. }
  assert (EC : forall z, children_of fw z = match z with 2 => [3; 4] | 5 => [6; 7; 8] | _ => [] end).
  { intros z. do 12 (destruct z as [|z]; [vm_compute; reflexivity|]). apply OUT. lia. }
  rewrite EC in I0. destruct x as [|[|[|[|[|[|x]]]]]]; try contradiction; cbn [map In] in I0; repeat match goal with X : _ \/ _ |- _ => destruct X as [X|X] | X : False |- _ => destruct X end; subst t; vm_compute in EW; try discriminate.
  injection EW as <- _. vm_compute in Y. injection Y as <-. lia.
Qed.
(** Service groups: a group with a protocol and its ports; a one-digit port, the usual form of
    service-object and a nested group are not understood. *)
Definition svc (l : list string) : result (list l4) := ports (asa_w l) 0.
Example ports_ex : svc ["object-group service WEB tcp-udp"; " description x"; " port-object eq www"; " port-object range 20 21"]%string =
  Ok [{| l4_protocol := lit "tcp"; l4_ports := [80%Z] |}; {| l4_protocol := lit "udp"; l4_ports := [80%Z] |}; {| l4_protocol := lit "tcp"; l4_ports := [20%Z; 21%Z] |}; {| l4_protocol := lit "udp"; l4_ports := [20%Z; 21%Z] |}].
Proof. vm_compute. reflexivity. Qed.
Theorem C71_service_refuted :
  svc ["object-group service S tcp"; " port-object eq 7"]%string = Err NotImplementedErr /\
  svc ["object-group service S"; " service-object udp destination eq dns"]%string = Err ValueError /\
  svc ["object-group service S tcp"; " group-object WEB"; "object-group service WEB tcp"; " port-object eq 80"]%string = Err AttributeErr.
Proof. vm_compute. repeat split; reflexivity. Qed.
Print Assumptions C71_service_refuted.
