(** Which VLANs an NX-OS trunk allows (C83). *)
From Coq Require Import Ascii String Arith NArith ZArith Bool List Lia.
From Verif Require Import PyStr PyStrFacts PyBase PyBaseFacts SearchModel RangeModel RangeSpec RangeFacts TrunkModel TrunkSpec TrunkFacts IntfSpec IosSpec AsaIntfSpec NxosSpec NxosModel NxosTrunkSpec NxosTrunkModel NxosTrunkFacts PNxos.
From Verif Require PTrunk PRange.
Import ListNotations.
Local Open Scope char_scope.
Local Open Scope Z_scope.

Lemma all_range f : set_order f -> exists m, range_of_text f all_vlans = Ok m /\ NoDup m /\ forall x, In x m <-> 1 <= x <= 4094.
Proof.
  intros S. destruct (PTrunk.set_order_parse f all_vlans _ S PTrunk.all_vlans_list) as (m & E & N & M). exists m. split; [exact E|]. split; [exact N|]. intros x. now rewrite M, PTrunk.listed_all.
Qed.
Lemma one_int v a : denotes v (One a) -> lower v = v /\ py_int v = Some a.
Proof.
  intros H. split.
  - apply denotes_vlan in H. unfold lower. induction v as [|c v IH]; [reflexivity|]. cbn [forallb map] in *. apply andb_true_iff in H as [H1 H2]. now rewrite lower_vlan, IH.
  - inversion H; subst. now apply py_int_pad.
Qed.
Lemma listed_one a x : listed [One a] x <-> x = a.
Proof. split; [intros (e & [<-|[]] & C); exact C|]. intros ->. exists (One a). split; [now left|reflexivity]. Qed.
Lemma remove_text l v a : NoDup l -> denotes v (One a) -> In a l -> exists m, range_remove_text l v = Ok m /\ NoDup m /\ forall x, In x m <-> In x l /\ x <> a.
Proof.
  intros N H I. unfold range_remove_text. destruct (one_int v a H) as [_ ->]. destruct l as [|y l]; [destruct I|]. exact (proj1 (PRange.C35_remove (y :: l) a false N) I).
Qed.
Lemma no_word v es w : vlan_list v es -> (exists c r, w = c :: r /\ is_digit c = false) -> str_eqb v w = false.
Proof. intros (ts & _ & _ & _ & c & r & -> & D0) (c' & r' & -> & D1). apply not_true_is_false. intros E. apply str_eqb_eq in E. injection E as -> _. congruence. Qed.

(** One statement. *)
Lemma step_device f cur P t s : set_order f -> NoDup cur -> (forall x, In x cur <-> P x) -> nx_writes t s ->
  match s with SAdd _ => forall x, ~ P x | SExcept es => forall x, listed es x -> 1 <= x <= 4094 | SRemove es => forall x, listed es x -> P x | _ => True end ->
  exists m, nx_vlan_step f cur t = Ok m /\ NoDup m /\ forall x, In x m <-> device_step P s x.
Proof.
  intros S N C W OK. unfold nx_vlan_step. inversion W as [t' v es G V NL|t' G|t' G|t' v a H V|t' v a H V|t' v a H V|t' N0]; subst; cbn [device_step].
  - assert (GV : given v). { right. right. destruct V as (ts & _ & _ & _ & c & r & -> & D0). exists c, r. split; [reflexivity|]. split; [exact D0|]. unfold no_newline in *. cbn [forallb] in NL. now apply andb_true_iff in NL as [_ NL]. }
    destruct (read_given v t GV G) as (-> & -> & -> & ->). rewrite (vlan_list_lower v es V), (no_word v es (lit "all") V), (no_word v es (lit "none") V) by (eexists _, _; split; reflexivity).
    destruct (PTrunk.set_order_parse f v es S V) as (m & -> & Nm & M). cbn [bind]. eauto.
  - destruct (read_given (lit "all") t (or_introl eq_refl) G) as (-> & -> & -> & ->). destruct (all_range f S) as (m & E & Nm & M). exists m. split; [|auto]. change (str_eqb (lower (lit "all")) (lit "all")) with true. cbv iota. rewrite E. reflexivity.
  - destruct (read_given (lit "none") t (or_intror (or_introl eq_refl)) G) as (-> & -> & -> & ->). exists []. split; [reflexivity|]. split; [constructor|]. intros x. reflexivity.
  - destruct (read_changed (lit "add") v t (or_introl eq_refl) H) as (-> & E1 & E2). pose proof (E2 (lit "except") (or_intror (or_introl eq_refl)) ltac:(discriminate)) as E3. pose proof (E2 (lit "remove") (or_intror (or_intror eq_refl)) ltac:(discriminate)) as E4.
    change (sub_str (lit "add")) with nx_add_str in E1. change (sub_str (lit "except")) with nx_exc_str in E3. change (sub_str (lit "remove")) with nx_rem_str in E4. rewrite E1, E3, E4. cbn [bind].
    destruct (one_int v a V) as [-> PI]. destruct cur as [|y cur]; [|exfalso; apply (OK y), C; now left]. cbn [range_append_text]. rewrite PI. cbn [bind]. exists [a]. split; [reflexivity|]. split; [repeat constructor; intros []|].
    intros x. rewrite listed_one. cbn [In]. specialize (OK x). split; [intros [->|[]]; auto|]. intros [K|K]; [contradiction|auto].
  - destruct (read_changed (lit "except") v t (or_intror (or_introl eq_refl)) H) as (-> & E1 & E2). pose proof (E2 (lit "add") (or_introl eq_refl) ltac:(discriminate)) as E3. pose proof (E2 (lit "remove") (or_intror (or_intror eq_refl)) ltac:(discriminate)) as E4.
    change (sub_str (lit "add")) with nx_add_str in E3. change (sub_str (lit "except")) with nx_exc_str in E1. change (sub_str (lit "remove")) with nx_rem_str in E4. rewrite E1, E3, E4. cbn [bind].
    destruct (one_int v a V) as [-> _]. destruct (all_range f S) as (al & -> & Na & Ma). cbn [bind]. destruct (remove_text al v a Na V) as (m & -> & Nm & M); [apply Ma, OK, listed_one; reflexivity|]. cbn [bind]. exists m. split; [reflexivity|]. split; [exact Nm|]. intros x. now rewrite M, Ma, listed_one.
  - destruct (read_changed (lit "remove") v t (or_intror (or_intror eq_refl)) H) as (-> & E1 & E2). pose proof (E2 (lit "add") (or_introl eq_refl) ltac:(discriminate)) as E3. pose proof (E2 (lit "except") (or_intror (or_introl eq_refl)) ltac:(discriminate)) as E4.
    change (sub_str (lit "add")) with nx_add_str in E3. change (sub_str (lit "except")) with nx_exc_str in E4. change (sub_str (lit "remove")) with nx_rem_str in E1. rewrite E1, E3, E4. cbn [bind].
    destruct (one_int v a V) as [-> _]. destruct (remove_text cur v a N V) as (m & -> & Nm & M); [apply C, OK, listed_one; reflexivity|]. exists m. split; [reflexivity|]. split; [exact Nm|]. intros x. now rewrite M, C, listed_one.
  - destruct (read_other t N0) as (-> & -> & -> & ->). cbn [bind]. eauto.
Qed.
Lemma loop_device f ts ss : set_order f -> Forall2 nx_writes ts ss -> forall cur P, NoDup cur -> (forall x, In x cur <-> P x) ->
  (forall pre s post, ss = pre ++ s :: post ->
    match s with SAdd _ => forall x, ~ fold_left device_step pre P x | SExcept es => forall x, listed es x -> 1 <= x <= 4094 | SRemove es => forall x, listed es x -> fold_left device_step pre P x | _ => True end) ->
  exists m, nx_vlan_loop f cur ts = Ok m /\ NoDup m /\ forall x, In x m <-> fold_left device_step ss P x.
Proof.
  intros S W. induction W as [|t s ts ss H W IH]; intros cur P N C OK; [exists cur; auto|]. cbn [nx_vlan_loop fold_left].
  destruct (step_device f cur P t s S N C H (OK [] s ss eq_refl)) as (m & -> & Nm & M). cbn [bind]. apply IH; [exact Nm|exact M|]. intros pre s' post E. exact (OK (s :: pre) s' post (f_equal (cons s) E)).
Qed.
Lemma loop_app f a b : forall cur, nx_vlan_loop f cur (a ++ b) = (do cur' <- nx_vlan_loop f cur a; nx_vlan_loop f cur' b).
Proof. induction a as [|t a IH]; intros cur; [reflexivity|]. cbn [app nx_vlan_loop]. destruct (nx_vlan_step f cur t); [cbn [bind]; apply IH|reflexivity]. Qed.

Lemma trunk_value f own below kids : trunk_port own below -> nx_trunk_vlans_allowed f own below kids = (do a <- range_of_text f all_vlans; do m <- nx_vlan_loop f a kids; Ok (Some m)).
Proof.
  intros [(t & It & Pt) NA]. unfold nx_trunk_vlans_allowed. destruct (C81_switchport own below) as (S1 & S2 & _).
  destruct S1 as [(-> & _)|(_ & N1)]; [|exfalso; now apply (N1 t)]. cbn [bind]. destruct S2 as [(_ & u & Iu & Pu)|(-> & _)]; [exfalso; now apply (NA u)|]. reflexivity.
Qed.

(** As long as the statements are moderate, the answer is what a switch would make of them. *)
Theorem C83_device : forall set_list own below kids ss, set_order set_list -> trunk_port own below -> Forall2 nx_writes kids ss -> moderate ss ->
  exists m, nx_trunk_vlans_allowed set_list own below kids = Ok (Some m) /\ NoDup m /\ forall x, In x m <-> device ss x.
Proof.
  intros f own below kids ss S T W OK. rewrite (trunk_value f own below kids T). destruct (all_range f S) as (a & -> & Na & Ma). cbn [bind].
  destruct (loop_device f kids ss S W a _ Na Ma OK) as (m & -> & Nm & M). cbn [bind]. exists m. auto.
Qed.
Print Assumptions C83_device.

(** An interface that is no switch port, or one in access mode, answers 0. *)
Theorem C83_not_a_trunk : forall set_list own below kids,
  (forall t, In t (own :: below) -> ~ begins_switchport t) \/ (exists t, In t (own :: below) /\ access_line t) -> nx_trunk_vlans_allowed set_list own below kids = Ok None.
Proof.
  intros f own below kids H. unfold nx_trunk_vlans_allowed. destruct (C81_switchport own below) as (S1 & S2 & _). destruct S1 as [(-> & t & It & Pt)|(-> & _)]; [|reflexivity]. cbn [bind].
  destruct S2 as [(-> & _)|(_ & NA)]; [reflexivity|]. exfalso. destruct H as [H|(u & Iu & Pu)]; [now apply (H t)|now apply (NA u)].
Qed.
Print Assumptions C83_not_a_trunk.

Lemma fails_after f own below pre ss t post e : set_order f -> trunk_port own below -> Forall2 nx_writes pre ss -> moderate ss ->
  (forall m, NoDup m -> (forall x, In x m <-> device ss x) -> nx_vlan_step f m t = Err e) -> nx_trunk_vlans_allowed f own below (pre ++ t :: post) = Err e.
Proof.
  intros S T W OK H. rewrite (trunk_value f own below _ T). destruct (all_range f S) as (a & -> & Na & Ma). cbn [bind]. rewrite loop_app.
  destruct (loop_device f pre ss S W a _ Na Ma OK) as (m & -> & Nm & M). cbn [bind nx_vlan_loop]. now rewrite (H m Nm M).
Qed.
Lemma step_add f m v t : changes (lit "add") v t -> nx_vlan_step f m t = range_append_text m (lower v).
Proof.
  intros H. unfold nx_vlan_step. destruct (read_changed (lit "add") v t (or_introl eq_refl) H) as (-> & E1 & E2). pose proof (E2 (lit "except") (or_intror (or_introl eq_refl)) ltac:(discriminate)) as E3. pose proof (E2 (lit "remove") (or_intror (or_intror eq_refl)) ltac:(discriminate)) as E4.
  change (sub_str (lit "add")) with nx_add_str in E1. change (sub_str (lit "except")) with nx_exc_str in E3. change (sub_str (lit "remove")) with nx_rem_str in E4. rewrite E1, E3, E4. cbn [bind]. now destruct (range_append_text m (lower v)).
Qed.
Lemma step_except f m v t : changes (lit "except") v t -> nx_vlan_step f m t = (do a <- range_of_text f all_vlans; range_remove_text a (lower v)).
Proof.
  intros H. unfold nx_vlan_step. destruct (read_changed (lit "except") v t (or_intror (or_introl eq_refl)) H) as (-> & E1 & E2). pose proof (E2 (lit "add") (or_introl eq_refl) ltac:(discriminate)) as E3. pose proof (E2 (lit "remove") (or_intror (or_intror eq_refl)) ltac:(discriminate)) as E4.
  change (sub_str (lit "add")) with nx_add_str in E3. change (sub_str (lit "except")) with nx_exc_str in E1. change (sub_str (lit "remove")) with nx_rem_str in E4. rewrite E1, E3, E4. cbn [bind]. destruct (range_of_text f all_vlans); [|reflexivity]. cbn [bind]. now destruct (range_remove_text _ (lower v)).
Qed.
Lemma step_remove f m v t : changes (lit "remove") v t -> nx_vlan_step f m t = range_remove_text m (lower v).
Proof.
  intros H. unfold nx_vlan_step. destruct (read_changed (lit "remove") v t (or_intror (or_intror eq_refl)) H) as (-> & E1 & E2). pose proof (E2 (lit "add") (or_introl eq_refl) ltac:(discriminate)) as E3. pose proof (E2 (lit "except") (or_intror (or_introl eq_refl)) ltac:(discriminate)) as E4.
  change (sub_str (lit "add")) with nx_add_str in E3. change (sub_str (lit "except")) with nx_exc_str in E4. change (sub_str (lit "remove")) with nx_rem_str in E1. rewrite E1, E3, E4. reflexivity.
Qed.

(** Adding VLANs fails whenever some VLAN is allowed already, that is unless after "none". *)
Theorem C83_add_refuted : forall set_list own below pre ss t v post, set_order set_list -> trunk_port own below -> Forall2 nx_writes pre ss -> moderate ss ->
  (exists x, device ss x) -> changes (lit "add") v t -> nx_trunk_vlans_allowed set_list own below (pre ++ t :: post) = Err MismatchedType.
Proof.
  intros f own below pre ss t v post S T W OK (x & HX) H. apply (fails_after f own below pre ss t post); auto. intros m _ M. rewrite (step_add f m v t H). apply M in HX. now destruct m.
Qed.
Print Assumptions C83_add_refuted.

(** After "none" a list of several VLANs is ignored without an error. *)
Lemma several v es : vlan_list v es -> has_char "," v = true \/ has_char "-" v = true -> py_int v = None.
Proof.
  intros (ts & _ & _ & _ & c & r & -> & D0) H. destruct (py_int (c :: r)) as [z|] eqn:E; [exfalso|reflexivity].
  assert (SP : is_space c = false) by now apply PyReSent.digit_nonspace.
  unfold py_int in E. assert (I0 : exists q w, int_strip (c :: r) = c :: q /\ r = q ++ w /\ forallb is_space w = true).
  { clear -SP. unfold int_strip.
    assert (A : int_space c = false). { destruct (int_space c) eqn:A; [|reflexivity]. apply PRange.int_space_space in A. congruence. }
    assert (DW : forall l : str, exists w, l = w ++ drop_while int_space l /\ forallb is_space w = true).
    { induction l as [|x l (w & E & F)]; [exists []; auto|]. cbn [drop_while]. destruct (int_space x) eqn:X; [|exists []; auto]. exists (x :: w). cbn [app forallb]. rewrite <- E, F, (PRange.int_space_space _ X). auto. }
    destruct (DW (rev r)) as (w & E & F).
    assert (RV : rev (drop_while int_space (rev (c :: r))) = c :: rev (drop_while int_space (rev r))).
    { cbn [rev]. clear E F w DW. induction (rev r) as [|x l IH]; [cbn; rewrite A; reflexivity|]. cbn [app drop_while]. destruct (int_space x); [exact IH|]. cbn [rev]. rewrite !rev_app_distr. reflexivity. }
    rewrite RV. cbn [drop_while]. rewrite A. exists (rev (drop_while int_space (rev r))), (rev w). split; [reflexivity|]. split.
    - rewrite <- rev_app_distr, <- E. now rewrite rev_involutive.
    - rewrite forallb_forall in *. intros x Hx. apply F. now apply in_rev. }
  destruct I0 as (q & w & E0 & -> & FW). rewrite E0 in E.
  assert (NC : (Ascii.eqb c "-" = false) /\ (Ascii.eqb c "+" = false)). { split; apply Ascii.eqb_neq; intros ->; discriminate. } destruct NC as [NC1 NC2]. rewrite NC1, NC2 in E.
  assert (ID : forall b s d, int_digits b s = Some d -> forall y, In y s -> is_digit y = true \/ y = "_").
  { clear. intros b s. revert b. induction s as [|x s IH]; intros b d HI y; [intros []|]. cbn [int_digits] in HI. destruct (is_digit x) eqn:X.
    - destruct (int_digits true s) eqn:Y; [|discriminate]. intros [<-|Hy]; [auto|eauto].
    - destruct (Ascii.eqb_spec x "_"); [|discriminate]. destruct b; [|discriminate]. cbn [andb] in HI. intros [<-|Hy]; [auto|eauto]. }
  destruct (int_digits false (c :: q)) as [d|] eqn:Q; [|discriminate].
  assert (NO : forall y, In y (c :: q ++ w) -> y <> "," /\ y <> "-").
  { intros y [<-|Hy]; [destruct (ID _ _ _ Q c (or_introl eq_refl)) as [K|K]; split; intros ->; discriminate|]. apply in_app_or in Hy as [Hy|Hy].
    - destruct (ID _ _ _ Q y (or_intror Hy)) as [K|K]; split; intros ->; discriminate.
    - rewrite forallb_forall in FW. apply FW in Hy. split; intros ->; discriminate. }
  unfold has_char in H. rewrite !existsb_exists in H. destruct H as [(y & Hy & K)|(y & Hy & K)]; apply NO in Hy as [? ?]; apply Ascii.eqb_eq in K; congruence.
Qed.
Theorem C83_quiet_refuted : forall set_list own below pre ss t v es, set_order set_list -> trunk_port own below -> Forall2 nx_writes pre ss -> moderate ss ->
  (forall x, ~ device ss x) -> changes (lit "add") v t -> vlan_list v es -> has_char "," v = true \/ has_char "-" v = true ->
  nx_trunk_vlans_allowed set_list own below (pre ++ [t]) = Ok (Some []).
Proof.
  intros f own below pre ss t v es S T W OK NX H V HC. rewrite (trunk_value f own below _ T). destruct (all_range f S) as (a & -> & Na & Ma). cbn [bind]. rewrite loop_app.
  destruct (loop_device f pre ss S W a _ Na Ma OK) as (m & -> & Nm & M). cbn [bind nx_vlan_loop]. rewrite (step_add f m v t H), (vlan_list_lower v es V).
  destruct m as [|y m]; [|exfalso; apply (NX y), M; now left]. cbn [range_append_text]. now rewrite (several v es V HC).
Qed.
Print Assumptions C83_quiet_refuted.

(** Removing or excepting more than one VLAN fails; so does removing one that is not allowed
    or excepting one above 4094. *)
Theorem C83_several_refuted : forall set_list own below pre ss t v es post, set_order set_list -> trunk_port own below -> Forall2 nx_writes pre ss -> moderate ss ->
  (exists x, device ss x) -> changes (lit "remove") v t \/ changes (lit "except") v t -> vlan_list v es -> has_char "," v = true \/ has_char "-" v = true ->
  nx_trunk_vlans_allowed set_list own below (pre ++ t :: post) = Err ValueError.
Proof.
  intros f own below pre ss t v es post S T W OK (x & HX) H V HC. apply (fails_after f own below pre ss t post); auto. intros m _ M. pose proof (several v es V HC) as PI. apply M in HX. destruct H as [H|H].
  - rewrite (step_remove f m v t H), (vlan_list_lower v es V). unfold range_remove_text. rewrite PI. now destruct m.
  - rewrite (step_except f m v t H), (vlan_list_lower v es V). destruct (all_range f S) as (a & -> & _ & Ma). cbn [bind]. unfold range_remove_text. rewrite PI. assert (K : In 1 a) by (apply Ma; lia). now destruct a.
Qed.
Print Assumptions C83_several_refuted.
Theorem C83_missing_refuted : forall set_list own below pre ss t v a post, set_order set_list -> trunk_port own below -> Forall2 nx_writes pre ss -> moderate ss ->
  denotes v (One a) -> changes (lit "remove") v t -> ~ device ss a ->
  nx_trunk_vlans_allowed set_list own below (pre ++ t :: post) = Err MismatchedType \/ nx_trunk_vlans_allowed set_list own below (pre ++ t :: post) = Err UnboundLocal.
Proof.
  intros f own below pre ss t v a post S T W OK V H NX. destruct (one_int v a V) as [L PI]. destruct (PTrunk.set_order_parse f all_vlans _ S PTrunk.all_vlans_list) as (al & EA & Na & Ma).
  assert (Ma' : forall x, In x al <-> 1 <= x <= 4094) by (intros x; now rewrite Ma, PTrunk.listed_all).
  destruct (loop_device f pre ss S W al _ Na Ma' OK) as (m & E & Nm & M). assert (NI : ~ In a m) by (intros K; now apply M in K).
  rewrite (trunk_value f own below _ T), EA. cbn [bind]. rewrite loop_app, E. cbn [bind nx_vlan_loop]. rewrite (step_remove f m v t H), L. destruct m as [|y m]; [now right|left].
  unfold range_remove_text. rewrite PI, (PRange.C35_remove_missing_error (y :: m) a NI). reflexivity.
Qed.
Print Assumptions C83_missing_refuted.

(** A list that stands after more than one blank is passed over. *)
Theorem C83_blanks_refuted : forall set_list cur t x y r, trunk_head t (x :: y :: r) -> is_space x = true -> is_space y = true ->
  (forall kw v, subword kw -> ~ changes kw v t) -> nx_vlan_step set_list cur t = Ok cur.
Proof.
  intros f cur t x y r HD X0 Y0 NC. unfold nx_vlan_step. rewrite (abs_str_none t).
  - pose proof (sub_str_none (lit "add") t (or_introl eq_refl) (fun v => NC _ v (or_introl eq_refl))) as E1. pose proof (sub_str_none (lit "except") t (or_intror (or_introl eq_refl)) (fun v => NC _ v (or_intror (or_introl eq_refl)))) as E2.
    pose proof (sub_str_none (lit "remove") t (or_intror (or_intror eq_refl)) (fun v => NC _ v (or_intror (or_intror eq_refl)))) as E3. change (sub_str (lit "add")) with nx_add_str in E1. change (sub_str (lit "except")) with nx_exc_str in E2. change (sub_str (lit "remove")) with nx_rem_str in E3. rewrite E1, E2, E3. reflexivity.
  - intros v GV (x' & e & HD' & X1 & _). pose proof (head_unique _ _ _ HD HD') as E. injection E as _ E. pose proof (given_head v e GV) as K. rewrite <- E in K. cbn in K. rewrite Y0 in K. discriminate.
Qed.
Print Assumptions C83_blanks_refuted.

(** Trunks in the way the documentation writes them. *)
Example C83_ex : let f := nodup Z.eq_dec in let own := lit "interface Ethernet1/1" in let sw := lit " switchport" in
  let answer kids := nx_trunk_vlans_allowed f own (sw :: kids) (sw :: kids) in
  answer [lit " switchport trunk allowed vlan 2,4-6"; lit " switchport trunk allowed vlan remove 5"] = Ok (Some [2; 4; 6]) /\
  answer [lit " switchport trunk allowed vlan 2,4-6"; lit " switchport trunk allowed vlan add 7"] = Err MismatchedType /\
  answer [lit " switchport trunk allowed vlan none"; lit " switchport trunk allowed vlan add 7"] = Ok (Some [7]) /\
  answer [lit " switchport trunk allowed vlan none"; lit " switchport trunk allowed vlan add 7,8"] = Ok (Some []) /\
  answer [lit " switchport trunk allowed vlan except 1-10"] = Err ValueError /\
  answer [lit " switchport trunk allowed vlan 2"; lit " switchport trunk allowed vlan remove 3"] = Err MismatchedType /\
  answer [lit " switchport mode access"] = Ok None.
Proof. vm_compute. repeat split. Qed.
Example C83_ex_hyps : let t1 := lit " switchport trunk allowed vlan 2,4-6" in let t2 := lit " switchport trunk allowed vlan remove 5" in
  set_order (nodup Z.eq_dec) /\ trunk_port (lit "interface Ethernet1/1") [lit " switchport"; t1; t2] /\
  Forall2 nx_writes [lit " switchport"; t1; t2] [SOther; SAllow [One 2; Run 4 6]; SRemove [One 5]] /\ moderate [SOther; SAllow [One 2; Run 4 6]; SRemove [One 5]] /\
  changes (lit "add") (lit "7,8") (lit " switchport trunk allowed vlan add 7,8") /\ vlan_list (lit "7,8") [One 7; One 8].
Proof.
  assert (G : IosSpec.gap (lit " ")) by (split; [reflexivity|discriminate]).
  assert (HD : forall r, trunk_head (lit " switchport trunk allowed vlan" ++ r) r) by (intros r; exists (lit " "), (lit " "), (lit " "), (lit " "); repeat split; discriminate).
  split; [|split; [|split; [|split; [|split]]]].
  - intros l. split; [apply NoDup_nodup|]. intros x. apply nodup_In.
  - split.
    + exists (lit " switchport"). split; [right; now left|]. exists (lit " "), []. split; reflexivity.
    + intros t It P. destruct (C81_switchport (lit "interface Ethernet1/1") [lit " switchport"; lit " switchport trunk allowed vlan 2,4-6"; lit " switchport trunk allowed vlan remove 5"]) as (_ & S2 & _).
      destruct S2 as [(E & _)|(_ & N0)]; [discriminate E|]. now apply (N0 t).
  - constructor; [|constructor; [|constructor; [|constructor]]].
    + apply nw_other. intros r (g1 & g2 & g3 & g4 & E & [A1 _] & [A2 B2] & _).
      assert (K : lit " " = g1 /\ lit "switchport" = lit "switchport" ++ g2 ++ lit "trunk" ++ g3 ++ lit "allowed" ++ g4 ++ lit "vlan" ++ r) by (apply white_cut; [reflexivity|exact A1|reflexivity|reflexivity|exact E]).
      destruct K as [_ K]. apply (f_equal (@length ascii)) in K. rewrite app_length, (app_length g2) in K. destruct g2; [congruence|]. cbn [length] in K. lia.
    + apply nw_allow with (v := lit "2,4-6"); [exists " ", []; split; [apply HD|split; [reflexivity|now left]]| |reflexivity].
      exists [lit "2"; lit "4-6"]. split; [reflexivity|]. split; [discriminate|]. split; [|exists "2", (lit ",4-6"); split; reflexivity]. constructor; [apply (d_one 0 0 2); lia|]. constructor; [apply (d_run 0 0 0 0 4 6); lia|constructor].
    + apply nw_remove with (v := lit "5"); [|apply (d_one 0 0 5); lia]. exists (lit " "), (lit " "), []. split; [apply HD|]. split; [exact G|]. split; [exact G|]. split; [exists "5", []; repeat split|now left].
  - intros [|s0 [|s1 [|s2 pre]]] s post E; [injection E as <- _; exact I|injection E as _ <- _; exact I| |injection E as _ _ _ E; now destruct pre].
    injection E as <- <- <- _. intros x LX. apply listed_one in LX. subst x. exists (Run 4 6). split; [right; now left|]. cbn. lia.
  - exists (lit " "), (lit " "), []. split; [apply HD|]. split; [exact G|]. split; [exact G|]. split; [exists "7", (lit ",8"); repeat split|now left].
  - exists [lit "7"; lit "8"]. split; [reflexivity|]. split; [discriminate|]. split; [|exists "7", (lit ",8"); split; reflexivity]. constructor; [apply (d_one 0 0 7); lia|]. constructor; [apply (d_one 0 0 8); lia|constructor].
Qed.
