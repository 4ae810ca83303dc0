(** The passes after the main loop: closing braces, banners, macros. *)
From Coq Require Import Ascii String Arith NArith ZArith Bool List Lia.
From Verif Require Import PyStr PyStrFacts PyBase PyBaseFacts CfgModel TreeSpec TreeProofs.
Import ListNotations.
Local Open Scope nat_scope.

(** ** Line predicates *)

Lemma opens_spec l : opens (rstrip l) = opening_line l.
Proof.
  unfold opens, opening_line. rewrite rstrip_idem. unfold rstrip. rewrite rev_involutive.
  rewrite find_lstrip. now destruct (lstrip (rev l)).
Qed.

Lemma closes_spec l : closes (rstrip l) = closing_line l.
Proof.
  unfold closes, closing_line. rewrite find_lstrip, <- hd_error_lstrip_rstrip, strip_rstrip.
  unfold strip. now destruct (lstrip (rstrip l)).
Qed.

Lemma starts_with_spec p s : starts_with p s = true <-> exists r, s = p ++ r.
Proof.
  revert s; induction p as [|x p IH]; intros s; cbn.
  - split; eauto.
  - destruct s as [|y s].
    + split; [discriminate|]. intros (r & H); discriminate.
    + rewrite andb_true_iff, Ascii.eqb_eq, IH. split.
      * intros (-> & r & ->). eauto.
      * intros (r & H). injection H as -> ->. eauto.
Qed.

Lemma contains_spec p s : contains p s = true <-> exists a b, s = a ++ p ++ b.
Proof.
  induction s as [|y s IH]; cbn [contains]; rewrite orb_true_iff, starts_with_spec.
  - split.
    + intros [(r & H)|H]; [|discriminate]. exists [], r. exact H.
    + intros (a & b & H). left. destruct a; [eauto|discriminate].
  - rewrite IH. split.
    + intros [(r & H)|(a & b & H)].
      * exists [], r. exact H.
      * exists (y :: a), b. cbn. now rewrite H.
    + intros (a & b & H). destruct a as [|z a].
      * left. eauto.
      * right. injection H as -> ->. eauto.
Qed.

Lemma contains_rstrip p l : contains p (rstrip l) = true -> contains p l = true.
Proof.
  rewrite !contains_spec. intros (a & b & H).
  destruct (rstrip_prefix l) as (q & Hq & _). rewrite Hq, H.
  exists a, (b ++ q). now rewrite <- !app_assoc.
Qed.

Lemma skip_sets_suffix n s : exists p, s = p ++ skip_sets n s.
Proof.
  revert s; induction n as [|n IH]; intros s; cbn [skip_sets]; [now exists []|].
  destruct (starts_with (lit "set") s); [|now exists []].
  destruct (skipn 3 s) as [|c r] eqn:E; [now exists []|].
  destruct (is_space c); [|now exists []].
  destruct (IH (lstrip r)) as (p & Hp). destruct (lstrip_suffix r) as (q & Hq & _).
  exists (firstn 3 s ++ [c] ++ q ++ p).
  rewrite <- (firstn_skipn 3 s) at 1. rewrite E. rewrite <- !app_assoc. cbn.
  now rewrite <- Hp, <- Hq.
Qed.

Lemma banner_contains t :
  is_banner_line t = true ->
  contains (lit "banner") t = true \/ contains (lit "aaa authentication fail-message") t = true.
Proof.
  unfold is_banner_line. rewrite orb_true_iff, andb_true_iff.
  intros [[H _]|H]; [left|now right].
  destruct (skip_sets_suffix (length t) t) as (p & Hp).
  apply starts_with_spec in H as (r & Hr). apply contains_spec.
  exists p, r. now rewrite Hp at 1; rewrite Hr.
Qed.

(** ** What no later pass changes *)

Definition static (l : cfgline) : str * Z * nat * bool * bool :=
  (cl_text l, cl_linenum l, cl_indent l, cl_comment l, cl_owned l).

Lemma close_braces_static todo i stack objs objs' :
  close_braces todo i stack objs = Ok objs' -> map static objs' = map static objs.
Proof.
  revert i stack objs. induction todo as [|t todo IH]; intros i stack objs; cbn [close_braces].
  - intros H; now injection H as <-.
  - destruct (opens t); [apply IH|]. destruct (closes t); [|apply IH].
    destruct stack as [|p stack]; [discriminate|]. intros H. rewrite (IH _ _ _ H).
    apply map_upd. reflexivity.
Qed.

Lemma adopt_static p c objs : map static (adopt p c objs) = map static objs.
Proof. unfold adopt. rewrite !map_upd; reflexivity. Qed.

Lemma banner_body_static n p d idx objs :
  map static (banner_body n p d idx objs) = map static objs.
Proof.
  revert idx objs; induction n as [|n IH]; intros idx objs; cbn [banner_body]; [reflexivity|].
  destruct (nth_error objs idx) as [o|]; [|reflexivity].
  destruct (has_char d _); [apply adopt_static|].
  rewrite IH, map_upd by reflexivity. apply adopt_static.
Qed.

Lemma mark_banner_static objs p : map static (mark_banner objs p) = map static objs.
Proof.
  unfold mark_banner.
  assert (H : map static (upd objs p set_keep) = map static objs) by (apply map_upd; reflexivity).
  destruct (nth_error objs p) as [o|]; [|exact H].
  destruct (banner_delim _) as [d|]; [|exact H].
  destruct (_ <? _); [exact H|]. rewrite banner_body_static. exact H.
Qed.

Lemma mark_banners_static objs : map static (mark_banners objs) = map static objs.
Proof.
  unfold mark_banners. generalize (positions (fun o => is_banner_line (cl_text o)) 0 objs) as ps.
  intros ps. revert objs; induction ps as [|p ps IH]; intros objs; cbn [fold_left]; [reflexivity|].
  now rewrite IH, mark_banner_static.
Qed.

Lemma macro_body_static n p idx objs objs' :
  macro_body n p idx objs = Ok objs' -> map static objs' = map static objs.
Proof.
  revert idx objs; induction n as [|n IH]; intros idx objs; cbn [macro_body]; [discriminate|].
  destruct (nth_error objs idx) as [o|]; [|discriminate].
  assert (E : forall f, map static (upd (upd (upd objs idx set_keep) idx (set_parent p)) p
                (fun q => push_child idx (f q) q)) = map static objs)
    by (intros; rewrite !map_upd; reflexivity).
  destruct (str_eqb _ _).
  - intros H; injection H as <-. apply E.
  - intros H. rewrite (IH _ _ H). apply E.
Qed.

Lemma mark_macros_static ms objs objs' :
  mark_macros ms objs = Ok objs' -> map static objs' = map static objs.
Proof.
  revert objs; induction ms as [|p ms IH]; intros objs; cbn [mark_macros].
  - intros H; now injection H as <-.
  - unfold bind. destruct (macro_body _ _ _ _) as [objs1|] eqn:E; [|discriminate].
    intros H. rewrite (IH _ H). rewrite (macro_body_static _ _ _ _ _ E).
    rewrite !map_upd; reflexivity.
Qed.

Lemma map_static_nth objs objs' i l :
  map static objs' = map static objs -> nth_error objs' i = Some l ->
  exists l0, nth_error objs i = Some l0 /\ static l = static l0.
Proof.
  intros H Hl.
  assert (E : nth_error (map static objs') i = nth_error (map static objs) i) by now rewrite H.
  rewrite !nth_error_map_iff, Hl in E. cbn in E.
  destruct (nth_error objs i) as [l0|]; cbn in E; [|discriminate].
  exists l0. split; [reflexivity|congruence].
Qed.

Lemma map_static_length objs objs' :
  map static objs' = map static objs -> length objs' = length objs.
Proof. intros H. rewrite <- (map_length static objs'), H. apply map_length. Qed.

(** ** Links stay inside the list; parents before children *)

Definition links_ok (objs : list cfgline) : Prop :=
  forall i l, nth_error objs i = Some l ->
    cl_linenum l = Z.of_nat i /\ cl_parent l <= i /\
    Forall (fun c => i < c < length objs) (cl_children l).

Lemma exp_links_ok d lines : links_ok (exp_objs d lines).
Proof.
  intros i l H. rewrite exp_objs_nth in H.
  destruct (i <? length lines) eqn:E; [|discriminate]. injection H as <-.
  cbn [exp_line cl_linenum cl_parent cl_children]. split; [reflexivity|]. split; [apply par_le|].
  apply Forall_forall. intros c Hc. rewrite exp_objs_length. eapply kids_gt; eauto.
Qed.

Lemma links_upd objs i f :
  links_ok objs ->
  (forall l, nth_error objs i = Some l ->
     cl_linenum (f l) = cl_linenum l /\ cl_parent (f l) <= i /\
     Forall (fun c => i < c < length objs) (cl_children (f l))) ->
  links_ok (upd objs i f).
Proof.
  intros H Hf j l Hj. rewrite upd_nth in Hj. rewrite upd_length.
  destruct (j =? i) eqn:E.
  - apply Nat.eqb_eq in E; subst j. destruct (nth_error objs i) as [l0|] eqn:E0; [|discriminate].
    injection Hj as <-. destruct (Hf l0 eq_refl) as (H1 & H2 & H3).
    destruct (H i l0 E0) as (H4 & _). rewrite H1. auto.
  - apply (H j l Hj).
Qed.

Lemma links_same objs i f :
  (forall l, cl_linenum (f l) = cl_linenum l) ->
  (forall l, cl_parent (f l) = cl_parent l) ->
  (forall l, cl_children (f l) = cl_children l) ->
  links_ok objs -> links_ok (upd objs i f).
Proof.
  intros H1 H2 H3 H. apply links_upd; [exact H|]. intros l Hl.
  rewrite H1, H2, H3. destruct (H i l Hl) as (_ & H5 & H6). auto.
Qed.

Lemma links_set_parent objs i p : p <= i -> links_ok objs -> links_ok (upd objs i (set_parent p)).
Proof.
  intros Hp H. apply links_upd; [exact H|]. intros l Hl. cbn.
  destruct (H i l Hl) as (_ & _ & H6). auto.
Qed.

Lemma links_push objs p c g :
  p < c < length objs -> links_ok objs -> links_ok (upd objs p (fun q => push_child c (g q) q)).
Proof.
  intros Hc H. apply links_upd; [exact H|]. intros l Hl.
  destruct (H p l Hl) as (_ & H5 & H6). cbn [push_child cl_linenum cl_parent cl_children].
  split; [reflexivity|]. split; [exact H5|]. apply Forall_app. split; [exact H6|]. repeat constructor; lia.
Qed.

Lemma links_adopt objs p c : p < c < length objs -> links_ok objs -> links_ok (adopt p c objs).
Proof.
  intros Hc H. unfold adopt. apply links_set_parent; [lia|].
  now apply (links_push objs p c (fun _ => 0)).
Qed.

Lemma close_braces_links todo i stack objs objs' :
  Forall (fun p => p < i) stack ->
  close_braces todo i stack objs = Ok objs' -> links_ok objs -> links_ok objs'.
Proof.
  revert i stack objs. induction todo as [|t todo IH]; intros i stack objs Hst; cbn [close_braces].
  - intros H; now injection H as <-.
  - assert (Hst' : Forall (fun p => p < S i) stack)
      by (eapply Forall_impl; [|exact Hst]; cbn; intros; lia).
    destruct (opens t); [apply IH; constructor; [lia|exact Hst']|].
    destruct (closes t); [|now apply IH].
    destruct stack as [|p stack]; [discriminate|]. intros H Hl.
    pose proof (Forall_inv Hst) as Hp. pose proof (Forall_inv_tail Hst') as Ht. cbn in Hp.
    apply (IH _ _ _ Ht H). apply links_set_parent; [lia|exact Hl].
Qed.

Lemma adopt_length p c objs : length (adopt p c objs) = length objs.
Proof. unfold adopt. now rewrite !upd_length. Qed.

Lemma banner_body_links n p d idx objs :
  p < idx -> links_ok objs -> links_ok (banner_body n p d idx objs).
Proof.
  revert idx objs; induction n as [|n IH]; intros idx objs Hp H; cbn [banner_body]; [exact H|].
  destruct (nth_error objs idx) as [o|] eqn:E; [|exact H].
  apply nth_error_length_lt in E.
  assert (Ha : links_ok (adopt p idx objs)) by (apply links_adopt; [lia|exact H]).
  destruct (has_char d _); [exact Ha|].
  apply IH; [lia|]. apply links_same; auto.
Qed.

Lemma mark_banner_links objs p : links_ok objs -> links_ok (mark_banner objs p).
Proof.
  intros H. unfold mark_banner.
  assert (Hk : links_ok (upd objs p set_keep)) by (apply links_same; auto).
  destruct (nth_error objs p) as [o|]; [|exact Hk].
  destruct (banner_delim _) as [d|]; [|exact Hk].
  destruct (_ <? _); [exact Hk|]. apply banner_body_links; [lia|exact Hk].
Qed.

Lemma mark_banners_links objs : links_ok objs -> links_ok (mark_banners objs).
Proof.
  unfold mark_banners. generalize (positions (fun o => is_banner_line (cl_text o)) 0 objs) as ps.
  intros ps. revert objs; induction ps as [|p ps IH]; intros objs H; cbn [fold_left]; [exact H|].
  apply IH. now apply mark_banner_links.
Qed.

Lemma macro_body_links n p idx objs objs' :
  p < idx -> macro_body n p idx objs = Ok objs' -> links_ok objs -> links_ok objs'.
Proof.
  revert idx objs; induction n as [|n IH]; intros idx objs Hp; cbn [macro_body]; [discriminate|].
  destruct (nth_error objs idx) as [o|] eqn:E; [|discriminate].
  apply nth_error_length_lt in E. intros H Hl.
  assert (Hn : links_ok (upd (upd (upd objs idx set_keep) idx (set_parent p)) p
                (fun q => push_child idx (cl_child_indent q) q))).
  { apply links_push; [rewrite !upd_length; lia|]. apply links_set_parent; [lia|].
    apply links_same; auto. }
  destruct (str_eqb _ _).
  - now injection H as <-.
  - eapply IH; [|exact H|exact Hn]. lia.
Qed.

Lemma mark_macros_links ms objs objs' :
  mark_macros ms objs = Ok objs' -> links_ok objs -> links_ok objs'.
Proof.
  revert objs; induction ms as [|p ms IH]; intros objs; cbn [mark_macros].
  - intros H; now injection H as <-.
  - unfold bind. destruct (macro_body _ _ _ _) as [objs1|] eqn:E; [|discriminate].
    intros H Hl. apply (IH _ H). eapply macro_body_links; [|exact E|]; [lia|].
    apply links_same; auto. apply links_same; auto.
Qed.

(** ** The whole bootstrap *)

Theorem bootstrap_facts o lines objs kept :
  bootstrap o lines = Ok (objs, kept) ->
  map static objs = map static (exp_objs (o_comment o) lines) /\ links_ok objs /\
  kept = positions (stays o) 0 objs.
Proof.
  unfold bootstrap, bind. rewrite (boot_loop_exp (o_comment o)) by reflexivity.
  destruct (close_braces _ _ _ _) as [objs1|] eqn:E1; [|discriminate].
  pose proof (close_braces_static _ _ _ _ _ E1) as S1.
  assert (L1 : links_ok objs1) by (eapply close_braces_links; [|exact E1|apply exp_links_ok]; constructor).
  destruct (o_syntax o) eqn:Es;
  try (destruct (mark_macros _ _) as [objs2|] eqn:E2; [|discriminate];
       intros H; injection H as <- <-;
       pose proof (mark_macros_static _ _ _ E2) as S2;
       split; [now rewrite S2, mark_banners_static|]; split; [|reflexivity];
       eapply mark_macros_links; [exact E2|]; now apply mark_banners_links).
  intros H; injection H as <- <-. auto.
Qed.

Corollary bootstrap_static o lines objs kept i l :
  bootstrap o lines = Ok (objs, kept) -> nth_error objs i = Some l ->
  exists line, nth_error lines i = Some line /\
    cl_text l = rstrip line /\ cl_linenum l = Z.of_nat i /\ cl_indent l = line_indent line /\
    cl_comment l = comment_line (o_comment o) line /\ cl_owned l = true.
Proof.
  intros H Hl. destruct (bootstrap_facts _ _ _ _ H) as (S & _ & _).
  destruct (map_static_nth _ _ _ _ S Hl) as (l0 & Hl0 & E).
  rewrite exp_objs_nth in Hl0. destruct (i <? length lines) eqn:Ei; [|discriminate].
  apply Nat.ltb_lt in Ei. injection Hl0 as <-.
  destruct (nth_error_lt_some lines i Ei) as (line & Hline).
  exists line. split; [exact Hline|]. unfold static in E. cbn [exp_line cl_text cl_linenum cl_indent cl_comment cl_owned] in E.
  rewrite (nth_error_nth lines i [] Hline) in E. injection E as -> -> -> -> ->. auto.
Qed.

Lemma bootstrap_length o lines objs kept :
  bootstrap o lines = Ok (objs, kept) -> length objs = length lines.
Proof.
  intros H. destruct (bootstrap_facts _ _ _ _ H) as (S & _ & _).
  rewrite (map_static_length _ _ S). apply exp_objs_length.
Qed.

(** ** Plain configurations: the later passes do nothing *)

Lemma positions_none {A} (f : A -> bool) l i :
  (forall x, In x l -> f x = false) -> positions f i l = [].
Proof.
  revert i; induction l as [|x l IH]; intros i H; cbn; [reflexivity|].
  rewrite (H x) by (now left). apply IH. intros y Hy. apply H. now right.
Qed.

Lemma positions_spec {A} (f : A -> bool) l b i :
  In i (positions f b l) <-> exists x, nth_error l (i - b) = Some x /\ f x = true /\ b <= i.
Proof.
  revert b; induction l as [|x l IH]; intros b; cbn [positions].
  - split; [intros []|]. intros (x & H & _). destruct (i - b); discriminate.
  - assert (Hs : forall P : A -> Prop, (exists y, nth_error l (i - S b) = Some y /\ P y /\ S b <= i) <->
      (exists y, nth_error (x :: l) (i - b) = Some y /\ P y /\ S b <= i)).
    { intros P. split; intros (y & H1 & H2 & H3); exists y; repeat split; auto.
      - replace (i - b) with (S (i - S b)) by lia. exact H1.
      - replace (i - b) with (S (i - S b)) in H1 by lia. exact H1. }
    destruct (f x) eqn:E.
    + cbn [In]. rewrite IH, (Hs (fun y => f y = true)). split.
      * intros [->|(y & H1 & H2 & H3)].
        -- exists x. rewrite Nat.sub_diag. auto.
        -- exists y. repeat split; auto. lia.
      * intros (y & H1 & H2 & H3). destruct (Nat.eq_dec b i) as [->|]; [now left|].
        right. exists y. repeat split; auto. lia.
    + rewrite IH, (Hs (fun y => f y = true)). split.
      * intros (y & H1 & H2 & H3). exists y. repeat split; auto. lia.
      * intros (y & H1 & H2 & H3). destruct (Nat.eq_dec b i) as [->|].
        -- rewrite Nat.sub_diag in H1. injection H1 as ->. congruence.
        -- exists y. repeat split; auto. lia.
Qed.

Lemma close_braces_none todo i stack objs :
  (forall t, In t todo -> opens t = false /\ closes t = false) ->
  close_braces todo i stack objs = Ok objs.
Proof.
  revert i stack; induction todo as [|t todo IH]; intros i stack H; cbn [close_braces]; [reflexivity|].
  destruct (H t) as [-> ->]; [now left|]. apply IH. intros t' Ht. apply H. now right.
Qed.

Lemma exp_texts d lines : map cl_text (exp_objs d lines) = map rstrip lines.
Proof.
  apply nth_error_ext. intros i. rewrite !nth_error_map_iff, exp_objs_nth.
  destruct (i <? length lines) eqn:E.
  - apply Nat.ltb_lt in E. destruct (nth_error_lt_some lines i E) as (x & Hx).
    rewrite Hx. cbn. now rewrite (nth_error_nth lines i [] Hx).
  - apply Nat.ltb_ge in E. rewrite (proj2 (nth_error_None lines i) E). reflexivity.
Qed.

Lemma add_child_length objs i p l objs' l' :
  add_child objs i p l = (objs', l') -> length objs' = length objs.
Proof.
  unfold add_child. destruct p as [p|]; [|intros H; now injection H as <- _].
  match goal with |- (if ?b then _ else _) = _ -> _ => destruct b end;
  intros H; injection H as <- _; now rewrite ?upd_length.
Qed.

Lemma build_length objs c p i l objs' c' l' :
  build_parent_child objs c p i l = (objs', c', l') -> length objs' = length objs.
Proof.
  unfold build_parent_child. destruct (0 <? i); [|intros H; now injection H as <- _ _].
  destruct p as [p|].
  - destruct (add_child objs i (Some p) l) as [o1 l1] eqn:E. intros H; injection H as <- _ _.
    eapply add_child_length; eauto.
  - destruct (add_child _ _ _ _) as [o1 l1] eqn:E. intros H; injection H as <- _ _.
    eapply add_child_length; eauto.
Qed.

Lemma boot_macros o lines :
  b_macros (boot_loop o lines) = positions (is_macro_start o) 0 lines.
Proof.
  unfold boot_loop.
  assert (G : forall st, b_macros (fold_left (boot_step o) lines st) =
              b_macros st ++ positions (is_macro_start o) (length (b_objs st)) lines).
  { induction lines as [|l lines IH]; intros st; cbn [fold_left positions]; [now rewrite app_nil_r|].
    rewrite IH.
    assert (E1 : length (b_objs (boot_step o st l)) = S (length (b_objs st))).
    { unfold boot_step. destruct (maintain_cache _ _ _ _) as [c1 p1].
      destruct (build_parent_child _ _ _ _ _) as [[o2 c2] l2] eqn:Eb.
      apply build_length in Eb. cbn [b_objs]. rewrite app_length, Eb. cbn. lia. }
    assert (E2 : b_macros (boot_step o st l) =
                 if is_macro_start o l then b_macros st ++ [length (b_objs st)] else b_macros st).
    { unfold boot_step. destruct (maintain_cache _ _ _ _) as [c1 p1].
      destruct (build_parent_child _ _ _ _ _) as [[o2 c2] l2]. reflexivity. }
    rewrite E1, E2. destruct (is_macro_start o l); [now rewrite <- app_assoc|reflexivity]. }
  apply (G boot_init).
Qed.

Theorem bootstrap_plain o lines :
  Forall (fun l => plain_line l = true) lines ->
  bootstrap o lines = Ok (exp_objs (o_comment o) lines, positions (stays o) 0 (exp_objs (o_comment o) lines)).
Proof.
  intros Hp. rewrite Forall_forall in Hp. unfold plain_line in Hp.
  unfold bootstrap, bind. rewrite (boot_loop_exp (o_comment o)) by reflexivity.
  rewrite close_braces_none.
  - replace (b_macros (boot_loop o lines)) with (@nil nat).
    + cbn [mark_macros]. replace (mark_banners (exp_objs (o_comment o) lines)) with (exp_objs (o_comment o) lines).
      * now destruct (o_syntax o).
      * unfold mark_banners. rewrite positions_none; [reflexivity|].
        intros l Hl. destruct (is_banner_line (cl_text l)) eqn:E; [|reflexivity].
        apply (in_map cl_text) in Hl. rewrite exp_texts in Hl.
        apply in_map_iff in Hl as (x & Ex & Hx). specialize (Hp x Hx).
        rewrite <- Ex in E. apply banner_contains in E as [E|E]; apply contains_rstrip in E;
        rewrite E in Hp; cbn in Hp; rewrite ?andb_false_r in Hp; discriminate.
    + symmetry. rewrite boot_macros. apply positions_none. intros l Hl. specialize (Hp l Hl).
      unfold is_macro_start. destruct (o_syntax o); try reflexivity.
      destruct (starts_with (lit "macro name ") l); [|reflexivity].
      cbn [negb] in Hp. rewrite andb_false_r in Hp. discriminate.
  - intros t Ht. rewrite exp_texts in Ht. apply in_map_iff in Ht as (x & <- & Hx).
    specialize (Hp x Hx). rewrite opens_spec, closes_spec.
    destruct (opening_line x), (closing_line x); try discriminate; auto.
Qed.
