(** C24, C25: differences of configurations. *)
From Coq Require Import Ascii String Arith NArith ZArith Bool List Lia Sorting.Sorted Permutation.
From Verif Require Import PyStr PyStrFacts PyBase PyBaseFacts CfgModel MutModel TreeSpec TreeProofs TreePost TreeRel TreeWorld BraceSpec TreeFull WorldSpec CommitMain TreeMain DiffModel DiffSpec DiffFacts DiffFacts2.
Import ListNotations.
Local Open Scope nat_scope.

Definition gen (w : world) (x : nat) : list nat := match geneology w x with Ok g => g | Err _ => [] end.
Definition ids (hash : str -> Z) (w : world) (x : nat) : list Z := match diff_id_list hash w x with Ok l => l | Err _ => [] end.

Lemma parse_loaded o lines w : parse o lines = Ok w -> loaded w 0 (input_lines o lines) /\ w_opts w = o.
Proof.
  intros H. destruct (reboot_inv _ _ _ H) as (objs & kept & _ & E). assert (w_opts w = o) by (now rewrite E). split; [|assumption].
  exists (mkW o [] []). cbn [w_heap length w_opts]. rewrite H0. now repeat split.
Qed.

Lemma Forall2_in_l {A B} (R : A -> B -> Prop) xs ys x : Forall2 R xs ys -> In x xs -> exists y, In y ys /\ R x y.
Proof. induction 1 as [|a c xs ys H F IH]; intros I; [destruct I|]. destruct I as [->|I]; [exists c; split; [now left|exact H]|]. destruct (IH I) as (y & Hy & K). exists y. split; [now right|exact K]. Qed.
Lemma Forall2_in_r {A B} (R : A -> B -> Prop) xs ys y : Forall2 R xs ys -> In y ys -> exists x, In x xs /\ R x y.
Proof. induction 1 as [|a c xs ys H F IH]; intros I; [destruct I|]. destruct I as [->|I]; [exists a; split; [now left|exact H]|]. destruct (IH I) as (x & Hy & K). exists x. split; [now right|exact K]. Qed.
Lemma Forall2_split_r {A B} (R : A -> B -> Prop) xs pre y post : Forall2 R xs (pre ++ y :: post) ->
  exists xpre x xpost, xs = xpre ++ x :: xpost /\ Forall2 R xpre pre /\ R x y /\ Forall2 R xpost post.
Proof.
  revert xs. induction pre as [|p pre IH]; intros xs F; inversion F as [|x ? xs' ? Hx F']; subst.
  - exists [], x, xs'. now repeat split.
  - destruct (IH xs' F') as (xpre & z & xpost & -> & F1 & F2 & F3). exists (x :: xpre), z, xpost. repeat split; auto.
Qed.
Lemma first_unique w idf p c c' : first_with w idf p c -> first_with w idf p c' -> c = c'.
Proof.
  intros (pre & post & E & Ec & N) (pre' & post' & E' & Ec' & N'). rewrite E in E'. revert pre' E' N'. clear E. induction pre as [|a pre IH]; intros [|a' pre'] E N'; cbn [app] in E; injection E as E1 E2.
  - exact E1.
  - subst a'. destruct (N' c); [now left|exact Ec].
  - subst a. destruct (N c'); [now left|exact Ec'].
  - subst a'. eapply IH; eauto; intros x Hx; [apply N|apply N']; now right.
Qed.


Lemma app_split {A} (a c : list A) pre d post : a ++ c = pre ++ d :: post -> (exists r, pre = a ++ r) \/ (exists r, a = pre ++ d :: r).
Proof.
  revert pre. induction a as [|z a IH]; intros [|q pre] E; cbn [app] in *.
  - left. now exists [].
  - left. now exists (q :: pre).
  - right. injection E as -> _. now exists a.
  - injection E as -> E. destruct (IH pre E) as [(r & ->)|(r & ->)]; [left|right]; now exists r.
Qed.

Section Core.
  Variables (hash : str -> Z) (wb wa : world) (bb ba : nat) (lb la : list str).
  Hypotheses (Lb : loaded wb bb lb) (La : loaded wa ba la).
  Notation vb := (normal_texts wb).
  Notation va := (normal_texts wa).

  Lemma gen_b x : In x (w_conf vb) -> geneology vb x = Ok (gen vb x) /\ In x (gen vb x) /\ forall y, In y (gen vb x) -> In y (w_conf vb) /\ y <= x.
  Proof. rewrite (v_conf wb bb lb Lb). intros H. destruct (geneology_ok wb bb lb Lb x H) as (g & E & I & M). unfold gen. now rewrite E. Qed.
  Lemma gen_a x : In x (w_conf va) -> geneology va x = Ok (gen va x) /\ In x (gen va x) /\ forall y, In y (gen va x) -> In y (w_conf va) /\ y <= x.
  Proof. rewrite (v_conf wa ba la La). intros H. destruct (geneology_ok wa ba la La x H) as (g & E & I & M). unfold gen. now rewrite E. Qed.
  Lemma ids_b x : In x (w_conf vb) -> diff_id_list hash vb x = Ok (ids hash vb x).
  Proof. intros H. unfold ids. now rewrite (ids_rev hash vb x _ (proj1 (gen_b x H))). Qed.
  Lemma ids_a x : In x (w_conf va) -> diff_id_list hash va x = Ok (ids hash va x).
  Proof. intros H. unfold ids. now rewrite (ids_rev hash va x _ (proj1 (gen_a x H))). Qed.

  Lemma diff_core : exists fb fa db da out, diff_dicts hash vb va = Ok out /\
    inv_b vb va (gen vb) (ids hash vb) (ids hash va) fb /\
    (forall y, In y (w_conf va) -> fa y = Unchanged \/ fa y = Add) /\
    (forall y, In y (w_conf va) -> matched vb (ids hash vb) (ids hash va) y -> fa y = Unchanged /\ exists c, first_with vb (ids hash vb) (ids hash va y) c /\ fb c = Keep) /\
    (forall y, In y (w_conf va) -> fa y = Unchanged -> exists a, In a (w_conf va) /\ matched vb (ids hash vb) (ids hash va) a /\ In y (gen va a)) /\
    Forall2 (fun x d => as_diff_dict hash vb true (-1) (fb x) x = Ok d) (w_conf vb) db /\
    Forall2 (fun x d => as_diff_dict hash va false (linenum_of va x) (fa x) x = Ok d) (filter (rendered va fa) (w_conf va)) da /\
    Permutation out (keptd [] (db ++ da)) /\ filter not_add out = filter not_add (keptd [] (db ++ da)) /\
    compress [] [] (db ++ da) = Ok out.
  Proof.
    assert (Sa : StronglySorted lt (w_conf va)) by (rewrite (v_conf wa ba la La); apply (conf_sorted wa ba la La)).
    destruct (mark_after_spec hash vb va (gen vb) (gen va) (ids hash vb) (ids hash va)) with (todo := w_conf va) (done := @nil nat)
      (fb := fun _ : nat => Remove) (fa := fun _ : nat => Unknown) as (fb & fa & E & I & M1 & M2 & M3); try (now intros y []); try reflexivity.
    - intros x Hx. destruct (gen_b x Hx) as (A & B & C). repeat split; auto. intros y Hy. now apply C.
    - exact gen_a.
    - exact ids_b.
    - exact ids_a.
    - exact Sa.
    - split; [now right|]. intros _ y K. discriminate K.
    - destruct (dicts_before_spec hash vb fb (w_conf vb)) as (db & Eb & Fb).
      { intros x Hx. split; [apply I|]. eapply dict_exists. now apply gen_b. }
      destruct (dicts_after_spec hash va fa (w_conf va)) as (da & Ea & Fa).
      { intros x Hx. split; [now apply M1|]. eapply dict_exists. now apply gen_a. }
      assert (V : Forall valid_d (db ++ da)).
      { apply Forall_app. split; apply Forall_forall; intros d Hd.
        - destruct (Forall2_in_r _ _ _ d Fb Hd) as (x & Hx & Ed).
          destruct (dict_fields _ _ _ _ _ _ _ Ed _ (ids_b x Hx)) as (B1 & B2 & _). unfold valid_d. rewrite B1, B2.
          destruct (proj1 I x) as [-> | ->]; exact Logic.I.
        - destruct (Forall2_in_r _ _ _ d Fa Hd) as (x & Hx & Ed). apply filter_In in Hx as [Hx _].
          destruct (dict_fields _ _ _ _ _ _ _ Ed _ (ids_a x Hx)) as (B1 & B2 & _). unfold valid_d. rewrite B1, B2.
          destruct (M1 x Hx) as [-> | ->]; exact Logic.I. }
      destruct (compress_spec (db ++ da) [] [] V) as (out & Ec & P & F).
      exists fb, fa, db, da, out. split; [|repeat (split; [assumption|]); assumption]. unfold diff_dicts. rewrite E. cbn [bind fst snd]. rewrite Eb. cbn [bind]. rewrite Ea. cbn [bind]. exact Ec.
  Qed.
End Core.

(** The first dictionary of an id list that occurs on the earlier side comes from there. *)
Lemma first_in_before hash w b lines db da d f : loaded w b lines ->
  Forall2 (fun x d => as_diff_dict hash (normal_texts w) true (-1) (f x) x = Ok d) (w_conf (normal_texts w)) db ->
  In d (keptd [] (db ++ da)) -> (exists x, In x (w_conf (normal_texts w)) /\ ids hash (normal_texts w) x = d_ids d) ->
  exists x, In x (w_conf (normal_texts w)) /\ as_diff_dict hash (normal_texts w) true (-1) (f x) x = Ok d /\
    first_with (normal_texts w) (ids hash (normal_texts w)) (d_ids d) x.
Proof.
  intros HL Fb Hd (x0 & Hx0 & Ex0). apply keptd_in in Hd as (pre & post & E & _ & N).
  destruct (Forall2_in_l _ _ _ x0 Fb Hx0) as (e & He & Re). destruct (dict_fields _ _ _ _ _ _ _ Re _ (ids_b hash w b lines HL x0 Hx0)) as (_ & _ & Ee & _).
  destruct (app_split _ _ _ _ _ E) as [(r & ->)|(r & ->)].
  - exfalso. apply (N e); [apply in_app_iff; now left|congruence].
  - destruct (Forall2_split_r _ _ _ _ _ Fb) as (xpre & x & xpost & Ex & Fpre & Rx & _).
    assert (Hx : In x (w_conf (normal_texts w))) by (rewrite Ex; apply in_elt). exists x. split; [exact Hx|]. split; [exact Rx|].
    destruct (dict_fields _ _ _ _ _ _ _ Rx _ (ids_b hash w b lines HL x Hx)) as (_ & _ & Ei & _).
    exists xpre, xpost. split; [exact Ex|]. split; [congruence|]. intros y Hy. destruct (Forall2_in_l _ _ _ y Fpre Hy) as (z & Hz & Rz).
    assert (Hyc : In y (w_conf (normal_texts w))) by (rewrite Ex; apply in_app_iff; now left).
    destruct (dict_fields _ _ _ _ _ _ _ Rz _ (ids_b hash w b lines HL y Hyc)) as (_ & _ & Ey & _). rewrite <- Ey. now apply N.
Qed.

Lemma same_core hash w b lines : loaded w b lines ->
  exists out, diff_dicts hash (normal_texts w) (normal_texts w) = Ok out /\ forall d, In d out -> d_word d = Keep.
Proof.
  intros HL. destruct (diff_core hash w w b b _ _ HL HL) as (fb & fa & db & da & out & E & I & M1 & M2 & M3 & Fb & Fa & Pm & _).
  exists out. split; [exact E|]. intros d Hd. apply (Permutation_in _ Pm) in Hd.
  assert (K : exists x, In x (w_conf (normal_texts w)) /\ ids hash (normal_texts w) x = d_ids d).
  { pose proof Hd as Hd'. apply keptd_in in Hd' as (pre & post & Ed & _ & _). assert (Hc : In d (db ++ da)) by (rewrite Ed; apply in_elt).
    apply in_app_iff in Hc as [Hc|Hc].
    - destruct (Forall2_in_r _ _ _ d Fb Hc) as (x & Hx & Rx). exists x. split; [exact Hx|]. now destruct (dict_fields _ _ _ _ _ _ _ Rx _ (ids_b hash w b lines HL x Hx)) as (_ & _ & Ee & _).
    - destruct (Forall2_in_r _ _ _ d Fa Hc) as (x & Hx & Rx). apply filter_In in Hx as [Hx _]. exists x. split; [exact Hx|].
      now destruct (dict_fields _ _ _ _ _ _ _ Rx _ (ids_b hash w b lines HL x Hx)) as (_ & _ & Ee & _). }
  destruct (first_in_before hash w b lines db da d fb HL Fb Hd K) as (x & Hx & Rx & Fx).
  destruct (dict_fields _ _ _ _ _ _ _ Rx _ (ids_b hash w b lines HL x Hx)) as (_ & Ew & Ei & _).
  destruct (M2 x Hx) as [_ (z & Fz & Kz)]; [now exists x|]. rewrite Ew. rewrite Ei in Fx. now rewrite (first_unique _ _ _ _ _ Fx Fz).
Qed.

(** A configuration does not differ from itself, whatever the hash function; the
    difference fails only when the configuration cannot be parsed. *)
Theorem C25_same : forall hash sy ignore_blank c, sy = Ios \/ sy = Nxos ->
  match hdiff hash sy ignore_blank c c with
  | Ok ds => forall l, In l (unified ds) -> exists t, l = " "%char :: t
  | Err e => parse (mkOpts (lit "!") ignore_blank sy) c = Err e
  end.
Proof.
  intros hash sy ib c Sy. assert (H : hdiff hash sy ib c c =
    match parse (mkOpts (lit "!") ib sy) c with Ok w => diff_dicts hash (normal_texts w) (normal_texts w) | Err e => Err e end).
  { unfold hdiff. destruct Sy as [-> | ->]; destruct (parse _ c); reflexivity. }
  rewrite H. destruct (parse _ c) as [w|e] eqn:P; [|reflexivity]. destruct (parse_loaded _ _ _ P) as [HL _].
  destruct (same_core hash w 0 _ HL) as (out & -> & K). unfold unified. intros l Hl. apply in_map_iff in Hl as (d & <- & Hd).
  exists (d_text d). now rewrite (K d Hd).
Qed.
Print Assumptions C25_same.

(** ** Paths *)
Lemma rp_last w l x : root_path w l x -> exists l', l = l' ++ [x].
Proof. destruct 1 as [x H|l x H P]; [now exists []|now exists l]. Qed.
Lemma rp_mem w l x y : root_path w l x -> In y l -> exists l1 l2, l = l1 ++ l2 /\ root_path w l1 y.
Proof.
  induction 1 as [x H|l x H P IH]; intros I.
  - destruct I as [<-|[]]. exists [x], []. split; [reflexivity|now constructor].
  - apply in_app_iff in I as [I|[<-|[]]].
    + destruct (IH I) as (l1 & l2 & -> & R). exists l1, (l2 ++ [x]). split; [now rewrite <- app_assoc|exact R].
    + exists (l ++ [x]), []. split; [now rewrite app_nil_r|now constructor].
Qed.
Lemma rp_prefix w l x : root_path w l x -> forall l1 l2, l = l1 ++ l2 -> l1 <> [] -> exists y, root_path w l1 y /\ In y l.
Proof.
  induction 1 as [x H|l x H P IH]; intros l1 l2 E Ne.
  - destruct l1 as [|a l1]; [congruence|]. injection E as <- E. symmetry in E. apply app_eq_nil in E as [-> _]. exists x. split; [now constructor|now left].
  - destruct (exists_last (l := l1 ++ l2)) as (m & z & Em); [destruct l1; [congruence|discriminate]|].
    assert (z = x /\ m = l) as [-> ->] by (rewrite Em in E; apply app_inj_tail in E as [-> ->]; now split).
    destruct l2 as [|c l2] using rev_ind.
    + rewrite app_nil_r in E. subst l1. exists x. split; [now constructor|apply in_app_iff; right; now left].
    + rewrite app_assoc in E. apply app_inj_tail in E as [-> ->]. destruct (IH l1 l2 eq_refl Ne) as (y & R & I). exists y. split; [exact R|apply in_app_iff; now left].
Qed.
Lemma rp_fun w l x : root_path w l x -> forall l', root_path w l' x -> l = l'.
Proof.
  induction 1 as [x H|l x H P IH]; intros l' R.
  - inversion R; subst; [reflexivity|contradiction].
  - inversion R; subst; [contradiction|]. f_equal. auto.
Qed.
Lemma ancestry_fun w x p : ancestry w x p -> forall q, ancestry w x q -> p = q.
Proof.
  induction 1 as [x H|x p H C A IH]; intros q R.
  - inversion R as [? K|? ? K1 K2 K3]; subst; [reflexivity|]. destruct H; congruence.
  - inversion R as [? K|? ? K1 K2 K3]; subst; [destruct K; congruence|]. f_equal. auto.
Qed.

Section Paths.
  Variables (hash : str -> Z) (w : world) (b : nat) (lines : list str).
  Hypothesis HL : loaded w b lines.
  Hypothesis Hd : Forall (fun l => no_digit_start l = true) lines.
  Notation v := (normal_texts w).

  Lemma v_region : region v b (length lines).
  Proof.
    intros i Hi. destruct (loaded_region w b lines HL Hd i Hi) as (l & Hl & G1 & G2 & G3 & G4).
    pose proof (v_obj w b lines HL (b + i)) as V. destruct (in_dec Nat.eq_dec (b + i) (w_conf w)) as [I|I].
    - rewrite Hl in V. cbn [option_map] in V. eexists. split; [exact V|].
      destruct (v_line w b lines HL _ I) as (i' & line & l' & Ei & Hline & Hl' & _ & T & _ & _ & _ & V' & Pv & _ & _ & _ & _ & Lp & _).
      assert (i' = i) by lia. subst i'. unfold good_obj, norm_line. cbn [cl_linenum cl_parent cl_children cl_text]. split; [exact G1|]. split.
      + unfold parent_of in Lp. rewrite V in Lp. exact Lp.
      + split; [exact G3|]. unfold text_of in T. rewrite V in T. unfold norm_line in T. cbn [cl_text] in T. rewrite T.
        apply squeezed_no_digit. rewrite Forall_forall in Hd. apply Hd. eapply nth_error_In; eauto.
    - exists l. rewrite V. split; [exact Hl|]. now repeat split.
  Qed.
  Lemma v_inr x : In x (w_conf w) -> inr b (length lines) x.
  Proof. intros Hx. destruct (v_line w b lines HL x Hx) as (i & line & _ & -> & Hi & _). apply nth_error_length_lt in Hi. unfold inr. lia. Qed.
  Lemma v_hh : b + length lines <= length (w_heap v).
  Proof. rewrite (v_heap w b lines HL). now apply loaded_heap. Qed.
  Lemma gen_path x : In x (w_conf w) -> geneology v x = Ok (gen v x) /\ root_path v (gen v x) x.
  Proof.
    intros Hx. destruct (region_root_path v b _ v_region v_hh x (v_inr x Hx)) as (l & E & R). unfold gen. rewrite E. now split.
  Qed.
  Lemma gen_conf x y : In x (w_conf w) -> In y (gen v x) -> In y (w_conf w).
  Proof.
    intros Hx Hy. destruct (geneology_ok w b lines HL x Hx) as (g & E & _ & M). unfold gen in Hy. rewrite E in Hy. now apply M.
  Qed.

  Definition path (x : nat) : list str := map (text_of v) (gen v x).
  Lemma path_ancestry x : In x (w_conf w) -> ancestry w x (path x).
  Proof.
    intros Hx. destruct (gen_path x Hx) as (_ & R). unfold path. revert Hx. induction R as [x H|l x H P IH]; intros Hx;
      destruct (v_line w b lines HL x Hx) as (i & line & l0 & _ & Hline & _ & Tw & Tv & _ & _ & Cw & _ & Pv & _ & _ & _ & Ip & _).
    - cbn [map]. rewrite Tv, <- squeezed_of_rstrip, <- Tw. apply an_root. rewrite Cw. rewrite Pv in H. destruct (comment_line _ line); auto.
    - rewrite map_app. cbn [map]. rewrite Tv, <- (squeezed_of_rstrip line), <- Tw. rewrite Pv in *. destruct (comment_line _ line) eqn:C; [congruence|].
      apply an_child; [exact H|now rewrite Cw|now apply IH].
  Qed.
  Lemma path_iff x p : In x (w_conf w) -> (ancestry w x p <-> p = path x).
  Proof. intros Hx. pose proof (path_ancestry x Hx) as A. split; [intros K; eapply ancestry_fun; eauto|now intros ->]. Qed.
  Lemma has_line_iff p : has_line w p <-> exists x, In x (w_conf w) /\ path x = p.
  Proof. split; intros (x & Hx & K); exists x; (split; [exact Hx|]); [symmetry|]; apply path_iff; auto. Qed.

  Lemma path_up x y : In x (w_conf w) -> In y (gen v x) -> exists q, path x = path y ++ q.
  Proof.
    intros Hx Hy. destruct (gen_path x Hx) as (_ & R). destruct (rp_mem v _ _ _ R Hy) as (l1 & l2 & E & R1).
    pose proof (gen_conf x y Hx Hy) as Hyc. destruct (gen_path y Hyc) as (_ & R2).
    unfold path. rewrite E, map_app. rewrite (rp_fun _ _ _ R1 _ R2). eauto.
  Qed.
  Lemma path_down_gen x p q : In x (w_conf w) -> path x = p ++ q -> p <> [] -> exists y, In y (gen v x) /\ In y (w_conf w) /\ path y = p.
  Proof.
    intros Hx E Ne. destruct (gen_path x Hx) as (_ & R).
    assert (Es : gen v x = firstn (length p) (gen v x) ++ skipn (length p) (gen v x)) by (symmetry; apply firstn_skipn).
    assert (Em : map (text_of v) (firstn (length p) (gen v x)) = p).
    { rewrite <- firstn_map. fold (path x). rewrite E, firstn_app, Nat.sub_diag, firstn_O, app_nil_r. apply firstn_all. }
    destruct (rp_prefix v _ _ R _ _ Es) as (y & R1 & Hy); [intros K; rewrite K in Em; now subst p|].
    pose proof (gen_conf x y Hx Hy) as Hyc. destruct (gen_path y Hyc) as (_ & R2). exists y. split; [exact Hy|]. split; [exact Hyc|]. unfold path. now rewrite <- (rp_fun _ _ _ R1 _ R2).
  Qed.
  Lemma path_down x p q : In x (w_conf w) -> path x = p ++ q -> p <> [] -> exists y, In y (w_conf w) /\ path y = p.
  Proof. intros Hx E Ne. destruct (path_down_gen x p q Hx E Ne) as (y & _ & H). eauto. Qed.
  Lemma path_ne x : In x (w_conf w) -> path x <> [].
  Proof. intros Hx. destruct (gen_path x Hx) as (_ & R). destruct (rp_last _ _ _ R) as (l & E). unfold path. rewrite E, map_app. now destruct (map (text_of v) l). Qed.
  Lemma path_last x : In x (w_conf w) -> path x = removelast (path x) ++ [text_of v x].
  Proof. intros Hx. destruct (gen_path x Hx) as (_ & R). destruct (rp_last _ _ _ R) as (l & E). unfold path. rewrite E, map_app. cbn [map]. now rewrite removelast_last. Qed.
  Lemma path_parents x : In x (w_conf w) -> exists ps, all_parents v x = Ok ps /\ map (text_of v) ps = removelast (path x).
  Proof.
    intros Hx. destruct (geneology_region v b _ v_region v_hh x (v_inr x Hx)) as (l & E & _ & _ & ps & Ep & ->). exists ps. split; [exact Ep|].
    unfold path, gen. rewrite E, map_app. cbn [map]. now rewrite removelast_last.
  Qed.
  Lemma path_ids x : In x (w_conf w) -> ids hash v x = rev (map hash (path x)).
  Proof.
    intros Hx. destruct (gen_path x Hx) as (E & _). unfold ids. rewrite (ids_rev hash v x _ E). f_equal. unfold path. rewrite map_map.
    apply map_ext_in. intros y Hy. apply gen_conf in Hy; [|exact Hx]. destruct (v_line w b lines HL y Hy) as (i & line & _ & _ & _ & _ & _ & T & I & _).
    unfold line_id. rewrite T, I, words_strip, squeezed_words. reflexivity.
  Qed.
  Lemma path_texts x t : In x (w_conf w) -> In t (path x) -> exists line, In line lines /\ t = squeezed line.
  Proof.
    intros Hx Ht. unfold path in Ht. apply in_map_iff in Ht as (y & <- & Hy). apply gen_conf in Hy; [|exact Hx].
    destruct (v_line w b lines HL y Hy) as (i & line & _ & _ & Hi & _ & _ & T & _). exists line. split; [eapply nth_error_In; eauto|exact T].
  Qed.
  Lemma gen_closed : closed_b v (gen v).
  Proof.
    intros c e He Hc y Hy. rewrite (v_conf w b lines HL) in He. pose proof (gen_conf e c He Hc) as Hcc. destruct (gen_path e He) as (_ & R).
    destruct (rp_mem v _ _ _ R Hc) as (l1 & l2 & E & R1). destruct (gen_path c Hcc) as (_ & R2). rewrite (rp_fun _ _ _ R2 _ R1) in Hy. rewrite E. apply in_app_iff. now left.
  Qed.
End Paths.

Lemma keptd_filter (f : ddict -> bool) a : forall c, (forall d, In d a -> f d = true) ->
  (forall d, In d c -> f d = true -> exists e, In e a /\ d_ids e = d_ids d) -> filter f (keptd [] (a ++ c)) = keptd [] a.
Proof.
  assert (G : forall a keys c, (forall d, In d a -> f d = true) -> (forall d, In d c -> f d = true -> In (d_ids d) keys \/ exists e, In e a /\ d_ids e = d_ids d) ->
    filter f (keptd keys (a ++ c)) = keptd keys a).
  { clear a. induction a as [|t a IH]; intros keys c A C; cbn [app keptd].
    - revert keys C. induction c as [|d c IH]; intros keys C; [reflexivity|]. cbn [keptd]. destruct (seen (d_ids d) keys) eqn:Sn.
      + apply IH. intros e He. apply C. now right.
      + cbn [filter]. destruct (f d) eqn:Fd.
        * exfalso. destruct (C d (or_introl eq_refl) Fd) as [K|(e & [] & _)]. apply seen_in in K. congruence.
        * apply IH. intros e He Fe. destruct (C e (or_intror He) Fe) as [K|(? & [] & _)]. left. now right.
    - destruct (seen (d_ids t) keys) eqn:Sn.
      + apply IH; [intros d Hd; apply A; now right|]. intros d Hd Fd. destruct (C d Hd Fd) as [K|(e & [<-|He] & Ee)]; [now left|apply seen_in in Sn; left; congruence|right; eauto].
      + cbn [filter]. rewrite (A t (or_introl eq_refl)). f_equal. apply IH; [intros d Hd; apply A; now right|].
        intros d Hd Fd. destruct (C d Hd Fd) as [K|(e & [<-|He] & Ee)]; [left; now right|left; left; exact Ee|right; eauto]. }
  intros c A C. apply G; auto.
Qed.

(** ** The reported lines *)
Definition sign_of (d : ddict) : sign := match d_word d with Add => Plus | Remove => Minus | _ => Same end.

Lemma rev_hash_inj hash (T : list str) p q : no_collision hash T -> (forall t, In t p -> In t T) -> (forall t, In t q -> In t T) ->
  rev (map hash p) = rev (map hash q) -> p = q.
Proof.
  intros N. assert (G : forall p q, (forall t, In t p -> In t T) -> (forall t, In t q -> In t T) -> map hash p = map hash q -> p = q).
  { clear p q. induction p as [|s p IH]; intros [|t q] P Q E; try discriminate; [reflexivity|]. cbn [map] in E. injection E as E1 E2.
    f_equal; [apply N; auto; [apply P|apply Q]; now left|]. apply IH; auto; intros u Hu; [apply P|apply Q]; now right. }
  intros P Q E. apply G; auto. apply (f_equal (@rev Z)) in E. now rewrite !rev_involutive in E.
Qed.

Section Report.
  Variables (hash : str -> Z) (wb wa : world) (bb ba : nat) (lb la : list str).
  Hypotheses (Lb : loaded wb bb lb) (La : loaded wa ba la).
  Hypotheses (Db : Forall (fun l => no_digit_start l = true) lb) (Da : Forall (fun l => no_digit_start l = true) la).
  Hypothesis NC : no_collision hash (map squeezed (lb ++ la)).
  Notation vb := (normal_texts wb).
  Notation va := (normal_texts wa).

  Lemma texts_b x t : In x (w_conf wb) -> In t (path wb x) -> In t (map squeezed (lb ++ la)).
  Proof. intros Hx Ht. destruct (path_texts wb bb lb Lb x t Hx Ht) as (l & Hl & ->). apply in_map, in_app_iff. now left. Qed.
  Lemma texts_a x t : In x (w_conf wa) -> In t (path wa x) -> In t (map squeezed (lb ++ la)).
  Proof. intros Hx Ht. destruct (path_texts wa ba la La x t Hx Ht) as (l & Hl & ->). apply in_map, in_app_iff. now right. Qed.
  Lemma same_ids x y : In x (w_conf wb) -> In y (w_conf wa) -> ids hash vb x = ids hash va y -> path wb x = path wa y.
  Proof.
    intros Hx Hy. rewrite (path_ids hash wb bb lb Lb Db x Hx), (path_ids hash wa ba la La Da y Hy). apply (rev_hash_inj hash _ _ _ NC).
    - intros t. now apply texts_b.
    - intros t. now apply texts_a.
  Qed.

  Definition entry (d : ddict) (p : list str) : Prop :=
    d_ids d = rev (map hash p) /\ (forall t, In t p -> In t (map squeezed (lb ++ la))) /\
    d_text d = last p [] /\ d_parents d = removelast p /\ reported wb wa (sign_of d) p.

  Lemma entry_b d x u : In x (w_conf wb) -> as_diff_dict hash vb true (-1) u x = Ok d -> d_word d = u /\ d_ids d = rev (map hash (path wb x)) /\
    (forall t, In t (path wb x) -> In t (map squeezed (lb ++ la))) /\ d_text d = last (path wb x) [] /\ d_parents d = removelast (path wb x).
  Proof.
    intros Hx E. assert (Hx' : In x (w_conf vb)) by now rewrite (v_conf wb bb lb Lb).
    destruct (dict_fields _ _ _ _ _ _ _ E _ (ids_b hash wb bb lb Lb x Hx')) as (_ & W & I & T & _ & _ & ps & Ep & P).
    split; [exact W|]. split; [rewrite I; now apply (path_ids hash wb bb lb)|]. split; [intros t; now apply texts_b|]. split.
    - rewrite (path_last wb bb lb Lb Db x Hx), last_last. exact T.
    - destruct (path_parents wb bb lb Lb Db x Hx) as (ps' & Ep' & <-). rewrite Ep in Ep'. injection Ep' as <-. exact P.
  Qed.
  Lemma entry_a d x n u : In x (w_conf wa) -> as_diff_dict hash va false n u x = Ok d -> d_word d = u /\ d_ids d = rev (map hash (path wa x)) /\
    (forall t, In t (path wa x) -> In t (map squeezed (lb ++ la))) /\ d_text d = last (path wa x) [] /\ d_parents d = removelast (path wa x).
  Proof.
    intros Hx E. assert (Hx' : In x (w_conf va)) by now rewrite (v_conf wa ba la La).
    destruct (dict_fields _ _ _ _ _ _ _ E _ (ids_b hash wa ba la La x Hx')) as (_ & W & I & T & _ & _ & ps & Ep & P).
    split; [exact W|]. split; [rewrite I; now apply (path_ids hash wa ba la)|]. split; [intros t; now apply texts_a|]. split.
    - rewrite (path_last wa ba la La Da x Hx), last_last. exact T.
    - destruct (path_parents wa ba la La Da x Hx) as (ps' & Ep' & <-). rewrite Ep in Ep'. injection Ep' as <-. exact P.
  Qed.

  Lemma report_core : exists out ps, diff_dicts hash vb va = Ok out /\ Forall2 entry out ps /\ NoDup ps /\
    (forall s p, reported wb wa s p -> exists d, In d out /\ entry d p /\ sign_of d = s) /\
    map snd (filter (fun e => match fst e with Plus => false | _ => true end) (combine (map sign_of out) ps)) = firsts [] (map (path wb) (w_conf wb)).
  Proof.
    destruct (diff_core hash wb wa bb ba lb la Lb La) as (fb & fa & db & da & out & E & I & M1 & M2 & M3 & Fb & Fa & Pm & Fl & _).
    pose proof (v_conf wb bb lb Lb) as Cb. pose proof (v_conf wa ba la La) as Ca.
    assert (KeepA : forall x, In x (w_conf wb) -> fb x = Keep -> has_line wa (path wb x)).
    { intros x Hx K. destruct (proj2 I (gen_closed wb bb lb Lb Db) x K) as (e & a & He & Ha & Eq & Ie). rewrite Cb in He. rewrite Ca in Ha.
      destruct (path_up wb bb lb Lb Db e x He Ie) as (q & Q). rewrite (same_ids e a He Ha Eq) in Q.
      destruct (path_down wa ba la La Da a _ _ Ha Q) as (y & Hy & Ey); [now apply (path_ne wb bb lb)|]. apply (has_line_iff wa ba la La Da). eauto. }
    assert (UncB : forall y, In y (w_conf wa) -> fa y = Unchanged -> has_line wb (path wa y)).
    { intros y Hy K. rewrite <- Ca in Hy. destruct (M3 y Hy K) as (a & Ha & (c & Hc & Ec) & Iy). rewrite Ca in *. rewrite Cb in Hc.
      destruct (path_up wa ba la La Da a y Ha Iy) as (q & Q). rewrite <- (same_ids c a Hc Ha Ec) in Q.
      destruct (path_down wb bb lb Lb Db c _ _ Hc Q) as (x & Hx & Ex); [now apply (path_ne wa ba la)|]. apply (has_line_iff wb bb lb Lb Db). eauto. }
    assert (Ent : forall d, In d out -> exists p, entry d p).
    { intros d Hd. apply (Permutation_in _ Pm) in Hd.
      destruct (in_dec (list_eq_dec Z.eq_dec) (d_ids d) (map (ids hash vb) (w_conf vb))) as [K|K].
      - apply in_map_iff in K as (x0 & E0 & Hx0). destruct (first_in_before hash wb bb lb db da d fb Lb Fb Hd) as (x & Hx & Rx & Fx); [eauto|].
        rewrite Cb in Hx. destruct (entry_b d x _ Hx Rx) as (W & A1 & A2 & A3 & A4). exists (path wb x). repeat (split; [assumption|]).
        assert (HB : has_line wb (path wb x)) by (apply (has_line_iff wb bb lb Lb Db); eauto).
        unfold sign_of. rewrite W. destruct (proj1 I x) as [Kx|Kx]; rewrite Kx; (split; [exact HB|]).
        + now apply KeepA.
        + intros HA. apply (has_line_iff wa ba la La Da) in HA as (y & Hy & Ey). rewrite <- Ca in Hy.
          assert (Eq : ids hash va y = ids hash vb x). { rewrite Ca in Hy. rewrite (path_ids hash wa ba la La Da y Hy), (path_ids hash wb bb lb Lb Db x Hx). now rewrite Ey. }
          destruct (M2 y Hy) as [_ (c & Fc & Kc)]; [exists x; split; [now rewrite Cb|now symmetry]|].
          assert (d_ids d = ids hash va y) as Q by (rewrite A1, Eq; symmetry; now apply (path_ids hash wb bb lb)). rewrite Q in Fx.
          rewrite (first_unique _ _ _ _ _ Fx Fc) in Kx. congruence.
      - assert (Hc : In d (db ++ da)) by (apply keptd_in in Hd as (pre & post & -> & _); apply in_elt). apply in_app_iff in Hc as [Hc|Hc].
        + exfalso. destruct (Forall2_in_r _ _ _ d Fb Hc) as (x & Hx & Rx). apply K, in_map_iff. exists x. split; [|exact Hx]. symmetry.
          now destruct (dict_fields _ _ _ _ _ _ _ Rx _ (ids_b hash wb bb lb Lb x Hx)) as (_ & _ & Ee & _).
        + destruct (Forall2_in_r _ _ _ d Fa Hc) as (y & Hy & Ry). apply filter_In in Hy as [Hy _]. pose proof Hy as Hy'. rewrite Ca in Hy'.
          destruct (entry_a d y _ _ Hy' Ry) as (W & A1 & A2 & A3 & A4). exists (path wa y). repeat (split; [assumption|]).
          assert (NB : ~ has_line wb (path wa y)).
          { intros HB. apply (has_line_iff wb bb lb Lb Db) in HB as (x & Hx & Ex). apply K, in_map_iff. exists x. split; [|now rewrite Cb].
            rewrite (path_ids hash wb bb lb Lb Db x Hx), Ex. now symmetry. }
          unfold sign_of. rewrite W. destruct (M1 y Hy) as [Ky|Ky]; rewrite Ky; [now destruct NB; apply UncB|].
          split; [apply (has_line_iff wa ba la La Da); eauto|exact NB]. }
    assert (Ps : exists ps, Forall2 entry out ps).
    { clear -Ent. induction out as [|d out IH]; [exists []; constructor|]. destruct (Ent d (or_introl eq_refl)) as (p & Hp).
      destruct IH as (ps & F); [intros e He; apply Ent; now right|]. exists (p :: ps). now constructor. }
    destruct Ps as (ps & F2). exists out, ps. split; [exact E|]. split; [exact F2|].
    assert (Ids : map d_ids out = map (fun p => rev (map hash p)) ps).
    { clear -F2. induction F2 as [|d p out ps (A & _) F IH]; [reflexivity|]. cbn [map]. now rewrite A, IH. }
    split; [|split].
    - apply (NoDup_map_inv (fun p => rev (map hash p))). rewrite <- Ids. apply (Permutation_NoDup (l := map d_ids (keptd [] (db ++ da)))); [|apply keptd_nodup].
      apply Permutation_map. now symmetry.
    - intros s p Hr.
      assert (Ex : exists d, In d out /\ d_ids d = rev (map hash p) /\ forall t, In t p -> In t (map squeezed (lb ++ la))).
      { assert (K : forall d, In d (db ++ da) -> d_ids d = rev (map hash p) -> exists d, In d out /\ d_ids d = rev (map hash p)).
        { intros d Hd Ed. destruct (keptd_exists (rev (map hash p)) (db ++ da) []) as (e & He & Ee); [auto|eauto|].
          exists e. split; [apply (Permutation_in _ (Permutation_sym Pm)), He|exact Ee]. }
        destruct s; destruct Hr as [H1 H2].
        - apply (has_line_iff wa ba la La Da) in H1 as (y & Hy & <-).
          assert (Fy : fa y = Add). { rewrite <- Ca in Hy. destruct (M1 y Hy) as [Ky|Ky]; [|exact Ky]. rewrite Ca in Hy. now destruct H2; apply UncB. }
          destruct (Forall2_in_l _ _ _ y Fa) as (d & Hd & Rd); [apply filter_In; split; [now rewrite Ca|unfold rendered; now rewrite Fy]|].
          destruct (entry_a d y _ _ Hy Rd) as (_ & A1 & A2 & _). destruct (K d) as (e & He & Ee); [apply in_app_iff; now right|exact A1|]. eauto.
        - apply (has_line_iff wb bb lb Lb Db) in H1 as (x & Hx & <-). destruct (Forall2_in_l _ _ _ x Fb) as (d & Hd & Rd); [now rewrite Cb|].
          destruct (entry_b d x _ Hx Rd) as (_ & A1 & A2 & _). destruct (K d) as (e & He & Ee); [apply in_app_iff; now left|exact A1|]. eauto.
        - apply (has_line_iff wb bb lb Lb Db) in H1 as (x & Hx & <-). destruct (Forall2_in_l _ _ _ x Fb) as (d & Hd & Rd); [now rewrite Cb|].
          destruct (entry_b d x _ Hx Rd) as (_ & A1 & A2 & _). destruct (K d) as (e & He & Ee); [apply in_app_iff; now left|exact A1|]. eauto. }
      destruct Ex as (d & Hd & Ed & Td). destruct (Ent d Hd) as (p' & Ep). pose proof Ep as (A1 & A2 & _ & _ & A5).
      assert (p' = p) by (apply (rev_hash_inj hash _ _ _ NC A2 Td); congruence). subst p'. exists d. split; [exact Hd|]. split; [exact Ep|].
      revert A5 Hr. destruct (sign_of d), s; cbn [reported]; tauto.
    - assert (Fs : Forall2 entry (filter not_add out) (map snd (filter (fun e => match fst e with Plus => false | _ => true end) (combine (map sign_of out) ps)))).
      { clear -F2. induction F2 as [|d p out ps A F IH]; [constructor|]. cbn [map combine filter fst]. unfold not_add, sign_of. destruct (d_word d); cbn [map snd]; try constructor; auto. }
      revert Fs. generalize (map snd (filter (fun e => match fst e with Plus => false | _ => true end) (combine (map sign_of out) ps))). intros qs Fs.
      rewrite Fl, (keptd_filter not_add db) in Fs.
      + assert (Q : map (fun p => rev (map hash p)) qs = map (fun p => rev (map hash p)) (firsts [] (map (path wb) (w_conf wb)))).
        { transitivity (map d_ids (keptd [] db)); [clear -Fs; induction Fs as [|d p ds ps (A & _) F IH]; [reflexivity|]; cbn [map]; now rewrite A, IH|].
          rewrite <- Cb. assert (G : forall xs ds done, Forall2 (fun x d => as_diff_dict hash vb true (-1) (fb x) x = Ok d) xs ds -> (forall x, In x xs -> In x (w_conf wb)) ->
            (forall p t, In p done -> In t p -> In t (map squeezed (lb ++ la))) ->
            map d_ids (keptd (map (fun p => rev (map hash p)) done) ds) = map (fun p => rev (map hash p)) (firsts done (map (path wb) xs))).
          { intros xs ds done F. revert done. induction F as [|x d xs ds Rx F IH]; intros done Hxs Hdone; [reflexivity|].
            assert (Hx : In x (w_conf wb)) by (apply Hxs; now left). destruct (entry_b d x _ Hx Rx) as (_ & A1 & A2 & _). cbn [keptd map firsts]. rewrite A1.
            destruct (in_dec path_eq_dec (path wb x) done) as [J|J].
            - replace (seen _ _) with true by (symmetry; apply seen_in, in_map_iff; eauto). apply IH; auto. intros y Hy. apply Hxs. now right.
            - replace (seen _ _) with false.
              + cbn [map]. rewrite A1. f_equal. apply (IH (path wb x :: done)); [intros y Hy; apply Hxs; now right|]. intros p t [<-|Hp]; [apply A2|now apply Hdone].
              + symmetry. apply not_true_is_false. rewrite seen_in. intros K. apply in_map_iff in K as (p & Ep & Hp). apply J.
                now rewrite <- (rev_hash_inj hash _ _ _ NC (fun t => Hdone p t Hp) A2 Ep). }
          change (@nil (list Z)) with (map (fun p => rev (map hash p)) []). apply (G _ _ [] Fb); [intros x; now rewrite Cb|intros p t []]. }
        assert (Inj : forall ps qs, (forall p t, In p ps -> In t p -> In t (map squeezed (lb ++ la))) -> (forall p t, In p qs -> In t p -> In t (map squeezed (lb ++ la))) ->
           map (fun p => rev (map hash p)) ps = map (fun p => rev (map hash p)) qs -> ps = qs).
        { clear -NC. induction ps as [|p ps IH]; intros [|q qs] P Q E; try discriminate; [reflexivity|]. cbn [map] in E. injection E as E1 E2. f_equal.
          - apply (rev_hash_inj hash _ _ _ NC); auto; intros t; [apply P|apply Q]; now left.
          - apply IH; auto; intros u t Hu; [apply P|apply Q]; now right. }
        apply Inj; [| |exact Q].
        * intros p t Hp. destruct (Forall2_in_r _ _ _ p Fs Hp) as (d & _ & _ & T & _). apply T.
        * intros p t Hp. assert (Sub : forall l done p, In p (firsts done l) -> In p l).
          { clear. induction l as [|q l IH]; intros done p; cbn [firsts]; [tauto|]. destruct (in_dec path_eq_dec q done); [intros K; right; eauto|]. intros [->|K]; [now left|right; eauto]. }
          apply Sub, in_map_iff in Hp as (x & <- & Hx). now apply texts_b.
      + intros d Hd. destruct (Forall2_in_r _ _ _ d Fb Hd) as (x & Hx & Rx). rewrite Cb in Hx. destruct (entry_b d x _ Hx Rx) as (W & _). unfold not_add. rewrite W. now destruct (proj1 I x) as [-> | ->].
      + intros d Hd Nd. destruct (Forall2_in_r _ _ _ d Fa Hd) as (y & Hy & Ry). apply filter_In in Hy as [Hy _]. pose proof Hy as Hy'. rewrite Ca in Hy'.
        destruct (entry_a d y _ _ Hy' Ry) as (W & A1 & _). unfold not_add in Nd. rewrite W in Nd. destruct (M1 y Hy) as [Ky|Ky]; [|rewrite Ky in Nd; discriminate].
        apply UncB, (has_line_iff wb bb lb Lb Db) in Ky as (x & Hx & Ex); [|exact Hy'].
        destruct (Forall2_in_l _ _ _ x Fb) as (e & He & Re); [now rewrite Cb|]. exists e. split; [exact He|]. destruct (entry_b e x _ Hx Re) as (_ & B1 & _). now rewrite A1, B1, Ex.
  Qed.
End Report.

Lemma Forall_input o (P : str -> Prop) lines : Forall P lines -> Forall P (input_lines o lines).
Proof. intros H. unfold input_lines. destruct (o_ignore_blank o); [|exact H]. rewrite Forall_forall in *. intros x Hx. apply filter_In in Hx. now apply H. Qed.
Lemma in_input o l lines : In l (input_lines o lines) -> In l lines.
Proof. unfold input_lines. destruct (o_ignore_blank o); [|auto]. intros H. now apply filter_In in H. Qed.

(** The difference lists every line of either configuration once, a line being given
    by its text and the texts of the lines above it, up to white space: with "-" when
    only the earlier configuration has it, with "+" when only the later one has it and
    with " " when both have it.  The lines of the earlier configuration are in their
    order. *)
Theorem C24_lines : forall hash sy ignore_blank before after wb wa,
  let o := mkOpts (lit "!") ignore_blank sy in
  sy = Ios \/ sy = Nxos -> parse o before = Ok wb -> parse o after = Ok wa ->
  Forall (fun l => no_digit_start l = true) (before ++ after) ->
  no_collision hash (map squeezed (before ++ after)) ->
  exists ds es, hdiff hash sy ignore_blank before after = Ok ds /\ unified ds = map shown es /\
    map d_parents ds = map (fun e => removelast (snd e)) es /\
    NoDup (map snd es) /\ (forall s p, In (s, p) es <-> reported wb wa s p) /\
    exists ps, Forall2 (ancestry wb) (w_conf wb) ps /\
      map snd (filter (fun e => match fst e with Plus => false | _ => true end) es) = firsts [] ps.
Proof.
  intros hash sy ib before after wb wa o Sy Pb Pa Nd NC. apply Forall_app in Nd as [Nb Na].
  destruct (parse_loaded _ _ _ Pb) as [Lb _]. destruct (parse_loaded _ _ _ Pa) as [La _].
  pose proof (Forall_input o _ _ Nb) as Nb'. pose proof (Forall_input o _ _ Na) as Na'.
  assert (NC' : no_collision hash (map squeezed (input_lines o before ++ input_lines o after))).
  { assert (Sub : forall s, In s (map squeezed (input_lines o before ++ input_lines o after)) -> In s (map squeezed (before ++ after))).
    { intros s Hs. apply in_map_iff in Hs as (l & <- & Hl). apply in_map. apply in_app_iff in Hl as [Hl|Hl]; apply in_input in Hl; apply in_app_iff; auto. }
    intros s t Hs Ht. apply NC; auto. }
  destruct (report_core hash wb wa 0 0 _ _ Lb La Nb' Na' NC') as (out & ps & E & F & N & R & O).
  exists out, (combine (map sign_of out) ps).
  assert (Len : length (map sign_of out) = length ps) by (rewrite map_length; clear -F; induction F; cbn [length]; congruence).
  assert (Snd : forall (a : list sign) (c : list (list str)), length a = length c -> map snd (combine a c) = c).
  { induction a as [|x a IH]; intros [|y c] L; try discriminate; [reflexivity|]. cbn. f_equal. apply IH. now injection L. }
  split; [unfold hdiff; fold o; destruct Sy as [-> | ->]; rewrite Pb; cbn [bind]; rewrite Pa; exact E|].
  split; [|split; [|split; [now rewrite Snd|split]]].
  - clear -F. unfold unified. induction F as [|d p out ps (_ & _ & T & _) F IH]; [reflexivity|]. cbn [map combine]. rewrite IH, T. f_equal.
    unfold shown, sign_char, sign_of. cbn [fst snd]. now destruct (d_word d).
  - clear -F. induction F as [|d p out ps (_ & _ & _ & T & _) F IH]; [reflexivity|]. cbn [map combine snd]. now rewrite IH, T.
  - intros s p. split.
    + intros H. clear -F H. induction F as [|d q out ps (_ & _ & _ & _ & T) F IH]; [destruct H|]. cbn [map combine] in H. destruct H as [H|H]; [injection H as <- <-; exact T|now apply IH].
    + intros H. destruct (R s p H) as (d & Hd & Ed & <-). clear -F Hd Ed NC'. induction F as [|d' q out ps Q F IH]; [destruct Hd|]. cbn [map combine].
      destruct Hd as [->|Hd]; [left|right; now apply IH]. f_equal. destruct Ed as (A1 & A2 & _), Q as (B1 & B2 & _). apply (rev_hash_inj hash _ _ _ NC' B2 A2). congruence.
  - exists (map (path wb) (w_conf wb)). split; [|exact O]. clear -Lb Nb'. assert (H : forall x, In x (w_conf wb) -> In x (w_conf wb)) by auto. revert H. generalize (w_conf wb) at 1 3 4.
    intros l Hl. induction l as [|x l IH]; cbn [map]; constructor; [eapply path_ancestry; eauto; apply Hl; now left|]. apply IH. intros y Hy. apply Hl. now right.
Qed.
Print Assumptions C24_lines.

(** ** Cases *)
Definition toy_hash (t : str) : Z := (100000000 + fold_left (fun h c => (h * 31 + Z.of_nat (nat_of_ascii c)) mod 899999963) t 7)%Z.
Lemma no_collision_b hash ts : forallb (fun s => forallb (fun t => implb (hash s =? hash t)%Z (str_eqb s t)) ts) ts = true -> no_collision hash ts.
Proof.
  intros H s t Hs Ht E. rewrite forallb_forall in H. specialize (H s Hs). rewrite forallb_forall in H. specialize (H t Ht). rewrite E, Z.eqb_refl in H. now apply str_eqb_eq.
Qed.
Definition day1 := map lit ["hostname a"; "interface Gi0/1"; " ip address  10.0.0.1 255.255.255.0"; " shutdown"; "interface Gi0/2"; " shutdown"]%string.
Definition day2 := map lit ["hostname b"; "interface Gi0/1"; " description up"; " ip address 10.0.0.1 255.255.255.0"; " mtu 1400"; "interface Gi0/2"; " shutdown"; "line con 0"; " stopbits 1"]%string.
Example C24_case : Forall (fun l => no_digit_start l = true) (day1 ++ day2) /\ no_collision toy_hash (map squeezed (day1 ++ day2)) /\
  (exists wb wa, parse (mkOpts (lit "!") true Ios) day1 = Ok wb /\ parse (mkOpts (lit "!") true Ios) day2 = Ok wa) /\
  match hdiff toy_hash Ios true day1 day2 with
  | Ok ds => unified ds = map lit ["-hostname a"; " interface Gi0/1"; "+ mtu 1400"; "+ description up"; "  ip address 10.0.0.1 255.255.255.0"; "- shutdown"; " interface Gi0/2"; "  shutdown"; "+hostname b"; "+line con 0"; "+ stopbits 1"]%string
  | Err _ => False
  end.
Proof.
  split; [apply Forall_forall; intros l Hl; assert (H : forallb no_digit_start (day1 ++ day2) = true) by (vm_compute; reflexivity); rewrite forallb_forall in H; now apply H|].
  split; [apply no_collision_b; vm_compute; reflexivity|]. split; [|vm_compute; reflexivity].
  assert (Pb : match parse (mkOpts (lit "!") true Ios) day1 with Ok _ => True | Err _ => False end) by (vm_compute; exact I).
  assert (Pa : match parse (mkOpts (lit "!") true Ios) day2 with Ok _ => True | Err _ => False end) by (vm_compute; exact I).
  destruct (parse (mkOpts (lit "!") true Ios) day1) as [wb|e]; [|destruct Pb].
  destruct (parse (mkOpts (lit "!") true Ios) day2) as [wa|e]; [|destruct Pa]. now exists wb, wa.
Qed.
Example C25_case : match hdiff toy_hash Nxos true day2 day2 with
  | Ok ds => unified ds = map (fun l => " "%char :: l) day2
  | Err _ => False
  end.
Proof. vm_compute. reflexivity. Qed.

(** Findings.  A difference of configurations in another syntax is empty. *)
Theorem C24_other_syntax_refuted : forall hash sy ignore_blank before after ds, sy <> Ios -> sy <> Nxos ->
  hdiff hash sy ignore_blank before after = Ok ds -> ds = [].
Proof.
  intros hash sy ib before after ds N1 N2. unfold hdiff. destruct sy; try congruence; cbn [bind];
  match goal with |- (do wb <- ?e; _) = _ -> _ => destruct e as [wb|]; cbn [bind]; [|discriminate] end;
  match goal with |- (do wb <- ?e; _) = _ -> _ => destruct e as [wa|]; cbn [bind]; [|discriminate] end; now intros [= <-].
Qed.
(** Lines added below one line are shown in reverse order. *)
Example C24_order_finding : match hdiff toy_hash Ios true (map lit ["interface Gi0/1"]%string) (map lit ["interface Gi0/1"; " description x"; " mtu 1400"]%string) with
  | Ok ds => unified ds = map lit [" interface Gi0/1"; "+ mtu 1400"; "+ description x"]%string
  | Err _ => False
  end.
Proof. vm_compute. reflexivity. Qed.
(** A comment moved below another line is not reported. *)
Example C24_comment_finding : match hdiff toy_hash Ios true (map lit ["interface Gi0/1"; " ! spare"; " shutdown"; "interface Gi0/2"; " shutdown"]%string)
    (map lit ["interface Gi0/1"; " shutdown"; "interface Gi0/2"; " ! spare"; " shutdown"]%string) with
  | Ok ds => map d_word ds = repeat Keep 5
  | Err _ => False
  end.
Proof. vm_compute. reflexivity. Qed.
