(** C26, C53: brace-delimited configurations. *)
From Coq Require Import Ascii String Arith NArith ZArith Bool List Lia Sorted.
From Verif Require Import PyStr PyStrFacts PyBase PyBaseFacts IntfFacts CfgModel TreeSpec BraceSpec TreeFull WorldSpec TreeMain JunosModel JunosSpec JunosFacts.
Import ListNotations.
Local Open Scope char_scope.
Local Open Scope Z_scope.
Notation depth := JunosSpec.depth.

Lemma convert_loop_lines d w : is_space d = false -> d <> "}" -> forall texts js off, Forall2 (writes d) texts js ->
  exists out, convert_loop w [d] off texts = Ok out /\ length out = length js /\
    forall i j, nth_error js i = Some j -> nth_error out i = Some (pad w (off + shown_depth js i j) ++ shown_text d j).
Proof.
  intros D ND texts js off H. revert off. induction H as [|t j texts js W H IH]; intros off.
  - exists []. split; [reflexivity|]. split; [reflexivity|]. intros [|i] j E; discriminate E.
  - destruct (line_of_writes d t j D ND W) as (this & child & text & P & Et & Ec & Es).
    destruct (IH (off + child)) as (out & Eo & Len & Spec). cbn [convert_loop]. rewrite P. cbn [bind]. rewrite Eo. cbn [bind].
    eexists. split; [reflexivity|]. split; [cbn [length]; now rewrite Len|]. intros [|i] k E; cbn [nth_error] in E |- *.
    + injection E as <-. rewrite Es. f_equal. f_equal. f_equal. unfold shown_depth, JunosSpec.depth. cbn [firstn map sum]. rewrite Et. destruct j; lia.
    + rewrite (Spec i k E). f_equal. f_equal. f_equal. unfold shown_depth. rewrite depth_cons, Ec. destruct k; lia.
Qed.

Lemma depth_prefix js i : (length js <= i)%nat -> depth js i = depth js (length js).
Proof. intros H. unfold JunosSpec.depth. now rewrite !firstn_all2 by lia. Qed.

Lemma shown_nonneg js i j : nested js -> nth_error js i = Some j -> 0 <= shown_depth js i j.
Proof.
  intros N E. pose proof (N i) as K0. pose proof (N (S i)) as K. pose proof (level_le js (S i)) as L. rewrite (depth_S js i j E) in L. unfold level in K0. rewrite E in K0.
  destruct j; cbn [shown_depth change] in *; lia.
Qed.

(** One line for each line, without braces and semicolons, indented by the width times
    the number of blocks that are open. *)
Theorem C26_convert : forall (d : ascii) (width : nat) texts js, is_space d = false -> d <> "{" -> d <> "}" ->
  js <> [] -> Forall2 (writes d) texts js -> nested js ->
  exists out, convert_junos_to_ios (Z.of_nat width) [d] texts = Ok out /\ length out = length texts /\
    forall i j, nth_error js i = Some j -> exists n, Z.of_nat n = shown_depth js i j /\
      nth_error out i = Some (spaces (width * n) ++ shown_text d j).
Proof.
  intros d width texts js D N1 N2 Ne H N. destruct (convert_loop_lines d (Z.of_nat width) D N2 texts js 0 H) as (out & E & L & Spec).
  exists out. split; [|split].
  - destruct texts as [|t texts]; [inversion H; subst; now destruct Ne|]. unfold convert_junos_to_ios.
    replace (has_char "{" [d] || has_char "}" [d]) with false; [exact E|]. unfold has_char. cbn [existsb].
    destruct (Ascii.eqb_spec "{" d), (Ascii.eqb_spec "}" d); congruence || reflexivity.
  - rewrite L. clear -H. induction H; cbn [length]; congruence.
  - intros i j K. exists (Z.to_nat (shown_depth js i j)). pose proof (shown_nonneg js i j N K). split; [lia|].
    rewrite (Spec i j K), Z.add_0_l. unfold pad. now rewrite Nat2Z.id.
Qed.
Print Assumptions C26_convert.

(** Lines of any other form are converted as well: the conversion of lines without
    newlines never fails and keeps their number. *)
Theorem C26_total : forall d width texts, d <> "{" -> d <> "}" -> texts <> [] -> Forall (fun t => ~ In "010" t) texts ->
  exists out, convert_junos_to_ios width [d] texts = Ok out /\ length out = length texts.
Proof.
  intros d width texts N1 N2 Ne F.
  assert (L : forall ts off, Forall (fun t => ~ In "010" t) ts -> exists out, convert_loop width [d] off ts = Ok out /\ length out = length ts).
  { induction ts as [|t ts IH]; intros off H; [now exists []|]. inversion H as [|? ? Ht Hts]; subst. cbn [convert_loop].
    assert (P : exists a b x, parse_line_braces [d] t = Ok (a, b, x)).
    { unfold parse_line_braces. destruct (comment_match d (strip t)); [eauto|]. unfold brace_match. rewrite nl_false.
      - destruct (negb _), (negb _); eauto.
      - intros K. apply Ht. unfold strip in K. destruct (lstrip_suffix (rstrip t)) as (p & E & _). destruct (rstrip_prefix t) as (q & E' & _).
        rewrite E', in_app_iff. left. rewrite E, in_app_iff. now right. }
    destruct P as (a & b & x & ->). cbn [bind]. destruct (IH (off + b) Hts) as (out & -> & Len). cbn [bind]. eexists. split; [reflexivity|].
    cbn [length]. now rewrite Len. }
  destruct texts as [|t texts]; [congruence|]. unfold convert_junos_to_ios.
  replace (has_char "{" [d] || has_char "}" [d]) with false; [now apply L|]. unfold has_char. cbn [existsb].
  destruct (Ascii.eqb_spec "{" d), (Ascii.eqb_spec "}" d); congruence || reflexivity.
Qed.
Print Assumptions C26_total.

Ltac stmt := split; [eexists _, _; now repeat split|split; [|now repeat split; intros K; cbn in K; decompose [or] K]].
Definition cfg : list str := map lit ["interfaces {"; "  ge-0/0/0 {"; "# uplink"; "    unit 0;"; "  }"; "  lo0;"; "}"; "system { "; " host-name a ;"; "};"]%string.
Definition cfg_j : list jline :=
  [Begin (lit "interfaces"); Begin (lit "ge-0/0/0"); Note (lit " uplink"); Stmt (lit "unit 0"); End_; Stmt (lit "lo0"); End_;
   Begin (lit "system"); Stmt (lit "host-name a"); End_].
Lemma statement_dec t : match t, rev t with
  | c :: _, e :: _ => negb (is_space c) && negb (Ascii.eqb c "#") && negb (is_space e) && negb (Ascii.eqb e ";") &&
      negb (has_char "{" t) && negb (has_char "}" t) && negb (has_char "010" t)
  | _, _ => false end = true -> statement "#" t.
Proof.
  destruct t as [|c r]; [discriminate|]. destruct (rev (c :: r)) as [|e u] eqn:E; [discriminate|].
  rewrite !andb_true_iff, !negb_true_iff, !has_char_false, !Ascii.eqb_neq. intros [[[[[[A B] C] D] F] G] H].
  split; [now exists c, r|]. split; [|now repeat split]. exists (rev u), e. split; [|now split].
  rewrite <- (rev_involutive (c :: r)), E. reflexivity.
Qed.
Example cfg_writes : Forall2 (writes "#") cfg cfg_j /\ nested cfg_j.
Proof.
  split.
  - unfold cfg, cfg_j. cbn [map].
    repeat constructor.
    + apply (w_begin "#" [] (lit "interfaces") [" "] []); try reflexivity; [now intros [K|[]]|now apply statement_dec].
    + apply (w_begin "#" (lit "  ") (lit "ge-0/0/0") [" "] []); try reflexivity; [now intros [K|[]]|now apply statement_dec].
    + apply (w_note "#" [] (lit " uplink") []); try reflexivity; [cbn; intuition discriminate|]. right. now exists (lit " uplin"), "k".
    + apply (w_semi "#" (lit "    ") (lit "unit 0") [] 0 []); try reflexivity; [now intros []|now apply statement_dec].
    + apply (w_end "#" (lit "  ") 0 []); reflexivity.
    + apply (w_semi "#" (lit "  ") (lit "lo0") [] 0 []); try reflexivity; [now intros []|now apply statement_dec].
    + apply (w_end "#" [] 0 []); reflexivity.
    + apply (w_begin "#" [] (lit "system") [" "] [" "]); try reflexivity; [now intros [K|[]]|now apply statement_dec].
    + apply (w_semi "#" [" "] (lit "host-name a") [" "] 0 []); try reflexivity; [now intros [K|[]]|now apply statement_dec].
    + apply (w_end "#" [] 1 []); reflexivity.
  - intros i. destruct (le_lt_dec 10 i) as [L|L].
    + unfold level. rewrite (proj2 (nth_error_None _ _)) by exact L. rewrite depth_prefix by exact L. vm_compute. discriminate.
    + do 10 (destruct i as [|i]; [vm_compute; discriminate|]). lia.
Qed.
Example C26_ex : convert_junos_to_ios 4 (lit "#") cfg =
  Ok (map lit ["interfaces"; "    ge-0/0/0"; "        # uplink"; "        unit 0"; "    "; "    lo0"; ""; "system"; "    host-name a"; ""]%string).
Proof. vm_compute. reflexivity. Qed.

(** The second part of a conditional. *)
Definition cfg2 : list str := map lit ["if a {"; "  b;"; "} else {"; "  c;"; "}"]%string.
Definition cfg2_j : list jline := [Begin (lit "if a"); Stmt (lit "b"); Again (lit "else"); Stmt (lit "c"); End_].
Example cfg2_writes : Forall2 (writes "#") cfg2 cfg2_j /\ nested cfg2_j.
Proof.
  split.
  - unfold cfg2, cfg2_j. cbn [map]. repeat constructor.
    + apply (w_begin "#" [] (lit "if a") [" "] []); try reflexivity; [now intros [K|[]]|now apply statement_dec].
    + apply (w_semi "#" (lit "  ") (lit "b") [] 0 []); try reflexivity; [now intros []|now apply statement_dec].
    + apply (w_again "#" [] [" "] (lit "else") [" "] []); try reflexivity; [now intros [K|[]]|now intros [K|[]]|now apply statement_dec].
    + apply (w_semi "#" (lit "  ") (lit "c") [] 0 []); try reflexivity; [now intros []|now apply statement_dec].
    + apply (w_end "#" [] 0 []); reflexivity.
  - intros i. destruct (le_lt_dec 5 i) as [L|L].
    + unfold level. rewrite (proj2 (nth_error_None _ _)) by exact L. rewrite depth_prefix by exact L. vm_compute. discriminate.
    + do 5 (destruct i as [|i]; [vm_compute; discriminate|]). lia.
Qed.
Example C26_ex2 : convert_junos_to_ios 4 (lit "#") cfg2 = Ok (map lit ["if a"; "    b"; "else"; "    c"; ""]%string).
Proof. vm_compute. reflexivity. Qed.

(** Nothing is converted without a line, or with a brace as comment delimiter. *)
Theorem C26_refused : forall width delim texts, texts = [] \/ In "{" delim \/ In "}" delim -> convert_junos_to_ios width delim texts = Err ValueError.
Proof.
  intros width delim texts H. unfold convert_junos_to_ios. destruct texts as [|t ts]; [reflexivity|].
  assert (B : has_char "{" delim || has_char "}" delim = true).
  { apply orb_true_iff. unfold has_char. rewrite !existsb_exists. destruct H as [H|[H|H]]; [discriminate| |]; [left|right]; eexists; (split; [exact H|reflexivity]). }
  now rewrite B.
Qed.
Print Assumptions C26_refused.

(** Finding: text after a closing brace is lost, unless an opening brace follows it. *)
Theorem C26_lost_refuted : forall a g t g' k z, white a -> white g -> ~ In "010" g -> white g' -> ~ In "010" g' -> white z -> statement "#" t ->
  convert_junos_to_ios 4 ["#"] [lit "a {"; a ++ "}" :: g ++ t ++ g' ++ repeat ";" (S k) ++ z] = Ok [lit "a"; []].
Proof.
  intros a g t g' k z A G Gn G' Gn' Z St. destruct (stem_last "#" t g' St G') as (w & y & Ew & Ny1 & Ny2).
  destruct St as ((c & r & Ec & Sc & Nc) & (v & e & Ee & Se & Ne) & B1 & B2 & NL).
  set (core := "}" :: (g ++ t ++ g') ++ repeat ";" (S k)).
  assert (E : strip (a ++ "}" :: g ++ t ++ g' ++ repeat ";" (S k) ++ z) = core).
  { replace ("}" :: g ++ t ++ g' ++ repeat ";" (S k) ++ z) with (core ++ z) by (unfold core; cbn [app]; rewrite <- !app_assoc; reflexivity). unfold core.
    apply strip_inside with ("}" :: (g ++ t ++ g') ++ repeat ";" k) ";"; auto. rewrite repeat_snoc. cbn [app]. now rewrite <- !app_assoc. }
  unfold convert_junos_to_ios. change (has_char "{" ["#"] || has_char "}" ["#"]) with false. cbn iota. cbn [convert_loop].
  change (parse_line_braces ["#"] (lit "a {")) with (Ok (0, 1, lit "a ")). cbn [bind].
  assert (P : parse_line_braces ["#"] (a ++ "}" :: g ++ t ++ g' ++ repeat ";" (S k) ++ z) = Ok (-1, -1, [])).
  { unfold parse_line_braces. rewrite E. unfold core at 1. rewrite comment_match_head by discriminate. unfold brace_match.
    assert (NLc : ~ In newline core).
    { unfold core. cbn [In]. rewrite !in_app_iff. intros [K|[[K|[K|K]]|K]]; [discriminate|now apply Gn|now apply NL|now apply Gn'|apply in_repeat in K; discriminate]. }
    rewrite (nl_false core NLc).
    assert (R : drop_while (Ascii.eqb "}") core = (g ++ t ++ g') ++ repeat ";" (S k)).
    { unfold core. cbn [drop_while]. rewrite Ascii.eqb_refl. destruct g as [|x g].
      - cbn [app]. rewrite Ec. cbn [app]. apply head_drop, eqb_neq. intros <-. apply B2. rewrite Ec. now left.
      - cbn [app]. apply head_drop, eqb_neq. intros <-. discriminate G. }
    rewrite R. assert (U : trim_end (Ascii.eqb ";") ((g ++ t ++ g') ++ repeat ";" (S k)) = g ++ t ++ g').
    { rewrite Ew, app_assoc. apply trim_end_app; [apply eqb_neq; congruence|now apply repeat_forallb]. }
    rewrite U. assert (L : trim_end (Ascii.eqb "{") (g ++ t ++ g') = g ++ t ++ g') by (rewrite Ew, app_assoc; apply trim_end_stop, eqb_neq; congruence).
    rewrite L, Nat.eqb_refl. assert (L1 : (length ((g ++ t ++ g') ++ repeat ";" (S k)) =? length core)%nat = false) by (apply Nat.eqb_neq; unfold core; cbn [length]; lia).
    rewrite L1. reflexivity. }
  rewrite P. reflexivity.
Qed.
Print Assumptions C26_lost_refuted.
Example C26_lost_ex : convert_junos_to_ios 4 (lit "#") (map lit ["a {"; "} b;"]%string) = Ok (map lit ["a"; ""]%string).
Proof. vm_compute. reflexivity. Qed.

(** ** The tree *)

Lemma writes_head d l j : is_space d = false -> writes d l j ->
  (j = End_ /\ shown_text d j = []) \/
  (j <> End_ /\ exists c r u e, shown_text d j = c :: r /\ is_space c = false /\ shown_text d j = u ++ [e] /\ is_space e = false /\ (d <> "}" -> c <> "}")).
Proof.
  intros D H. destruct H as [a t z _ _ St|a t g k z _ _ _ _ St|a t g z _ _ _ _ St|a g t g' z _ _ _ _ _ _ St|a k z|a t z _ _ _ Ht]; cbn [shown_text];
    try (right; split; [discriminate|]; destruct St as ((c & r & E & S & _) & (u & e & E' & S' & _) & _ & B & _); exists c, r, u, e; repeat split; auto;
         intros _ ->; apply B; rewrite E; now left).
  - now left.
  - right. split; [discriminate|]. destruct Ht as [->|(u & e & -> & S)].
    + exists d, [], [], d. now repeat split.
    + exists d, (u ++ [e]), (d :: u), e. now repeat split.
Qed.

Lemma find_shown n c r : is_space c = false -> find (fun x => negb (is_space x)) (spaces n ++ c :: r) = Some c.
Proof. intros H. induction n as [|n IH]; cbn [spaces repeat app find]; [now rewrite H|exact IH]. Qed.
Lemma leading_shown n c r : is_space c = false -> leading (spaces n ++ c :: r) = n.
Proof. intros H. induction n as [|n IH]; cbn [spaces repeat app leading]; [now rewrite H|]. change (is_space " ") with true. cbn iota. f_equal. exact IH. Qed.
Lemma blank_shown n c r : is_space c = false -> blank (spaces n ++ c :: r) = false.
Proof. intros H. unfold blank. rewrite forallb_app. cbn [forallb]. rewrite H. cbn [andb]. apply andb_false_r. Qed.
Lemma blank_spaces n : blank (spaces n) = true.
Proof. apply spaces_space. Qed.
Lemma indent_spaces n : line_indent (spaces n) = 0%nat.
Proof. unfold line_indent. now rewrite blank_spaces. Qed.

Lemma nearest_unique delims lines i p q : nearest_shallower delims lines i p -> nearest_shallower delims lines i q -> p = q.
Proof.
  intros (l & a & L & A & P & Ca & Ia & Ba) (l' & b & L' & B & Q & Cb & Ib & Bb).
  assert (l' = l) by congruence. subst l'. destruct (lt_eq_lt_dec p q) as [[H|H]|H]; [|exact H|].
  - specialize (Ba q b (conj H Q) B Cb). lia.
  - specialize (Bb p a (conj H P) A Ca). lia.
Qed.

Lemma encloser_exists js i : (i < length js)%nat -> 0 < level js i -> exists p, encloses js p i.
Proof.
  intros L Hi.
  assert (Op : forall m, (m < i)%nat -> level js m < level js i -> level js i <= level js (S m) ->
    (exists t, nth_error js m = Some (Begin t) \/ nth_error js m = Some (Again t)) /\ level js i = depth js (S m)).
  { intros m Hm Lt Ge. destruct (nth_error_lt_some js m) as (j & E); [lia|]. pose proof (level_change js m j E) as C. pose proof (level_le js (S m)).
    split; [|destruct j; lia]. destruct j as [t|t| |t|t]; try lia; exists t; auto. }
  assert (G : forall m, (m <= i)%nat -> (forall k, (m < k <= i)%nat -> level js i <= level js k) -> exists p, encloses js p i).
  { induction m as [|m IH]; intros Hm A.
    - assert (L0 : level js 0 <= 0) by (pose proof (level_le js 0) as Q; exact Q).
      assert (0 < i)%nat by (destruct i; lia). destruct (Op 0%nat) as [O1 O2]; [lia|lia|apply A; lia|]. exists 0%nat. split; [lia|]. split; [exact O1|]. split; [exact O2|].
      intros k K. specialize (A k). lia.
    - destruct (Z_lt_le_dec (level js (S m)) (level js i)) as [Lt|Ge].
      + assert (S m < i)%nat by (destruct (Nat.eq_dec (S m) i) as [<-|]; lia). destruct (Op (S m)) as [O1 O2]; [lia|lia|apply A; lia|].
        exists (S m). split; [lia|]. split; [exact O1|]. split; [exact O2|]. intros k K. specialize (A k). lia.
      + apply IH; [lia|]. intros k K. destruct (Nat.eq_dec k (S m)) as [->|]; [exact Ge|apply A; lia]. }
  apply (G i); [lia|]. intros k K. assert (k = i) as -> by lia. lia.
Qed.

(** The lines of a brace configuration after parsing: the text of each, indented by
    its depth; ends of blocks are blank lines, dropped when blank lines are ignored;
    and the parent of every line is the beginning of the block around it. *)
Theorem C53_blocks : forall o texts js, o_syntax o = Junos -> js <> [] -> Forall2 (writes "#") texts js -> nested js ->
  (forall t c r, In (Begin t) js \/ In (Again t) js -> t = c :: r -> ~ In c (o_comment o)) ->
  exists w, parse_junos o texts = Ok w /\
    (forall i j, nth_error js i = Some j ->
       text_of w i = (match j with End_ => [] | _ => spaces (4 * Z.to_nat (level js i)) ++ shown_text "#" j end) /\
       (In i (w_conf w) <-> j <> End_ \/ o_ignore_blank o = false) /\
       (j = End_ -> parent_of w i = i) /\
       (j <> End_ -> (forall p, encloses js p i -> parent_of w i = p) /\ ((forall p, ~ encloses js p i) -> parent_of w i = i))) /\
    StronglySorted lt (w_conf w) /\ (forall i, In i (w_conf w) -> (i < length js)%nat).
Proof.
  intros o texts js Sy Ne H N Cm.
  destruct (C26_convert "#" 4 texts js eq_refl ltac:(discriminate) ltac:(discriminate) Ne H N) as (out & E & Len & Spec).
  assert (In0 : input_lines o texts = texts).
  { unfold input_lines. destruct (o_ignore_blank o); [|reflexivity]. clear -H. induction H as [|t j ts js W H IH]; [reflexivity|]. cbn [filter].
    destruct t as [|c t]; [|now rewrite IH]. exfalso. inversion W; subst;
      repeat match goal with K : _ ++ _ = [] |- _ => apply app_eq_nil in K as [? K] end; try discriminate;
      match goal with K : statement _ _ |- _ => destruct K as ((? & ? & K & _) & _) end; congruence. }
  assert (LenJ : length out = length js) by (rewrite Len; clear -H; induction H; cbn [length]; congruence).
  assert (W : forall i j, nth_error js i = Some j -> exists l, writes "#" l j).
  { clear -H. induction H as [|t j ts js W H IH]; intros [|i] k K; try discriminate K; [|now apply (IH i)]. injection K as <-. now exists t. }
  (* facts about the converted lines *)
  assert (Line : forall i l, nth_error out i = Some l -> exists j, nth_error js i = Some j /\
     ((j = End_ /\ l = spaces (length l)) \/
      (j <> End_ /\ exists n c r, Z.of_nat n = level js i /\ l = spaces (4 * n) ++ c :: r /\ shown_text "#" j = c :: r /\ is_space c = false /\ c <> "}" /\ rstrip l = l))).
  { intros i l K. destruct (nth_error_lt_some js i) as (j & Ej); [rewrite <- LenJ; eapply nth_error_length_lt; eauto|].
    exists j. split; [exact Ej|]. destruct (Spec i j Ej) as (n & En & El). rewrite K in El. injection El as El.
    destruct (W i j Ej) as (t & Wt). destruct (writes_head "#" t j eq_refl Wt) as [[-> T]|[Nj (c & r & u & e & T & Sc & T' & Se & NB)]].
    - left. split; [reflexivity|]. rewrite T, app_nil_r in El. rewrite El. now rewrite spaces_length.
    - right. split; [exact Nj|]. exists n, c, r. rewrite <- T. repeat split; auto; [rewrite En; now apply shown_level|now apply NB|].
      rewrite El, T', app_assoc. now apply rstrip_app_cons. }
  assert (NoClose : forall i l, nth_error out i = Some l -> closing_line l = false).
  { intros i l K. destruct (Line i l K) as (j & _ & [[_ ->]|[_ (n & c & r & _ & -> & _ & Sc & Nc & _)]]); unfold closing_line.
    - generalize (length l). clear. intros n. induction n as [|n IH]; [reflexivity|exact IH].
    - rewrite find_shown by assumption. now apply eqb_neq. }
  assert (BO : braces_ok out).
  { intros k. revert k NoClose. clear. induction out as [|l out IH]; intros k NC; [now destruct k|]. destruct k as [|k]; [cbn; lia|]. cbn [BraceSpec.depth].
    specialize (IH k (fun i => NC (S i))). unfold brace_step. rewrite (NC 0%nat l eq_refl). destruct (opening_line l); lia. }
  assert (B : exists r, bootstrap o out = Ok r).
  { pose proof (bootstrap_full o out) as F. destruct (bootstrap o out) as [r|e]; [eauto|]. exfalso. destruct F as [[_ F]|(_ & _ & F & _)]; [auto|congruence]. }
  destruct B as (r & B).
  assert (P : parse_junos o texts = reboot (mkW o [] []) out).
  { unfold parse_junos. rewrite In0. change (lit "#") with ["#"]. change 4 with (Z.of_nat 4). now rewrite E. }
  assert (R : exists w, reboot (mkW o [] []) out = Ok w /\ w_opts w = o).
  { unfold reboot. cbn [w_opts]. rewrite B. cbn [bind]. eexists. split; [reflexivity|reflexivity]. }
  destruct R as (w & R & Ow). exists w. split; [now rewrite P|].
  assert (HL : loaded w 0 out) by (exists (mkW o [] []); rewrite Ow; now repeat split).
  destruct (loaded_text w 0 out HL) as (ks & Sk & Mk & Ck & _). rewrite Ow in Mk.
  replace (map (Nat.add 0) ks) with ks in Ck by (symmetry; apply map_id).
  assert (Kept : forall i, In i (w_conf w) <-> exists l, nth_error out i = Some l /\ (o_ignore_blank o = false \/ blank l = false)).
  { intros i. rewrite Ck, Mk. unfold line_kept. rewrite Sy. split.
    - intros (l & Kl & [A|[A|[[A _]|[A _]]]]); [eauto|eauto|congruence|discriminate].
    - intros (l & Kl & [A|A]); exists l; tauto. }
  split; [|split].
  2:{ now rewrite Ck. }
  2:{ intros i K. apply Kept in K as (l & K & _). apply nth_error_length_lt in K. now rewrite <- LenJ. }
  (* nearest shallower line = beginning of the block *)
  assert (Near : forall i j p, nth_error js i = Some j -> j <> End_ -> encloses js p i -> nearest_shallower (o_comment o) out i p).
  { intros i j p Ej Nj (Lp & (t & Et) & Dp & Ap).
    destruct (nth_error_lt_some out i) as (li & Kli); [lia|]. destruct (nth_error_lt_some out p) as (lp & Klp); [lia|].
    destruct (Line i li Kli) as (j' & Ej' & [[-> _]|[_ (n & c & r' & Dn & Li & _ & Sc & _ & _)]]); [congruence|].
    destruct (Line p lp Klp) as (jp & Ejp & [[-> _]|[_ (m & c' & r'' & Dm & Lp' & Tp & Sc' & _ & _)]]); [destruct Et; congruence|].
    assert (jp = Begin t \/ jp = Again t) as Jp by (destruct Et; [left|right]; congruence).
    assert (Tp' : t = c' :: r'') by (destruct Jp; subst jp; exact Tp).
    assert (DS : level js p + 1 = depth js (S p)) by (rewrite <- (level_change js p jp Ejp); destruct Jp; subst jp; reflexivity).
    exists li, lp. repeat split; try assumption; try lia.
    - unfold config_line. rewrite Lp', blank_shown by assumption. cbn [negb andb]. unfold comment_line. rewrite find_shown by assumption.
      destruct (has_char c' (o_comment o)) eqn:Hc; [|reflexivity]. exfalso. apply (Cm t c' r''); [destruct Et as [Et|Et]; apply nth_error_In in Et; auto|exact Tp'|].
      apply existsb_exists in Hc as (x & Ix & Ex). apply Ascii.eqb_eq in Ex. now subst x.
    - unfold line_indent. rewrite Li, Lp', !blank_shown, !leading_shown by assumption. lia.
    - intros k lk Hk Klk Ck'. destruct (Line k lk Klk) as (jk & Ejk & [[_ Lk]|[Njk (q & c'' & r3 & Dq & Lk & _ & Sk' & _ & _)]]).
      + rewrite Lk in Ck'. unfold config_line in Ck'. rewrite blank_spaces in Ck'. discriminate.
      + unfold line_indent. rewrite Li, Lk, !blank_shown, !leading_shown by assumption. specialize (Ap k). lia. }
  assert (NoCB : forall i, ~ comment_below_deeper (o_comment o) out i).
  { intros i (li & lp & Kli & Klp & Hi & Cl & Ind).
    destruct (Line i li Kli) as (j & Ej & [[_ Li]|[Nj (n & c & r' & Dn & Li & Ts & Sc & _ & _)]]).
    - rewrite Li in Ind. rewrite indent_spaces in Ind. rewrite Li in Cl. unfold comment_line in Cl.
      replace (find _ (spaces _)) with (@None ascii) in Cl; [discriminate|]. generalize (length li). clear. intros n. induction n as [|n IH]; [reflexivity|exact IH].
    - destruct (Line (i - 1)%nat lp Klp) as (j' & Ej' & [[_ Lp]|[Nj' (m & c' & r'' & Dm & Lp & _ & Sc' & _ & _)]]).
      + rewrite Lp, indent_spaces in Ind. lia.
      + unfold line_indent in Ind. rewrite Li, Lp, !blank_shown, !leading_shown in Ind by assumption.
        pose proof (level_change js (i - 1) _ Ej') as DS. replace (S (i - 1)) with i in DS by lia.
        assert (NA : level js i = depth js i).
        { unfold level. rewrite Ej. destruct j as [t|t| |t|t]; try reflexivity. exfalso. cbn [shown_text] in Ts. apply (Cm t c r'); [right; eapply nth_error_In; eauto|exact Ts|].
          rewrite Li in Cl. unfold comment_line in Cl. rewrite find_shown in Cl by assumption. apply existsb_exists in Cl as (x & Ix & Ex). apply Ascii.eqb_eq in Ex. now subst x. }
        destruct j'; (congruence || lia). }
  intros i j Ej. destruct (nth_error_lt_some out i) as (l & Kl); [rewrite LenJ; eapply nth_error_length_lt; eauto|].
  destruct (loaded_obj w 0 out HL i l Kl) as (x & Ox & Tx & _ & _ & _ & (p & Px & Fp) & _ & _). cbn [Nat.add] in Ox, Px. rewrite Ow in Fp.
  assert (TP : tree_parent (o_comment o) out i p).
  { destruct Fp as [[[A _] _]|[_ [[[A _] _]|[_ [(_ & _ & (l' & A & _ & B') & _)|[_ A]]]]]]; [congruence|congruence| |exact A].
    rewrite (NoClose i l' A) in B'. discriminate. }
  assert (Par : parent_of w i = p) by (unfold parent_of; now rewrite Ox).
  destruct (Line i l Kl) as (j' & Ej' & Cases). assert (j' = j) by congruence. subst j'.
  assert (Txt : text_of w i = rstrip l) by (unfold text_of; now rewrite Ox).
  split; [|split; [|split]].
  - rewrite Txt. destruct Cases as [[-> Li]|[Nj (n & c & r' & Dn & Li & Ts & Sc & _ & Rs)]].
    + rewrite Li. apply rstrip_nil_iff, spaces_space.
    + rewrite Rs, Li, Ts. replace (Z.to_nat (level js i)) with n by lia. destruct j; (reflexivity || congruence).
  - rewrite Kept. split.
    + intros (l' & Kl' & [A|A]); [now right|]. assert (l' = l) by congruence. subst l'.
      destruct Cases as [[_ Li]|[Nj _]]; [rewrite Li, blank_spaces in A; discriminate|now left].
    + intros A. exists l. split; [exact Kl|]. destruct A as [A|A]; [|now left]. right.
      destruct Cases as [[-> _]|[_ (n & c & r' & _ & -> & _ & Sc & _ & _)]]; [congruence|now apply blank_shown].
  - intros ->. destruct Cases as [[_ Li]|[Nj _]]; [|congruence]. rewrite Par. destruct TP as [[(li & lp & A & _ & _ & _ & I & _) _]|[-> _]]; [|reflexivity].
    assert (li = l) by congruence. subst li. rewrite Li, indent_spaces in I. lia.
  - intros Nj. split.
    + intros q Q. rewrite Par. pose proof (Near i j q Ej Nj Q) as Nq. destruct TP as [[Np _]|[_ [_ [A|A]]]].
      * exact (nearest_unique _ _ _ _ _ Np Nq).
      * now destruct (A q).
      * now destruct (NoCB i).
    + intros Q. rewrite Par. destruct TP as [[Np _]|[-> _]]; [|reflexivity]. exfalso.
      destruct (Z_lt_le_dec 0 (level js i)) as [Pos|Zero].
      * destruct (encloser_exists js i) as (q & Hq); [eapply nth_error_length_lt; eauto|exact Pos|]. now apply (Q q).
      * destruct Np as (li & lp & A & _ & _ & _ & I & _). assert (li = l) by congruence. subst li.
        destruct Cases as [[-> _]|[_ (n & c & r' & Dn & Li & _ & Sc & _ & _)]]; [congruence|].
        unfold line_indent in I at 2. rewrite Li, blank_shown, leading_shown in I by assumption. lia.
Qed.
Print Assumptions C53_blocks.

Example C53_ex :
  let o := mkOpts (lit "!") true Junos in
  match parse_junos o cfg with
  | Ok w => w_conf w = [0; 1; 2; 3; 5; 7; 8]%nat /\ map (parent_of w) [0; 1; 2; 3; 5; 7; 8]%nat = [0; 0; 1; 1; 0; 7; 7]%nat
  | Err _ => False
  end /\ encloses cfg_j 1 3 /\ encloses cfg_j 0 5.
Proof.
  split; [vm_compute; now split|]. split.
  - split; [cbn; lia|]. split; [exists (lit "ge-0/0/0"); now left|]. split; [reflexivity|]. intros k K. assert (k = 2 \/ k = 3)%nat as [-> | ->] by lia; vm_compute; discriminate.
  - split; [cbn; lia|]. split; [exists (lit "interfaces"); now left|]. split; [reflexivity|]. intros k K.
    assert (k = 1 \/ k = 2 \/ k = 3 \/ k = 4 \/ k = 5)%nat as [-> |[-> |[-> |[-> | ->]]]] by lia; vm_compute; discriminate.
Qed.
Example C53_ex2 :
  let o := mkOpts (lit "!") true Junos in
  match parse_junos o cfg2 with
  | Ok w => w_conf w = [0; 1; 2; 3]%nat /\ map (parent_of w) [0; 1; 2; 3]%nat = [0; 0; 2; 2]%nat
  | Err _ => False
  end /\ encloses cfg2_j 2 3 /\ ~ encloses cfg2_j 0 3.
Proof.
  split; [vm_compute; now split|]. split.
  - split; [cbn; lia|]. split; [exists (lit "else"); now right|]. split; [reflexivity|]. intros k K. assert (k = 3)%nat as -> by lia. vm_compute. discriminate.
  - intros (_ & _ & _ & K). specialize (K 2%nat ltac:(lia)). vm_compute in K. now apply K.
Qed.
