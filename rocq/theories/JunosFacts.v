From Coq Require Import Ascii String Arith NArith ZArith Bool List Lia.
From Verif Require Import PyStr PyStrFacts PyBase IntfFacts CfgModel JunosModel JunosSpec.
Import ListNotations.
Local Open Scope char_scope.
Local Open Scope Z_scope.

Lemma white_lstrip a : white a -> lstrip a = [].
Proof. intros H. now apply lstrip_nil_iff. Qed.
Lemma strip_inside a c r u d z : white a -> white z -> is_space c = false -> is_space d = false -> c :: r = u ++ [d] ->
  strip (a ++ (c :: r) ++ z) = c :: r.
Proof. intros A Z C D E. rewrite (strip_name a c r d u z Z C D E), (white_lstrip a A). reflexivity. Qed.

Lemma trim_end_all f s : forallb f s = true -> trim_end f s = [].
Proof.
  intros H. unfold trim_end. rewrite <- forallb_rev in H. rewrite <- (app_nil_r (rev s)), drop_while_app by (try exact H; exact I). reflexivity.
Qed.
Lemma trim_end_app f u c b : f c = false -> forallb f b = true -> trim_end f ((u ++ [c]) ++ b) = u ++ [c].
Proof.
  intros H B. unfold trim_end. rewrite !rev_app_distr. rewrite drop_while_app.
  - now rewrite <- rev_app_distr, rev_involutive.
  - now rewrite forallb_rev.
  - cbn [rev app stops]. exact H.
Qed.
Lemma trim_end_stop f u c : f c = false -> trim_end f (u ++ [c]) = u ++ [c].
Proof. intros H. rewrite <- (app_nil_r (u ++ [c])) at 1. now apply trim_end_app. Qed.

Lemma empty_braces_none s : ~ In "{" s -> empty_braces s = None.
Proof.
  intros H. unfold empty_braces. destruct (lstrip_suffix s) as (p & E & _). destruct (lstrip s) as [|c r] eqn:L; [reflexivity|].
  destruct (Ascii.eqb_spec c "{") as [->|N]; [|reflexivity]. exfalso. apply H. rewrite E, in_app_iff. right. now left.
Qed.
Lemma drop_empty_braces_none s : ~ In "{" s -> drop_empty_braces 0 s = s.
Proof.
  induction s as [|c s IH]; intros H; [reflexivity|].
  change (drop_empty_braces 0 (c :: s)) with (match empty_braces (c :: s) with Some n => drop_empty_braces (n - 1) s | None => c :: drop_empty_braces 0 s end).
  rewrite empty_braces_none by assumption. f_equal. apply IH. intros K. apply H. now right.
Qed.

Lemma comment_match_head d c r : c <> d -> comment_match d (c :: r) = false.
Proof.
  intros H. unfold comment_match. cbn [starts_with]. destruct (Ascii.eqb_spec d c) as [->|N]; [congruence|reflexivity].
Qed.
Lemma comment_match_note d t : ~ In d t -> comment_match d (d :: t) = true.
Proof.
  intros H. unfold comment_match. cbn [starts_with drop_while]. rewrite Ascii.eqb_refl. cbn [andb].
  replace (drop_while (Ascii.eqb d) t) with t; [now rewrite (proj2 (has_char_false d t) H)|].
  destruct t as [|c t]; [reflexivity|]. cbn [drop_while]. destruct (Ascii.eqb_spec d c) as [->|N]; [|reflexivity]. exfalso. apply H. now left.
Qed.

Lemma repeat_forallb f (c : ascii) k : f c = true -> forallb f (repeat c k) = true.
Proof. intros H. induction k; [reflexivity|]. cbn [repeat forallb]. now rewrite H. Qed.
Lemma repeat_snoc (c : ascii) k : repeat c (S k) = repeat c k ++ [c].
Proof. induction k as [|k IH]; [reflexivity|]. cbn [repeat app] in *. now rewrite IH. Qed.

Lemma head_drop f c r : f c = false -> drop_while f (c :: r) = c :: r.
Proof. intros H. cbn [drop_while]. now rewrite H. Qed.

Lemma eqb_neq a b : a <> b -> Ascii.eqb a b = false. Proof. intros H. now apply Ascii.eqb_neq. Qed.
Lemma nl_false s : ~ In newline s -> has_char newline s = false. Proof. now apply has_char_false. Qed.
Lemma in_repeat (x c : ascii) k : In x (repeat c k) -> x = c. Proof. intros H. now apply repeat_spec in H. Qed.
Lemma white_last g c u : white g -> g = u ++ [c] -> is_space c = true.
Proof. unfold white. intros H ->. rewrite forallb_app in H. apply andb_true_iff in H as [_ H]. cbn [forallb] in H. now apply andb_true_iff in H. Qed.

(** The text before the closing characters ends with a character that is neither. *)
Lemma stem_last d t g : statement d t -> white g -> exists u c, t ++ g = u ++ [c] /\ c <> ";" /\ c <> "{".
Proof.
  intros (_ & (r & c & -> & S & N) & B & _) G. destruct g as [|x g'].
  - exists r, c. rewrite app_nil_r. repeat split; auto. intros ->. apply B. rewrite in_app_iff. right. now left.
  - destruct (@exists_last _ (x :: g')) as (u & y & E); [discriminate|]. exists ((r ++ [c]) ++ u), y. rewrite E, app_assoc. split; [reflexivity|].
    pose proof (white_last _ _ _ G E) as W. split; intros ->; discriminate W.
Qed.

Lemma line_of_writes d l j : is_space d = false -> d <> "}" -> writes d l j ->
  exists this child text, parse_line_braces [d] l = Ok (this, child, text) /\
    this = (match j with End_ | Again _ => -1 | _ => 0 end) /\ child = change j /\ strip text = shown_text d j.
Proof.
  intros D ND H. destruct H as [a t z A Z St|a t g k z A G Gn Z St|a t g z A G Gn Z St|a g t g' z A G Gn G' Gn' Z St|a k z A Z|a t z A Z Hd Ht]; unfold parse_line_braces; cbn [shown_text change].
  - destruct St as ((c & r & Ec & Sc & Nc) & (v & e & Ee & Se & Ne) & B1 & B2 & NL).
    assert (E : strip (a ++ t ++ z) = t) by (rewrite Ec; apply strip_inside with v e; auto; congruence).
    rewrite E. exists 0, 0, t. split; [|repeat split].
    + rewrite Ec at 1. rewrite comment_match_head by auto. unfold brace_match. rewrite (nl_false t NL).
      assert (R : drop_while (Ascii.eqb "}") t = t).
      { rewrite Ec. apply head_drop, eqb_neq. intros <-. apply B2. rewrite Ec. now left. }
      assert (NeB : e <> "{") by (intros ->; apply B1; rewrite Ee, in_app_iff; right; now left).
      rewrite R. assert (U : trim_end (Ascii.eqb ";") t = t) by (rewrite Ee; apply trim_end_stop, eqb_neq; congruence).
      rewrite U. assert (L : trim_end (Ascii.eqb "{") t = t) by (rewrite Ee; apply trim_end_stop, eqb_neq; congruence).
      rewrite L, !Nat.eqb_refl. cbn [negb].
      assert (St : strip t = t).
      { pose proof (strip_inside [] c r v e [] eq_refl eq_refl Sc Se (eq_trans (eq_sym Ec) Ee)) as Q. cbn [app] in Q. rewrite app_nil_r in Q. rewrite Ec. exact Q. }
      rewrite St, drop_empty_braces_none by assumption. now rewrite Ec.
    + pose proof (strip_inside [] c r v e [] eq_refl eq_refl Sc Se (eq_trans (eq_sym Ec) Ee)) as Q. cbn [app] in Q. rewrite app_nil_r in Q. rewrite Ec. exact Q.
  - destruct (stem_last d t g St G) as (w & y & Ew & Ny1 & Ny2).
    destruct St as ((c & r & Ec & Sc & Nc) & (v & e & Ee & Se & Ne) & B1 & B2 & NL).
    set (core := t ++ g ++ repeat ";" (S k)).
    assert (Ecore : core = c :: (r ++ g ++ repeat ";" (S k))) by (unfold core; rewrite Ec; reflexivity).
    assert (E : strip (a ++ t ++ g ++ repeat ";" (S k) ++ z) = core).
    { replace (t ++ g ++ repeat ";" (S k) ++ z) with (core ++ z) by (unfold core; now rewrite <- !app_assoc). rewrite Ecore.
      apply strip_inside with (t ++ g ++ repeat ";" k) ";"; auto. rewrite <- Ecore. unfold core. rewrite repeat_snoc. now rewrite <- !app_assoc. }
    rewrite E. exists 0, 0, (drop_empty_braces 0 (strip (t ++ g))).
    assert (St : strip (t ++ g) = t).
    { pose proof (strip_inside [] c r v e g eq_refl G Sc Se (eq_trans (eq_sym Ec) Ee)) as Q. cbn [app] in Q. rewrite Ec. exact Q. }
    split; [|repeat split].
    + rewrite Ecore at 1. rewrite comment_match_head by auto. unfold brace_match.
      assert (NLc : ~ In newline core).
      { unfold core. rewrite !in_app_iff. intros [K|[K|K]]; [now apply NL|now apply Gn|apply in_repeat in K; discriminate]. }
      rewrite (nl_false core NLc).
      assert (R : drop_while (Ascii.eqb "}") core = core).
      { rewrite Ecore. apply head_drop, eqb_neq. intros <-. apply B2. rewrite Ec. now left. }
      rewrite R. assert (U : trim_end (Ascii.eqb ";") core = t ++ g).
      { unfold core. rewrite app_assoc, Ew. apply trim_end_app; [apply eqb_neq; congruence|]. apply repeat_forallb. reflexivity. }
      rewrite U. assert (L : trim_end (Ascii.eqb "{") (t ++ g) = t ++ g) by (rewrite Ew; apply trim_end_stop, eqb_neq; congruence).
      rewrite L, !Nat.eqb_refl. cbn [negb]. rewrite Ec at 1. reflexivity.
    + rewrite St, drop_empty_braces_none by assumption.
      pose proof (strip_inside [] c r v e [] eq_refl eq_refl Sc Se (eq_trans (eq_sym Ec) Ee)) as Q. cbn [app] in Q. rewrite app_nil_r in Q. rewrite Ec. exact Q.
  - destruct (stem_last d t g St G) as (w & y & Ew & Ny1 & Ny2).
    destruct St as ((c & r & Ec & Sc & Nc) & (v & e & Ee & Se & Ne) & B1 & B2 & NL).
    set (core := (t ++ g) ++ ["{"]).
    assert (Ecore : core = c :: ((r ++ g) ++ ["{"])) by (unfold core; rewrite Ec; reflexivity).
    assert (E : strip (a ++ t ++ g ++ "{" :: z) = core).
    { replace (t ++ g ++ "{" :: z) with (core ++ z) by (unfold core; rewrite <- !app_assoc; reflexivity). rewrite Ecore.
      apply strip_inside with (t ++ g) "{"; auto. }
    rewrite E. exists 0, 1, (t ++ g).
    assert (St : strip (t ++ g) = t).
    { pose proof (strip_inside [] c r v e g eq_refl G Sc Se (eq_trans (eq_sym Ec) Ee)) as Q. cbn [app] in Q. rewrite Ec. exact Q. }
    split; [|now repeat split].
    rewrite Ecore at 1. rewrite comment_match_head by auto. unfold brace_match.
    assert (NLc : ~ In newline core).
    { unfold core. rewrite !in_app_iff. intros [[K|K]|[K|[]]]; [now apply NL|now apply Gn|discriminate]. }
    rewrite (nl_false core NLc).
    assert (R : drop_while (Ascii.eqb "}") core = core).
    { rewrite Ecore. apply head_drop, eqb_neq. intros <-. apply B2. rewrite Ec. now left. }
    rewrite R. assert (U : trim_end (Ascii.eqb ";") core = core) by (unfold core; apply trim_end_stop; reflexivity).
    rewrite U. assert (L : trim_end (Ascii.eqb "{") core = t ++ g) by (unfold core; rewrite Ew; apply trim_end_app; [apply eqb_neq; congruence|reflexivity]).
    rewrite L, !Nat.eqb_refl. cbn [negb].
    assert (Len : (length (t ++ g) =? length core)%nat = false) by (apply Nat.eqb_neq; unfold core; rewrite (app_length (t ++ g)); cbn [length]; lia).
    rewrite Len. reflexivity.
  - destruct (stem_last d t g' St G') as (w & y & Ew & Ny1 & Ny2).
    destruct St as ((c & r & Ec & Sc & Nc) & (v & e & Ee & Se & Ne) & B1 & B2 & NL).
    set (core := "}" :: (g ++ t ++ g') ++ ["{"]).
    assert (E : strip (a ++ "}" :: g ++ t ++ g' ++ "{" :: z) = core).
    { replace ("}" :: g ++ t ++ g' ++ "{" :: z) with (core ++ z) by (unfold core; cbn [app]; rewrite <- !app_assoc; reflexivity). unfold core.
      apply strip_inside with ("}" :: g ++ t ++ g') "{"; auto. }
    rewrite E. exists (-1), 0, (g ++ t ++ g').
    assert (St : strip (g ++ t ++ g') = t).
    { rewrite Ec. apply (strip_inside g c r v e g' G G' Sc Se (eq_trans (eq_sym Ec) Ee)). }
    split; [|now repeat split].
    unfold core at 1. rewrite comment_match_head by auto. unfold brace_match.
    assert (NLc : ~ In newline core).
    { unfold core. cbn [In]. rewrite !in_app_iff. intros [K|[[K|[K|K]]|[K|[]]]]; [discriminate|now apply Gn|now apply NL|now apply Gn'|discriminate]. }
    rewrite (nl_false core NLc).
    assert (R : drop_while (Ascii.eqb "}") core = (g ++ t ++ g') ++ ["{"]).
    { unfold core. cbn [drop_while]. rewrite Ascii.eqb_refl. destruct g as [|x g].
      - cbn [app]. rewrite Ec. cbn [app]. apply head_drop, eqb_neq. intros <-. apply B2. rewrite Ec. now left.
      - cbn [app]. apply head_drop, eqb_neq. intros <-. discriminate G. }
    rewrite R. assert (U : trim_end (Ascii.eqb ";") ((g ++ t ++ g') ++ ["{"]) = (g ++ t ++ g') ++ ["{"]) by (apply trim_end_stop; reflexivity).
    rewrite U. assert (L : trim_end (Ascii.eqb "{") ((g ++ t ++ g') ++ ["{"]) = g ++ t ++ g').
    { rewrite Ew, app_assoc. apply trim_end_app; [apply eqb_neq; congruence|reflexivity]. }
    rewrite L. assert (L1 : (length ((g ++ t ++ g') ++ ["{"]) =? length core)%nat = false) by (apply Nat.eqb_neq; unfold core; cbn [length]; lia).
    assert (L2 : (length (g ++ t ++ g') =? length ((g ++ t ++ g') ++ ["{"]))%nat = false) by (apply Nat.eqb_neq; rewrite (app_length (g ++ t ++ g')); cbn [length]; lia).
    rewrite L1, L2. reflexivity.
  - set (core := "}" :: repeat ";" k).
    assert (E : strip (a ++ "}" :: repeat ";" k ++ z) = core).
    { change ("}" :: repeat ";" k ++ z) with (core ++ z). unfold core. destruct k as [|k].
      - now apply strip_inside with [] "}".
      - apply strip_inside with ("}" :: repeat ";" k) ";"; auto. now rewrite repeat_snoc. }
    rewrite E. exists (-1), (-1), []. split; [|now repeat split]. unfold core at 1. rewrite comment_match_head by auto. unfold brace_match.
    assert (NLc : ~ In newline core).
    { unfold core. cbn [In]. intros [K|K]; [discriminate|apply in_repeat in K; discriminate]. }
    rewrite (nl_false core NLc).
    assert (R : drop_while (Ascii.eqb "}") core = repeat ";" k).
    { unfold core. cbn [drop_while Ascii.eqb Bool.eqb]. destruct k; reflexivity. }
    rewrite R, (trim_end_all (Ascii.eqb ";")) by (now apply repeat_forallb).
    assert (Len : (length (repeat ";" k) =? length core)%nat = false) by (apply Nat.eqb_neq; unfold core; cbn [length]; lia).
    rewrite Len. reflexivity.
  - assert (E : strip (a ++ d :: t ++ z) = d :: t).
    { change (d :: t ++ z) with ((d :: t) ++ z). destruct Ht as [->|(r & c & -> & Sc)].
      - now apply strip_inside with [] d.
      - now apply strip_inside with (d :: r) c. }
    rewrite E. exists 0, 0, (d :: t). split; [now rewrite comment_match_note|]. repeat split.
    pose proof (strip_idem (a ++ d :: t ++ z)) as Q. rewrite E in Q. exact Q.
Qed.

Lemma depth_S js i j : nth_error js i = Some j -> depth js (S i) = depth js i + change j.
Proof.
  unfold depth. revert js. induction i as [|i IH]; intros [|x js] H; try discriminate H.
  - cbn [nth_error] in H. injection H as ->. cbn [firstn map sum]. lia.
  - cbn [nth_error] in H. specialize (IH js H). cbn [firstn map sum] in *. lia.
Qed.
Lemma depth_cons j js i : depth (j :: js) (S i) = change j + depth js i.
Proof. reflexivity. Qed.
Lemma level_change js i j : nth_error js i = Some j -> level js i + (match j with Begin _ | Again _ => 1 | End_ => -1 | _ => 0 end) = depth js (S i).
Proof. intros E. rewrite (depth_S js i j E). unfold level. rewrite E. destruct j; cbn [change]; lia. Qed.
Lemma level_le js i : level js i <= depth js i.
Proof. unfold level. destruct (nth_error js i) as [[]|]; lia. Qed.
Lemma shown_level js i j : nth_error js i = Some j -> j <> End_ -> shown_depth js i j = level js i.
Proof. intros E N. unfold shown_depth, level. rewrite E. destruct j; congruence || reflexivity. Qed.
