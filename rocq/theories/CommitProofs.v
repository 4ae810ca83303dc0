(** commit(): re-parsing the current text. *)
From Coq Require Import Ascii String Arith NArith ZArith Bool List Lia Sorting.Sorted.
From Verif Require Import PyStr PyStrFacts PyBase PyBaseFacts CfgModel TreeSpec BraceSpec
  TreeProofs TreePost TreeRel TreeWorld TreeBanner TreeFull.
Import ListNotations.
Local Open Scope nat_scope.

(** ** Selecting the lines flagged [true] *)

Section Select.
  Context {A : Type}.
  Fixpoint sel (bs : list bool) (l : list A) : list A :=
    match bs, l with
    | b :: bs', x :: l' => if b then x :: sel bs' l' else sel bs' l'
    | _, _ => []
    end.
End Select.

Fixpoint rank (bs : list bool) (k : nat) : nat :=
  match k, bs with
  | S k', b :: bs' => (if b then 1 else 0) + rank bs' k'
  | _, _ => 0
  end.

Lemma rank_0 bs : rank bs 0 = 0.
Proof. now destruct bs. Qed.

Lemma rank_le bs i j : i <= j -> rank bs i <= rank bs j.
Proof.
  revert i j; induction bs as [|b bs IH]; intros [|i] [|j] H; cbn; try lia.
  specialize (IH i j). lia.
Qed.

Lemma rank_lt bs i j : nth_error bs i = Some true -> i < j -> rank bs i < rank bs j.
Proof.
  revert i j; induction bs as [|b bs IH]; intros [|i] [|j] Hb H; try discriminate; try lia.
  - cbn in *. injection Hb as ->. cbn. lia.
  - cbn in *. specialize (IH i j Hb). lia.
Qed.

Lemma rank_succ bs q : rank bs (S q) <= S (rank bs q).
Proof.
  revert q; induction bs as [|c bs IH]; intros q; [cbn; lia|].
  change (rank (c :: bs) (S q)) with ((if c then 1 else 0) + rank bs q).
  destruct q as [|q].
  - assert (rank bs 0 = 0) by now destruct bs. cbn [rank]. destruct c; lia.
  - specialize (IH q). change (rank (c :: bs) (S q)) with ((if c then 1 else 0) + rank bs q).
    destruct c; lia.
Qed.

Lemma rank_lt_inv bs i j : rank bs i < rank bs j -> i < j.
Proof. intros H. destruct (Nat.le_gt_cases j i) as [G|G]; [|exact G]. apply (rank_le bs) in G. lia. Qed.

Lemma rank_inj bs i j :
  nth_error bs i = Some true -> nth_error bs j = Some true -> rank bs i = rank bs j -> i = j.
Proof.
  intros Hi Hj E. destruct (Nat.lt_trichotomy i j) as [H|[H|H]]; [|exact H|].
  - apply (rank_lt bs i j Hi) in H. lia.
  - apply (rank_lt bs j i Hj) in H. lia.
Qed.

Lemma sel_nth {A} bs (l : list A) i x :
  nth_error bs i = Some true -> nth_error l i = Some x -> nth_error (sel bs l) (rank bs i) = Some x.
Proof.
  revert l i; induction bs as [|b bs IH]; intros [|y l] [|i] Hb Hx; try discriminate.
  - cbn in *. injection Hb as ->. injection Hx as ->. reflexivity.
  - cbn in *. destruct b; cbn; auto.
Qed.

Lemma sel_surj {A} bs (l : list A) a x :
  nth_error (sel bs l) a = Some x ->
  exists i, nth_error bs i = Some true /\ nth_error l i = Some x /\ rank bs i = a.
Proof.
  revert l a; induction bs as [|b bs IH]; intros [|y l] a H; try (destruct a; discriminate).
  destruct b; cbn in H.
  - destruct a as [|a].
    + exists 0. cbn in *. auto.
    + cbn in H. destruct (IH _ _ H) as (i & H1 & H2 & H3). exists (S i). cbn. repeat split; auto.
  - destruct (IH _ _ H) as (i & H1 & H2 & H3). exists (S i). cbn. repeat split; auto.
Qed.

Lemma sel_filter {A} (f : A -> bool) l : sel (map f l) l = filter f l.
Proof. induction l as [|x l IH]; cbn; [reflexivity|]. now rewrite IH. Qed.

Lemma sel_map {A B} (g : A -> B) bs l : sel bs (map g l) = map g (sel bs l).
Proof.
  revert l; induction bs as [|b bs IH]; intros [|x l]; cbn; try reflexivity.
  destruct b; cbn; now rewrite IH.
Qed.

(** ** Line observations do not see trailing whitespace *)

Lemma line_indent_rstrip l : line_indent (rstrip l) = line_indent l.
Proof. rewrite <- !text_indent_spec. unfold text_indent. now rewrite rstrip_idem. Qed.

Lemma comment_line_rstrip d l : comment_line d (rstrip l) = comment_line d l.
Proof. rewrite <- !text_is_comment_spec. now rewrite rstrip_idem. Qed.

Lemma config_line_rstrip d l : config_line d (rstrip l) = config_line d l.
Proof. unfold config_line. now rewrite blank_rstrip_eq, comment_line_rstrip. Qed.

Lemma opening_line_rstrip l : opening_line (rstrip l) = opening_line l.
Proof. rewrite <- !opens_spec. now rewrite rstrip_idem. Qed.

Lemma closing_line_rstrip l : closing_line (rstrip l) = closing_line l.
Proof. rewrite <- !closes_spec. now rewrite rstrip_idem. Qed.

Lemma brace_step_rstrip l : brace_step (rstrip l) = brace_step l.
Proof. unfold brace_step. now rewrite opening_line_rstrip, closing_line_rstrip. Qed.

Lemma brace_step_blank l : blank l = true -> brace_step l = 0%Z.
Proof.
  intros H. apply blank_rstrip in H. rewrite <- brace_step_rstrip, H. reflexivity.
Qed.

(** A macro line keeps its name when trailing whitespace is removed. *)
Definition macro_stable (l : str) : Prop :=
  starts_with (lit "macro name ") (rstrip l) = starts_with (lit "macro name ") l.

Lemma macro_stable_iff l : rstrip l <> lit "macro name" -> macro_stable l.
Proof.
  intros H. unfold macro_stable.
  destruct (starts_with (lit "macro name ") (rstrip l)) eqn:E1.
  - apply starts_with_spec in E1 as (r & E). destruct (rstrip_prefix l) as (p & Ep & _).
    symmetry. apply starts_with_spec. exists (r ++ p). rewrite Ep, E. now rewrite app_assoc.
  - destruct (starts_with (lit "macro name ") l) eqn:E2; [|reflexivity]. exfalso.
    apply starts_with_spec in E2 as (r & E).
    rewrite <- not_true_iff_false in E1. apply E1. apply starts_with_spec.
    destruct (forallb is_space r) eqn:Er.
    + exfalso. apply H. rewrite E.
      change (lit "macro name " ++ r) with (lit "macro nam" ++ ["e"%char] ++ (" "%char :: r)).
      unfold rstrip. rewrite !rev_app_distr.
      assert (Hs : forallb is_space (rev (" "%char :: r)) = true) by (rewrite forallb_rev; exact Er).
      rewrite <- app_assoc, (lstrip_app_space _ _ Hs).
      change (rev ["e"%char] ++ rev (lit "macro nam")) with (rev (lit "macro name")). reflexivity.
    + assert (Hr : rstrip r <> []).
      { intros C. apply rstrip_nil_iff in C. congruence. }
      exists (rstrip r). rewrite E. clear - Hr.
      unfold rstrip in *. rewrite rev_app_distr.
      assert (G : forall a b, lstrip a <> [] -> lstrip (a ++ b) = lstrip a ++ b).
      { induction a as [|c a IH]; intros b; cbn; [congruence|]. destruct (is_space c); auto. }
      rewrite G.
      * now rewrite rev_app_distr, rev_involutive.
      * intros C. apply Hr. now rewrite C.
Qed.

Section Embed.
  Variables (L : list str) (bs : list bool) (d : str).
  Hypothesis Hlen : length bs = length L.
  Hypothesis Hdrop : forall i l, nth_error bs i = Some false -> nth_error L i = Some l -> blank l = true.
  Let K := sel bs (map rstrip L).
  Definition kept_at (i : nat) : Prop := nth_error bs i = Some true.

  Lemma K_nth i l : kept_at i -> nth_error L i = Some l -> nth_error K (rank bs i) = Some (rstrip l).
  Proof.
    intros Hk Hl. apply sel_nth; [exact Hk|]. rewrite nth_error_map_iff, Hl. reflexivity.
  Qed.

  Lemma K_inv a t :
    nth_error K a = Some t ->
    exists i l, kept_at i /\ nth_error L i = Some l /\ t = rstrip l /\ rank bs i = a.
  Proof.
    intros H. apply sel_surj in H as (i & H1 & H2 & H3).
    rewrite nth_error_map_iff in H2. destruct (nth_error L i) as [l|] eqn:E; [|discriminate].
    injection H2 as <-. exists i, l. auto.
  Qed.

  Lemma kept_nonblank i l : nth_error L i = Some l -> blank l = false -> kept_at i.
  Proof.
    intros Hl Hb. pose proof (nth_error_length_lt _ _ _ Hl) as Hi. rewrite <- Hlen in Hi.
    destruct (nth_error_lt_some bs i Hi) as (b & Eb). unfold kept_at. rewrite Eb.
    destruct b; [reflexivity|]. rewrite (Hdrop i l Eb Hl) in Hb. discriminate.
  Qed.

  Lemma config_kept i l : nth_error L i = Some l -> config_line d l = true -> kept_at i.
  Proof.
    intros Hl Hc. eapply kept_nonblank; eauto. unfold config_line in Hc.
    destruct (blank l); [discriminate|reflexivity].
  Qed.

  (** Depth *)
  Lemma depth_embed k : k <= length L -> depth L k = depth K (rank bs k).
  Proof.
    unfold K. clear K d. revert bs Hlen Hdrop k. induction L as [|l L' IH]; intros [|b bs'] Hl Hd [|k] Hk;
      try discriminate; try reflexivity.
    - cbn [rank]. now rewrite !depth_0.
    - cbn [length] in Hl, Hk. cbn [map sel rank].
      assert (IH' : depth L' k = depth (sel bs' (map rstrip L')) (rank bs' k)).
      { apply IH; [lia| |lia]. intros i x Hi Hx. apply (Hd (S i)); auto. }
      change (depth (l :: L') (S k)) with (brace_step l + depth L' k)%Z.
      destruct b.
      + change (1 + rank bs' k) with (S (rank bs' k)).
        change (depth (rstrip l :: sel bs' (map rstrip L')) (S (rank bs' k)))
          with (brace_step (rstrip l) + depth (sel bs' (map rstrip L')) (rank bs' k))%Z.
        rewrite brace_step_rstrip. lia.
      + rewrite (brace_step_blank l); [cbn; lia|]. apply (Hd 0); reflexivity.
  Qed.

  Lemma K_length : length K = rank bs (length L).
  Proof.
    unfold K. clear K d Hdrop. revert bs Hlen. induction L as [|l L' IH]; intros [|b bs'] Hl; try discriminate; [reflexivity|].
    cbn [map sel length rank] in *. injection Hl as Hl. specialize (IH _ Hl). destruct b; cbn [length]; lia.
  Qed.

  Lemma rank_surj a : a <= length K -> exists k, k <= length L /\ rank bs k = a.
  Proof.
    intros H. destruct (Nat.eq_dec a (length K)) as [->|Hne].
    - exists (length L). split; [lia|]. now rewrite K_length.
    - destruct (nth_error_lt_some K a) as (t & Ht); [lia|].
      destruct (K_inv _ _ Ht) as (i & l & _ & Hl & _ & Hr). exists i.
      split; [|exact Hr]. apply nth_error_length_lt in Hl. lia.
  Qed.

  Lemma braces_ok_embed : braces_ok K <-> braces_ok L.
  Proof.
    split; intros H k.
    - destruct (Nat.le_gt_cases k (length L)) as [G|G].
      + rewrite depth_embed by assumption. apply H.
      + rewrite depth_past by lia. rewrite depth_embed by lia. apply H.
    - destruct (Nat.le_gt_cases k (length K)) as [G|G].
      + destruct (rank_surj k G) as (m & Hm & <-). rewrite <- depth_embed by assumption. apply H.
      + rewrite depth_past by lia. destruct (rank_surj (length K) ltac:(lia)) as (m & Hm & E).
        rewrite <- E, <- depth_embed by assumption. apply H.
  Qed.

  Lemma closer_embed i : kept_at i -> (closer K (rank bs i) <-> closer L i).
  Proof.
    intros Hk. split.
    - intros (t & Ht & H1 & H2). destruct (K_inv _ _ Ht) as (j & l & Hj & Hl & -> & Hr).
      apply rank_inj in Hr; auto. subst j. exists l.
      rewrite opening_line_rstrip in H1. rewrite closing_line_rstrip in H2. auto.
    - intros (l & Hl & H1 & H2). exists (rstrip l). split; [now apply K_nth|].
      now rewrite opening_line_rstrip, closing_line_rstrip.
  Qed.

  Lemma closes_embed p i :
    kept_at p -> kept_at i -> closes_block L p i -> closes_block K (rank bs p) (rank bs i).
  Proof.
    intros Kp Ki (H1 & (l & Hl & Ho) & Hc & H4 & H5).
    assert (HiL : i < length L) by (destruct Hc as (l' & Hl' & _); apply nth_error_length_lt in Hl'; exact Hl').
    assert (HS : depth K (S (rank bs p)) = depth L (S p)).
    { rewrite depth_embed by lia. f_equal.
      assert (G : forall b p, nth_error b p = Some true -> rank b (S p) = S (rank b p)).
      { induction b as [|c b IHb]; intros [|q] Hq; try discriminate.
        - cbn in *. injection Hq as ->. now destruct b.
        - cbn [nth_error] in Hq. specialize (IHb _ Hq).
          change (rank (c :: b) (S (S q))) with ((if c then 1 else 0) + rank b (S q)).
          rewrite IHb. cbn [rank]. destruct c; lia. }
      symmetry. now apply G. }
    split; [now apply rank_lt|]. split.
    - exists (rstrip l). split; [now apply K_nth|]. now rewrite opening_line_rstrip.
    - split; [now apply closer_embed|]. rewrite HS. split.
      + rewrite <- depth_embed by lia. exact H4.
      + intros k Hk.
        assert (HkK : k <= length K) by (rewrite K_length; pose proof (rank_le bs i (length L)); lia).
        destruct (rank_surj k HkK) as (m & Hm & <-).
        rewrite <- depth_embed by assumption.
        destruct (Nat.le_gt_cases m i) as [G|G].
        * apply H5. split; [|exact G]. apply (rank_lt_inv bs). lia.
        * apply Nat.lt_le_incl in G. apply (rank_le bs) in G.
          assert (E : rank bs m = rank bs i) by lia.
          rewrite (depth_embed m) by assumption. rewrite E, <- (depth_embed i) by lia. rewrite H4. lia.
  Qed.

  (** Nearest shallower line *)
  Lemma near_embed i j :
    kept_at i -> nearest_shallower d L i j -> kept_at j /\ nearest_shallower d K (rank bs i) (rank bs j).
  Proof.
    intros Ki (li & lj & Hi & Hj & Hlt & Hc & Hind & Hall).
    assert (Kj : kept_at j) by (eapply config_kept; eauto). split; [exact Kj|].
    exists (rstrip li), (rstrip lj). split; [now apply K_nth|]. split; [now apply K_nth|].
    split; [now apply rank_lt|]. rewrite config_line_rstrip, !line_indent_rstrip.
    split; [exact Hc|]. split; [exact Hind|].
    intros k t Hk Ht Hct. destruct (K_inv _ _ Ht) as (m & lm & Km & Hm & -> & <-).
    rewrite config_line_rstrip in Hct. rewrite line_indent_rstrip. apply (Hall m); auto.
    split; apply (rank_lt_inv bs); lia.
  Qed.

  Lemma near_embed_inv i b :
    kept_at i -> nearest_shallower d K (rank bs i) b ->
    exists j, kept_at j /\ rank bs j = b /\ nearest_shallower d L i j.
  Proof.
    intros Ki (ti & tj & Hi & Hj & Hlt & Hc & Hind & Hall).
    destruct (K_inv _ _ Hi) as (i' & li & Ki' & Hli & -> & Hr). apply rank_inj in Hr; auto. subst i'.
    destruct (K_inv _ _ Hj) as (j & lj & Kj & Hlj & -> & <-).
    rewrite config_line_rstrip in Hc. rewrite !line_indent_rstrip in Hind.
    exists j. split; [exact Kj|]. split; [reflexivity|]. exists li, lj.
    repeat split; auto; [now apply (rank_lt_inv bs)|].
    intros k lk Hk Hlk Hck. assert (Kk : kept_at k) by (eapply config_kept; eauto).
    specialize (Hall (rank bs k) (rstrip lk)).
    rewrite config_line_rstrip, !line_indent_rstrip in Hall. apply Hall; auto; [|now apply K_nth].
    split; apply rank_lt; auto; lia.
  Qed.

  (** The line before a comment is not dropped. *)
  Definition comments_anchored : Prop :=
    forall i l, nth_error L (S i) = Some l -> comment_line d l = true -> kept_at i.

  Lemma comment_embed i :
    comments_anchored -> kept_at i ->
    (comment_below_deeper d K (rank bs i) <-> comment_below_deeper d L i).
  Proof.
    intros CA Ki. split.
    - intros (ti & tp & Hi & Hp & H0 & Hc & Hind).
      destruct (K_inv _ _ Hi) as (i' & li & Ki' & Hli & -> & Hr). apply rank_inj in Hr; auto. subst i'.
      rewrite comment_line_rstrip in Hc.
      destruct i as [|i]; [rewrite rank_0 in H0; lia|].
      assert (Kp : kept_at i) by (eapply CA; eauto).
      pose proof (nth_error_length_lt _ _ _ Hli) as HiL.
      destruct (nth_error_lt_some L i ltac:(lia)) as (lp & Hlp).
      destruct (K_inv _ _ Hp) as (p & lp' & Kp' & Hlp' & -> & Hr).
      assert (rank bs i = rank bs (S i) - 1).
      { pose proof (rank_lt bs i (S i) Kp ltac:(lia)).
        pose proof (rank_succ bs i). lia. }
      assert (p = i) by (apply (rank_inj bs); auto; lia). subst p.
      rewrite Hlp in Hlp'. injection Hlp' as <-.
      rewrite !line_indent_rstrip in Hind.
      exists li, lp. replace (S i - 1) with i by lia. repeat split; auto; lia.
    - intros (li & lp & Hi & Hp & H0 & Hc & Hind).
      destruct i as [|i]; [lia|]. replace (S i - 1) with i in Hp by lia.
      assert (Kp : kept_at i) by (eapply CA; eauto).
      assert (E : rank bs (S i) - 1 = rank bs i).
      { pose proof (rank_lt bs i (S i) Kp ltac:(lia)).
        pose proof (rank_succ bs i). lia. }
      exists (rstrip li), (rstrip lp). rewrite E, comment_line_rstrip, !line_indent_rstrip.
      split; [now apply K_nth|]. split; [now apply K_nth|]. repeat split; auto.
      pose proof (rank_lt bs i (S i) Kp ltac:(lia)). lia.
  Qed.

  Lemma tree_parent_embed i p :
    comments_anchored -> kept_at i -> tree_parent d L i p ->
    kept_at p /\ tree_parent d K (rank bs i) (rank bs p).
  Proof.
    intros CA Ki [[H1 H2]|(-> & H2 & H3)].
    - destruct (near_embed _ _ Ki H1) as [Kp H]. split; [exact Kp|]. left.
      split; [exact H|]. rewrite comment_embed; auto.
    - split; [exact Ki|]. right. split; [reflexivity|]. split.
      + rewrite K_length. now apply rank_lt.
      + destruct H3 as [H3|H3].
        * left. intros b Hb. destruct (near_embed_inv _ _ Ki Hb) as (j & _ & _ & Hj). eapply H3; eauto.
        * right. apply comment_embed; auto.
  Qed.

  (** Banners and macros *)
  Lemma banner_embed p j :
    kept_at j -> in_banner L p j -> kept_at p /\ in_banner K (rank bs p) (rank bs j).
  Proof.
    intros Kj (c & H1 & (l & Hl & Hb & Hd & Hcnt) & Hall).
    assert (Kp : kept_at p).
    { eapply kept_nonblank; eauto. destruct (blank l) eqn:E; [|reflexivity].
      rewrite (blank_not_banner l E) in Hb. discriminate. }
    split; [exact Kp|]. exists c. split; [now apply rank_lt|]. split.
    - exists (rstrip l). rewrite !rstrip_idem. split; [now apply K_nth|]. auto.
    - intros k t Hk Ht. destruct (K_inv _ _ Ht) as (m & lm & Km & Hm & -> & <-).
      pose proof (banner_delim_nonspace _ _ Hd) as Hsp.
      assert (E : has_char c lm = false).
      { apply (Hall m); auto. split; apply (rank_lt_inv bs); lia. }
      destruct (rstrip_prefix lm) as (q & Eq & _). rewrite Eq, has_char_app in E.
      now apply orb_false_iff in E.
  Qed.

  Lemma banner_embed_inv a j :
    kept_at j -> in_banner K a (rank bs j) ->
    exists p, kept_at p /\ rank bs p = a /\ in_banner L p j.
  Proof.
    intros Kj (c & H1 & (t & Ht & Hb & Hd & Hcnt) & Hall).
    destruct (K_inv _ _ Ht) as (p & l & Kp & Hl & -> & <-).
    rewrite rstrip_idem in *. pose proof (banner_delim_nonspace _ _ Hd) as Hsp.
    exists p. split; [exact Kp|]. split; [reflexivity|]. exists c.
    split; [now apply (rank_lt_inv bs)|]. split; [exists l; auto|].
    intros k lk Hk Hlk.
    assert (HkL : k < length bs) by (apply nth_error_length_lt in Hlk; lia).
    destruct (nth_error_lt_some bs k HkL) as (b & Eb). destruct b.
    - specialize (Hall (rank bs k) (rstrip lk)).
      rewrite <- (has_char_strip c lk Hsp). rewrite strip_rstrip.
      rewrite <- (has_char_strip c (rstrip lk) Hsp) in Hall. rewrite rstrip_idem, strip_rstrip in Hall.
      apply Hall; [|now apply K_nth]. split; apply rank_lt; auto; lia.
    - apply has_char_spaces; [exact Hsp|]. apply (Hdrop k lk Eb Hlk).
  Qed.

  Hypothesis Hmac : Forall macro_stable L.

  Lemma macro_at l i : nth_error L i = Some l -> macro_stable l.
  Proof. intros H. rewrite Forall_forall in Hmac. apply Hmac. eapply nth_error_In; eauto. Qed.

  Lemma macro_embed p j :
    kept_at j -> in_macro L p j -> kept_at p /\ in_macro K (rank bs p) (rank bs j).
  Proof.
    intros Kj (H1 & (l & Hl & Hs) & Hall).
    assert (Kp : kept_at p).
    { eapply kept_nonblank; eauto. destruct (blank l) eqn:E; [|reflexivity].
      rewrite (blank_not_macro l E) in Hs. discriminate. }
    split; [exact Kp|]. split; [now apply rank_lt|]. split.
    - exists (rstrip l). split; [now apply K_nth|]. now rewrite (macro_at l p Hl).
    - intros k t Hk Ht. destruct (K_inv _ _ Ht) as (m & lm & Km & Hm & -> & <-).
      rewrite rstrip_idem. apply (Hall m); auto. split; apply (rank_lt_inv bs); lia.
  Qed.

  Lemma macro_embed_inv a j :
    kept_at j -> in_macro K a (rank bs j) ->
    exists p, kept_at p /\ rank bs p = a /\ in_macro L p j.
  Proof.
    intros Kj (H1 & (t & Ht & Hs) & Hall).
    destruct (K_inv _ _ Ht) as (p & l & Kp & Hl & -> & <-).
    exists p. split; [exact Kp|]. split; [reflexivity|].
    split; [now apply (rank_lt_inv bs)|]. split.
    - exists l. split; [exact Hl|]. now rewrite <- (macro_at l p Hl).
    - intros k lk Hk Hlk.
      assert (HkL : k < length bs) by (apply nth_error_length_lt in Hlk; lia).
      destruct (nth_error_lt_some bs k HkL) as (b & Eb). destruct b.
      + specialize (Hall (rank bs k) (rstrip lk)). rewrite rstrip_idem in Hall.
        apply Hall; [|now apply K_nth]. split; apply rank_lt; auto; lia.
      + pose proof (Hdrop k lk Eb Hlk) as Hb. apply blank_rstrip in Hb. rewrite Hb. discriminate.
  Qed.

  Lemma macros_ok_embed : macros_ok L -> macros_ok K.
  Proof.
    intros H a t Ht Hs. destruct (K_inv _ _ Ht) as (p & l & Kp & Hl & -> & <-).
    rewrite (macro_at l p Hl) in Hs. destruct (H p l Hl Hs) as (j & lj & Hj & Hlj & E).
    assert (Kj : kept_at j).
    { eapply kept_nonblank; eauto. destruct (blank lj) eqn:Eb; [|reflexivity].
      apply blank_rstrip in Eb. rewrite Eb in E. discriminate. }
    exists (rank bs j), (rstrip lj). rewrite rstrip_idem. split; [now apply rank_lt|].
    split; [now apply K_nth|exact E].
  Qed.
End Embed.
