(** Patterns that begin with white space and words. *)
From Coq Require Import Ascii String Arith NArith ZArith Bool List Lia.
From Verif Require Import PyStr PyStrFacts PyBase SearchModel SearchProofs IosModel IosSpec IosFacts PyRe PyReFacts PyReTmpl PyReSent PyReLazy PyReGets.
Import ListNotations.
Local Open Scope char_scope.

Lemma gets_chars w r : forall i s c i' s' c', gets r (i + length w) s c i' s' c' -> gets (chars w r) i (w ++ s) c i' s' c'.
Proof.
  induction w as [|x w IH]; intros i s c i' s' c' G0; cbn [app length chars] in *; [now rewrite Nat.add_0_r in G0|].
  eapply gets_cat; [apply gets_set; now apply in_chr|]. apply IH. now rewrite Nat.add_succ_r in G0.
Qed.
(** White space and the words, then [r] *)
Definition spaces : re := rplus true (RSet sp).
Fixpoint lead_re (ws : list str) (r : re) : re :=
  match ws with [] => RCat spaces r | w :: ws' => RCat spaces (chars w (lead_re ws' r)) end.
Inductive leads : list str -> str -> str -> Prop :=
| le_nil g s : gap g -> leads [] (g ++ s) s
| le_cons w ws g t s : gap g -> leads ws t s -> leads (w :: ws) (g ++ w ++ t) s.
Lemma M_spaces i s c i' s' c' : M spaces i s c i' s' c' <-> exists g, s = g ++ s' /\ gap g /\ i' = i + length g /\ c' = c.
Proof.
  unfold spaces. rewrite M_plus_iff. split.
  - intros (g & -> & NG & F & -> & ->). apply (all_in_iff sp is_space) in F; [|apply in_sp]. exists g. repeat split; auto.
  - intros (g & -> & [F NG] & -> & ->). exists g. apply (all_in_iff sp is_space) in F; [|apply in_sp]. repeat split; auto.
Qed.
Lemma M_lead ws r : forall i t c i' s' c', M (lead_re ws r) i t c i' s' c' <-> exists s, leads ws t s /\ M r (i + (length t - length s)) s c i' s' c'.
Proof.
  induction ws as [|w ws IH]; intros i t c i' s' c'; cbn [lead_re]; rewrite M_cat_iff.
  - split.
    + intros (i1 & s1 & c1 & H1 & H2). apply M_spaces in H1 as (g & -> & G0 & -> & ->). exists s1. split; [now constructor|]. rewrite app_length. replace (length g + length s1 - length s1) with (length g) by lia. exact H2.
    + intros (s & L0 & H2). inversion L0; subst. eexists _, _, _. split; [apply M_spaces; exists g; repeat split; eauto; apply H|]. rewrite app_length in H2. replace (length g + length s - length s) with (length g) in H2 by lia. exact H2.
  - split.
    + intros (i1 & s1 & c1 & H1 & H2). apply M_spaces in H1 as (g & -> & G0 & -> & ->). apply M_chars_iff in H2 as (s2 & -> & H2). apply IH in H2 as (s & L0 & H2). exists s. split; [now constructor|].
      assert (length s <= length s2). { clear -L0. induction L0; rewrite ?app_length; lia. } rewrite !app_length. match type of H2 with M _ ?a _ _ _ _ _ => replace a with (i + (length g + (length w + length s2) - length s)) in H2 by lia end. exact H2.
    + intros (s & L0 & H2). inversion L0 as [|? ? g u ? G0 L1]; subst. eexists _, _, _. split; [apply M_spaces; exists g; repeat split; eauto; apply G0|]. apply M_chars_iff. exists u. split; [reflexivity|]. apply IH. exists s. split; [exact L1|].
      assert (length s <= length u). { clear -L1. induction L1; rewrite ?app_length; lia. } rewrite !app_length in H2. match type of H2 with M _ ?a _ _ _ _ _ => match goal with |- M _ ?b _ _ _ _ _ => replace b with a by lia end end. exact H2.
Qed.
Definition solid (w : str) : Prop := match w with c :: _ => is_space c = false | [] => False end.
Lemma gets_spaces i g s c : gap g -> (match s with x :: _ => is_space x = false | [] => True end) -> gets spaces i (g ++ s) c (i + length g) s c.
Proof.
  intros [F NG] Hs. apply gets_plus; [exact NG|apply (all_in_iff sp is_space); [apply in_sp|exact F]|]. destruct s as [|x s]; [exact I|]. unfold PyReTmpl.stops. now rewrite in_sp.
Qed.
Lemma gets_lead ws r : forall i t s c i' s' c', leads ws t s -> Forall solid ws -> (match s with x :: _ => is_space x = false | [] => True end) ->
  gets r (i + (length t - length s)) s c i' s' c' -> gets (lead_re ws r) i t c i' s' c'.
Proof.
  induction ws as [|w ws IH]; intros i t s c i' s' c' L0 F Hs G0; cbn [lead_re].
  - inversion L0; subst. eapply gets_cat; [now apply gets_spaces|]. rewrite app_length in G0. replace (length g + length s - length s) with (length g) in G0 by lia. exact G0.
  - inversion L0 as [|? ? g u ? Gg L1]; subst. inversion F as [|? ? Sw F']; subst. eapply gets_cat; [apply gets_spaces; [exact Gg|destruct w; [destruct Sw|exact Sw]]|].
    apply gets_chars. apply (IH _ u s); auto. assert (length s <= length u). { clear -L1. induction L1; rewrite ?app_length; lia. }
    rewrite !app_length in G0. match type of G0 with gets _ ?a _ _ _ _ _ => match goal with |- gets _ ?b _ _ _ _ _ => replace b with a by lia end end. exact G0.
Qed.

(** ** A pattern whose matches are known *)
Section known.
  Context (p : string) (r : re) (n : nat) (P : str -> caps -> Prop).
  Hypothesis R : reads_re (lit p) r n.
  Hypothesis complete : forall t c, P t c -> exists i s, gets r 0 t [] i s c.
  Hypothesis sound : forall t i s c, M r 0 t [] i s c -> exists c', P t c'.
  Lemma known_some t m : rx_find (pattern false (lit p)) t = Some m -> exists c, P t c /\ m_groups m = map (fun j => cap j c) (seq 1 n).
  Proof.
    intros F. destruct (re_shape _ _ _ _ _ R F) as (i & s & c & HM & _). apply sound in HM as (c' & Pc). exists c'. split; [exact Pc|]. destruct (complete _ _ Pc) as (i0 & s0 & G0).
    destruct (gets_found _ _ _ _ _ _ _ R G0) as (m' & F' & E). congruence.
  Qed.
  Lemma known_none t : rx_find (pattern false (lit p)) t = None -> forall c, ~ P t c.
  Proof. intros F c Pc. destruct (complete _ _ Pc) as (i0 & s0 & G0). destruct (gets_found _ _ _ _ _ _ _ R G0) as (m' & F' & _). congruence. Qed.
  Lemma known_found t c : P t c -> exists m, rx_find (pattern false (lit p)) t = Some m /\ m_groups m = map (fun j => cap j c) (seq 1 n).
  Proof. intros Pc. destruct (complete _ _ Pc) as (i0 & s0 & G0). exact (gets_found _ _ _ _ _ _ _ R G0). Qed.
  Lemma known_same t c c' : P t c -> P t c' -> map (fun j => cap j c) (seq 1 n) = map (fun j => cap j c') (seq 1 n).
  Proof. intros H1 H2. destruct (known_found _ _ H1) as (m & F & <-), (known_found _ _ H2) as (m' & F' & <-). congruence. Qed.
  (** the first line that matches *)
  Lemma known_first own below :
    (exists pre t post c, own :: below = pre ++ t :: post /\ (forall u c', In u pre -> ~ P u c') /\ P t c /\
       forall nm k r0 e, compile false (lit p) = Some (r0, e) -> option_map snd (find (fun x => str_eqb (fst x) (lit nm)) (snd e)) = Some (S k) -> (k < n) -> iter_dict p nm own below = Some (cap (S k) c)) \/
    ((forall u c', In u (own :: below) -> ~ P u c') /\ forall nm, iter_dict p nm own below = None).
  Proof.
    destruct (first_found_spec (pattern false (lit p)) (own :: below)) as [(pre & t & m & post & E & N1 & HM & HF)|[N1 HF]].
    - left. destruct (known_some _ _ HM) as (c & Pc & Eg). exists pre, t, post, c. split; [exact E|]. split; [intros u c' Hu; apply known_none; now apply N1|]. split; [exact Pc|].
      intros nm k r0 e C F L0. unfold iter_dict. rewrite HF. f_equal. unfold named. rewrite C. destruct (find _ (snd e)) as [[? j]|]; [|discriminate F]. injection F as ->. rewrite Eg.
      rewrite (nth_indep _ None (cap 0 c)) by (rewrite map_length, seq_length; lia). rewrite (map_nth (fun j => cap j c)). now rewrite seq_nth by lia.
    - right. split; [intros u c' Hu; apply known_none; now apply N1|]. intros nm. unfold iter_dict. now rewrite HF.
  Qed.
  Lemma known_answers g own below : 1 <= g <= n -> (forall t c, P t c -> cap g c <> None) ->
    answers (fun t v => exists c, P t c /\ cap g c = Some v) (own :: below) [] (iter_str p g own below).
  Proof.
    intros Hg Cg. unfold iter_str. destruct (first_match_spec to_str (Ok []) (pattern false (lit p)) g (own :: below)) as [(pre & t & m & post & E & N1 & HM & HF)|[N1 HF]].
    - left. destruct (known_some _ _ HM) as (c & Pc & Eg). destruct (cap g c) as [v|] eqn:Ec; [|exfalso; now apply (Cg t c Pc)]. exists pre, t, post, v. split; [exact E|]. split; [intros u v' Hu (c' & Pc' & _); now apply (known_none u (N1 u Hu) c')|].
      split; [now exists c|]. rewrite HF. unfold group. destruct g as [|k]; [lia|]. rewrite Eg, nth_error_map, nth_error_nth' with (d := 0) by (rewrite seq_length; lia). rewrite seq_nth by lia. cbn [option_map Nat.add bind]. change (1 + k) with (S k). now rewrite Ec.
    - right. split; [intros u v' Hu (c' & Pc' & _); now apply (known_none u (N1 u Hu) c')|]. exact HF.
  Qed.
End known.
