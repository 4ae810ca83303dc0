(** Patterns that are not anchored at the beginning of the text. *)
From Coq Require Import Ascii String Arith Bool List Lia.
From Verif Require Import PyStr PyBase SearchModel PyRe PyReFacts PyReTmpl FactoryModel.
Import ListNotations.

(** The pattern text [p] is read as [r], with [n] groups. *)
Definition reads_any (p : str) (r : re) (n : nat) : Prop :=
  option_map (fun x => (fst x, fst (snd x))) (compile false p) = Some (r, n).
Lemma search_at r x : forall a b i, (forall u v, a ++ b = u ++ v -> length u < length a -> match_at r (i + length u) v = None) ->
  match_at r (i + length a) b = Some x -> search_from r i (a ++ b) = Some x.
Proof.
  induction a as [|y a IH]; intros b i NM HM; cbn [length app] in *.
  - rewrite Nat.add_0_r in HM. destruct b; cbn [search_from]; now rewrite HM.
  - cbn [search_from]. pose proof (NM [] (y :: a ++ b) eq_refl ltac:(cbn; lia)) as Z. cbn [length] in Z. rewrite Nat.add_0_r in Z. rewrite Z. apply IH.
    + intros u v E LT. rewrite Nat.add_succ_comm. apply (NM (y :: u) v); [now rewrite E|cbn; lia].
    + now rewrite Nat.add_succ_comm.
Qed.
Lemma any_found p r n a b m c : reads_any p r n -> (forall u v, a ++ b = u ++ v -> length u < length a -> match_at r (length u) v = None) ->
  match_at r (length a) b = Some (m, c) -> rx_find (pattern false p) (a ++ b) = Some (mkMatch m (map (fun j => cap j c) (seq 1 n))).
Proof.
  unfold reads_any, pattern. cbn [rx_find]. destruct (compile false p) as [[r' e]|]; [|discriminate]. cbn [option_map fst snd]. intros [= -> <-] NM HM.
  unfold search. now rewrite (search_at r (m, c) a b 0).
Qed.
Lemma any_some p r n t m : reads_any p r n -> rx_find (pattern false p) t = Some m ->
  exists a b i s c, t = a ++ b /\ M r (length a) b [] i s c /\ m_groups m = map (fun j => cap j c) (seq 1 n) /\
    forall u v, t = u ++ v -> length u < length a -> match_at r (length u) v = None.
Proof.
  unfold reads_any, pattern. cbn [rx_find]. destruct (compile false p) as [[r' e]|]; [|discriminate]. cbn [option_map fst snd]. intros [= -> <-] E.
  destruct (search r t) as [[u c]|] eqn:F; [|discriminate]. injection E as <-. apply search_from_sound in F as (a & b & i & s & -> & HM & _ & NM). exists a, b, i, s, c. auto.
Qed.
Lemma any_none p r n t : reads_any p r n -> (rx_find (pattern false p) t = None <-> forall a b i s c, t = a ++ b -> ~ M r (length a) b [] i s c).
Proof.
  unfold reads_any, pattern. cbn [rx_find]. destruct (compile false p) as [[r' e]|]; [|discriminate]. cbn [option_map fst snd]. intros [= -> <-].
  destruct (search r t) as [[u c]|] eqn:F; split; try discriminate; auto.
  - intros NM. apply search_some in F as (a & b & i & s & E & HM & _). destruct (NM _ _ _ _ _ E HM).
  - intros _ a b i s c E HM. exact (search_none _ _ F a b i s c E HM).
Qed.
(** For templates. *)
Lemma free_none p T n t : reads_any p (den T) n -> (rx_find (pattern false p) t = None <-> forall a b s c, t = a ++ b -> ~ D false T b s [] c).
Proof.
  intros R. rewrite (any_none _ _ _ _ R). split.
  - intros NM a b s c E HD. apply unshape with (i := length a) in HD. exact (NM _ _ _ _ _ E HD).
  - intros ND a b i s c E HM. apply shape in HM. exact (ND _ _ _ _ E HM).
Qed.
Lemma free_iff p T n t : reads_any (lit p) (den T) n -> (finds p t = true <-> exists a b s c, t = a ++ b /\ D false T b s [] c).
Proof.
  intros R. unfold finds. destruct (rx_find (pattern false (lit p)) t) as [m|] eqn:E.
  - split; [intros _|reflexivity]. apply (any_some _ _ _ _ _ R) in E as (a & b & i & s & c & -> & HM & _). apply shape in HM. eauto 6.
  - split; [discriminate|]. intros (a & b & s & c & E1 & HD). apply (free_none _ _ _ _ R) with (a := a) (b := b) (s := s) (c := c) in E; auto.
Qed.
Lemma free_found p T n a b s c : reads_any p (den T) n -> D true T b s [] c -> (forall u v s' c', a ++ b = u ++ v -> length u < length a -> ~ D false T v s' [] c') ->
  exists m, rx_find (pattern false p) (a ++ b) = Some (mkMatch m (map (fun j => cap j c) (seq 1 n))).
Proof.
  intros R HD NM. eexists. apply (any_found _ _ _ _ _ _ _ R).
  - intros u v E LT. destruct (match_at (den T) (length u) v) as [[m1 c1]|] eqn:F; [|reflexivity]. apply mat_sound in F as (i' & s' & c' & HM & _). apply shape in HM. destruct (NM _ _ _ _ E LT HM).
  - unfold match_at. eapply eval; [exact HD|]. reflexivity.
Qed.
