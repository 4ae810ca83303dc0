(** Patterns made of words and runs of white space, run on lists of words: the same answer as on
    characters. *)
From Coq Require Import Ascii String Arith NArith ZArith Bool List Lia.
From Verif Require Import PyStr PyStrFacts PyBase SearchModel PyRe PyReFacts.
Import ListNotations.
Local Open Scope char_scope.

(** ** Equal up to brackets *)
Lemma loop_ext {R} (b b' : nat -> str -> caps -> (nat -> str -> caps -> option R) -> option R) g k k' :
  (forall i s c h h', (forall i s c, h i s c = h' i s c) -> b i s c h = b' i s c h') -> (forall i s c, k i s c = k' i s c) ->
  forall f i s c, star_loop b g k f i s c = star_loop b' g k' f i s c.
Proof.
  intros B K. induction f as [|f IH]; intros i s c; cbn [star_loop]; cbv zeta; rewrite (K i s c); [reflexivity|].
  rewrite (B i s c _ (fun i' s' c' => if Nat.eqb i' i then None else star_loop b' g k' f i' s' c')); [reflexivity|]. intros i' s' c'. destruct (Nat.eqb i' i); [reflexivity|apply IH].
Qed.
Lemma mat_ext {R} r : forall i s c (k k' : nat -> str -> caps -> option R), (forall i s c, k i s c = k' i s c) -> mat r i s c k = mat r i s c k'.
Proof.
  induction r as [|q|a IHa b IHb|a IHa b IHb|g a IH|n a IH| |]; intros i s c k k' K; cbn [mat]; try apply K.
  - destruct s; [reflexivity|]. now rewrite K.
  - apply IHa. intros. now apply IHb.
  - now rewrite (IHa i s c k k' K), (IHb i s c k k' K).
  - apply loop_ext; [|exact K]. intros. now apply IH.
  - apply IH. intros. apply K.
  - now rewrite K.
  - destruct s as [|x [|? ?]]; [apply K|now rewrite K|reflexivity].
Qed.
Fixpoint flat (r rest : re) : re :=
  match r with
  | REps => rest
  | RCat a b => flat a (flat b rest)
  | RAlt a b => RCat (RAlt (flat a REps) (flat b REps)) rest
  | RGrp n a => RCat (RGrp n (flat a REps)) rest
  | _ => RCat r rest
  end.
Lemma flat_mat {R} r : forall rest i s c (k : nat -> str -> caps -> option R), mat (flat r rest) i s c k = mat r i s c (fun i s c => mat rest i s c k).
Proof.
  induction r as [|q|a IHa b IHb|a IHa b IHb|g a IH|n a IH| |]; intros rest i s c k; cbn [flat]; try reflexivity.
  - rewrite IHa. cbn [mat]. apply mat_ext. intros. apply IHb.
  - cbn [mat]. now rewrite IHa, IHb.
  - cbn [mat]. now rewrite IH.
Qed.
Lemma flat_same {R} r r' : flat r REps = flat r' REps -> forall i s c (k : nat -> str -> caps -> option R), mat r i s c k = mat r' i s c k.
Proof.
  intros E i s c k. assert (A : forall x, mat x i s c k = mat (flat x REps) i s c k). { intros x. rewrite flat_mat. apply mat_ext. reflexivity. } now rewrite (A r), (A r'), E.
Qed.

(** ** Words *)
Definition sp : cset := mkSet false false [CSpace].
Definition ends (s : str) : option unit := match s with [] => Some tt | _ => None end.
(** the expression can take the whole word *)
Definition whole (a : re) (w : str) : bool := match mat a 0 w [] (fun _ s _ => ends s) with Some _ => true | None => false end.
Inductive wre :=
| WEps | WLit (w : str) | WTok (n : option nat) (a : re) | WSp | WCat (a b : wre) | WAlt (a b : wre).
Definition wopt (a : wre) : wre := WAlt a WEps.
Fixpoint tr (r : wre) : re :=
  match r with
  | WEps => REps
  | WLit w => chars w REps
  | WTok None a => a
  | WTok (Some n) a => RGrp n a
  | WSp => rplus true (RSet sp)
  | WCat a b => RCat (tr a) (tr b)
  | WAlt a b => RAlt (tr a) (tr b)
  end.
(** A text is a list of words with the white space before them. *)
Definition stream := list (str * str).
Definition grabbed (n : option nat) (w : str) (c : caps) : caps := match n with Some j => (j, w) :: c | None => c end.
Fixpoint wmat {R} (r : wre) (ws : stream) (c : caps) (k : stream -> caps -> option R) : option R :=
  match r with
  | WEps => k ws c
  | WLit w => match ws with (_, v) :: ws' => if str_eqb v w then k ws' c else None | [] => None end
  | WTok n a => match ws with (_, v) :: ws' => if whole a v then k ws' (grabbed n v c) else None | [] => None end
  | WSp => match ws with [] => None | _ => k ws c end
  | WCat a b => wmat a ws c (fun ws' c' => wmat b ws' c' k)
  | WAlt a b => match wmat a ws c k with Some x => Some x | None => wmat b ws c k end
  end.
Inductive place := AtWord | AtGap.
Definition place_eqb (a b : place) : bool := match a, b with AtWord, AtWord | AtGap, AtGap => true | _, _ => false end.
(** expressions for parts of words *)
Definition all_chars : list ascii := map ascii_of_nat (seq 0 256).
Definition solid (q : cset) : bool := forallb (fun x => negb (in_set q x && is_space x)) all_chars.
Fixpoint in_word (a : re) : bool :=
  match a with
  | REps => true
  | RSet q => solid q
  | RCat a b => in_word a && in_word b
  | RAlt a b => in_word a && in_word b
  | RStar _ a => in_word a
  | _ => false
  end.
Fixpoint empty (a : re) : bool :=
  match a with
  | RSet _ => false
  | RCat a b => empty a && empty b
  | RAlt a b => empty a || empty b
  | _ => true
  end.
Fixpoint goes (r : wre) (p : place) : option place :=
  match r, p with
  | WEps, _ => Some p
  | WLit w, AtWord => match w with [] => None | _ => if forallb (fun x => negb (is_space x)) w then Some AtGap else None end
  | WTok _ a, AtWord => if in_word a && negb (empty a) then Some AtGap else None
  | WSp, AtGap => Some AtWord
  | WCat a b, _ => match goes a p with Some q => goes b q | None => None end
  | WAlt a b, _ => match goes a p, goes b p with Some q, Some q' => if place_eqb q q' then Some q else None | _, _ => None end
  | _, _ => None
  end.
Definition is_word (w : str) : Prop := w <> [] /\ Forall (fun x => is_space x = false) w.
Definition is_gap (w : str) : Prop := w <> [] /\ Forall (fun x => is_space x = true) w.
Definition good (ws : stream) : Prop := Forall (fun p => is_gap (fst p) /\ is_word (snd p)) ws.
Fixpoint text_of (ws : stream) : str := match ws with [] => [] | (g, w) :: r => g ++ w ++ text_of r end.
Definition text (p : place) (ws : stream) : str :=
  match p with AtGap => text_of ws | AtWord => match ws with [] => [] | (_, w) :: r => w ++ text_of r end end.
Definition fits (p : place) (ws : stream) : Prop := good ws /\ (p = AtWord -> ws <> []).
Definition wrong (p : place) (x : ascii) : Prop := match p with AtWord => is_space x = true | AtGap => is_space x = false end.

Lemma in_sp x : in_set sp x = is_space x.
Proof. unfold in_set, sp. cbn [cs_neg cs_icase cs_items existsb cls_has]. now rewrite orb_false_r, xorb_false_l. Qed.
Lemma solid_no q x : solid q = true -> in_set q x = true -> is_space x = false.
Proof.
  unfold solid. rewrite forallb_forall. intros A E. specialize (A x). destruct (is_space x); [|reflexivity]. rewrite E in A. discriminate A.
  unfold all_chars. apply in_map_iff. exists (nat_of_ascii x). split; [apply ascii_nat_embedding|]. apply in_seq. pose proof (nat_ascii_bounded x). lia.
Qed.
Lemma in_word_M a : forall i s c i' s' c', M a i s c i' s' c' -> in_word a = true -> exists u, s = u ++ s' /\ i' = i + length u /\ c' = c /\ Forall (fun x => is_space x = false) u /\ (empty a = false -> u <> []).
Proof.
  induction 1 as [i s c|q i x s c E|a b i s c i1 s1 c1 i2 s2 c2 M1 IH1 M2 IH2|a b i s c i1 s1 c1 M1 IH1|a b i s c i1 s1 c1 M1 IH1|g a i s c|g a i s c i1 s1 c1 i2 s2 c2 M1 IH1 NE M2 IH2| | | |]; cbn [in_word empty]; intros K; try discriminate K.
  - exists []. repeat split; [cbn; lia|constructor|discriminate].
  - exists [x]. repeat split; [cbn; lia| |discriminate]. constructor; [|constructor]. now apply (solid_no q).
  - apply andb_true_iff in K as [K1 K2]. destruct (IH1 K1) as (u & -> & -> & -> & F1 & N1), (IH2 K2) as (v & -> & -> & -> & F2 & N2). exists (u ++ v). rewrite app_assoc, app_length. repeat split; [lia|now apply Forall_app|].
    intros E. apply andb_false_iff in E as [E|E]; [specialize (N1 E); now destruct u|specialize (N2 E); destruct u; [exact N2|discriminate]].
  - apply andb_true_iff in K as [K1 K2]. destruct (IH1 K1) as (u & -> & -> & -> & F1 & N1). exists u. repeat split; [exact F1|]. intros E. apply orb_false_iff in E as [E _]. auto.
  - apply andb_true_iff in K as [K1 K2]. destruct (IH1 K2) as (u & -> & -> & -> & F1 & N1). exists u. repeat split; [exact F1|]. intros E. apply orb_false_iff in E as [_ E]. auto.
  - exists []. repeat split; [cbn; lia|constructor|discriminate].
  - destruct (IH1 K) as (u & -> & -> & -> & F1 & _), (IH2 K) as (v & -> & -> & -> & F2 & _). exists (u ++ v). rewrite app_assoc, app_length. repeat split; [lia|now apply Forall_app|discriminate].
Qed.
(** matches of such an expression do not depend on the place and on what follows *)
Lemma in_word_shift a : forall i s c i' s' c', M a i s c i' s' c' -> in_word a = true -> forall u t j d, s = u ++ s' -> M a j (u ++ t) d (j + length u) t d.
Proof.
  induction 1 as [i s c|q i x s c E|a b i s c i1 s1 c1 i2 s2 c2 M1 IH1 M2 IH2|a b i s c i1 s1 c1 M1 IH1|a b i s c i1 s1 c1 M1 IH1|g a i s c|g a i s c i1 s1 c1 i2 s2 c2 M1 IH1 NE M2 IH2| | | |]; cbn [in_word]; intros K u t j d Es; try discriminate K.
  - apply (app_inv_tail s [] u) in Es as <-. cbn. rewrite Nat.add_0_r. constructor.
  - apply (app_inv_tail s [x] u) in Es as <-. cbn. rewrite Nat.add_1_r. now constructor.
  - apply andb_true_iff in K as [K1 K2]. destruct (in_word_M _ _ _ _ _ _ _ M1 K1) as (u1 & E1 & _), (in_word_M _ _ _ _ _ _ _ M2 K2) as (u2 & E2 & _). rewrite E1, E2, app_assoc in Es. apply app_inv_tail in Es as <-.
    rewrite <- app_assoc, app_length, Nat.add_assoc. eapply M_cat; [apply (IH1 K1 u1); exact E1|]. apply (IH2 K2 u2). exact E2.
  - apply andb_true_iff in K as [K1 K2]. apply M_left. now apply IH1.
  - apply andb_true_iff in K as [K1 K2]. apply M_right. now apply IH1.
  - apply (app_inv_tail s [] u) in Es as <-. cbn. rewrite Nat.add_0_r. constructor.
  - destruct (in_word_M _ _ _ _ _ _ _ M1 K) as (u1 & E1 & L1 & _), (in_word_M _ _ _ _ _ _ _ M2 K) as (u2 & E2 & _). rewrite E1, E2, app_assoc in Es. apply app_inv_tail in Es as <-.
    rewrite <- app_assoc, app_length, Nat.add_assoc. eapply M_more; [apply (IH1 K u1); exact E1|lia|]. apply (IH2 K u2). exact E2.
Qed.
Lemma whole_iff a w : whole a w = true <-> exists i c, M a 0 w [] i [] c.
Proof.
  unfold whole. destruct (mat a 0 w [] _) as [x|] eqn:E.
  - split; [intros _|reflexivity]. apply mat_sound in E as (i & s & c & HM & Es). destruct s; [|discriminate Es]. now exists i, c.
  - split; [discriminate|]. intros (i & c & HM). exfalso. now apply (mat_complete a 0 w [] i [] c HM (fun _ s _ => ends s)) in E.
Qed.
Lemma split_word (u v s t : str) : u ++ s = v ++ t -> Forall (fun x => is_space x = false) u -> Forall (fun x => is_space x = false) v ->
  (s = [] \/ exists x s', s = x :: s' /\ is_space x = true) -> (t = [] \/ exists x s', t = x :: s' /\ is_space x = true) -> u = v /\ s = t.
Proof.
  revert v. induction u as [|x u IH]; intros v E Fu Fv Ss St.
  - destruct v as [|y v]; [now split|]. cbn in E. pose proof (Forall_inv Fv) as Sy. destruct Ss as [->|(z & s' & -> & Z)]; [discriminate E|]. injection E as -> _. congruence.
  - pose proof (Forall_inv Fu) as Sx. destruct v as [|y v].
    + cbn in E. destruct St as [->|(z & s' & -> & Z)]; [discriminate E|]. injection E as -> _. congruence.
    + cbn in E. injection E as -> E. destruct (IH v E (Forall_inv_tail Fu) (Forall_inv_tail Fv) Ss St) as [-> ->]. now split.
Qed.
Lemma opt_eq {R} (x y : option R) : (forall z, x = Some z -> y = Some z) -> (y <> None -> x <> None) -> x = y.
Proof. intros A B. destruct x as [z|]; [now rewrite (A z)|]. destruct y as [z|]; [|reflexivity]. exfalso. now apply B. Qed.
Lemma text_gap ws : good ws -> text_of ws = [] \/ exists x s, text_of ws = x :: s /\ is_space x = true.
Proof. intros F. destruct ws as [|[g w] r]; [now left|]. right. inversion F as [|p l [[NG FG] _] FR]; subst. cbn in *. destruct g as [|x g]; [now contradiction NG|]. inversion FG; subst. exists x, (g ++ w ++ text_of r). now split. Qed.
Lemma grabbed_mat {R} n a i w s c (K : nat -> str -> caps -> option R) : in_word a = true -> mat (tr (WTok n a)) i (w ++ s) c K = mat a i (w ++ s) c (fun i' s' c' => K i' s' (match n with Some j => (j, firstn (i' - i) (w ++ s)) :: c' | None => c' end)).
Proof. intros _. destruct n; reflexivity. Qed.

Lemma tok_word {R} n a i w s c (K : nat -> str -> caps -> option R) : in_word a = true -> empty a = false -> is_word w ->
  (s = [] \/ exists x s', s = x :: s' /\ is_space x = true) -> (forall i x t c, is_space x = false -> K i (x :: t) c = None) ->
  mat (tr (WTok n a)) i (w ++ s) c K = if whole a w then K (i + length w) s (grabbed n w c) else None.
Proof.
  intros IW NE [NW FW] Hs RJ. rewrite grabbed_mat by exact IW. apply opt_eq.
  - intros z E. apply mat_sound in E as (i' & s' & c' & HM & E). pose proof HM as HM0. apply in_word_M in HM as (u & Eu & -> & -> & Fu & Nu); [|exact IW].
    assert (X : w = u /\ s = s'). { apply split_word; [exact Eu|exact FW|exact Fu|exact Hs|]. destruct s' as [|x t]; [now left|]. right. exists x, t. split; [reflexivity|]. destruct (is_space x) eqn:Sx; [reflexivity|]. rewrite RJ in E by exact Sx. discriminate E. }
    destruct X as [<- <-]. assert (Wh : whole a w = true). { apply whole_iff. exists (0 + length w), []. rewrite <- (app_nil_r w) at 1. now apply (in_word_shift a i (w ++ s) c (i + length w) s c HM0 IW w [] 0 []). }
    rewrite Wh. rewrite <- E. f_equal. destruct n; [|reflexivity]. cbn [grabbed]. do 2 f_equal. replace (i + length w - i) with (length w) by lia. now rewrite firstn_app, firstn_all, Nat.sub_diag, app_nil_r.
  - destruct (whole a w) eqn:Wh; [|congruence]. intros NK. apply whole_iff in Wh as (i0 & c0 & HM). pose proof (in_word_shift a _ _ _ _ _ _ HM IW w s i c (eq_sym (app_nil_r w))) as HM'.
    eapply mat_complete; [exact HM'|]. cbv beta. intros X. apply NK. rewrite <- X. f_equal.
    destruct n; [|reflexivity]. cbn [grabbed]. do 2 f_equal. replace (i + length w - i) with (length w) by lia. now rewrite firstn_app, firstn_all, Nat.sub_diag, app_nil_r.
Qed.
Lemma chars_mat {R} x w i t c (K : nat -> str -> caps -> option R) : mat (chars (x :: w) REps) i t c K =
  match t with y :: t' => if in_set (mkSet false false [CRange x x]) y then mat (chars w REps) (S i) t' c K else None | [] => None end.
Proof. reflexivity. Qed.
Lemma lit_word {R} w : forall v i s c (K : nat -> str -> caps -> option R), Forall (fun x => is_space x = false) w -> Forall (fun x => is_space x = false) v ->
  (s = [] \/ exists x s', s = x :: s' /\ is_space x = true) -> (forall i x t c, is_space x = false -> K i (x :: t) c = None) ->
  mat (chars w REps) i (v ++ s) c K = if str_eqb v w then K (i + length w) s c else None.
Proof.
  induction w as [|x w IH]; intros v i s c K Fw Fv Hs RJ.
  - cbn [chars mat length]. rewrite Nat.add_0_r. destruct v as [|y v]; [reflexivity|]. inversion Fv; subst. cbn [app]. rewrite RJ by assumption. reflexivity.
  - rewrite chars_mat. inversion Fw as [|? ? Sx Fw']; subst. destruct v as [|y v]; cbn [app].
    + destruct Hs as [->|(z & s' & -> & Z)]; [reflexivity|]. destruct (in_set _ z) eqn:E; [|reflexivity]. apply in_chr in E as ->. congruence.
    + inversion Fv; subst. destruct (in_set _ y) eqn:E.
      * apply in_chr in E as ->. rewrite IH by assumption. cbn [length]. rewrite Nat.add_succ_comm. change (str_eqb (x :: v) (x :: w)) with (Ascii.eqb x x && str_eqb v w). now rewrite Ascii.eqb_refl.
      * change (str_eqb (y :: v) (x :: w)) with (Ascii.eqb y x && str_eqb v w). destruct (Ascii.eqb y x) eqn:E2; [|reflexivity]. apply Ascii.eqb_eq in E2 as ->. rewrite (proj2 (in_chr x x) eq_refl) in E. discriminate E.
Qed.
Lemma gap_word {R} g i s c (K : nat -> str -> caps -> option R) : is_gap g -> (forall x t, s = x :: t -> is_space x = false) -> (forall i x t c, is_space x = true -> K i (x :: t) c = None) ->
  mat (rplus true (RSet sp)) i (g ++ s) c K = K (i + length g) s c.
Proof.
  intros [NG FG] Hs RJ. apply opt_eq.
  - intros z E. apply mat_sound in E as (i' & s' & c' & HM & E). apply M_plus_iff in HM as (u & Eu & NU & Au & -> & ->).
    assert (X : g = u /\ s = s').
    { assert (Ss' : forall x t, s' = x :: t -> is_space x = false). { intros x t ->. destruct (is_space x) eqn:Sx; [|reflexivity]. rewrite RJ in E by exact Sx. discriminate E. }
      assert (Fu : Forall (fun x => is_space x = true) u) by (eapply Forall_impl; [|exact Au]; intros x; cbv beta; now rewrite in_sp). clear - FG Fu Hs Ss' Eu. revert u Fu Eu. induction g as [|x g IH]; intros u Fu Eu.
      - destruct u as [|y u]; [now split|]. cbn in Eu. pose proof (Forall_inv Fu). specialize (Hs y (u ++ s') Eu). congruence.
      - destruct u as [|y u]; [cbn in Eu; pose proof (Forall_inv FG); specialize (Ss' x (g ++ s) (eq_sym Eu)); congruence|]. cbn in Eu. injection Eu as -> Eu. destruct (IH (Forall_inv_tail FG) u (Forall_inv_tail Fu) Eu) as [-> ->]. now split. }
    destruct X as [<- <-]. exact E.
  - intros NK. eapply mat_complete; [|exact NK]. apply M_plus_iff. exists g. repeat split; auto. eapply Forall_impl; [|exact FG]. intros x. cbv beta. now rewrite in_sp.
Qed.
(** The main fact *)
Lemma mat_words {R} r : forall p q, goes r p = Some q -> forall (K : nat -> str -> caps -> option R) (k : stream -> caps -> option R),
  (forall i ws c, fits q ws -> K i (text q ws) c = k ws c) -> (forall i x t c, wrong q x -> K i (x :: t) c = None) ->
  (forall i ws c, fits p ws -> mat (tr r) i (text p ws) c K = wmat r ws c k) /\ (forall i x t c, wrong p x -> mat (tr r) i (x :: t) c K = None).
Proof.
  induction r as [|w|n a| |a IHa b IHb|a IHa b IHb]; intros p q G K k HK RJ; cbn [goes] in G.
  - injection G as <-. split; [exact HK|exact RJ].
  - destruct p; [|discriminate]. destruct w as [|x w]; [discriminate|]. destruct (forallb _ (x :: w)) eqn:FW; [|discriminate]. injection G as <-.
    assert (Fw : Forall (fun x => is_space x = false) (x :: w)). { apply Forall_forall. intros y Hy. rewrite forallb_forall in FW. specialize (FW y Hy). now apply negb_true_iff. } split.
    + intros i ws c [Gd NE]. destruct ws as [|[g v] ws]; [now contradiction NE|]. inversion Gd as [|? ? [_ [_ Fv]] Gr]; subst. cbn [text tr wmat fst snd] in *. rewrite lit_word; [|exact Fw|exact Fv|now apply text_gap|intros; now apply RJ].
      destruct (str_eqb v (x :: w)); [|reflexivity]. apply (HK _ ws). split; [exact Gr|discriminate].
    + intros i y t c Wr. cbn [tr]. rewrite chars_mat. destruct (in_set _ y) eqn:E; [|reflexivity]. apply in_chr in E as ->. inversion Fw; subst. cbn in Wr. congruence.
  - destruct p; [|discriminate]. destruct (in_word a && negb (empty a)) eqn:E; [|discriminate]. injection G as <-. apply andb_true_iff in E as [IW NE]. apply negb_true_iff in NE. split.
    + intros i ws c [Gd NN]. destruct ws as [|[g v] ws]; [now contradiction NN|]. inversion Gd as [|? ? [_ Wv] Gr]; subst. cbn [text wmat fst snd] in *. rewrite tok_word; [|exact IW|exact NE|exact Wv|now apply text_gap|intros; now apply RJ].
      destruct (whole a v); [|reflexivity]. apply (HK _ ws). split; [exact Gr|discriminate].
    + intros i y t c Wr. cbn in Wr. destruct (mat (tr (WTok n a)) i (y :: t) c K) as [z|] eqn:E; [|reflexivity]. rewrite (grabbed_mat n a i [] (y :: t)) in E by exact IW. apply mat_sound in E as (i' & s' & c' & HM & E).
      apply in_word_M in HM as (u & Eu & _ & _ & Fu & Nu); [|exact IW]. specialize (Nu NE). destruct u as [|x u]; [now contradiction Nu|]. cbn in Eu. injection Eu as <- _. inversion Fu; subst. congruence.
  - destruct p; [discriminate|]. injection G as <-. split.
    + intros i ws c [Gd _]. destruct ws as [|[g w] ws]; [reflexivity|]. inversion Gd as [|? ? [Gg [NW Fw]] Gr]; subst. cbn [text text_of tr wmat fst snd] in *. rewrite gap_word; [|exact Gg| |intros; now apply RJ].
      * apply (HK _ ((g, w) :: ws)). split; [exact Gd|discriminate].
      * intros x t E. destruct w as [|y w]; [now contradiction NW|]. cbn in E. injection E as -> _. now inversion Fw.
    + intros i y t c Wr. cbn in Wr. cbn [tr]. destruct (mat _ i (y :: t) c K) as [z|] eqn:E; [|reflexivity]. apply mat_sound in E as (i' & s' & c' & HM & E). apply M_plus_iff in HM as (u & Eu & NU & Au & _). destruct u as [|x u]; [now contradiction NU|]. cbn in Eu. injection Eu as <- _. inversion Au; subst. rewrite in_sp in *. congruence.
  - destruct (goes a p) as [m|] eqn:Ga; [|discriminate]. cbn [tr mat wmat]. destruct (IHb m q G K k HK RJ) as [B1 B2]. exact (IHa p m Ga _ _ B1 B2).
  - destruct (goes a p) as [m|] eqn:Ga; [|discriminate]. destruct (goes b p) as [m'|] eqn:Gb; [|discriminate]. destruct (place_eqb m m') eqn:E; [|discriminate]. injection G as <-. assert (m' = m) as -> by (now destruct m, m').
    destruct (IHa p m Ga K k HK RJ) as [A1 A2], (IHb p m Gb K k HK RJ) as [B1 B2]. cbn [tr mat wmat]. split.
    + intros i ws c F. rewrite A1, B1 by exact F. reflexivity.
    + intros i x t c Wr. rewrite A2, B2 by exact Wr. reflexivity.
Qed.
(** white space up to the end *)
Definition to_end : re := RCat (RStar true (RSet sp)) REol.
Lemma mat_end {R} (K : nat -> str -> caps -> option R) : (forall i ws c, fits AtGap ws -> mat to_end i (text AtGap ws) c K = match ws with [] => K i [] c | _ => None end) /\
  (forall i x t c, wrong AtGap x -> mat to_end i (x :: t) c K = None).
Proof.
  assert (N : forall i s c, (exists x u v, s = u ++ x :: v /\ is_space x = false) -> mat to_end i s c K = None).
  { intros i s c (x & u & v & -> & Sx). destruct (mat to_end _ _ _ K) as [z|] eqn:E; [|reflexivity]. exfalso. apply mat_sound in E as (i' & s' & c' & HM & _). unfold to_end in HM. apply M_cat_iff in HM as (i1 & s1 & c1 & A & B). apply M_star_iff in A as (w & Ew & Aw & _). apply M_eol_iff in B as (B & _).
    assert (In x (w ++ s1)) by (rewrite <- Ew; apply in_elt). apply in_app_or in H as [H|H]; [pose proof (proj1 (Forall_forall _ _) Aw x H) as Aw1; cbv beta in Aw1; rewrite in_sp in Aw1; congruence|]. destruct B as [->| ->]; [destruct H|]. destruct H as [<-|[]]. discriminate Sx. }
  split.
  - intros i ws c [Gd _]. destruct ws as [|[g w] ws]; [reflexivity|]. apply N. inversion Gd as [|? ? [Gg [NW Fw]] Gr]; subst. cbn [text text_of fst snd] in *. destruct w as [|x w]; [now contradiction NW|]. exists x, g, (w ++ text_of ws). split; [reflexivity|]. now inversion Fw.
  - intros i x t c Wr. apply N. exists x, [], t. now split.
Qed.
(** ** Which words *)
Lemma whole_alt a b w : whole (RAlt a b) w = whole a w || whole b w.
Proof. unfold whole. cbn [mat]. destruct (mat a 0 w [] _); [reflexivity|]. destruct (mat b 0 w [] _); reflexivity. Qed.
Lemma whole_flat r w : whole r w = whole (flat r REps) w.
Proof. unfold whole. rewrite flat_mat. erewrite mat_ext; [reflexivity|]. reflexivity. Qed.
Lemma whole_lit l w : whole (chars l REps) w = str_eqb w l.
Proof.
  apply eq_true_iff_eq. rewrite whole_iff, str_eqb_eq. split.
  - intros (i & c & HM). apply M_chars_iff in HM as (s1 & -> & HM). apply M_eps_iff in HM as (_ & <- & _). now rewrite app_nil_r.
  - intros ->. exists (length l), []. apply M_chars_iff. exists []. split; [now rewrite app_nil_r|]. constructor.
Qed.
Lemma whole_plus q w : whole (rplus true (RSet q)) w = true <-> w <> [] /\ all_in q w.
Proof.
  rewrite whole_iff. split.
  - intros (i & c & HM). apply M_plus_iff in HM as (u & -> & NU & Au & _). rewrite app_nil_r. now split.
  - intros [NW Aw]. exists (length w), []. apply M_plus_iff. exists w. rewrite app_nil_r. auto.
Qed.
