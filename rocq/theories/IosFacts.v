(** Facts about attributes that are read with patterns. *)
From Coq Require Import Ascii String Arith NArith ZArith Bool List Lia DecimalN DecimalFacts.
From Verif Require Import PyStr PyStrFacts PyBase SearchModel SearchProofs IntfModel IntfSpec IntfFacts PyRe PyReFacts PyReTmpl PyReSent IosSpec IosModel.
Import ListNotations.
Local Open Scope char_scope.

(** ** Digits are numerals *)

Lemma uint_zeros u : u <> Decimal.Nil -> exists k, uint_str u = repeat "0" k ++ uint_str (Decimal.unorm u).
Proof.
  induction u as [|u IH|u IH|u IH|u IH|u IH|u IH|u IH|u IH|u IH|u IH]; intros NE; try congruence; try (exists 0; reflexivity).
  destruct u; try (exists 1; reflexivity); try (exists 0; reflexivity).
  destruct IH as (k & E); [discriminate|]. exists (S k). cbn [repeat app]. unfold Decimal.unorm in *. cbn [Decimal.nzhead] in *. 
  change (uint_str (Decimal.D0 (Decimal.D0 u))) with ("0" :: uint_str (Decimal.D0 u)). now rewrite E.
Qed.
Lemma digits_uint d : forallb is_digit d = true -> exists u, d = uint_str u /\ (d <> [] -> u <> Decimal.Nil).
Proof.
  induction d as [|x d IH]; cbn [forallb]; intros H; [exists Decimal.Nil; split; [reflexivity|congruence]|].
  apply andb_true_iff in H as [H1 H2]. destruct (IH H2) as (u & -> & _).
  assert (C : In x (map (fun n => ascii_of_N n) [48; 49; 50; 51; 52; 53; 54; 55; 56; 57]%N)).
  { revert H1. clear. destruct x as [[] [] [] [] [] [] [] []]; vm_compute; try discriminate; tauto. }
  cbn in C. destruct C as [<-|[<-|[<-|[<-|[<-|[<-|[<-|[<-|[<-|[<-|[]]]]]]]]]]].
  - exists (Decimal.D0 u); now split. - exists (Decimal.D1 u); now split. - exists (Decimal.D2 u); now split. - exists (Decimal.D3 u); now split.
  - exists (Decimal.D4 u); now split. - exists (Decimal.D5 u); now split. - exists (Decimal.D6 u); now split. - exists (Decimal.D7 u); now split.
  - exists (Decimal.D8 u); now split. - exists (Decimal.D9 u); now split.
Qed.
Lemma digits_numeral d : d <> [] -> forallb is_digit d = true -> numeral d (digits_Z d).
Proof.
  intros NE F. split; [apply N2Z.is_nonneg|]. destruct (digits_uint d F) as (u & E & U). subst d. destruct (uint_zeros u (U NE)) as (k & E). exists k.
  rewrite E at 1. f_equal. unfold digits_Z. rewrite show_pos by apply N2Z.is_nonneg. rewrite N2Z.id, uint_str_val. unfold show_N.
  now rewrite DecimalN.Unsigned.to_of.
Qed.
Lemma to_int_digits d : d <> [] -> forallb is_digit d = true -> to_int (Some d) = Ok (digits_Z d).
Proof. intros NE F. unfold to_int. now rewrite py_int_digits. Qed.

(** ** The first line that matches *)

Lemma first_match_answers {V} (conv : option str -> result V) r g (P : str -> V -> Prop) default lines :
  (forall t v, P t v -> exists m, rx_find r t = Some m /\ (do x <- group g m; conv x) = Ok v) ->
  (forall t m, rx_find r t = Some m -> exists v, P t v) ->
  answers P lines default (first_match conv (Ok default) r g lines).
Proof.
  intros F B. destruct (first_match_spec conv (Ok default) r g lines) as [(pre & t & m & post & -> & N1 & M & ->)|[N1 ->]].
  - left. destruct (B t m M) as (v & Pv). exists pre, t, post, v. repeat split; auto.
    + intros u v' Hu Pu. apply F in Pu as (m' & M' & _). specialize (N1 u Hu). congruence.
    + apply F in Pv as (m' & M' & E). rewrite M in M'. injection M' as <-. exact E.
  - right. split; [|reflexivity]. intros u v' Hu Pu. apply F in Pu as (m' & M' & _). specialize (N1 u Hu). congruence.
Qed.

Lemma sentence_found p n b ks k g t ws : reads (lit p) (line_T b ks k) n -> forallb proper ks = true -> 1 <= g <= n ->
  Forall2 fits ks ws -> line_of (lead_ok b) (tail_ok ks k) ws t ->
  exists m, rx_find (pattern false (lit p)) t = Some m /\ group g m = Ok (cap g (caps_of ks ws [])).
Proof.
  intros R PR G1 F HL. destruct (line_fwd _ _ _ _ _ _ _ R PR F HL) as (m & E). eexists. split; [exact E|].
  destruct g as [|g]; [lia|]. cbn [group m_groups].
  rewrite nth_error_map. rewrite (nth_error_nth' _ 0) by (rewrite seq_length; lia). rewrite seq_nth by lia. reflexivity.
Qed.
Theorem sentence_answers {V} (conv : option str -> result V) p n b ks k g (P : str -> V -> Prop) default lines :
  reads (lit p) (line_T b ks k) n -> forallb proper ks = true -> ks <> [] -> 1 <= g <= n ->
  (forall ws, Forall2 fits ks ws -> exists v, conv (cap g (caps_of ks ws [])) = Ok v) ->
  (forall t v, P t v <-> exists ws, Forall2 fits ks ws /\ line_of (lead_ok b) (tail_ok ks k) ws t /\ conv (cap g (caps_of ks ws [])) = Ok v) ->
  answers P lines default (first_match conv (Ok default) (pattern false (lit p)) g lines).
Proof.
  intros R PR NE G1 C E. apply first_match_answers.
  - intros t v Pv. apply E in Pv as (ws & F & HL & Cv). destruct (sentence_found _ _ _ _ _ _ _ _ R PR G1 F HL) as (m & M & Gm).
    exists m. split; [exact M|]. rewrite Gm. exact Cv.
  - intros t m M. apply (line_shape _ _ _ _ _ _ _ R NE) in M as (ws & F & HL). destruct (C ws F) as (v & Cv). exists v. apply E. eauto.
Qed.

(** ** Numbers *)

Lemma fits_words pre ws : Forall2 fits (map W pre) ws <-> ws = pre.
Proof.
  split.
  - revert ws. induction pre as [|w pre IH]; intros ws F; inversion F as [|? t ? ts F1 F2]; subst; [reflexivity|]. cbn in F1. subst. f_equal. now apply IH.
  - intros ->. induction pre; cbn; constructor; cbn; auto.
Qed.
Lemma fits_around pre k post ws : Forall2 fits (map W pre ++ k :: map W post) ws <-> exists t, ws = pre ++ t :: post /\ fits k t.
Proof.
  split.
  - intros F. apply Forall2_app_inv_l in F as (a & b & F1 & F2 & ->). apply fits_words in F1 as ->.
    inversion F2 as [|? t ? ts F3 F4]; subst. apply fits_words in F4 as ->. eauto.
  - intros (t & -> & F). apply Forall2_app; [now apply fits_words|]. constructor; [exact F|now apply fits_words].
Qed.
Lemma caps_words pre : forall ks ws c, caps_of (map W pre ++ ks) (pre ++ ws) c = caps_of ks ws c.
Proof. induction pre as [|w pre IH]; intros; [reflexivity|]. cbn. apply IH. Qed.
Lemma caps_after post : forall c, caps_of (map W post) post c = c.
Proof. induction post as [|w post IH]; intros; [reflexivity|]. cbn. apply IH. Qed.
Lemma caps_around pre k post t : caps_of (map W pre ++ k :: map W post) (pre ++ t :: post) [] = cap1 k t.
Proof. rewrite caps_words. cbn [caps_of]. now rewrite caps_after, List.app_nil_r. Qed.
Lemma proper_around pre k post : forallb nonwhite_head pre = true -> proper k = true -> forallb nonwhite_head post = true ->
  forallb proper (map W pre ++ k :: map W post) = true.
Proof.
  intros A1 B1 C1. rewrite forallb_app. cbn [forallb]. rewrite B1.
  assert (X : forall l, forallb proper (map W l) = forallb nonwhite_head l) by (induction l as [|w l IH]; cbn; [reflexivity|now rewrite IH]).
  now rewrite !X, A1, C1.
Qed.
Definition number_line (b : bool) (k : tail) (pre post : list str) (t : str) (n : Z) : Prop :=
  exists d, numeral d n /\ line_of (lead_ok b) (tail_ok (map W pre ++ N 1 :: map W post) k) (pre ++ d :: post) t.
Theorem number_answers p b k pre post default lines :
  reads (lit p) (line_T b (map W pre ++ N 1 :: map W post) k) 1 -> forallb nonwhite_head pre = true -> forallb nonwhite_head post = true ->
  answers (number_line b k pre post) lines default (first_match to_int (Ok default) (pattern false (lit p)) 1 lines).
Proof.
  intros R A1 B1. apply (sentence_answers to_int p 1 b (map W pre ++ N 1 :: map W post) k 1); auto.
  - now apply proper_around.
  - now destruct pre.
  - intros ws F. apply fits_around in F as (d & -> & F1 & F2). rewrite caps_around. cbn. exists (digits_Z d). now apply to_int_digits.
  - intros t v. split.
    + intros (d & Nd & HL). exists (pre ++ d :: post).
      pose proof (numeral_digits _ _ Nd) as DD. assert (NE : d <> []) by (destruct (numeral_head _ _ Nd) as (c & r & -> & _); discriminate).
      split; [apply fits_around; now exists d|]. split; [exact HL|]. rewrite caps_around. cbn [cap1 cap Nat.eqb]. rewrite to_int_digits by assumption.
      f_equal. now apply numeral_value.
    + intros (ws & F & HL & C1). apply fits_around in F as (d & -> & F1 & F2). rewrite caps_around in C1. cbn [cap1 cap Nat.eqb] in C1.
      rewrite to_int_digits in C1 by assumption. injection C1 as <-. exists d. split; [now apply digits_numeral|exact HL].
Qed.

(** ** Words *)
Definition word_line (b : bool) (k : tail) (pre post : list str) (t : str) (v : str) : Prop :=
  word v /\ line_of (lead_ok b) (tail_ok (map W pre ++ G 1 :: map W post) k) (pre ++ v :: post) t.
Theorem word_answers p b k pre post lines :
  reads (lit p) (line_T b (map W pre ++ G 1 :: map W post) k) 1 -> forallb nonwhite_head pre = true -> forallb nonwhite_head post = true ->
  answers (word_line b k pre post) lines [] (first_match to_str (Ok []) (pattern false (lit p)) 1 lines).
Proof.
  intros R A1 B1. apply (sentence_answers to_str p 1 b (map W pre ++ G 1 :: map W post) k 1); auto.
  - now apply proper_around.
  - now destruct pre.
  - intros ws F. apply fits_around in F as (d & -> & F1). rewrite caps_around. now exists d.
  - intros t v. split.
    + intros (Nd & HL). exists (pre ++ v :: post). split; [apply fits_around; now exists v|]. split; [exact HL|]. now rewrite caps_around.
    + intros (ws & F & HL & C1). apply fits_around in F as (d & -> & F1). rewrite caps_around in C1. injection C1 as <-. now split.
Qed.

(** ** Flags *)
Theorem sentence_yes p n b ks k g (P : str -> Prop) lines :
  reads (lit p) (line_T b ks k) n -> forallb proper ks = true -> ks <> [] -> 1 <= g <= n ->
  (forall ws, Forall2 fits ks ws -> exists x, cap g (caps_of ks ws []) = Some x /\ x <> []) ->
  (forall t, P t <-> exists ws, Forall2 fits ks ws /\ line_of (lead_ok b) (tail_ok ks k) ws t) ->
  answers_yes P lines (first_match to_bool (Ok false) (pattern false (lit p)) g lines).
Proof.
  intros R PR NE G1 C E.
  assert (X0 : answers (fun t v => P t /\ v = true) lines false (first_match to_bool (Ok false) (pattern false (lit p)) g lines)).
  { apply (sentence_answers to_bool p n b ks k g); auto.
    - intros ws F. eexists. reflexivity.
    - intros t v. split.
      + intros [Pt ->]. apply E in Pt as (ws & F & HL). exists ws. repeat split; auto. destruct (C ws F) as (x & -> & Hx). cbn. f_equal. now destruct x.
      + intros (ws & F & HL & Cv). split; [apply E; eauto|]. destruct (C ws F) as (x & Ex & Hx). rewrite Ex in Cv. cbn in Cv. injection Cv as <-. now destruct x. }
  destruct X0 as [(pre & t & post & v & -> & _ & [Pt ->] & ->)|[N1 ->]].
  - left. split; [reflexivity|]. exists t. split; [apply in_elt|exact Pt].
  - right. split; [reflexivity|]. intros t Ht Pt. now apply (N1 t true Ht).
Qed.

(** ** Lines with a repeated word *)

(** The word that may be repeated: digits, or a given word. *)
Inductive rep := Digits | Word (w : str).
Definition rep_item (u : rep) : item := match u with Digits => Run dg true | Word w => Lit w end.
Definition digit_word (d : str) : Prop := d <> [] /\ forallb is_digit d = true.
Definition rep_ok (u : rep) (t : str) : Prop := match u with Digits => digit_word t | Word w => t = w end.
(** The text does not begin with such a word. *)
Definition rep_stops (u : rep) (s : str) : Prop :=
  match u, s with
  | Digits, x :: _ => is_digit x = false
  | Word (y :: _), x :: _ => x <> y
  | _, _ => False
  end.
Definition rep_T (u : rep) : list item := [rep_item u; Run sp true].
(** Words with a gap after each. *)
Fixpoint heads (ws gs : list str) : str :=
  match ws, gs with w :: ws, g :: gs => w ++ g ++ heads ws gs | _, _ => [] end.
Definition gaps (ws gs : list str) : Prop := length ws = length gs /\ Forall gap gs.
Fixpoint rounds (n : nat) (ds gs : list str) (c : caps) : caps :=
  match ds, gs with d :: ds, g :: gs => rounds n ds gs ((n, d ++ g) :: c) | _, _ => c end.

Lemma rep_stop u s : rep_stops u s -> forall i c1 i' s' c', ~ M (den (rep_T u)) i s c1 i' s' c'.
Proof.
  intros HS i c1 i' s' c' HM. apply shape in HM. unfold rep_T in HM. destruct u as [|w]; cbn [rep_item] in HM.
  - apply D_run_eq in HM as (d & r & -> & B1 & B2 & _). destruct d as [|x d]; [now apply B2|]. inversion B1 as [|? ? E]; subst. rewrite in_dg in E. cbn in HS. congruence.
  - apply D_lit_eq in HM as (r & -> & _). destruct w as [|x w]; cbn in HS; congruence.
Qed.
Lemma rep_starts u t : rep_ok u t -> forall s, rep_stops u s -> s <> [].
Proof. destruct s; [|discriminate]. destruct u as [|[|]]; cbn; tauto. Qed.
Lemma heads_nonspace u ds gs s : Forall (rep_ok u) ds -> length ds = length gs -> nonwhite_head s = true -> (forall w, u = Word w -> nonwhite_head w = true) ->
  nonwhite_head (heads ds gs ++ s) = true.
Proof.
  intros F HLn HS HU. destruct F as [|d ds F1 F]; [exact HS|]. destruct gs as [|g gs]; [discriminate|]. cbn [heads]. rewrite <- app_assoc.
  assert (HD : nonwhite_head d = true).
  { destruct u as [|w]; cbn in F1; [|subst; now apply HU]. destruct F1 as [F1 F2]. destruct d as [|x d]; [congruence|]. cbn in *.
    apply andb_true_iff in F2 as [F2 _]. now rewrite (digit_nonspace _ F2). }
  destruct d; [discriminate|exact HD].
Qed.
Lemma many_fwd u n T : forall ds gs s s' c c', Forall (rep_ok u) ds -> gaps ds gs -> rep_stops u s -> nonwhite_head s = true ->
  (forall w, u = Word w -> nonwhite_head w = true) ->
  D true T s s' (rounds n ds gs c) c' -> D true (Many n (rep_T u) :: T) (heads ds gs ++ s) s' c c'.
Proof.
  intros ds gs s s' c c' F. revert gs c. induction F as [|d ds F1 F IH]; intros gs c [HLn HG] HS HN HU HD.
  - cbn. apply D_stop; [|exact HD]. intros _. now apply rep_stop.
  - destruct gs as [|g gs]; [discriminate|]. inversion HG as [|? ? [G1 G2] G3]; subst. cbn [heads rounds] in *. rewrite <- !app_assoc, (app_assoc d).
    apply (D_more true n (rep_T u) T (d ++ g) _ s' c c c').
    + destruct d; [|discriminate]. destruct g; [congruence|discriminate].
    + rewrite <- app_assoc. unfold rep_T.
      assert (HR : D true [Run sp true] (g ++ heads ds gs ++ s) (heads ds gs ++ s) c c).
      { apply D_run; [now apply all_sp|auto| |constructor]. intros _. apply (stops_iff _ _ _ in_sp).
        assert (X0 : nonwhite_head (heads ds gs ++ s) = true) by (eapply heads_nonspace; eauto). destruct (heads ds gs ++ s) as [|y z]; [discriminate|]. cbn in *. now destruct (is_space y). }
      destruct u as [|w]; cbn [rep_item rep_ok] in *.
      * destruct F1 as [F1 F2]. apply D_run; auto; [now apply all_dg|]. intros _. apply (stops_iff _ _ _ in_dg).
        destruct g as [|y g]; [congruence|]. cbn. unfold white in G1. cbn in G1. apply andb_true_iff in G1 as [G1 _].
        destruct (is_digit y) eqn:E; [apply digit_nonspace in E; congruence|reflexivity].
      * subst. now apply D_lit.
    + apply IH; auto. split; auto.
Qed.
Lemma many_shape u n T z s' c c' : D false (Many n (rep_T u) :: T) z s' c c' ->
  exists ds gs s, z = heads ds gs ++ s /\ Forall (rep_ok u) ds /\ gaps ds gs /\ D false T s s' (rounds n ds gs c) c'.
Proof.
  remember (Many n (rep_T u) :: T) as Q eqn:E. intros HD. induction HD as [| | | | | |n' U T' s s' c c' A1 HD _|n' U T' w s s' c c1 c' N0 A1 _ HD IH| |]; try discriminate.
  - injection E as -> -> ->. exists [], [], s. repeat split; auto.
  - injection E as -> -> ->. destruct (IH eq_refl) as (ds & gs & r & -> & F & [HLn HG] & HD'). unfold rep_T in A1.
    assert (X0 : exists d g, w = d ++ g /\ rep_ok u d /\ gap g /\ c1 = c).
    { destruct u as [|x]; cbn [rep_item] in A1.
      - apply D_run_eq in A1 as (d & r1 & E1 & B1 & B2 & A1). apply D_run_eq in A1 as (g & r2 & E2 & B3 & B4 & A1). apply D_nil_eq in A1 as (E3 & ->). subst.
        rewrite (app_assoc d) in E1. apply app_inv_tail in E1. exists d, g. apply all_dg in B1. apply all_sp in B3. repeat split; auto.
      - apply D_lit_eq in A1 as (r1 & E1 & A1). apply D_run_eq in A1 as (g & r2 & E2 & B3 & B4 & A1). apply D_nil_eq in A1 as (E3 & ->). subst.
        rewrite (app_assoc x) in E1. apply app_inv_tail in E1. exists x, g. apply all_sp in B3. repeat split; auto. }
    destruct X0 as (d & g & -> & R1 & G1 & ->). exists (d :: ds), (g :: gs), r. cbn [heads rounds]. rewrite <- !app_assoc.
    repeat split; auto. cbn. now rewrite HLn.
Qed.
Lemma phrase_heads ds : forall gs ws p, gaps ds gs -> phrase ws p -> phrase (ds ++ ws) (heads ds gs ++ p).
Proof.
  induction ds as [|d ds IH]; intros gs ws p [HLn HG] P; [exact P|]. destruct gs as [|g gs]; [discriminate|]. inversion HG; subst.
  cbn [app heads]. rewrite <- !app_assoc. constructor; auto. apply IH; auto. split; auto.
Qed.
Lemma phrase_split ds : forall ws q, ws <> [] -> phrase (ds ++ ws) q -> exists gs p, q = heads ds gs ++ p /\ gaps ds gs /\ phrase ws p.
Proof.
  induction ds as [|d ds IH]; intros ws q NE P.
  - exists [], q. repeat split; auto.
  - cbn [app] in P. inversion P as [? E|? g ? p G1 P']; subst; [match goal with X : [] = _ ++ _ |- _ => symmetry in X; apply app_eq_nil in X; tauto end|].
    apply IH in P' as (gs & p' & -> & [E1 E2] & P'); auto. exists (g :: gs), p'. cbn [heads]. rewrite <- !app_assoc. repeat split; auto. cbn. now rewrite E1.
Qed.
Lemma cap_caps_of g ks : forall ws c, cap g (caps_of ks ws c) = match cap g (caps_of ks ws []) with Some x => Some x | None => cap g c end.
Proof.
  assert (A1 : forall a c, cap g (a ++ c) = match cap g a with Some x => Some x | None => cap g c end).
  { induction a as [|[m x] a IH]; intros c; [reflexivity|]. cbn. destruct (Nat.eqb g m); auto. }
  induction ks as [|k ks IH]; intros ws c; [reflexivity|]. destruct ws as [|w ws]; [reflexivity|]. cbn [caps_of].
  rewrite (IH ws (cap1 k w ++ c)), (IH ws (cap1 k w ++ [])). destruct (cap g (caps_of ks ws [])); [reflexivity|]. rewrite !A1. now destruct (cap g (cap1 k w)).
Qed.
Lemma cap_rounds g n ds : forall gs c, g <> n -> cap g (rounds n ds gs c) = cap g c.
Proof.
  induction ds as [|d ds IH]; intros gs c NE; [reflexivity|]. destruct gs as [|x gs]; [reflexivity|]. cbn [rounds]. rewrite IH by assumption. cbn.
  now replace (Nat.eqb g n) with false by (symmetry; now apply Nat.eqb_neq).
Qed.

(** A line: words, then the repeated word, then a sentence. *)
Definition rep_line_T (pre : list str) (n : nat) (u : rep) (ks : list slot) (k : tail) : list item :=
  Run sp false :: flat_map (fun w => [Lit w; Run sp true]) pre ++ Many n (rep_T u) :: sent ks ++ tail_items k.
Definition hd_stops (u : rep) (ks : list slot) : Prop := forall ws p, Forall2 fits ks ws -> phrase ws p -> rep_stops u p.

Lemma words_fwd pre : forall gs T s s' c c', gaps pre gs -> forallb nonwhite_head pre = true -> nonwhite_head s = true ->
  D true T s s' c c' -> D true (flat_map (fun w => [Lit w; Run sp true]) pre ++ T) (heads pre gs ++ s) s' c c'.
Proof.
  induction pre as [|w pre IH]; intros gs T s s' c c' [HLn HG] HP HN HD; [exact HD|]. destruct gs as [|g gs]; [discriminate|]. inversion HG as [|? ? [G1 G2] G3]; subst.
  cbn [forallb] in HP. apply andb_true_iff in HP as [P1 P2]. cbn [flat_map heads app]. rewrite <- !app_assoc. apply D_lit. apply D_run; auto.
  - now apply all_sp.
  - intros _. apply (stops_iff _ _ _ in_sp).
    assert (X0 : nonwhite_head (heads pre gs ++ s) = true).
    { destruct pre as [|v pre]; [exact HN|]. destruct gs as [|h gs]; [discriminate|]. cbn [heads forallb] in *. apply andb_true_iff in P2 as [P2 _]. rewrite <- app_assoc. now destruct v. }
    destruct (heads pre gs ++ s) as [|y z]; [discriminate|]. cbn in *. now destruct (is_space y).
  - apply IH; auto. split; auto.
Qed.
Lemma words_shape pre : forall T z s' c c', D false (flat_map (fun w => [Lit w; Run sp true]) pre ++ T) z s' c c' ->
  exists gs s, z = heads pre gs ++ s /\ gaps pre gs /\ D false T s s' c c'.
Proof.
  induction pre as [|w pre IH]; intros T z s' c c' HD.
  - exists [], z. repeat split; auto.
  - cbn [flat_map app] in HD. apply D_lit_eq in HD as (r & -> & HD). apply D_run_eq in HD as (g & r' & -> & B1 & B2 & HD).
    apply IH in HD as (gs & s & -> & [E1 E2] & HD). exists (g :: gs), s. cbn [heads]. rewrite <- !app_assoc. apply all_sp in B1. repeat split; auto; [cbn; now rewrite E1|].
    constructor; auto. split; auto.
Qed.

Definition rep_line (u : rep) (pre : list str) (ks : list slot) (k : tail) (ws : list str) (t : str) : Prop :=
  exists ds, Forall (rep_ok u) ds /\ line_of white (tail_ok ks k) (pre ++ ds ++ ws) t.

Lemma fits_head_phrase ks ws p : ks <> [] -> forallb proper ks = true -> Forall2 fits ks ws -> phrase ws p -> nonwhite_head p = true.
Proof.
  intros NE PR F P. inversion F as [|k0 t0 ks0 ts0 F1 F2]; subst; [congruence|]. cbn [forallb] in PR. apply andb_true_iff in PR as [Q1 _].
  pose proof (fits_head _ _ Q1 F1) as N1. destruct t0 as [|y t0]; [discriminate|]. inversion P; subst; exact N1.
Qed.
Lemma nonwhite_head_app a b : nonwhite_head a = true -> nonwhite_head (a ++ b) = true.
Proof. now destruct a. Qed.
Theorem rep_fwd p n pre u ks k g t ws : reads (lit p) (rep_line_T pre 1 u ks k) n -> forallb nonwhite_head pre = true -> forallb proper ks = true -> ks <> [] ->
  (forall w, u = Word w -> nonwhite_head w = true) -> hd_stops u ks -> 1 < g <= n ->
  Forall2 fits ks ws -> rep_line u pre ks k ws t ->
  exists m, rx_find (pattern false (lit p)) t = Some m /\ group g m = Ok (cap g (caps_of ks ws [])).
Proof.
  intros R PP PR NE HU HS G1 F (ds & FD & i & q & e & -> & WI & P & E).
  assert (NW : ws <> []) by (inversion F; subst; congruence).
  apply phrase_split in P as (gs1 & q1 & -> & GP & P); [|destruct ds; [assumption|discriminate]]. apply phrase_split in P as (gs2 & q2 & -> & GD & P); [|assumption].
  assert (HD : exists s', D true (rep_line_T pre 1 u ks k) (i ++ (heads pre gs1 ++ heads ds gs2 ++ q2) ++ e) s' [] (caps_of ks ws (rounds 1 ds gs2 []))).
  { assert (H' : exists s', D true (tail_items k) e s' (caps_of ks ws (rounds 1 ds gs2 [])) (caps_of ks ws (rounds 1 ds gs2 []))).
    { destruct k; cbn [tail_items tail_ok] in *.
      - exists e. constructor; [exact E|constructor].
      - exists []. rewrite <- (List.app_nil_r e) at 1. apply D_run; [now apply all_sp|discriminate|intros _; exact I|constructor; [now left|constructor]].
      - exists e. constructor. }
    destruct H' as (s' & H'). exists s'. unfold rep_line_T. rewrite <- !app_assoc.
    assert (X1 : nonwhite_head (q2 ++ e) = true) by (apply nonwhite_head_app; eapply fits_head_phrase; eauto).
    assert (X2 : nonwhite_head (heads ds gs2 ++ q2 ++ e) = true) by (eapply heads_nonspace; eauto; apply GD).
    assert (X3 : nonwhite_head (heads pre gs1 ++ heads ds gs2 ++ q2 ++ e) = true).
    { destruct pre as [|v pre]; [exact X2|]. destruct gs1 as [|h gs]; [now destruct GP|]. cbn [heads forallb] in *. apply andb_true_iff in PP as [P2 _]. rewrite <- app_assoc. now destruct v. }
    apply D_run; [now apply all_sp|discriminate| |].
    - intros _. apply (stops_iff _ _ _ in_sp). destruct (heads pre gs1 ++ heads ds gs2 ++ q2 ++ e) as [|y z]; [discriminate|]. cbn in *. now destruct (is_space y).
    - apply words_fwd; auto. apply many_fwd; auto.
      + pose proof (HS ws q2 F P) as Z. clear -Z. destruct u as [|[|y w]], q2; cbn in *; try tauto.
      + eapply sent_fwd; eauto. now apply tail_ends in E. }
  destruct HD as (s' & HD). destruct (reads_some _ _ _ _ _ _ R HD) as (m & M1). eexists. split; [exact M1|].
  destruct g as [|g]; [lia|]. cbn [group m_groups].
  rewrite nth_error_map. rewrite (nth_error_nth' _ 0) by (rewrite seq_length; lia). rewrite seq_nth by lia. cbn [option_map]. f_equal.
  rewrite cap_caps_of, cap_rounds by lia. cbn [cap Nat.add]. now destruct (cap (S g) (caps_of ks ws [])).
Qed.
Theorem rep_shape p n pre u ks k t m : reads (lit p) (rep_line_T pre 1 u ks k) n -> ks <> [] -> rx_find (pattern false (lit p)) t = Some m ->
  exists ws, Forall2 fits ks ws /\ rep_line u pre ks k ws t.
Proof.
  intros R NE HM. apply (reads_shape _ _ _ _ _ R) in HM as (s' & c & HD & _). unfold rep_line_T in HD.
  apply D_run_eq in HD as (i & r & -> & K1 & _ & HD). apply words_shape in HD as (gs1 & r1 & -> & GP & HD). apply many_shape in HD as (ds & gs2 & r2 & -> & FD & GD & HD).
  apply sent_shape in HD as (ws & q & e & -> & P & F & K4); [|assumption].
  apply all_sp in K1. destruct k; cbn [tail_items] in K4.
  - inversion K4 as [| | | | |? ? ? ? ? E| | | |]; subst. exists ws. split; [exact F|]. exists ds. split; [exact FD|]. exists i, (heads pre gs1 ++ heads ds gs2 ++ q), e.
    rewrite <- !app_assoc. repeat split; auto. apply phrase_heads; auto. now apply phrase_heads.
  - apply D_run_eq in K4 as (w & r & -> & L1 & _ & L4). inversion L4 as [| | | | |? ? ? ? ? E| | | |]; subst. exists ws. split; [exact F|].
    exists ds. split; [exact FD|]. exists i, (heads pre gs1 ++ heads ds gs2 ++ q), (w ++ r). rewrite <- !app_assoc. repeat split; auto.
    + apply phrase_heads; auto. now apply phrase_heads.
    + apply white_app. apply all_sp in L1. split; [exact L1|now apply line_end_white].
  - destruct (extend_last ks ws q e F P) as (ws' & q' & e' & -> & P' & F' & E'). exists ws'. split; [exact F'|]. exists ds. split; [exact FD|].
    exists i, (heads pre gs1 ++ heads ds gs2 ++ q'), e'. rewrite <- !app_assoc. repeat split; auto. apply phrase_heads; auto. now apply phrase_heads.
Qed.
Theorem rep_answers {V} (conv : option str -> result V) p n pre u ks k g (P : str -> V -> Prop) default lines :
  reads (lit p) (rep_line_T pre 1 u ks k) n -> forallb nonwhite_head pre = true -> forallb proper ks = true -> ks <> [] ->
  (forall w, u = Word w -> nonwhite_head w = true) -> hd_stops u ks -> 1 < g <= n ->
  (forall ws, Forall2 fits ks ws -> exists v, conv (cap g (caps_of ks ws [])) = Ok v) ->
  (forall t v, P t v <-> exists ws, Forall2 fits ks ws /\ rep_line u pre ks k ws t /\ conv (cap g (caps_of ks ws [])) = Ok v) ->
  answers P lines default (first_match conv (Ok default) (pattern false (lit p)) g lines).
Proof.
  intros R PP PR NE HU HS G1 C E. apply first_match_answers.
  - intros t v Pv. apply E in Pv as (ws & F & HL & Cv). destruct (rep_fwd p n pre u ks k g t ws) as (m & M & Gm); auto.
    exists m. split; [exact M|]. rewrite Gm. exact Cv.
  - intros t m M. apply (rep_shape _ _ _ _ _ _ _ _ R NE) in M as (ws & F & HL). destruct (C ws F) as (v & Cv). exists v. apply E. eauto.
Qed.

(** ** The rest of a line *)
Lemma in_dot c : in_set dot c = negb (Ascii.eqb c "010").
Proof. destruct c as [[] [] [] [] [] [] [] []]; reflexivity. Qed.
Lemma all_dot w : all_in dot w <-> no_newline w. Proof. apply all_in_iff, in_dot. Qed.
Lemma text_fwd p w o t v : reads (lit p) [Run sp false; Lit w; Run sp true; Grp 1 [One ns; Run dot o]; End] 1 -> nonwhite_head w = true ->
  text_line w o t v -> exists m, rx_find (pattern false (lit p)) t = Some m /\ group 1 m = Ok (Some v).
Proof.
  intros R HW (i & g & e & x & r & -> & WI & [G1 G2] & -> & X1 & R1 & R2 & E).
  assert (HD : D true [Run sp false; Lit w; Run sp true; Grp 1 [One ns; Run dot o]; End] (i ++ w ++ g ++ (x :: r) ++ e) e [] [(1, x :: r)]).
  { apply D_run; [now apply all_sp|discriminate| |].
    - intros _. apply (stops_iff _ _ _ in_sp). destruct w as [|y w]; [discriminate|]. cbn in *. now destruct (is_space y).
    - apply D_lit, D_run; [now apply all_sp|auto| |].
      + intros _. apply (stops_iff _ _ _ in_sp). exact X1.
      + apply (D_grp true 1 _ _ (x :: r) e e [] [] _).
        * cbn [app]. apply D_one; [rewrite in_ns; now rewrite X1|]. apply D_run; [now apply all_dot|exact R2| |constructor]. intros _. apply (stops_iff _ _ _ in_dot).
          destruct E as [-> | ->]; [exact I|reflexivity].
        * constructor; [exact E|constructor]. }
  destruct (reads_some _ _ _ _ _ _ R HD) as (m & M1). eexists. split; [exact M1|]. reflexivity.
Qed.
Lemma text_shape p w o t m : reads (lit p) [Run sp false; Lit w; Run sp true; Grp 1 [One ns; Run dot o]; End] 1 ->
  rx_find (pattern false (lit p)) t = Some m -> exists v, text_line w o t v.
Proof.
  intros R HM. apply (reads_shape _ _ _ _ _ R) in HM as (s' & c & HD & _). apply D_run_eq in HD as (i & r & -> & K1 & _ & HD).
  apply D_lit_eq in HD as (r1 & -> & HD). apply D_run_eq in HD as (g & r2 & -> & K2 & K3 & HD). apply D_grp_eq in HD as (v & e & c1 & E & HD & HE).
  apply D_one_eq in HD as (x & r3 & E1 & X1 & HD). apply D_run_eq in HD as (r & r4 & E2 & K4 & K5 & HD). apply D_nil_eq in HD as (E3 & ->). subst r3 r4.
  inversion HE as [| | | | |? ? ? ? ? EE| | | |]; subst. exists (x :: r), i, g, e, x, r. apply all_sp in K1, K2. apply all_dot in K4. rewrite in_ns in X1.
  rewrite E1. repeat split; auto. now apply negb_true_iff.
Qed.
Theorem text_answers p w o lines : reads (lit p) [Run sp false; Lit w; Run sp true; Grp 1 [One ns; Run dot o]; End] 1 -> nonwhite_head w = true ->
  answers (text_line w o) lines [] (first_match to_str (Ok []) (pattern false (lit p)) 1 lines).
Proof.
  intros R HW. apply first_match_answers.
  - intros t v P. destruct (text_fwd p w o t v R HW P) as (m & M1 & G1). exists m. split; [exact M1|]. now rewrite G1.
  - intros t m HM. now apply (text_shape p w o t m).
Qed.
Theorem text_yes p w o lines : reads (lit p) [Run sp false; Lit w; Run sp true; Grp 1 [One ns; Run dot o]; End] 1 -> nonwhite_head w = true ->
  answers_yes (fun t => exists v, text_line w o t v) lines (first_match to_bool (Ok false) (pattern false (lit p)) 1 lines).
Proof.
  intros R HW.
  assert (X0 : answers (fun t b => (exists v, text_line w o t v) /\ b = true) lines false (first_match to_bool (Ok false) (pattern false (lit p)) 1 lines)).
  { apply first_match_answers.
    - intros t b [(v & P) ->]. destruct (text_fwd p w o t v R HW P) as (m & M1 & G1). exists m. split; [exact M1|]. rewrite G1.
      destruct P as (? & ? & ? & ? & ? & _ & _ & _ & -> & _). reflexivity.
    - intros t m HM. exists true. split; [now apply (text_shape p w o t m)|reflexivity]. }
  destruct X0 as [(pre & t & post & v & -> & _ & [Pt ->] & ->)|[N1 ->]].
  - left. split; [reflexivity|]. exists t. split; [apply in_elt|exact Pt].
  - right. split; [reflexivity|]. intros t Ht Pt. now apply (N1 t true Ht).
Qed.

(** ** Groups by name *)
Definition group_of (p nm : string) : option nat :=
  match compile false (lit p) with
  | Some (_, e) => match find (fun x => str_eqb (fst x) (lit nm)) (snd e) with Some (_, n) => Some n | None => None end
  | None => None
  end.
Lemma dict_first p nm g own below : group_of p nm = Some (S g) ->
  (exists c, option_map (fun x => fst (snd x)) (compile false (lit p)) = Some c /\ g < c) ->
  first_match (fun o => Ok (Some o)) (Ok None) (pattern false (lit p)) (S g) (own :: below) = Ok (iter_dict p nm own below).
Proof.
  intros HG (c & HC & HL). unfold iter_dict. generalize (own :: below) as lines. intros lines.
  induction lines as [|t lines IH]; [reflexivity|]. cbn [first_match first_found].
  destruct (rx_find (pattern false (lit p)) t) as [m|] eqn:HM; [|exact IH].
  cbn [rx_find pattern] in HM. unfold group_of in HG. unfold named. destruct (compile false (lit p)) as [[r e]|]; [|discriminate].
  destruct (find _ (snd e)) as [[x n]|]; [|discriminate]. injection HG as ->. cbn in HC. injection HC as <-.
  destruct (search r t) as [[u cs]|]; [|discriminate]. injection HM as <-. cbn [group m_groups Nat.pred].
  unfold typed_group. cbn [group m_groups]. rewrite nth_error_map. rewrite (nth_error_nth' _ 0) by (rewrite seq_length; lia). cbn [option_map bind]. f_equal. f_equal.
  rewrite (nth_indep _ None (cap 0 cs)) by (rewrite map_length, seq_length; lia). now rewrite (map_nth (fun n => cap n cs)).
Qed.
Lemma dict_answers p nm g n b ks k (P : str -> option str -> Prop) own below :
  group_of p nm = Some (S g) -> (exists c, option_map (fun x => fst (snd x)) (compile false (lit p)) = Some c /\ g < c) ->
  reads (lit p) (line_T b ks k) n -> forallb proper ks = true -> ks <> [] -> S g <= n ->
  (forall t v, P t v <-> exists ws, Forall2 fits ks ws /\ line_of (lead_ok b) (tail_ok ks k) ws t /\ cap (S g) (caps_of ks ws []) = v) ->
  answers (fun t v => exists v', v = Some v' /\ P t v') (own :: below) None (Ok (iter_dict p nm own below)).
Proof.
  intros HG HC R PR NE G1 E. rewrite <- (dict_first p nm g own below HG HC). apply (sentence_answers _ p n b ks k (S g)); auto; [lia| |].
  - intros ws F. eexists. reflexivity.
  - intros t v. split.
    + intros (v' & -> & Pv). apply E in Pv as (ws & F & HL & C1). exists ws. rewrite C1. auto.
    + intros (ws & F & HL & C1). injection C1 as <-. eexists. split; [reflexivity|]. apply E. exists ws. auto.
Qed.

(** The line that decides all names of a groupdict. *)
Lemma dict_line p n b ks k own below : reads (lit p) (line_T b ks k) n -> forallb proper ks = true -> ks <> [] ->
  (exists pre t post ws, own :: below = pre ++ t :: post /\
     (forall u ws', In u pre -> Forall2 fits ks ws' -> ~ line_of (lead_ok b) (tail_ok ks k) ws' u) /\
     Forall2 fits ks ws /\ line_of (lead_ok b) (tail_ok ks k) ws t /\
     forall nm g, group_of p nm = Some (S g) -> S g <= n -> iter_dict p nm own below = Some (cap (S g) (caps_of ks ws []))) \/
  ((forall u ws', In u (own :: below) -> Forall2 fits ks ws' -> ~ line_of (lead_ok b) (tail_ok ks k) ws' u) /\
   forall nm, iter_dict p nm own below = None).
Proof.
  intros R PR NE.
  assert (NO : forall u, rx_find (pattern false (lit p)) u = None -> forall ws', Forall2 fits ks ws' -> ~ line_of (lead_ok b) (tail_ok ks k) ws' u).
  { intros u HN ws' F HL. destruct (line_fwd _ _ _ _ _ _ _ R PR F HL) as (m & E). congruence. }
  destruct (first_found_spec (pattern false (lit p)) (own :: below)) as [(pre & t & m & post & E & N1 & HM & HF)|[N1 HF]].
  - left. destruct (line_shape _ _ _ _ _ _ _ R NE HM) as (ws & F & HL). exists pre, t, post, ws. split; [exact E|]. split; [|split; [exact F|split; [exact HL|]]].
    + intros u ws' Hu F'. apply NO; auto.
    + intros nm g HG Hg. unfold iter_dict. rewrite HF. f_equal. destruct (line_fwd _ _ _ _ _ _ _ R PR F HL) as (m0 & E0). rewrite HM in E0. injection E0 as ->.
      unfold named, group_of in *. unfold reads in R. destruct (compile false (lit p)) as [[r e]|]; [|discriminate].
      destruct (find _ (snd e)) as [[x g']|]; [|discriminate]. injection HG as ->. cbn [m_groups Nat.pred].
      rewrite (nth_indep _ None (cap 0 (caps_of ks ws []))) by (rewrite map_length, seq_length; lia). rewrite (map_nth (fun n => cap n (caps_of ks ws []))). now rewrite seq_nth by lia.
  - right. split; [|intros nm; unfold iter_dict; now rewrite HF]. intros u ws' Hu F'. apply NO; auto.
Qed.
