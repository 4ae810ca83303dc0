(** ICMP entries of an ASA access list. *)
From Coq Require Import Ascii String NArith ZArith Bool List Lia.
From Verif Require Import PyBase PyStr PyStrFacts PyRe PyReFacts PyReTmpl PyReGets PyReWords PyReLazy PyReTok AclModel AclSpec AclFacts AclWords AclDict PAcl.
Import ListNotations.
Local Open Scope char_scope.

(** ** What follows a word *)
Definition rest (ws : list str) (s : str) : Prop := (ws = [] /\ s = []) \/ (exists g t, s = g ++ t /\ a_gap g /\ spaced ws t).
Lemma rest_start ws s : rest ws s -> starts_space s.
Proof. intros [[_ ->]|(g & t & -> & Gg & _)]; [exact I|now apply space_start]. Qed.
Lemma rest_cons w ws s : rest (w :: ws) s -> exists g u, s = g ++ w ++ u /\ a_gap g /\ a_word w /\ rest ws u.
Proof.
  intros [[K _]|(g & t & -> & Gg & SP)]; [discriminate K|]. destruct ws as [|v ws].
  - pose proof (spaced_word _ _ _ SP). apply spaced_one in SP as ->. exists g, []. rewrite app_nil_r. split; [reflexivity|]. split; [exact Gg|]. split; [assumption|]. now left.
  - apply spaced_more in SP as (g' & u & -> & Wv & Gg' & SP). exists g, (g' ++ u). split; [reflexivity|]. split; [exact Gg|]. split; [exact Wv|]. right. eauto.
Qed.
Lemma rest_nil s : rest [] s -> s = [].
Proof. intros [[_ E]|(g & t & _ & _ & SP)]; [exact E|inversion SP]. Qed.
Lemma spaced_rest w ws t : spaced (w :: ws) t -> exists u, t = w ++ u /\ a_word w /\ rest ws u.
Proof.
  intros SP. destruct ws as [|v ws].
  - pose proof (spaced_word _ _ _ SP). apply spaced_one in SP as ->. exists []. rewrite app_nil_r. split; [reflexivity|]. split; [assumption|]. now left.
  - apply spaced_more in SP as (g & u & -> & Wv & Gg & SP). exists (g ++ u). split; [reflexivity|]. split; [exact Wv|]. right. eauto.
Qed.
(** ** Options *)
Lemma skip_gap r i s c ws : rest ws s -> (forall i x t c, is_space x = true -> mat (tr r) i (x :: t) c (fun _ _ _ => Some tt) = None) ->
  (match ws with w :: _ => forall i u c, starts_space u -> mat (tr r) i (w ++ u) c (fun _ _ _ => Some tt) = None | [] => True end) ->
  forall i' s' c', ~ M (tr (WCat WSp r)) i s c i' s' c'.
Proof.
  intros RS FM NW i' s' c' HM. cbn [tr] in HM. apply M_cat_iff in HM as (i1 & s1 & c1 & H1 & H2). apply M_plus_iff in H1 as (g0 & E0 & NE & AG & _).
  destruct ws as [|w ws]; [apply rest_nil in RS; subst s; destruct g0; [congruence|discriminate E0]|]. apply rest_cons in RS as (g & u & -> & GG & Ww & RU). destruct GG as (Ng & Fg).
  assert (SPLIT : (exists x t, s1 = x :: t /\ is_space x = true) \/ s1 = w ++ u).
  { clear H2 NE Ng. revert g0 E0 AG. induction Fg as [|x g Sx Fg IH]; intros g0 E0 AG; cbn [app] in E0.
    - right. destruct g0 as [|y g0]; [now cbn in E0|]. exfalso. destruct Ww as [NW' Fw]. destruct w as [|z w]; [congruence|]. cbn in E0. injection E0 as -> _. apply Forall_inv in Fw, AG. unfold in_set in AG. cbn in AG. rewrite Fw in AG. discriminate AG.
    - destruct g0 as [|y g0]; cbn in E0; [left; rewrite <- E0; eauto|]. injection E0 as <- E0. apply (IH g0 E0). now apply Forall_inv_tail in AG. }
  destruct SPLIT as [(x & t & -> & Sx)| -> ].
  - apply (no_M _ _ _ _ (FM i1 x t c1 Sx) _ _ _ H2).
  - apply (no_M _ _ _ _ (NW i1 u c1 (rest_start _ _ RU)) _ _ _ H2).
Qed.
Lemma gets_skip_opt r i s c : (forall i' s' c', ~ M (tr r) i s c i' s' c') -> gets (tr (wopt r)) i s c i s c.
Proof. intros NM. cbn [tr wopt]. apply gets_right; [exact NM|apply gets_eps]. Qed.
Lemma gets_take_opt r i s c i' s' c' : gets (tr r) i s c i' s' c' -> gets (tr (wopt r)) i s c i' s' c'.
Proof. intros K. cbn [tr wopt]. now apply gets_left. Qed.
Ltac no_start := intros jj xx tt0 dd Sxx; destruct xx as [b0 b1 b2 b3 b4 b5 b6 b7]; destruct b0, b1, b2, b3, b4, b5, b6, b7; try discriminate Sxx; reflexivity.
Lemma lit_start n k i x t c : match lit k with y :: _ => is_space y = false | [] => False end -> is_space x = true -> mat (tr (tok n (r_lit k))) i (x :: t) c (fun _ _ _ => Some tt) = None.
Proof.
  intros Sy Sx. unfold tok, r_lit. cbn [tr mat]. destruct (lit k) as [|y w]; [destruct Sy|]. cbn [chars]; unfold chr; cbn [mat]. rewrite in_chrb. destruct (Ascii.eqb x y) eqn:E; [|reflexivity]. apply Ascii.eqb_eq in E. congruence.
Qed.
Lemma icmp_start : forall i x t c, is_space x = true -> mat (tr (tok 76 r_icmp)) i (x :: t) c (fun _ _ _ => Some tt) = None.
Proof. no_start. Qed.
Lemma level_start n : forall i x t c, is_space x = true -> mat (tr (tok n r_level)) i (x :: t) c (fun _ _ _ => Some tt) = None.
Proof. no_start. Qed.
Lemma option_not_icmp w : one_of option_keywords w -> forall i u c, starts_space u -> mat (tr (tok 76 r_icmp)) i (w ++ u) c (fun _ _ _ => Some tt) = None.
Proof. intros (k & I0 & ->) i u c _. cbn in I0. repeat (destruct I0 as [<-|I0]; [reflexivity|]). destruct I0. Qed.
Lemma gets_step q j y s c i' s' c' : in_set q y = true -> gets REps (S j) s c i' s' c' -> gets (RSet q) j (y :: s) c i' s' c'.
Proof. intros Y K R k z E. cbn [mat]. rewrite Y. exact (K R k z E). Qed.
Ltac run_chars := eapply gets_to; [repeat (eapply gets_cat; [apply gets_set; reflexivity|]); first [apply gets_set; reflexivity|apply gets_eps]|cbn; lia].
Ltac no_branch := apply no_M; first [reflexivity | match goal with |- context [_ :: ?u] => is_var u; destruct u as [|x u]; [reflexivity|]; destruct x as [b0 b1 b2 b3 b4 b5 b6 b7]; destruct b0, b1, b2, b3, b4, b5, b6, b7; first [reflexivity|match goal with K : starts_space _ |- _ => discriminate K end] end].
Ltac pick := repeat first [apply gets_left; solve [run_chars] | apply gets_right; [no_branch|]]; try solve [run_chars].
Lemma digit_no q x : is_digit x = true -> (forall x, is_digit x = true -> in_set q x = false) -> in_set q x = false.
Proof. auto. Qed.
Lemma gets_icmp i w u c : one_of icmp_names w \/ digits w -> starts_space u -> gets (tr (tok 76 r_icmp)) i (w ++ u) c (i + length w) u ((76, w) :: c).
Proof.
  intros GK Su. cbn [tr tok]. apply gets_grp; [reflexivity|]. destruct GK as [(k & I0 & ->)|D].
  - unfold r_icmp. cbn in I0. repeat (destruct I0 as [<-|I0]; [cbn [app lit list_ascii_of_string]; pick|]). destruct I0.
  - unfold r_icmp. repeat (apply gets_right; [apply no_M; destruct D as [NE F]; destruct w as [|x w]; [congruence|]; apply Forall_inv in F; cbn [app]; destruct x as [b0 b1 b2 b3 b4 b5 b6 b7]; destruct b0, b1, b2, b3, b4, b5, b6, b7; first [discriminate F|reflexivity]|]).
    apply gets_digits_run; [exact D|now apply space_no_digit].
Qed.
Lemma gets_level n i w u c : one_of levels w -> starts_space u -> gets (tr (tok n r_level)) i (w ++ u) c (i + length w) u ((n, w) :: c).
Proof.
  intros (k & I0 & ->) Su. cbn [tr tok]. apply gets_grp; [reflexivity|]. unfold r_level. cbn in I0. repeat (destruct I0 as [<-|I0]; [cbn [app lit list_ascii_of_string]; pick|]). destruct I0.
Qed.
Definition heads (ks : list string) (ws : list str) : Prop := match ws with w :: _ => one_of ks w | [] => True end.
Ltac no_head := match goal with K : heads _ ?ws |- _ => destruct ws as [|w0 ws0]; [exact I|]; let i := fresh in let u := fresh in let c := fresh in intros i u c _; destruct K as (k & I0 & ->); cbn in I0; repeat (destruct I0 as [<-|I0]; [reflexivity|]); destruct I0 end.
Lemma heads_more ks ks' ws : heads ks ws -> (forall k, In k ks -> In k ks') -> heads ks' ws.
Proof. destruct ws as [|w ws]; [trivial|]. intros (k & I0 & ->) S0. exists k. auto. Qed.
Definition after_log : list string := ["disable"; "inactive"; "time-range"]%string.
Definition after_disable : list string := ["inactive"; "time-range"]%string.
Definition level_part (n : nat) : wre := wopt (WCat WSp (tok n r_level)).
Definition interval_part (n : nat) : wre := wopt (seqs [WSp; wl "interval"; WSp; tok n r_digits]).
Lemma level_gets n v ws i s c : (forall x, v = Some x -> one_of levels x) -> heads ("interval" :: after_log)%string ws -> rest (opt_words (fun v => [v]) v ++ ws) s ->
  exists i' s', rest ws s' /\ gets (tr (level_part n)) i s c i' s' (oc n v ++ c).
Proof.
  intros GL HW RS. destruct v as [x|]; cbn [opt_words app oc] in *.
  - apply rest_cons in RS as (g & u & -> & Gg & Wx & RU). do 2 eexists. split; [exact RU|]. apply gets_take_opt. cbn [tr]. eapply gets_cat; [apply gets_gap; [exact Gg|now apply word_start]|]. apply gets_level; [now apply GL|now apply rest_start in RU].
  - exists i, s. split; [exact RS|]. apply gets_skip_opt. eapply skip_gap; [exact RS|apply level_start|]. no_head.
Qed.
Lemma interval_gets n v ws i s c : (forall x, v = Some x -> digits x) -> heads after_log ws -> rest (opt_words (fun v => [lit "interval"; v]) v ++ ws) s ->
  exists i' s', rest ws s' /\ gets (tr (interval_part n)) i s c i' s' (oc n v ++ c).
Proof.
  intros GL HW RS. destruct v as [x|]; cbn [opt_words app oc] in *.
  - apply rest_cons in RS as (g & u & -> & Gg & _ & RU). apply rest_cons in RU as (g' & u' & -> & Gg' & Wx & RU). do 2 eexists. split; [exact RU|]. apply gets_take_opt. cbn [seqs tr]. eapply gets_cat; [apply gets_gap; [exact Gg|reflexivity]|].
    eapply gets_cat; [apply gets_lit|]. eapply gets_cat; [apply gets_gap; [exact Gg'|now apply word_start]|]. eapply gets_cat; [apply gets_digits; [now apply GL|now apply rest_start in RU]|apply gets_eps].
  - exists i, s. split; [exact RS|]. apply gets_skip_opt. change (seqs [WSp; wl "interval"; WSp; tok n r_digits]) with (WCat WSp (seqs [wl "interval"; WSp; tok n r_digits])). eapply skip_gap; [exact RS|no_start|]. no_head.
Qed.
Lemma logs_gets lg lv iv l ws i s c : good_log l -> heads after_log ws -> rest (log_words l ++ ws) s -> exists i' s', rest ws s' /\ gets (tr (logs lg lv iv)) i s c i' s' (lcaps lg lv iv l ++ c).
Proof.
  intros GL HW RS. destruct l as [[v t]|]; cbn [log_words opt_words app lcaps fst snd] in *.
  - apply rest_cons in RS as (g & u & -> & Gg & _ & RU). rewrite <- app_assoc in RU. destruct GL as [GV GT].
    assert (HI : heads ("interval" :: after_log)%string (opt_words (fun v => [lit "interval"; v]) t ++ ws)) by (destruct t; cbn [opt_words app]; [exists "interval"%string; split; [now left|reflexivity]|eapply heads_more; [exact HW|intros k; now right]]).
    destruct (level_gets lv v _ (i + length g + length (lit "log")) u ((lg, lit "log") :: c) GV HI RU) as (i1 & s1 & R1 & E1). destruct (interval_gets iv t ws i1 s1 (oc lv v ++ (lg, lit "log") :: c) GT HW R1) as (i2 & s2 & R2 & E2).
    exists i2, s2. split; [exact R2|]. apply gets_take_opt. cbn [seqs tr]. eapply gets_cat; [apply gets_gap; [exact Gg|reflexivity]|]. eapply gets_cat; [apply gets_tlit|]. eapply gets_cat; [exact E1|]. eapply gets_cat; [|apply gets_eps].
    rewrite <- !app_assoc. exact E2.
  - exists i, s. split; [exact RS|]. apply gets_skip_opt. match goal with |- context [seqs (WSp :: ?l)] => change (seqs (WSp :: l)) with (WCat WSp (seqs l)) end. eapply skip_gap; [exact RS|no_start|]. no_head.
Qed.
Lemma disables_gets n b ws i s c : heads after_disable ws -> rest ((if b : bool then [lit "disable"] else []) ++ ws) s -> exists i' s', rest ws s' /\ gets (tr (disables n)) i s c i' s' ((if b then [(n, lit "disable")] else []) ++ c).
Proof.
  intros HW RS. destruct b; cbn [app] in *.
  - apply rest_cons in RS as (g & u & -> & Gg & _ & RU). do 2 eexists. split; [exact RU|]. apply gets_take_opt. cbn [tr]. eapply gets_cat; [apply gets_gap; [exact Gg|reflexivity]|apply gets_tlit].
  - exists i, s. split; [exact RS|]. apply gets_skip_opt. eapply skip_gap; [exact RS|no_start|]. no_head.
Qed.
Lemma whens_gets n t w i s c : good_when w -> rest (when_words w) s -> exists i', gets (tr (whens n t)) i s c i' [] (wcaps n t w ++ c).
Proof.
  intros GW RS. destruct w as [| |x]; cbn [when_words wcaps app] in *.
  - apply rest_nil in RS as ->. exists i. apply gets_skip_opt. apply no_M. reflexivity.
  - apply rest_cons in RS as (g & u & -> & Gg & _ & RU). apply rest_nil in RU as ->. eexists. apply gets_take_opt. cbn [tr]. apply gets_left. eapply gets_cat; [apply gets_gap; [exact Gg|reflexivity]|apply gets_tlit].
  - pose proof RS as RS0. apply rest_cons in RS as (g & u & -> & Gg & _ & RU). apply rest_cons in RU as (g' & u' & -> & Gg' & Wx & RU). apply rest_nil in RU as ->. eexists. apply gets_take_opt. cbn [tr]. apply gets_right.
    + change (RCat (rplus true (RSet sp)) (tr (tok n (r_lit "inactive")))) with (tr (WCat WSp (tok n (r_lit "inactive")))). eapply skip_gap; [exact RS0|no_start|]. cbv beta iota; intros i9 u9 c9 _; reflexivity.
    + cbn [seqs tr]. eapply gets_cat; [apply gets_gap; [exact Gg|reflexivity]|]. eapply gets_cat; [apply gets_lit|]. eapply gets_cat; [apply gets_gap; [exact Gg'|now apply word_start]|]. eapply gets_cat; [now apply gets_word|apply gets_eps].
Qed.
Lemma kind_gets k o i s c : good_kind k -> good_options o -> rest (opt_words (fun v => [v]) k ++ option_words o) s ->
  exists i' s', rest (option_words o) s' /\ gets (tr (wopt (WCat WSp (tok 76 r_icmp)))) i s c i' s' (oc 76 k ++ c).
Proof.
  intros GK GO RS. destruct k as [x|]; cbn [opt_words app oc] in *.
  - apply rest_cons in RS as (g & u & -> & Gg & Wx & RU). do 2 eexists. split; [exact RU|]. apply gets_take_opt. cbn [tr]. eapply gets_cat; [apply gets_gap; [exact Gg|now apply word_start]|]. apply gets_icmp; [exact GK|now apply rest_start in RU].
  - exists i, s. split; [exact RS|]. apply gets_skip_opt. eapply skip_gap; [exact RS|apply icmp_start|]. pose proof (option_heads o GO) as OH. destruct (option_words o) as [|w r]; [exact I|]. apply option_not_icmp. destruct r; apply OH.
Qed.
Lemma rest4_gets k o i s c : good_kind k -> good_options o -> rest (opt_words (fun v => [v]) k ++ option_words o) s ->
  exists i', gets (tr rest4) i s c i' [] (tcaps 77 78 79 80 81 82 o ++ oc 76 k ++ c).
Proof.
  intros GK GO RS. destruct (kind_gets k o i s c GK GO RS) as (i1 & s1 & R1 & E1). destruct GO as [GL GW]. unfold option_words in R1.
  assert (H2 : heads after_disable (when_words (o_when o))) by (destruct (o_when o); [exact I|exists "inactive"%string; split; [cbn; auto|reflexivity]|exists "time-range"%string; split; [cbn; auto|reflexivity]]).
  assert (H1 : heads after_log ((if o_disable o then [lit "disable"] else []) ++ when_words (o_when o))) by (destruct (o_disable o); [exists "disable"%string; split; [cbn; auto|reflexivity]|eapply heads_more; [exact H2|intros k0; now right]]).
  destruct (logs_gets 77 78 79 (o_log o) _ i1 s1 (oc 76 k ++ c) GL H1 R1) as (i2 & s2 & R2 & E2).
  destruct (disables_gets 80 (o_disable o) _ i2 s2 (lcaps 77 78 79 (o_log o) ++ oc 76 k ++ c) H2 R2) as (i3 & s3 & R3 & E3).
  destruct (whens_gets 81 82 (o_when o) i3 s3 ((if o_disable o then [(80, lit "disable")] else []) ++ lcaps 77 78 79 (o_log o) ++ oc 76 k ++ c) GW R3) as (i4 & E4).
  exists i4. unfold rest4, tail. cbn [seqs tr]. eapply gets_cat; [exact E1|]. eapply gets_cat; [|apply gets_eps]. eapply gets_cat; [exact E2|]. eapply gets_cat; [exact E3|]. eapply gets_cat; [|apply gets_eps]. unfold tcaps. rewrite <- !app_assoc. exact E4.
Qed.
(** ** Addresses *)
Lemma two_no {R} k x w ws t i c (K : nat -> str -> caps -> option R) : goes (wl k) AtWord = Some AtGap -> spaced (w :: ws) t -> str_eqb w (lit k) = false -> mat (tr (two k x)) i t c K = None.
Proof.
  intros GO SP NE. change (mat (tr (two k x)) i t c K) with (mat (tr (wl k)) i t c (fun i s c => mat (tr (WCat WSp (seqs [x]))) i s c K)). eapply unfit; [exact SP|exact GO| |].
  - intros j y r d Wr. now apply sp_rejects.
  - cbn [lmat wl]. now rewrite NE.
Qed.
Lemma two_gets k n x ws t i c : a_word x -> spaced (lit k :: x :: ws) t -> exists i' s', rest ws s' /\ gets (tr (two k (tok n r_word))) i t c i' s' ((n, x) :: c).
Proof.
  intros Wx SP. apply spaced_more in SP as (g & u & -> & _ & Gg & SP). apply spaced_rest in SP as (v & -> & _ & RV). do 2 eexists. split; [exact RV|]. unfold two. cbn [seqs tr].
  eapply gets_cat; [apply gets_lit|]. eapply gets_cat; [apply gets_gap; [exact Gg|now apply word_start]|]. eapply gets_cat; [apply gets_word; [exact Wx|now apply rest_start in RV]|apply gets_eps].
Qed.
Lemma net_gets net mask n m ws t i c : a_word n -> quad m -> spaced (n :: m :: ws) t -> exists i' s', rest ws s' /\ gets (tr (seqs [tok net r_word; WSp; tok mask r_quad])) i t c i' s' ((mask, m) :: (net, n) :: c).
Proof.
  intros Wn Qm SP. apply spaced_more in SP as (g & u & -> & _ & Gg & SP). apply spaced_rest in SP as (v & -> & Wm & RV). do 2 eexists. split; [exact RV|]. cbn [seqs tr].
  eapply gets_cat; [apply gets_word; [exact Wn|now apply space_start]|]. eapply gets_cat; [apply gets_gap; [exact Gg|now apply word_start]|]. eapply gets_cat; [apply gets_quad; [exact Qm|now apply rest_start in RV]|apply gets_eps].
Qed.
Section Addr.
  Variables any host o og net mask : nat.
  (** the alternatives after "any" *)
  Definition addr_tail : wre := WAlt (two "host" (tok host r_word)) (WAlt (two "object" (tok o r_word)) (WAlt (two "object-group" (tok og r_word)) (seqs [tok net r_word; WSp; tok mask r_quad]))).
  Lemma tail_gets e ws t i c : good_end e -> e <> EAny -> e <> EAny4 -> spaced (end_words e ++ ws) t -> exists i' s', rest ws s' /\ gets (tr addr_tail) i t c i' s' (ecaps2 any host o og net mask e ++ c).
  Proof.
    intros GE N1 N2 SP. destruct e as [| |x|x|x|n m]; [congruence|congruence| | | |]; cbn [end_words app ecaps2] in *.
    - destruct (two_gets "host" host x ws t i c GE SP) as (i' & s' & RS & E). exists i', s'. split; [exact RS|]. cbn [addr_tail tr]. now apply gets_left.
    - destruct (two_gets "object" o x ws t i c GE SP) as (i' & s' & RS & E). exists i', s'. split; [exact RS|]. cbn [addr_tail tr]. apply gets_right; [apply no_M; eapply two_no; [reflexivity|exact SP|reflexivity]|]. now apply gets_left.
    - destruct (two_gets "object-group" og x ws t i c GE SP) as (i' & s' & RS & E). exists i', s'. split; [exact RS|]. cbn [addr_tail tr]. do 2 (apply gets_right; [apply no_M; eapply two_no; [reflexivity|exact SP|reflexivity]|]). now apply gets_left.
    - destruct GE as (Wn & NK & Qm). destruct (net_gets net mask n m ws t i c Wn Qm SP) as (i' & s' & RS & E). exists i', s'. split; [exact RS|]. apply not_foreign in NK. cbn [addr_tail tr].
      do 3 (apply gets_right; [apply no_M; eapply two_no; [reflexivity|exact SP|apply (foreign_no _ n _ NK); cbn; auto 10]|]). exact E.
  Qed.
  Lemma addr_eq : addr2 any host o og net mask = WAlt (tok any r_any) addr_tail.
  Proof. reflexivity. Qed.
  (** at the end of what is read *)
  Lemma addr_gets e ws t i c : good_end e -> not_anyish e -> spaced (end_words e ++ ws) t -> exists i' s', rest ws s' /\ gets (tr (addr2 any host o og net mask)) i t c i' s' (ecaps2 any host o og net mask e ++ c).
  Proof.
    intros GE NA SP. rewrite addr_eq. destruct e as [| |x|x|x|n m]; try contradiction NA.
    - cbn [end_words app ecaps2] in *. apply spaced_rest in SP as (u & -> & _ & RU). exists (i + 3), u. split; [exact RU|]. cbn [tr]. apply gets_left, gets_any.
    - destruct (tail_gets _ ws t i c GE ltac:(discriminate) ltac:(discriminate) SP) as (i' & s' & RS & E). exists i', s'. split; [exact RS|]. cbn [tr]. apply gets_right; [|exact E]. cbn [end_words app] in SP. apply spaced_rest in SP as (u & -> & _). apply no_M. reflexivity.
    - destruct (tail_gets _ ws t i c GE ltac:(discriminate) ltac:(discriminate) SP) as (i' & s' & RS & E). exists i', s'. split; [exact RS|]. cbn [tr]. apply gets_right; [|exact E]. cbn [end_words app] in SP. apply spaced_rest in SP as (u & -> & _). apply no_M. reflexivity.
    - destruct (tail_gets _ ws t i c GE ltac:(discriminate) ltac:(discriminate) SP) as (i' & s' & RS & E). exists i', s'. split; [exact RS|]. cbn [tr]. apply gets_right; [|exact E]. cbn [end_words app] in SP. apply spaced_rest in SP as (u & -> & _). apply no_M. reflexivity.
    - destruct (tail_gets _ ws t i c GE ltac:(discriminate) ltac:(discriminate) SP) as (i' & s' & RS & E). exists i', s'. split; [exact RS|]. cbn [tr]. apply gets_right; [|exact E]. cbn [end_words app] in SP. apply spaced_more in SP as (g & u & -> & Wn & Gg & SP). apply no_M.
      destruct (any_or_not any i (n ++ g ++ u) c) as [[s0 Es]|NN]; [exfalso|apply NN]. cbn in NA. destruct Wn as [NE Fn]. destruct g as [|x g]; [now destruct Gg|]. destruct Gg as [_ Fg]. apply Forall_inv in Fg.
      destruct n as [|a [|b [|d n]]]; [congruence| | |]; cbn in Es; injection Es; intros; subst; try discriminate Fg. now apply (NA n).
  Qed.
  (** before white space *)
  Lemma addr_then {R} e ws t i c : good_end e -> ws <> [] -> spaced (end_words e ++ ws) t -> exists i' s', rest ws s' /\
    forall (k : nat -> str -> caps -> option R) z, (forall i x t c, is_space x = false -> k i (x :: t) c = None) -> k i' s' (ecaps2 any host o og net mask e ++ c) = Some z -> mat (tr (addr2 any host o og net mask)) i t c k = Some z.
  Proof.
    intros GE NW SP. rewrite addr_eq. assert (TW : forall w u (k : nat -> str -> caps -> option R), a_word w -> rest ws u \/ starts_space u -> (forall i x t c, is_space x = false -> k i (x :: t) c = None) ->
      mat (tr (tok any r_any)) i (w ++ u) c k = if lits ["any"; "any4"]%string w then k (i + length w) u ((any, w) :: c) else None).
    { intros w u k Ww RU RJ. rewrite <- w_any. unfold tok. rewrite (tok_word (Some any) r_any i w u c k); [reflexivity|reflexivity|reflexivity|exact Ww| |exact RJ].
      assert (Su : starts_space u) by (destruct RU as [RU|]; [now apply rest_start in RU|assumption]). destruct u as [|x u]; [now left|right]. exists x, u. now split. }
    assert (OTHER : e <> EAny -> e <> EAny4 -> (forall (k : nat -> str -> caps -> option R), (forall i x t c, is_space x = false -> k i (x :: t) c = None) -> mat (tr (tok any r_any)) i t c k = None) -> exists i' s', rest ws s' /\
      forall (k : nat -> str -> caps -> option R) z, (forall i x t c, is_space x = false -> k i (x :: t) c = None) -> k i' s' (ecaps2 any host o og net mask e ++ c) = Some z -> mat (tr (WAlt (tok any r_any) addr_tail)) i t c k = Some z).
    { intros N1 N2 NA. destruct (tail_gets e ws t i c GE N1 N2 SP) as (i' & s' & RS & E). exists i', s'. split; [exact RS|]. intros k z RJ K. cbn [tr]. rewrite alt_eq, NA by exact RJ. now apply E. }
    destruct e as [| |x|x|x|n m].
    - cbn [end_words app ecaps2] in *. apply spaced_rest in SP as (u & -> & Ww & RU). do 2 eexists. split; [exact RU|]. intros k z RJ K. cbn [tr]. rewrite alt_eq, TW by auto. cbn in K |- *. now rewrite K.
    - cbn [end_words app ecaps2] in *. apply spaced_rest in SP as (u & -> & Ww & RU). do 2 eexists. split; [exact RU|]. intros k z RJ K. cbn [tr]. rewrite alt_eq, TW by auto. cbn in K |- *. now rewrite K.
    - apply OTHER; [discriminate|discriminate|]. intros k RJ. cbn [end_words app] in SP. apply spaced_rest in SP as (u & -> & Ww & RU). rewrite TW; [reflexivity|exact Ww|right; now apply rest_start in RU|exact RJ].
    - apply OTHER; [discriminate|discriminate|]. intros k RJ. cbn [end_words app] in SP. apply spaced_rest in SP as (u & -> & Ww & RU). rewrite TW; [reflexivity|exact Ww|right; now apply rest_start in RU|exact RJ].
    - apply OTHER; [discriminate|discriminate|]. intros k RJ. cbn [end_words app] in SP. apply spaced_rest in SP as (u & -> & Ww & RU). rewrite TW; [reflexivity|exact Ww|right; now apply rest_start in RU|exact RJ].
    - apply OTHER; [discriminate|discriminate|]. intros k RJ. cbn [end_words app] in SP. apply spaced_rest in SP as (u & -> & Ww & RU). rewrite TW; [|exact Ww|right; now apply rest_start in RU|exact RJ].
      destruct GE as (_ & NK & _). apply not_foreign in NK. rewrite (foreign_sub _ ["any"; "any4"]%string n NK) by (intros y Iy; cbn in *; tauto). reflexivity.
  Qed.
End Addr.
(** ** The dictionary *)
Definition c4 (e : icmp_entry) : caps :=
  tcaps 77 78 79 80 81 82 (i_opts e) ++ oc 76 (i_kind e) ++ ecaps2 70 71 72 73 74 75 (i_dst e) ++ ecaps2 64 65 66 67 68 69 (i_src e) ++ [(63, lit "icmp"); (62, i_action e); (61, i_name e)].
Lemma dict_4 e : good_icmp e -> result_dict (G (c4 e)) = Ok (dict (i_name e) (i_action e) None 1 [] (method (i_src e)) (method (i_dst e)) (i_opts e)).
Proof.
  destruct e as [name act src dst kd [lo di wh]]. intros (Gn & Ga & Gs & Gd & _ & Go). cbn [i_name i_action i_src i_dst i_kind i_opts] in *.
  apply dict_parts; [| | | | | | | | | | |exact Go].
  - unfold acl_protocol, c4. field. reflexivity.
  - unfold src_addr_method, c4. field. cbn. destruct src; cbn in *; try contradiction; try solid; try reflexivity. destruct Gs as (Gs & _ & Qm). apply quad_word in Qm. repeat solid. reflexivity.
  - unfold dst_addr_method, c4. field. cbn. destruct dst; cbn in *; try contradiction; try solid; try reflexivity. destruct Gd as (Gd & _ & Qm). apply quad_word in Qm. repeat solid. reflexivity.
  - unfold c4. field. cbn. solid. reflexivity.
  - unfold c4. field. cbn. apply action_solid in Ga. destruct act; [congruence|]. reflexivity.
  - unfold c4. field. reflexivity.
  - unfold c4. field. cbn. destruct lo as [[[x|] [y|]]|], di, wh; reflexivity.
  - unfold c4. field. cbn. destruct Go as [GL _]. cbn in GL. destruct lo as [[[x|] [y|]]|]; try (destruct GL as [GL _]; specialize (GL _ eq_refl); apply level_word in GL; destruct x; [congruence|]); destruct di, wh; reflexivity.
  - unfold c4. field. cbn. destruct Go as [GL _]. cbn in GL. destruct lo as [[[x|] [y|]]|]; try (destruct GL as [_ GL]; specialize (GL _ eq_refl); apply proj1 in GL; destruct y; [congruence|]); destruct di, wh; reflexivity.
  - unfold c4. field. cbn. destruct lo as [[[x|] [y|]]|], di, wh; reflexivity.
  - unfold c4. field. cbn. destruct Go as [_ GW]. cbn in GW. destruct wh as [| |x]; try (apply proj1, proj1 in GW; destruct x; [congruence|]); destruct lo as [[[y|] [z|]]|], di; reflexivity.
Qed.
Lemma step_cat {R} a b i s c i1 s1 c1 (k : nat -> str -> caps -> option R) z : gets a i s c i1 s1 c1 -> mat b i1 s1 c1 k = Some z -> mat (RCat a b) i s c k = Some z.
Proof. intros GA K. exact (GA R (fun i s c => mat b i s c k) z K). Qed.
Lemma step_w {R} a b i s c i1 s1 c1 (k : nat -> str -> caps -> option R) z : gets (tr a) i s c i1 s1 c1 -> mat (tr b) i1 s1 c1 k = Some z -> mat (tr (WCat a b)) i s c k = Some z.
Proof. exact (step_cat (tr a) (tr b) i s c i1 s1 c1 k z). Qed.
Lemma dst3_start {R} i x t c (k : nat -> str -> caps -> option R) : is_space x = true -> mat (tr dst3) i (x :: t) c k = None.
Proof. intros Sx. destruct x as [b0 b1 b2 b3 b4 b5 b6 b7]. destruct b0, b1, b2, b3, b4, b5, b6, b7; try discriminate Sx; reflexivity. Qed.
Lemma icmp_no {R} n a s p name act q r c (k : list str -> caps -> option R) : a_word name -> one_of ["permit"; "deny"]%string act ->
  lmat (seqs (head n "extended" a ++ service s p :: r)) ([lit "access-list"; name; lit "extended"; act; lit "icmp"] ++ q) c k = None.
Proof.
  intros Wn Ac. unfold head. cbn [app seqs lmat wl tok grabbed]. closed. rewrite (a_whole name Wn). rewrite w_action, (proj2 (lits_iff _ _) Ac). walk. reflexivity.
Qed.
Theorem C77_icmp e t : good_icmp e -> not_anyish (i_dst e) -> spaced (icmp_words e) t ->
  acl_result t = Ok (dict (i_name e) (i_action e) None 1 [] (method (i_src e)) (method (i_dst e)) (i_opts e)).
Proof.
  intros GE NA SP. enough (K : take t = Some (c4 e)) by (rewrite (acl_found t _ K); now apply dict_4).
  destruct GE as (Wn & Ac & Gs & Gd & Gk & Go). destruct e as [name act src dst kd opts]. cbn [i_name i_action i_src i_dst i_kind i_opts] in *. unfold icmp_words in SP. cbn [i_name i_action i_src i_dst i_kind i_opts] in SP.
  unfold take, acl_re. rewrite alt_eq. rewrite (not_remark name (lit "extended") (act :: lit "icmp" :: end_words src ++ end_words dst ++ opt_words (fun v => [v]) kd ++ option_words opts) t) by (try assumption; reflexivity).
  rewrite alt_eq, (anchored w1 _ t SP) by reflexivity. unfold w1. rewrite icmp_no by assumption. rewrite alt_eq, (anchored w2 _ t SP) by reflexivity. unfold w2. rewrite icmp_no by assumption. rewrite alt_eq.
  change (mat (RCat RBol (RCat (tr w3) (tr dst3))) 0 t [] ?k) with (mat (tr w3) 0 t [] (fun i s c => mat (tr dst3) i s c k)). rewrite (unfit w3 AtWord _ t 0 [] _ SP); [|reflexivity|intros; now apply dst3_start|].
  2: { unfold w3, head. cbn [app seqs lmat wl tok grabbed]. closed. rewrite (a_whole name Wn). reflexivity. }
  change (mat (RCat RBol (RCat (tr w4) (RCat (tr dst4) (tr rest4)))) 0 t [] ?k) with (mat (RCat (tr w4) (RCat (tr dst4) (tr rest4))) 0 t [] k).
  cbn [app] in SP. apply spaced_more in SP as (g1 & t1 & -> & _ & G1 & SP). apply spaced_more in SP as (g2 & t2 & -> & _ & G2 & SP). apply spaced_more in SP as (g3 & t3 & -> & _ & G3 & SP). apply spaced_more in SP as (g4 & t4 & -> & _ & G4 & SP).
  destruct (end_cons src (end_words dst ++ opt_words (fun v => [v]) kd ++ option_words opts)) as (w & ws & Ee). rewrite Ee in SP. apply spaced_more in SP as (g5 & t5 & -> & _ & G5 & SP). pose proof (spaced_solid _ _ _ SP) as S5. rewrite <- Ee in SP.
  destruct (end_cons dst (opt_words (fun v => [v]) kd ++ option_words opts)) as (w' & ws' & Ee').
  assert (NW : end_words dst ++ opt_words (fun v => [v]) kd ++ option_words opts <> []) by (rewrite Ee'; discriminate).
  change (mat (RCat (tr w4) ?x) 0 ?t [] ?k) with (mat (tr w4) 0 t [] (fun i s c => mat x i s c k)). unfold w4, head. cbn [app seqs].
  eapply step_w; [apply gets_lit|]. eapply step_w; [apply gets_gap; [exact G1|now apply word_start]|]. eapply step_w; [apply gets_word; [exact Wn|now apply space_start]|]. eapply step_w; [apply gets_gap; [exact G2|reflexivity]|].
  eapply step_w; [apply gets_lit|]. eapply step_w; [apply gets_gap; [exact G3|destruct Ac as (k & I0 & ->); destruct I0 as [<-|[<-|[]]]; reflexivity]|]. eapply step_w; [now apply gets_action|]. eapply step_w; [apply gets_gap; [exact G4|reflexivity]|].
  eapply step_w; [apply gets_tlit|]. eapply step_w; [apply gets_gap; [exact G5|exact S5]|].
  match goal with |- mat (tr (WCat (addr2 _ _ _ _ _ _) (WCat WSp WEps))) ?i _ ?c _ = _ => destruct (addr_then (R:=caps) 64 65 66 67 68 69 src _ t5 i c Gs NW SP) as (i6 & s6 & R6 & E6) end.
  change (mat (tr (WCat ?a ?b)) ?i ?s ?c ?k) with (mat (tr a) i s c (fun i0 s0 c0 => mat (tr b) i0 s0 c0 k)). apply E6.
  - intros i x t c Sx. now apply sp_rejects.
  - destruct R6 as [[K _]|(g6 & t6 & -> & G6 & SP6)]; [rewrite Ee' in K; discriminate K|]. eapply step_w; [apply gets_gap; [exact G6|rewrite Ee' in SP6; eapply spaced_solid; exact SP6]|].
    change (mat (tr WEps) ?i ?s ?c ?k) with (k i s c). cbv beta. unfold dst4.
    match goal with |- mat _ ?i _ ?c _ = _ => destruct (addr_gets 70 71 72 73 74 75 dst _ t6 i c Gd NA SP6) as (i7 & s7 & R7 & E7) end. eapply step_cat; [exact E7|].
    match goal with |- mat _ ?i _ ?c _ = _ => destruct (rest4_gets kd opts i s7 c Gk Go R7) as (i8 & E8) end. erewrite E8 by reflexivity. reflexivity.
Qed.
Print Assumptions C77_icmp.
Lemma spaced_step w g ws t : forallb (fun x => negb (is_space x)) (lit w) = true -> w <> ""%string -> forallb is_space (lit g) = true -> g <> ""%string -> spaced ws t -> spaced (lit w :: ws) (lit w ++ lit g ++ t).
Proof.
  intros F NE Fg Ng SP. apply sd_more; [| |exact SP].
  - split; [destruct w; [congruence|discriminate]|]. apply Forall_forall. intros x I0. rewrite forallb_forall in F. specialize (F x I0). now destruct (is_space x).
  - split; [destruct g; [congruence|discriminate]|]. apply Forall_forall. intros x I0. rewrite forallb_forall in Fg. now apply Fg.
Qed.
Definition icmp_ex (d : endpoint) : icmp_entry := mkIcmp (lit "X") (lit "permit") EAny d (Some (lit "echo")) (mkOpts (Some (None, None)) false Always).
Lemma icmp_ex_good d : good_end d -> good_icmp (icmp_ex d).
Proof.
  intros GD. unfold good_icmp, icmp_ex. cbn [i_name i_action i_src i_dst i_kind i_opts good_end good_kind]. split; [split; [discriminate|repeat constructor]|]. split; [exists "permit"%string; split; [now left|reflexivity]|]. split; [exact I|]. split; [exact GD|].
  split; [left; exists "echo"%string; split; [cbn; auto 10|reflexivity]|]. split; [split; intros x K; discriminate K|exact I].
Qed.
Ltac words := repeat (apply spaced_step; [reflexivity|discriminate|reflexivity|discriminate|]); apply sd_one; split; [discriminate|repeat constructor].
Example C77_icmp_ex : good_icmp (icmp_ex (EHost (lit "10.0.0.1"))) /\ not_anyish (i_dst (icmp_ex (EHost (lit "10.0.0.1")))) /\
  spaced (icmp_words (icmp_ex (EHost (lit "10.0.0.1")))) (lit "access-list X extended permit icmp any host 10.0.0.1 echo log").
Proof.
  split; [apply icmp_ex_good; split; [discriminate|repeat constructor]|]. split; [exact I|].
  change (spaced (map lit ["access-list"; "X"; "extended"; "permit"; "icmp"; "any"; "host"; "10.0.0.1"; "echo"; "log"]%string) (lit "access-list" ++ lit " " ++ lit "X" ++ lit " " ++ lit "extended" ++ lit " " ++ lit "permit" ++ lit " " ++ lit "icmp" ++ lit " " ++ lit "any" ++ lit " " ++ lit "host" ++ lit " " ++ lit "10.0.0.1" ++ lit " " ++ lit "echo" ++ lit " " ++ lit "log")).
  cbn [map]. words.
Qed.
(** A destination "any4" is read as "any", and nothing after it is read. *)
Theorem C77_icmp_any4_refuted : ~ (forall e t, good_icmp e -> spaced (icmp_words e) t -> exists d, acl_result t = Ok d /\ a_log d = match o_log (i_opts e) with Some _ => true | None => false end).
Proof.
  intros C. destruct (C (icmp_ex EAny4) (lit "access-list X extended permit icmp any any4 echo log") (icmp_ex_good EAny4 I)) as (d & K & Lg).
  - change (spaced (map lit ["access-list"; "X"; "extended"; "permit"; "icmp"; "any"; "any4"; "echo"; "log"]%string) (lit "access-list" ++ lit " " ++ lit "X" ++ lit " " ++ lit "extended" ++ lit " " ++ lit "permit" ++ lit " " ++ lit "icmp" ++ lit " " ++ lit "any" ++ lit " " ++ lit "any4" ++ lit " " ++ lit "echo" ++ lit " " ++ lit "log")).
    cbn [map]. words.
  - vm_compute in K. injection K as <-. discriminate Lg.
Qed.
Print Assumptions C77_icmp_any4_refuted.
(** Not every protocol with a number is read. *)
Theorem C77_protocol_refuted : ~ (forall p v, In (p, v) asa_ip_protocols -> exists d, acl_result (lit "access-list X extended permit " ++ lit p ++ lit " any any") = Ok d /\ a_protocol d = v).
Proof. intros C. destruct (C "icmp6"%string 58%Z) as (d & K & _); [cbn; auto 10|]. vm_compute in K. discriminate K. Qed.
Print Assumptions C77_protocol_refuted.
