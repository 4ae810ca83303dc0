(** Extended access list lines, word by word. *)
From Coq Require Import Ascii String Arith NArith ZArith Bool List Lia.
From Verif Require Import PyStr PyStrFacts PyBase PyBaseFacts SearchModel PyRe PyReFacts PyReTok AclModel AclSpec AclFacts.
Import ListNotations.
Local Open Scope char_scope.

(** ** Lists of words *)
Fixpoint lmat {R} (r : wre) (ws : list str) (c : caps) (k : list str -> caps -> option R) : option R :=
  match r with
  | WEps => k ws c
  | WLit w => match ws with v :: ws' => if str_eqb v w then k ws' c else None | [] => None end
  | WTok n a => match ws with v :: ws' => if whole a v then k ws' (grabbed n v c) else None | [] => None end
  | WSp => match ws with [] => None | _ => k ws c end
  | WCat a b => lmat a ws c (fun ws' c' => lmat b ws' c' k)
  | WAlt a b => match lmat a ws c k with Some x => Some x | None => lmat b ws c k end
  end.
Lemma wmat_ext {R} r : forall ws c (k k' : stream -> caps -> option R), (forall ws c, k ws c = k' ws c) -> wmat r ws c k = wmat r ws c k'.
Proof.
  induction r as [|w|n a| |a IHa b IHb|a IHa b IHb]; intros ws c k k' K; cbn [wmat]; try apply K.
  - destruct ws as [|[g v] ws]; [reflexivity|]. now rewrite K.
  - destruct ws as [|[g v] ws]; [reflexivity|]. now rewrite K.
  - destruct ws; [reflexivity|apply K].
  - apply IHa. intros. now apply IHb.
  - now rewrite (IHa ws c k k' K), (IHb ws c k k' K).
Qed.
Lemma wmat_list {R} r : forall ws c (k : list str -> caps -> option R), wmat r ws c (fun ws c => k (map snd ws) c) = lmat r (map snd ws) c k.
Proof.
  induction r as [|w|n a| |a IHa b IHb|a IHa b IHb]; intros ws c k; cbn [wmat lmat]; try reflexivity.
  - now destruct ws as [|[g v] ws].
  - now destruct ws as [|[g v] ws].
  - now destruct ws.
  - rewrite <- IHa. apply wmat_ext. intros. apply IHb.
  - now rewrite IHa, IHb.
Qed.
Lemma lmat_ext {R} r : forall ws c (k k' : list str -> caps -> option R), (forall ws c, k ws c = k' ws c) -> lmat r ws c k = lmat r ws c k'.
Proof.
  induction r as [|w|n a| |a IHa b IHb|a IHa b IHb]; intros ws c k k' K; cbn [lmat]; try apply K.
  - destruct ws; [reflexivity|]. now rewrite K.
  - destruct ws; [reflexivity|]. now rewrite K.
  - destruct ws; [reflexivity|apply K].
  - apply IHa. intros. now apply IHb.
  - now rewrite (IHa ws c k k' K), (IHb ws c k k' K).
Qed.
Lemma spaced_stream ws t : spaced ws t -> exists st, map snd st = ws /\ t = text AtWord st /\ fits AtWord st.
Proof.
  induction 1 as [w Ww|w g ws t Ww Gg SP (st & Es & Et & Gd & Nn)].
  - exists [([" "], w)]. cbn [map snd text text_of]. rewrite app_nil_r. split; [reflexivity|]. split; [reflexivity|]. split; [|discriminate]. repeat constructor; try discriminate; apply Ww.
  - destruct st as [|[g0 v] st]; [now contradiction Nn|]. exists (([" "], w) :: (g, v) :: st). cbn [map snd text text_of] in *. subst ws t. split; [reflexivity|]. split; [reflexivity|]. inversion Gd as [|? ? [_ Wv] Gr]; subst. cbn [snd] in Wv. split; [|discriminate].
    constructor; [split; [split; [discriminate|repeat constructor]|exact Ww]|]. constructor; [split; [exact Gg|exact Wv]|exact Gr].
Qed.
(** the end of the line *)
Definition fin (ws : list str) (c : caps) : option caps := match ws with [] => Some c | _ => None end.
Lemma anchored r ws t : spaced ws t -> goes r AtWord = Some AtGap -> mat (RCat RBol (RCat (tr r) to_end)) 0 t [] (fun _ _ c => Some c) = lmat r ws [] fin.
Proof.
  intros SP G0. destruct (spaced_stream ws t SP) as (st & <- & -> & F). cbn [mat Nat.eqb]. destruct (mat_end (fun _ _ c => Some c)) as [E1 E2]. cbn [mat] in E1, E2.
  rewrite <- wmat_list. apply (mat_words r AtWord AtGap G0 _ (fun ws c => fin (map snd ws) c)); [|exact E2|exact F]. intros i w c Fw. rewrite E1 by exact Fw. now destruct w.
Qed.
(** If the words do not fit, nothing after them can help. *)
Lemma unfit {R} r q ws t i c (K : nat -> str -> caps -> option R) : spaced ws t -> goes r AtWord = Some q -> (forall i x t c, wrong q x -> K i (x :: t) c = None) ->
  lmat r ws c (fun _ _ => Some tt) = None -> mat (tr r) i t c K = None.
Proof.
  intros SP G0 RJ LN. destruct (spaced_stream ws t SP) as (st & <- & -> & F). destruct (mat (tr r) i (text AtWord st) c K) as [z|] eqn:E; [|reflexivity]. exfalso.
  apply mat_sound in E as (i' & s' & c' & HM & E). set (K' := fun (_ : nat) (s : str) (_ : caps) => match s with x :: _ => if (match q with AtWord => is_space x | AtGap => negb (is_space x) end) then None else Some tt | [] => Some tt end).
  assert (NK : K' i' s' c' <> None). { unfold K'. destruct s' as [|x s']; [discriminate|]. destruct (match q with AtWord => is_space x | AtGap => negb (is_space x) end) eqn:B; [|discriminate]. rewrite RJ in E; [discriminate E|]. destruct q; cbn; [exact B|now apply negb_true_iff]. }
  apply (mat_complete _ _ _ _ _ _ _ HM K') in NK. apply NK. rewrite <- LN, <- wmat_list.
  apply (mat_words r AtWord q G0 K' (fun _ _ => Some tt)); [| |exact F].
  - intros j w d [Gw Nw]. unfold K'. destruct q; cbn [text].
    + destruct w as [|[g v] w]; [reflexivity|]. inversion Gw as [|? ? [_ [NV FV]] _]; subst. cbn [snd] in *. destruct v as [|x v]; [now contradiction NV|]. cbn [app]. inversion FV as [|? ? Sx]; subst. now rewrite Sx.
    + destruct w as [|[g v] w]; [reflexivity|]. inversion Gw as [|? ? [[NG FG] _] _]; subst. cbn [text_of fst] in *. destruct g as [|x g]; [now contradiction NG|]. cbn [app]. inversion FG as [|? ? Sx]; subst. now rewrite Sx.
  - intros j x s d Wr. unfold K'. destruct q; cbn in Wr; now rewrite Wr.
Qed.

(** ** Evaluation *)
Lemma w_word_lit k : forallb (fun x => negb (is_space x)) (lit k) = true -> lit k <> [] -> a_word (lit k).
Proof. intros F N. split; [exact N|]. apply Forall_forall. intros y Hy. rewrite forallb_forall in F. now apply negb_true_iff, F. Qed.
Lemma a_whole x : a_word x -> whole r_word x = true.
Proof. exact (w_word x). Qed.
Lemma lit_whole k : forallb (fun x => negb (is_space x)) (lit k) = true -> lit k <> [] -> whole r_word (lit k) = true.
Proof. intros F N. apply w_word. split; [exact N|]. apply Forall_forall. intros y Hy. rewrite forallb_forall in F. now apply negb_true_iff, F. Qed.
Definition foreign (l : list string) (w : str) : Prop := lits l w = false.
Lemma foreign_no l w k : foreign l w -> In k l -> str_eqb w (lit k) = false.
Proof. unfold foreign, lits. intros F I0. destruct (str_eqb w (lit k)) eqn:E; [|reflexivity]. rewrite <- F. symmetry. apply existsb_exists. now exists k. Qed.
Lemma foreign_sub l l' w : foreign l w -> incl l' l -> lits l' w = false.
Proof.
  intros F I0. unfold lits. destruct (existsb _ l') eqn:E; [|reflexivity]. apply existsb_exists in E as (k & Ik & Ek). rewrite (foreign_no l w k F (I0 k Ik)) in Ek. discriminate Ek.
Qed.
Lemma not_foreign l w : ~ one_of l w -> foreign l w.
Proof. intros N. unfold foreign. destruct (lits l w) eqn:E; [|reflexivity]. apply lits_iff in E. now contradiction N. Qed.
Lemma no_quad x : ~ quad x -> whole r_quad x = false.
Proof. intros N. destruct (whole r_quad x) eqn:E; [|reflexivity]. apply w_quad in E. now contradiction N. Qed.
(** closed tests *)
Ltac closed := repeat match goal with
  | |- context [str_eqb (lit ?a) (lit ?b)] => let v := eval vm_compute in (str_eqb (lit a) (lit b)) in change (str_eqb (lit a) (lit b)) with v
  | |- context [whole ?r (lit ?a)] => let v := eval vm_compute in (whole r (lit a)) in change (whole r (lit a)) with v
  end; cbv iota beta.
Ltac walk := cbn [lmat seqs two tok wl wopt addr1 addr2 ports logs disables whens tail service grabbed app end_words port_words]; closed.

Section Ends.
  Context {R : Type}.
  Variable k : list str -> caps -> option R.
  Lemma addr1_host og o net mask x r c : a_word x -> lmat (addr1 og o net mask) (lit "host" :: x :: r) c k = if whole r_quad x then k r ((mask, x) :: (net, lit "host") :: c) else None.
  Proof. intros Wx. walk. reflexivity. Qed.
  Lemma addr1_object og o net mask x r c : a_word x -> lmat (addr1 og o net mask) (lit "object" :: x :: r) c k =
    match k r ((o, x) :: c) with Some z => Some z | None => if whole r_quad x then k r ((mask, x) :: (net, lit "object") :: c) else None end.
  Proof. intros Wx. walk. rewrite (a_whole x Wx). reflexivity. Qed.
  Lemma addr1_group og o net mask x r c : a_word x -> lmat (addr1 og o net mask) (lit "object-group" :: x :: r) c k =
    match k r ((og, x) :: c) with Some z => Some z | None => if whole r_quad x then k r ((mask, x) :: (net, lit "object-group") :: c) else None end.
  Proof. intros Wx. walk. rewrite (a_whole x Wx). reflexivity. Qed.
  Lemma addr1_other og o net mask n r c : a_word n -> str_eqb n (lit "object-group") = false -> str_eqb n (lit "object") = false ->
    lmat (addr1 og o net mask) (n :: r) c k = match r with v :: r' => if whole r_quad v then k r' ((mask, v) :: (net, n) :: c) else None | [] => None end.
  Proof. intros Wn N1 N2. walk. rewrite N1, N2, (a_whole n Wn). now destruct r. Qed.
  Lemma addr2_none any host o og net mask n r c : str_eqb n (lit "host") = false -> str_eqb n (lit "object-group") = false -> str_eqb n (lit "object") = false -> whole r_any n = false ->
    (match r with v :: _ => whole r_quad v = false | [] => True end) -> lmat (addr2 any host o og net mask) (n :: r) c k = None.
  Proof. intros N1 N2 N3 N4 Q. walk. rewrite N1, N2, N3, N4. destruct (whole r_word n); [|reflexivity]. destruct r as [|v r]; [reflexivity|]. now rewrite Q. Qed.
End Ends.

(** ** Options at the end *)
Definition oc (n : nat) (x : option str) : caps := match x with Some v => [(n, v)] | None => [] end.
Definition lcaps (lg lv iv : nat) (l : logging) : caps := match l with None => [] | Some (v, i) => oc iv i ++ oc lv v ++ [(lg, lit "log")] end.
Definition wcaps (i t : nat) (w : when) : caps := match w with Always => [] | Inactive => [(i, lit "inactive")] | TimeRange x => [(t, x)] end.
Definition tcaps (lg lv iv d i t : nat) (o : options) : caps :=
  wcaps i t (o_when o) ++ (if o_disable o then [(d, lit "disable")] else []) ++ lcaps lg lv iv (o_log o).
Lemma tail_ok lg lv iv d i t o c : good_options o -> lmat (tail lg lv iv d i t) (option_words o) c fin = Some (tcaps lg lv iv d i t o ++ c).
Proof.
  destruct o as [l di w]. intros [GL GW]. cbn [o_log o_when o_disable] in *. unfold option_words, tcaps. cbn [o_log o_when o_disable].
  assert (LV : forall v x, l = Some (Some v, x) -> whole r_level v = true). { intros v x ->. apply w_level. cbn in GL. now apply GL. }
  assert (LI : forall v x, l = Some (x, Some v) -> whole r_digits v = true). { intros v x ->. apply w_digits. cbn in GL. now apply GL. }
  assert (WT : forall x, w = TimeRange x -> whole r_word x = true). { intros x ->. apply a_whole. apply GW. }
  destruct l as [[[v|] [iw|]]|]; try (pose proof (LV _ _ eq_refl) as Lv); try (pose proof (LI _ _ eq_refl) as Li); destruct di, w as [| |x]; try (pose proof (WT _ eq_refl) as Wt);
  cbn [log_words opt_words when_words fst snd app lcaps wcaps oc]; walk; try rewrite Lv; walk; try rewrite Li; walk; try rewrite Wt; reflexivity.
Qed.
Lemma tail_no lg lv iv d i t w r c : lits option_keywords w = false -> lmat (tail lg lv iv d i t) (w :: r) c fin = None.
Proof.
  intros F. assert (N : forall k, In k option_keywords -> str_eqb w (lit k) = false) by (intros k Ik; now apply (foreign_no option_keywords)).
  walk. rewrite !w_lit. rewrite !N by (cbn; auto 10). reflexivity.
Qed.
(** the words that can follow the addresses *)
Lemma option_heads o : good_options o -> match option_words o with
  | [] => True | [w] => one_of option_keywords w | w :: v :: _ => one_of option_keywords w /\ whole r_quad v = false end.
Proof.
  destruct o as [l di w]. intros [GL GW]. cbn [o_log o_when o_disable] in *. unfold option_words. cbn [o_log o_when o_disable].
  assert (LV : forall v x, l = Some (Some v, x) -> whole r_quad v = false).
  { intros v x ->. cbn in GL. destruct (proj1 GL v eq_refl) as (k & Ik & ->). unfold levels in Ik. cbn [In] in Ik. repeat (destruct Ik as [<-|Ik]; [vm_compute; reflexivity|]). destruct Ik. }
  assert (WT : forall x, w = TimeRange x -> whole r_quad x = false). { intros x ->. apply no_quad. apply GW. }
  assert (OK : forall k, In k option_keywords -> one_of option_keywords (lit k)) by (intros k Ik; now exists k).
  destruct l as [[[v|] [iw|]]|]; try (pose proof (LV _ _ eq_refl) as Lv); destruct di, w as [| |x]; try (pose proof (WT _ eq_refl) as Wt);
  cbn [log_words opt_words when_words fst snd app]; try exact I; try (split; [|first [exact Lv|exact Wt|vm_compute; reflexivity]]); apply OK; cbn; auto 10.
Qed.

(** ** The first form: networks, objects and groups, no ports *)
Lemma quad_not k m : whole r_quad (lit k) = false -> whole r_quad m = true -> str_eqb m (lit k) = false.
Proof. intros A B. destruct (str_eqb m (lit k)) eqn:E; [|reflexivity]. apply str_eqb_eq in E as ->. congruence. Qed.
Lemma one_of_quad l w : forallb (fun k => negb (whole r_quad (lit k))) l = true -> one_of l w -> whole r_quad w = false.
Proof. intros F (k & Ik & ->). rewrite forallb_forall in F. now apply negb_true_iff, F. Qed.
Lemma one_of_lits l l' w : forallb (fun k => negb (lits l' (lit k))) l = true -> one_of l w -> lits l' w = false.
Proof. intros F (k & Ik & ->). rewrite forallb_forall in F. now apply negb_true_iff, F. Qed.
(** what follows an address is not a mask *)
Lemma after_no_quad p o : good_port p -> good_options o -> match port_words p ++ option_words o with v :: _ => whole r_quad v = false | [] => True end.
Proof.
  intros GP GO. destruct p as [|op x|a b|x]; cbn [port_words app].
  - pose proof (option_heads o GO) as OH. destruct (option_words o) as [|w [|v r]]; [exact I| |]; (eapply one_of_quad; [|apply OH]); reflexivity.
  - destruct GP as (O & _). eapply one_of_quad; [|exact O]. reflexivity.
  - reflexivity.
  - reflexivity.
Qed.
Lemma ports_not_options p r : good_port p -> p <> PNone -> match port_words p ++ r with w :: _ => lits option_keywords w = false | [] => False end.
Proof.
  intros GP NP. destruct p as [|op x|a b|x]; cbn [port_words app]; [congruence| |reflexivity|reflexivity]. destruct GP as (O & _). eapply one_of_lits; [|exact O]. reflexivity.
Qed.
Definition fits1 (e : endpoint) : Prop := match e with EAny | EAny4 => False | EHost x => whole r_quad x = true | _ => True end.
Definition ecaps1 (og o net mask : nat) (e : endpoint) : caps :=
  match e with
  | EAny | EAny4 => []
  | EHost x => [(mask, x); (net, lit "host")]
  | EObject x => [(o, x)]
  | EGroup x => [(og, x)]
  | ENet n m => [(mask, m); (net, n)]
  end.
Section First.
  Context {R : Type}.
  Variable k : list str -> caps -> option R.
  Lemma addr1_some og o net mask e r c z : good_end e -> fits1 e -> k r (ecaps1 og o net mask e ++ c) = Some z ->
    lmat (addr1 og o net mask) (end_words e ++ r) c k = Some z.
  Proof.
    intros GE FE K. destruct e as [| |x|x|x|n m]; cbn [end_words app ecaps1] in *; try contradiction.
    - rewrite addr1_host by exact GE. cbn in FE. now rewrite FE.
    - rewrite addr1_object by exact GE. now rewrite K.
    - rewrite addr1_group by exact GE. now rewrite K.
    - destruct GE as (Wn & NK & Qm). apply not_foreign in NK. rewrite addr1_other; [|exact Wn|eapply foreign_no; [exact NK|cbn; auto 20]..]. now rewrite (proj2 (w_quad m) Qm).
  Qed.
  Lemma addr1_no og o net mask e r c : good_end e -> (e = EAny \/ e = EAny4 -> match r with v :: _ => whole r_quad v = false | [] => True end) -> (forall c, fits1 e -> k r c = None) ->
    lmat (addr1 og o net mask) (end_words e ++ r) c k = None.
  Proof.
    intros GE AN K. destruct e as [| |x|x|x|n m]; cbn [end_words app ecaps1 fits1] in *.
    - rewrite addr1_other; [|apply w_word_lit; [reflexivity|discriminate]|reflexivity|reflexivity]. destruct r as [|v r]; [reflexivity|]. now rewrite AN by now left.
    - rewrite addr1_other; [|apply w_word_lit; [reflexivity|discriminate]|reflexivity|reflexivity]. destruct r as [|v r]; [reflexivity|]. now rewrite AN by now right.
    - rewrite addr1_host by exact GE. destruct (whole r_quad x) eqn:Q; [|reflexivity]. now apply K.
    - rewrite addr1_object by exact GE. rewrite !K by exact I. now destruct (whole r_quad x).
    - rewrite addr1_group by exact GE. rewrite !K by exact I. now destruct (whole r_quad x).
    - destruct GE as (Wn & NK & Qm). apply not_foreign in NK. rewrite addr1_other; [|exact Wn|eapply foreign_no; [exact NK|cbn; auto 20]..]. rewrite (proj2 (w_quad m) Qm). now apply K.
  Qed.
End First.
Definition dst1 : wre := seqs [addr1 13 14 15 16; tail 17 18 19 20 21 22].
Lemma dst1_eq ws c : lmat dst1 ws c fin = lmat (addr1 13 14 15 16) ws c (fun ws c => lmat (tail 17 18 19 20 21 22) ws c fin).
Proof. reflexivity. Qed.
Lemma sp_in {R} r w ws c (k : list str -> caps -> option R) : lmat (WCat WSp r) (w :: ws) c k = lmat r (w :: ws) c k.
Proof. reflexivity. Qed.
Lemma end_cons e r : exists w ws, end_words e ++ r = w :: ws.
Proof. destruct e; cbn; eauto. Qed.
Lemma dst1_some e o c : good_end e -> fits1 e -> good_options o -> lmat dst1 (end_words e ++ option_words o) c fin = Some (tcaps 17 18 19 20 21 22 o ++ ecaps1 13 14 15 16 e ++ c).
Proof.
  intros GE FE GO. unfold dst1. change (lmat (seqs [addr1 13 14 15 16; tail 17 18 19 20 21 22]) (end_words e ++ option_words o) c fin) with (lmat (addr1 13 14 15 16) (end_words e ++ option_words o) c (fun ws c => lmat (tail 17 18 19 20 21 22) ws c fin)).
  apply addr1_some; [exact GE|exact FE|]. now apply tail_ok.
Qed.
Lemma dst1_none e p o c : good_end e -> good_port p -> good_options o -> (fits1 e -> p <> PNone) -> lmat dst1 (end_words e ++ port_words p ++ option_words o) c fin = None.
Proof.
  intros GE GP GO NF. change (lmat dst1 (end_words e ++ port_words p ++ option_words o) c fin) with (lmat (addr1 13 14 15 16) (end_words e ++ port_words p ++ option_words o) c (fun ws c => lmat (tail 17 18 19 20 21 22) ws c fin)).
  apply addr1_no; [exact GE|intros _; now apply after_no_quad|]. intros c' FE. specialize (NF FE). pose proof (ports_not_options p (option_words o) GP NF) as PN.
  destruct (port_words p ++ option_words o) as [|w r]; [destruct PN|]. now apply tail_no.
Qed.
Lemma digits_solid w : digits w -> Forall (fun x => is_space x = false) w.
Proof. intros [_ F]. eapply Forall_impl; [|exact F]. intros x. cbv beta. intros E. destruct (is_space x) eqn:Sx; [|reflexivity]. exfalso. revert E Sx. destruct x as [b0 b1 b2 b3 b4 b5 b6 b7]. destruct b0, b1, b2, b3, b4, b5, b6, b7; discriminate. Qed.
Lemma quad_word m : quad m -> a_word m.
Proof.
  intros (a & b & d & e & Da & Db & Dd & De & ->). split; [destruct a; discriminate|]. repeat (apply Forall_app; split; [now apply digits_solid|]; constructor; [reflexivity|]). now apply digits_solid.
Qed.
Definition src1 : wre := seqs [addr1 9 10 11 12; WSp; addr1 13 14 15 16; tail 17 18 19 20 21 22].
Lemma src1_eq ws c : lmat src1 ws c fin = lmat (addr1 9 10 11 12) ws c (fun ws c => lmat (WCat WSp dst1) ws c fin).
Proof. reflexivity. Qed.
Definition after (p : portspec) (e : endpoint) (p' : portspec) (o : options) : list str := port_words p ++ end_words e ++ port_words p' ++ option_words o.
Lemma src1_some e e' o c : good_end e -> fits1 e -> good_end e' -> fits1 e' -> good_options o ->
  lmat src1 (end_words e ++ after PNone e' PNone o) c fin = Some (tcaps 17 18 19 20 21 22 o ++ ecaps1 13 14 15 16 e' ++ ecaps1 9 10 11 12 e ++ c).
Proof.
  intros GE FE GE' FE' GO. rewrite src1_eq. apply addr1_some; [exact GE|exact FE|]. unfold after. cbn [port_words app]. destruct (end_cons e' (option_words o)) as (w & ws & E). rewrite E, sp_in, <- E. now apply dst1_some.
Qed.
(** an address read at a port *)
Lemma port_then p e p' o c : good_port p -> p <> PNone -> good_end e -> lmat dst1 (after p e p' o) c fin = None.
Proof.
  intros GP NP GE. change (lmat dst1 (after p e p' o) c fin) with (lmat (addr1 13 14 15 16) (after p e p' o) c (fun ws c => lmat (tail 17 18 19 20 21 22) ws c fin)). unfold after. destruct p as [|op x|a b|x]; [congruence| | |]; cbn [port_words app].
  - destruct GP as (O & Wx & NQ). assert (Wo : a_word op) by (destruct O as (k & Ik & ->); cbn [In] in Ik; repeat (destruct Ik as [<-|Ik]; [apply w_word_lit; [reflexivity|discriminate]|]); destruct Ik).
    rewrite addr1_other; [|exact Wo|apply (foreign_no ["object-group"]%string); [eapply one_of_lits; [|exact O]; reflexivity|now left]|apply (foreign_no ["object"]%string); [eapply one_of_lits; [|exact O]; reflexivity|now left]]. now rewrite no_quad.
  - destruct GP as (Wa & Wb & NQ). rewrite addr1_other; [|apply w_word_lit; [reflexivity|discriminate]|reflexivity|reflexivity]. now rewrite no_quad.
  - assert (TN : forall c, lmat (tail 17 18 19 20 21 22) (end_words e ++ port_words p' ++ option_words o) c fin = None).
    { intros d. destruct e as [| |y|y|y|n m]; cbn [end_words app]; apply tail_no; try reflexivity. destruct GE as (_ & NK & _). apply not_foreign in NK. eapply foreign_sub; [exact NK|]. intros z Iz. rewrite !in_app_iff. auto. }
    rewrite addr1_group by exact GP. rewrite !TN. now destruct (whole r_quad x).
Qed.
Lemma src1_none e p e' p' o c : good_end e -> good_port p -> good_end e' -> good_port p' -> good_options o ->
  ~ (fits1 e /\ p = PNone /\ fits1 e' /\ p' = PNone) -> lmat src1 (end_words e ++ after p e' p' o) c fin = None.
Proof.
  intros GE GP GE' GP' GO NF. rewrite src1_eq. assert (AC : exists w ws, after p e' p' o = w :: ws). { unfold after. destruct p; cbn [port_words app]; [apply end_cons|eauto..]. } destruct AC as (w & ws & Ea).
  assert (SN : fits1 e -> forall c, lmat (WCat WSp dst1) (after p e' p' o) c fin = None).
  { intros FE d. rewrite Ea, sp_in, <- Ea. destruct p as [|op x|a b|x]; try (apply port_then; [exact GP|discriminate|exact GE']). unfold after. cbn [port_words app]. apply dst1_none; try assumption. intros F1 ->. apply NF. auto. }
  destruct e as [| |x|x|x|n m]; try (apply addr1_no; [exact GE|intros [K|K]; discriminate K|intros d FE; now apply SN]).
  all: cbn [end_words app]; rewrite addr1_other; [|apply w_word_lit; [reflexivity|discriminate]|reflexivity|reflexivity].
  all: unfold after; destruct p as [|op x|a b|x]; cbn [port_words app]; [|destruct GP as (O & _); rewrite (one_of_quad ["eq"; "neq"; "lt"; "gt"]%string op eq_refl O); reflexivity|reflexivity|reflexivity].
  all: destruct e' as [| |x|x|x|n m]; cbn [end_words app]; closed; try reflexivity.
  all: destruct (whole r_quad n) eqn:Qn; [|reflexivity]; destruct GE' as (Wn & _ & Qm); pose proof (proj2 (w_quad m) Qm) as Qm'.
  all: rewrite sp_in, dst1_eq.
  all: rewrite addr1_other; [|exact (quad_word m Qm)|now apply quad_not|now apply quad_not].
  all: pose proof (after_no_quad p' o GP' GO) as AN; destruct (port_words p' ++ option_words o) as [|v r]; [reflexivity|now rewrite AN].
Qed.

(** ** The second form: every kind of address, with ports *)
Definition ecaps2 (any host o og net mask : nat) (e : endpoint) : caps :=
  match e with
  | EAny => [(any, lit "any")] | EAny4 => [(any, lit "any4")]
  | EHost x => [(host, x)] | EObject x => [(o, x)] | EGroup x => [(og, x)] | ENet n m => [(mask, m); (net, n)]
  end.
Definition pcaps (op p lo hi og : nat) (x : portspec) : caps :=
  match x with PNone => [] | POp o v => [(p, v); (op, o)] | PRange a b => [(hi, b); (lo, a)] | PGroup v => [(og, v)] end.
Section Second.
  Context {R : Type}.
  Variable k : list str -> caps -> option R.
  Lemma addr2_some any host o og net mask e r c z : good_end e -> k r (ecaps2 any host o og net mask e ++ c) = Some z ->
    lmat (addr2 any host o og net mask) (end_words e ++ r) c k = Some z.
  Proof.
    intros GE K. destruct e as [| |x|x|x|n m]; cbn [end_words app ecaps2] in *.
    - walk. now rewrite K.
    - walk. now rewrite K.
    - walk. rewrite (a_whole x GE). now rewrite K.
    - walk. rewrite (a_whole x GE). now rewrite K.
    - walk. rewrite (a_whole x GE). now rewrite K.
    - destruct GE as (Wn & NK & Qm). apply not_foreign in NK. walk. rewrite w_any. rewrite (foreign_sub _ ["any"; "any4"]%string n NK) by (intros y Iy; cbn in *; tauto).
      rewrite !(foreign_no _ n _ NK) by (cbn; auto 20). rewrite (a_whole n Wn), (proj2 (w_quad m) Qm). exact K.
  Qed.
  Lemma ports_some op p lo hi og x r c z : good_port x -> x <> PNone -> k r (pcaps op p lo hi og x ++ c) = Some z -> lmat (ports op p lo hi og) (port_words x ++ r) c k = Some z.
  Proof.
    intros GP NP K. destruct x as [|o v|a b|v]; [congruence| | |]; cbn [port_words app pcaps] in *.
    - destruct GP as (O & Wv & _). walk. rewrite w_op, (proj2 (lits_iff _ _) O), (a_whole v Wv). now rewrite K.
    - destruct GP as (Wa & Wb & _). walk. rewrite (a_whole a Wa), (a_whole b Wb). now rewrite K.
    - walk. rewrite (a_whole v GP). now rewrite K.
  Qed.
  Lemma ports_skip op p lo hi og r c : match r with w :: _ => lits port_keywords w = false | [] => True end -> lmat (ports op p lo hi og) r c k = k r c.
  Proof.
    destruct r as [|w r]; [reflexivity|]. intros N. walk. rewrite w_op. rewrite (foreign_sub port_keywords ["eq"; "neq"; "lt"; "gt"]%string w N) by (intros y Iy; cbn in *; tauto).
    now rewrite !(foreign_no port_keywords w _ N) by (cbn; auto 10).
  Qed.
  (** a group is tried as a port first *)
  Lemma ports_group op p lo hi og x r c : a_word x -> lmat (ports op p lo hi og) (lit "object-group" :: x :: r) c k =
    match k r ((og, x) :: c) with Some z => Some z | None => k (lit "object-group" :: x :: r) c end.
  Proof. intros Wx. walk. rewrite (a_whole x Wx). reflexivity. Qed.
End Second.
Definition end2 : wre := seqs [ports 44 45 46 47 48; tail 49 50 51 52 53 54].
Definition dst2 : wre := seqs [addr2 38 39 40 41 42 43; ports 44 45 46 47 48; tail 49 50 51 52 53 54].
Definition src2 : wre := seqs [addr2 27 28 29 30 31 32; ports 33 34 35 36 37; WSp; addr2 38 39 40 41 42 43; ports 44 45 46 47 48; tail 49 50 51 52 53 54].
Lemma end2_eq ws c : lmat end2 ws c fin = lmat (ports 44 45 46 47 48) ws c (fun ws c => lmat (tail 49 50 51 52 53 54) ws c fin).
Proof. reflexivity. Qed.
Lemma dst2_eq ws c : lmat dst2 ws c fin = lmat (addr2 38 39 40 41 42 43) ws c (fun ws c => lmat end2 ws c fin).
Proof. reflexivity. Qed.
Lemma src2_eq ws c : lmat src2 ws c fin = lmat (addr2 27 28 29 30 31 32) ws c (fun ws c => lmat (ports 33 34 35 36 37) ws c (fun ws c => lmat (WCat WSp dst2) ws c fin)).
Proof. reflexivity. Qed.
Lemma options_not_ports o : good_options o -> match option_words o with w :: _ => lits port_keywords w = false | [] => True end.
Proof.
  intros GO. pose proof (option_heads o GO) as OH. destruct (option_words o) as [|w [|v r]]; [exact I| |]; (eapply one_of_lits; [|apply OH]); reflexivity.
Qed.
Lemma end2_ok p o c : good_port p -> good_options o -> lmat end2 (port_words p ++ option_words o) c fin = Some (tcaps 49 50 51 52 53 54 o ++ pcaps 44 45 46 47 48 p ++ c).
Proof.
  intros GP GO. rewrite end2_eq. destruct p as [|op x|a b|x]; try (apply ports_some; [exact GP|discriminate|now apply tail_ok]).
  cbn [port_words app pcaps]. rewrite ports_skip by now apply options_not_ports. now apply tail_ok.
Qed.
Lemma dst2_ok e p o c : good_end e -> good_port p -> good_options o ->
  lmat dst2 (end_words e ++ port_words p ++ option_words o) c fin = Some (tcaps 49 50 51 52 53 54 o ++ pcaps 44 45 46 47 48 p ++ ecaps2 38 39 40 41 42 43 e ++ c).
Proof. intros GE GP GO. rewrite dst2_eq. apply addr2_some; [exact GE|]. now apply end2_ok. Qed.
(** an address read after a group that is the address *)
Lemma no_address p o c : good_port p -> good_options o -> (forall x, p <> PGroup x) -> lmat (WCat WSp dst2) (port_words p ++ option_words o) c fin = None.
Proof.
  intros GP GO NG. destruct p as [|op x|a b|x]; [| | |now contradiction (NG x)]; cbn [port_words app].
  - pose proof (option_heads o GO) as OH. destruct (option_words o) as [|w r]; [reflexivity|]. rewrite sp_in, dst2_eq. assert (O : one_of option_keywords w) by (destruct r; apply OH).
    apply addr2_none; [apply (foreign_no ["host"]%string); [eapply one_of_lits; [|exact O]; reflexivity|now left]|apply (foreign_no ["object-group"]%string); [eapply one_of_lits; [|exact O]; reflexivity|now left]|apply (foreign_no ["object"]%string); [eapply one_of_lits; [|exact O]; reflexivity|now left]|rewrite w_any; eapply one_of_lits; [|exact O]; reflexivity|]. destruct r; [exact I|apply OH].
  - destruct GP as (O & Wx & NQ). rewrite sp_in, dst2_eq. apply addr2_none; [apply (foreign_no ["host"]%string); [eapply one_of_lits; [|exact O]; reflexivity|now left]|apply (foreign_no ["object-group"]%string); [eapply one_of_lits; [|exact O]; reflexivity|now left]|apply (foreign_no ["object"]%string); [eapply one_of_lits; [|exact O]; reflexivity|now left]|rewrite w_any; eapply one_of_lits; [|exact O]; reflexivity|]. now apply no_quad.
  - destruct GP as (Wa & Wb & NQ). rewrite sp_in, dst2_eq. apply addr2_none; [reflexivity..|]. now apply no_quad.
Qed.
Definition twice (p : portspec) (e : endpoint) (p' : portspec) : Prop := p = PNone /\ (exists x, e = EGroup x) /\ (exists y, p' = PGroup y).
Lemma src2_ok e p e' p' o c : good_end e -> good_port p -> good_end e' -> good_port p' -> good_options o -> ~ twice p e' p' ->
  lmat src2 (end_words e ++ after p e' p' o) c fin =
  Some (tcaps 49 50 51 52 53 54 o ++ pcaps 44 45 46 47 48 p' ++ ecaps2 38 39 40 41 42 43 e' ++ pcaps 33 34 35 36 37 p ++ ecaps2 27 28 29 30 31 32 e ++ c).
Proof.
  intros GE GP GE' GP' GO NT. rewrite src2_eq. apply addr2_some; [exact GE|]. unfold after. destruct (end_cons e' (port_words p' ++ option_words o)) as (w & ws & Ee).
  assert (DK : forall d, lmat (WCat WSp dst2) (end_words e' ++ port_words p' ++ option_words o) d fin = Some (tcaps 49 50 51 52 53 54 o ++ pcaps 44 45 46 47 48 p' ++ ecaps2 38 39 40 41 42 43 e' ++ d)).
  { intros d. rewrite Ee, sp_in, <- Ee. now apply dst2_ok. }
  destruct p as [|op x|a b|x]; try (apply ports_some; [exact GP|discriminate|apply DK]). cbn [port_words app pcaps].
  assert (SK : match end_words e' ++ port_words p' ++ option_words o with w :: _ => lits port_keywords w = false | [] => True end -> lmat (ports 33 34 35 36 37) (end_words e' ++ port_words p' ++ option_words o) (ecaps2 27 28 29 30 31 32 e ++ c) (fun ws c => lmat (WCat WSp dst2) ws c fin) = Some (tcaps 49 50 51 52 53 54 o ++ pcaps 44 45 46 47 48 p' ++ ecaps2 38 39 40 41 42 43 e' ++ ecaps2 27 28 29 30 31 32 e ++ c)).
  { intros N. rewrite ports_skip by exact N. apply DK. }
  destruct e' as [| |x|x|x|n m]; try (apply SK; reflexivity).
  - cbn [end_words app] in *. rewrite ports_group by exact GE'. rewrite no_address; [apply DK|exact GP'|exact GO|]. intros y ->. apply NT. split; [reflexivity|]. eauto.
  - apply SK. cbn [end_words app]. destruct GE' as (_ & NK & _). apply not_foreign in NK. eapply foreign_sub; [exact NK|]. intros z Iz. rewrite !in_app_iff. auto.
Qed.
(** Read as a port group and an address group, such a line has the same words. *)
Lemma twice_words x y o : after PNone (EGroup x) (PGroup y) o = after (PGroup x) (EGroup y) PNone o.
Proof. reflexivity. Qed.

(** ** The head of the line *)
Definition svcaps (s p : nat) (x : protocol) : caps := match x with Proto v => [(p, v)] | ServiceGroup v => [(s, v)] end.
Lemma number_word x v : number_of x v -> whole r_proto x = true /\ str_eqb x (lit "object-group") = false.
Proof.
  intros N. assert (P : whole r_proto x = true) by (apply w_proto; destruct N as [k v I0|w D]; [left; exists k; split; [apply (in_map fst _ _ I0)|reflexivity]|right; exact D]).
  split; [exact P|]. destruct (str_eqb x (lit "object-group")) eqn:E; [|reflexivity]. apply str_eqb_eq in E as ->. vm_compute in P. discriminate P.
Qed.
Lemma service_head {R} s p x r c (k : list str -> caps -> option R) : good_protocol x ->
  lmat (service s p) (proto_words x ++ r) c k = k r (svcaps s p x ++ c).
Proof.
  intros GP. destruct x as [v|v]; cbn [proto_words app svcaps].
  - destruct GP as (z & N). destruct (number_word v z N) as [P E]. walk. now rewrite E, P.
  - walk. rewrite (a_whole v GP). destruct (k r ((s, v) :: c)); reflexivity.
Qed.
Lemma head_in {R} n kind a name act r q c (k : list str -> caps -> option R) : a_word name -> one_of ["permit"; "deny"]%string act -> q <> [] ->
  lmat (seqs (head n kind a ++ [r])) ([lit "access-list"; name; lit kind; act] ++ q) c k = lmat r q ((a, act) :: (n, name) :: c) k.
Proof.
  intros Wn Ac NQ. unfold head. cbn [app seqs lmat wl tok grabbed]. closed. rewrite (a_whole name Wn). rewrite str_eqb_refl. rewrite w_action, (proj2 (lits_iff _ _) Ac). destruct q; [congruence|]. apply lmat_ext. reflexivity.
Qed.
