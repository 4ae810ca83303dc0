(** Facts about patterns with optional words, and the route pattern. *)
From Coq Require Import Ascii String Arith NArith ZArith Bool List Lia.
From Verif Require Import PyStr PyStrFacts PyBase SearchModel IntfSpec IpModel PyRe PyReFacts PyReTmpl PyReSent IosSpec IosModel IosFacts RouteSpec RouteModel.
Import ListNotations.
Local Open Scope char_scope.

(** White space and words to the end of the text. *)
Inductive trail : list str -> str -> Prop :=
| trail_end e : white e -> trail [] e
| trail_word g w ws s : gap g -> trail ws s -> trail (w :: ws) (g ++ w ++ s).

Lemma phrase_trail ws : forall w p e, phrase (w :: ws) p -> white e -> exists s, p ++ e = w ++ s /\ trail ws s.
Proof.
  induction ws as [|v ws IH]; intros w p e P E; inversion P as [|? g ? q G1 P']; subst.
  - exists e. split; [reflexivity|now constructor].
  - inversion P'.
  - destruct (IH v q e P' E) as (s & E1 & T1). exists (g ++ v ++ s). rewrite <- !app_assoc, E1. split; [reflexivity|now constructor].
Qed.
Lemma gap_no_more g s f : gap g -> (forall c, f c = true -> is_space c = false) -> no_more f (g ++ s).
Proof.
  intros [G1 G2] F. destruct g as [|x g]; [congruence|]. cbn. unfold white in G1. cbn [forallb] in G1. apply andb_true_iff in G1 as [G1 _].
  destruct (f x) eqn:E; [apply F in E; congruence|reflexivity].
Qed.
Lemma trail_no_more ws s f : trail ws s -> (forall c, f c = true -> is_space c = false) -> no_more f s.
Proof.
  intros T F. destruct T as [e E|g w ws s G1 _]; [|now apply gap_no_more]. destruct e as [|x e]; [exact I|]. cbn.
  unfold white in E. cbn [forallb] in E. apply andb_true_iff in E as [E _]. destruct (f x) eqn:Fx; [apply F in Fx; congruence|reflexivity].
Qed.
Lemma trail_ends ws s ks : trail ws s -> ends_before ks s.
Proof.
  intros T. induction ks as [|k ks IH]; [exact I|]. destruct ks as [|k' ks]; [|destruct k; exact IH].
  destruct k; cbn [ends_before]; try exact I; apply (trail_no_more _ _ _ T); intros c; try apply digit_nonspace; now destruct (is_space c).
Qed.
Lemma nonwhite_no_more s : nonwhite_head s = true -> no_more is_space s.
Proof. destruct s; [discriminate|]. cbn. now destruct (is_space a). Qed.

(** Two ways to cut a text after its white space. *)
Lemma cut_white g g' s s' : white g -> white g' -> nonwhite_head s = true -> nonwhite_head s' = true -> g ++ s = g' ++ s' -> g = g' /\ s = s'.
Proof.
  revert g'. induction g as [|x g IH]; intros [|y g'] G1 G2 N1 N2 E; cbn [app] in E.
  - auto.
  - subst s. unfold white in G2. cbn in *. destruct (is_space y); discriminate.
  - subst s'. unfold white in G1. cbn in *. destruct (is_space x); discriminate.
  - injection E as -> E. unfold white in *. cbn [forallb] in *. apply andb_true_iff in G1 as [_ G1], G2 as [_ G2]. destruct (IH g' G1 G2 N1 N2 E). now subst.
Qed.

(** ** Optional words *)

(** The words [pre] and then one of the kind [k], which is the group [n]. *)
Definition opt_item (pre : list str) (k : slot) : item := Opt (Run sp true :: sent (map W pre ++ [k])).
Definition put (n : nat) (o : option str) (c : caps) : caps := match o with Some v => (n, v) :: c | None => c end.
Definition opt_words (pre : list str) (o : option str) : list str := match o with Some v => pre ++ [v] | None => [] end.
Lemma cap_put m n o c : cap m (put n o c) = if Nat.eqb m n then match o with Some v => Some v | None => cap m c end else cap m c.
Proof. destruct o; cbn; destruct (Nat.eqb m n); reflexivity. Qed.
(** The words that follow do not begin like the optional ones. *)
Definition clash (pre : list str) (k : slot) (ws : list str) : Prop :=
  match ws with
  | [] => True
  | x :: _ => nonwhite_head x = true /\ forall s t r, no_more (fun c => negb (is_space c)) s ->
      match pre with w :: _ => t = w | [] => fits k t end -> x ++ s <> t ++ r
  end.
Lemma opt_caps pre k n v c : (forall v, cap1 k v = [(n, v)]) -> caps_of (map W pre ++ [k]) (pre ++ [v]) c = (n, v) :: c.
Proof. intros C. rewrite caps_words. cbn. now rewrite C. Qed.
Lemma opt_fits pre k v : fits k v -> Forall2 fits (map W pre ++ [k]) (pre ++ [v]).
Proof. intros F. induction pre as [|w pre IH]; cbn; constructor; auto. reflexivity. Qed.
Lemma opt_fits_inv pre k ws : Forall2 fits (map W pre ++ [k]) ws -> exists v, ws = pre ++ [v] /\ fits k v.
Proof.
  revert ws. induction pre as [|w pre IH]; intros ws F; inversion F as [|? t ? ts F1 F2]; subst.
  - inversion F2; subst. now exists t.
  - destruct (IH _ F2) as (v & -> & Fv). cbn in F1. subst t. now exists v.
Qed.
Lemma trail_phrase a : forall b s, a <> [] -> trail (a ++ b) s -> exists g p s', s = g ++ p ++ s' /\ gap g /\ phrase a p /\ trail b s'.
Proof.
  induction a as [|w a IH]; intros b s NE T; [congruence|]. inversion T as [|g ? ? s' G1 T']; subst. destruct a as [|v a].
  - exists g, w, s'. repeat split; auto; try apply G1. constructor.
  - destruct (IH b s' ltac:(discriminate) T') as (g' & p & s2 & -> & G2 & P & T2). exists g, (w ++ g' ++ p), s2.
    split; [now rewrite <- !app_assoc|]. split; [exact G1|]. split; [now constructor|exact T2].
Qed.
Lemma phrase_head ws p : phrase ws p -> exists w r, hd_error ws = Some w /\ p = w ++ r /\ no_more (fun c => negb (is_space c)) r.
Proof.
  intros P. destruct P as [w|w g ws p G1 P]; [exists w, []; now rewrite app_nil_r|]. exists w, (g ++ p). repeat split.
  apply gap_no_more; [exact G1|]. intros c. now destruct (is_space c).
Qed.
Lemma phrase_app_head ws p s : phrase ws p -> no_more (fun c => negb (is_space c)) s -> exists w r, hd_error ws = Some w /\ p ++ s = w ++ r /\ no_more (fun c => negb (is_space c)) r.
Proof.
  intros P N. destruct P as [w|w g ws p G1 P]; [exists w, s; auto|]. exists w, (g ++ p ++ s). rewrite <- !app_assoc. repeat split.
  apply gap_no_more; [exact G1|]. intros c. now destruct (is_space c).
Qed.
Lemma opt_none pre k ws s : forallb nonwhite_head pre = true -> proper k = true -> trail ws s -> clash pre k ws ->
  forall i c1 i' s' c', ~ M (den (Run sp true :: sent (map W pre ++ [k]))) i s c1 i' s' c'.
Proof.
  intros Pp Pk T C i c1 i' s' c' HM. apply shape in HM. apply D_run_eq in HM as (g & r & -> & K1 & _ & HD). apply all_sp in K1.
  rewrite <- (app_nil_r (sent _)) in HD. apply sent_shape in HD as (vs & p & r' & -> & P & F & _); [|destruct pre; discriminate].
  apply opt_fits_inv in F as (v & -> & Fv).
  destruct (phrase_head _ _ P) as (w & q & Hw & -> & _).
  assert (Nw : nonwhite_head w = true /\ match pre with u :: _ => w = u | [] => fits k w end).
  { destruct pre as [|u pre]; cbn in Hw; injection Hw as <-.
    - split; [now apply (fits_head k)|exact Fv].
    - cbn in Pp. apply andb_true_iff in Pp as [Pp _]. now split. }
  destruct Nw as [Nw Fw].
  inversion T as [e E|g' x ws' s1 G1 T1]; subst.
  - assert (E' : white (w ++ q ++ r')) by (apply white_app in E as [_ E]; now rewrite <- app_assoc in E).
    destruct w as [|y w]; [discriminate|]. unfold white in E'. cbn in *. destruct (is_space y); discriminate.
  - destruct C as [Nx C]. symmetry in H0. rewrite <- app_assoc in H0. apply cut_white in H0 as [-> E].
    + symmetry in E. apply (C s1 w (q ++ r')); [|exact Fw|now symmetry]. apply (trail_no_more _ _ _ T1). intros c. now destruct (is_space c).
    + exact K1.
    + apply G1.
    + now apply nonwhite_head_app.
    + now apply nonwhite_head_app.
Qed.
Lemma opt_fwd pre k n o ws s : (forall v, cap1 k v = [(n, v)]) -> forallb nonwhite_head pre = true -> proper k = true ->
  trail (opt_words pre o ++ ws) s -> (forall v, o = Some v -> fits k v) -> (o = None -> clash pre k ws) ->
  exists s1, trail ws s1 /\ forall T s2 c c2, D true T s1 s2 (put n o c) c2 -> D true (opt_item pre k :: T) s s2 c c2.
Proof.
  intros C Pp Pk T F N. destruct o as [v|]; cbn [opt_words] in T.
  - destruct (trail_phrase (pre ++ [v]) ws s ltac:(destruct pre; discriminate) T) as (g & p & s1 & -> & G1 & P & T1). exists s1. split; [exact T1|]. intros T0 s2 c c2 HD.
    eapply D_take; [|exact HD]. specialize (F v eq_refl).
    assert (PR : forallb proper (map W pre ++ [k]) = true).
    { rewrite forallb_app. apply andb_true_iff. split; [|cbn; now rewrite Pk]. clear - Pp. induction pre; [reflexivity|]. cbn in *. apply andb_true_iff in Pp as [-> Pp]. auto. }
    pose proof (fits_head_phrase (map W pre ++ [k]) _ p ltac:(destruct pre; discriminate) PR (opt_fits pre k v F) P) as Np.
    constructor; [now apply all_sp, G1|intros _; apply G1| |].
    + intros _. apply (stops_iff _ _ _ in_sp). apply nonwhite_no_more. now apply nonwhite_head_app.
    + rewrite <- (app_nil_r (sent _)). apply (sent_fwd _ (pre ++ [v])); auto; [now apply opt_fits|eapply trail_ends; eassumption|].
      rewrite (opt_caps _ _ n) by assumption. constructor.
  - exists s. split; [exact T|]. intros T0 s2 c c2 HD. apply D_skip; [|exact HD]. intros _. eapply opt_none; eauto.
Qed.
Lemma opt_shape pre k n T s s' c c' : (forall v, cap1 k v = [(n, v)]) -> D false (opt_item pre k :: T) s s' c c' ->
  exists o s1, (forall v, o = Some v -> fits k v) /\ D false T s1 s' (put n o c) c' /\
    match o with Some v => exists g p, s = g ++ p ++ s1 /\ gap g /\ phrase (pre ++ [v]) p | None => s = s1 end.
Proof.
  intros C HD. inversion HD as [| | | | | | | |? ? ? ? ? ? A1 HD'|? ? ? s1 ? ? c1 ? A1 HD']; subst.
  - exists None, s. repeat split; auto. discriminate.
  - apply D_run_eq in A1 as (g & r & -> & K1 & K2 & A1). rewrite <- (app_nil_r (sent _)) in A1.
    apply sent_shape in A1 as (vs & p & r' & -> & P & F & A1); [|destruct pre; discriminate]. apply opt_fits_inv in F as (v & -> & Fv).
    apply D_nil_eq in A1 as [-> ->]. exists (Some v), r'. repeat split.
    + now intros ? [= <-].
    + rewrite (opt_caps _ _ n) in HD' by assumption. exact HD'.
    + exists g, p. repeat split; auto. now apply all_sp.
Qed.

(** ** The route pattern *)

Definition nd : cset := mkSet true false [CDigit].
Lemma in_nd c : in_set nd c = negb (is_digit c).
Proof. cbn. destruct (is_digit c); reflexivity. Qed.
Definition intf_item : item := Opt [Run sp true; Grp 4 [One nd; Run ns true]].
Definition after_T : list item :=
  [opt_item [] (L 6 (lit "dhcp")); opt_item [] (L 7 (lit "global")); opt_item [] (N 8); opt_item [] (L 9 (lit "multicast"));
   opt_item [lit "name"] (G 10); opt_item [] (L 11 (lit "permanent")); opt_item [lit "track"] (N 12); opt_item [lit "tag"] (N 13)].
Definition hop_T : list item := intf_item :: opt_item [] (H 5) :: after_T.
Definition route_T : list item :=
  Lit (lit "ip") :: Run sp true :: Lit (lit "route") :: opt_item [lit "vrf"] (G 1) :: Run sp true :: sent [H 2; H 3] ++ hop_T.
Lemma route_reads : reads route_pattern route_T 13.
Proof. vm_compute. reflexivity. Qed.

Definition flag_opt (w : string) (b : bool) : option str := if b then Some (lit w) else None.
Lemma flag_words w b : flag w b = opt_words [] (flag_opt w b). Proof. now destruct b. Qed.
Lemma here_words o : here o = opt_words [] o. Proof. now destruct o. Qed.
Lemma arg_words w o : arg w o = opt_words [lit w] o. Proof. now destruct o. Qed.
Definition after_caps (r : route) (c : caps) : caps :=
  put 13 (r_tag r) (put 12 (r_track r) (put 11 (flag_opt "permanent" (r_permanent r)) (put 10 (r_name r) (put 9 (flag_opt "multicast" (r_multicast r))
    (put 8 (r_ad r) (put 7 (flag_opt "global" (r_global r)) (put 6 (flag_opt "dhcp" (r_dhcp r)) c))))))).

Lemma digits_head d : digits d -> exists c r, d = c :: r /\ is_digit c = true /\ is_space c = false.
Proof.
  intros [NE F]. destruct d as [|c r]; [congruence|]. cbn in F. apply andb_true_iff in F as [F _]. exists c, r. repeat split; auto. now apply digit_nonspace.
Qed.
(** Digits at the beginning, without a dot after them, are no dotted quad. *)
Lemma digits_no_quad d s t r : digits d -> no_more (fun c => negb (is_space c)) s -> quad t -> d ++ s <> t ++ r.
Proof.
  intros [_ Fd] Ns (a & b & c & e & -> & F) E. inversion F as [|? ? [_ Fa] _]; subst. clear F.
  assert (X0 : forall a : str, forallb is_digit a = true -> forall d, forallb is_digit d = true -> forall s z : str, no_more (fun c => negb (is_space c)) s -> d ++ s = a ++ "." :: z -> False).
  { clear. induction a as [|x a IH]; intros Fa [|y d] Fd s z Ns E; cbn [app] in E.
    - subst s. cbn in Ns. discriminate.
    - injection E as -> E. discriminate.
    - subst s. cbn in Ns, Fa. apply andb_true_iff in Fa as [Fa _]. apply digit_nonspace in Fa. rewrite Fa in Ns. discriminate.
    - injection E as <- E. cbn [forallb] in *. apply andb_true_iff in Fa as [_ Fa], Fd as [_ Fd]. now apply (IH Fa d Fd s z). }
  rewrite <- !app_assoc in E. cbn [app] in E. now apply (X0 a Fa d Fd _ _ Ns E).
Qed.

Ltac clash_word :=
  split; [reflexivity|]; let s0 := fresh "u" in let t := fresh "t" in let r := fresh "r" in let Ns := fresh "Ns" in let F := fresh "F" in let E := fresh "E" in intros s0 t r Ns F E; cbv beta iota in F;
  first
   [ (* a keyword against a keyword *)
     cbn [fits] in F; subst t; discriminate E
   | (* digits or a dotted quad wanted *)
     cbn [fits] in F; first
       [ destruct F as [F1 F2]; destruct t as [|y t]; [congruence|]; cbn in F2; apply andb_true_iff in F2 as [F2 _]; injection E as <- _; discriminate F2
       | destruct F as (a & b & c0 & d & -> & F); inversion F as [|? ? [F1 F2] _]; subst; destruct a as [|y a]; [congruence|]; cbn in F2; apply andb_true_iff in F2 as [F2 _];
         injection E as <- _; discriminate F2 ] ].
Ltac clash_digits :=
  match goal with Hd : digits ?d |- _ =>
    split; [destruct (digits_head d Hd) as (y & z & -> & _ & Y); cbn; now rewrite Y|]; let s0 := fresh "u" in let t := fresh "t" in let r := fresh "r" in let Ns := fresh "Ns" in let F := fresh "F" in let E := fresh "E" in intros s0 t r Ns F E; cbv beta iota in F;
    first [ cbn [fits] in F; revert E; apply digits_no_quad; assumption
          | cbn [fits] in F; destruct (digits_head d Hd) as (y & z & -> & Y & _); subst t; injection E as -> _; discriminate Y ]
  end.
Ltac clash_next :=
  cbn [opt_words flag_opt app]; try exact I; first [clash_digits | clash_word].
Ltac clash_rest :=
  repeat match goal with
  | |- clash _ _ (opt_words _ (flag_opt _ ?b) ++ _) => destruct b; [clash_next|cbn [opt_words flag_opt app]]
  | |- clash _ _ (opt_words _ (flag_opt _ ?b)) => destruct b; [clash_next|cbn [opt_words flag_opt app]]
  | |- clash _ _ (opt_words _ ?o ++ _) => destruct o; cbn [given] in *; [clash_next|cbn [opt_words flag_opt app]]
  | |- clash _ _ (opt_words _ ?o) => destruct o; cbn [given] in *; [clash_next|cbn [opt_words flag_opt app]]
  end; try exact I.

Lemma after_fwd r s c : given digits (r_ad r) -> given word (r_name r) -> given digits (r_track r) -> given digits (r_tag r) -> trail (after_hop r) s ->
  exists s', D true after_T s s' c (after_caps r c).
Proof.
  unfold after_hop, after_caps. destruct r as [vrf pre mask intf ad0 dh gl ad mc nm pm tr tg]. cbn [r_dhcp r_global r_ad r_multicast r_name r_permanent r_track r_tag]. intros Had Hnm Htr Htg T.
  rewrite !flag_words, !arg_words, (here_words ad) in T.
  assert (FF : forall n w b v, flag_opt w b = Some v -> fits (L n (lit w)) v) by (intros n w [] v [= <-]; reflexivity).
  unfold after_T.
  eapply (opt_fwd [] (L 6 (lit "dhcp")) 6) in T as (s1 & T & K1); [|reflexivity|reflexivity|reflexivity|apply FF|intros _; clash_rest].
  eapply (opt_fwd [] (L 7 (lit "global")) 7) in T as (s2 & T & K2); [|reflexivity|reflexivity|reflexivity|apply FF|intros _; clash_rest].
  eapply (opt_fwd [] (N 8) 8) in T as (s3 & T & K3); [|reflexivity|reflexivity|reflexivity|intros v ->; exact Had|intros _; clear Had; clash_rest].
  eapply (opt_fwd [] (L 9 (lit "multicast")) 9) in T as (s4 & T & K4); [|reflexivity|reflexivity|reflexivity|apply FF|intros _; clash_rest].
  eapply (opt_fwd [lit "name"] (G 10) 10) in T as (s5 & T & K5); [|reflexivity|reflexivity|reflexivity|intros v ->; exact Hnm|intros _; clash_rest].
  eapply (opt_fwd [] (L 11 (lit "permanent")) 11) in T as (s6 & T & K6); [|reflexivity|reflexivity|reflexivity|apply FF|intros _; clash_rest].
  eapply (opt_fwd [lit "track"] (N 12) 12) in T as (s7 & T & K7); [|reflexivity|reflexivity|reflexivity|intros v ->; exact Htr|intros _; clash_rest].
  rewrite <- (app_nil_r (opt_words [lit "tag"] tg)) in T.
  eapply (opt_fwd [lit "tag"] (N 13) 13) in T as (s8 & T & K8); [|reflexivity|reflexivity|reflexivity|intros v ->; exact Htg|intros _; exact I].
  exists s8. apply K1, K2, K3, K4, K5, K6, K7, K8. constructor.
Qed.

Lemma quad_first t : quad t -> exists c r, t = c :: r /\ is_digit c = true.
Proof.
  intros (a & b & c & d & -> & F). inversion F as [|? ? [F1 F2] _]; subst. destruct a as [|x a]; [congruence|]. cbn in F2. apply andb_true_iff in F2 as [F2 _].
  now exists x, (a ++ "." :: b ++ "." :: c ++ "." :: d).
Qed.
Definition head_caps (r : route) : caps := (3, r_mask r) :: (2, r_prefix r) :: put 1 (r_vrf r) [].
(** Up to the mask; [z] is what follows it without a word boundary in the list. *)
Lemma head_fwd r t z rest : well_formed r -> no_more (fun c => negb (is_space c)) z ->
  line_of (eq []) white (before_hop r ++ [r_mask r ++ z] ++ rest) t ->
  exists s, trail rest s /\ forall T s2 c2, D true T (z ++ s) s2 (head_caps r) c2 ->
    D true (Lit (lit "ip") :: Run sp true :: Lit (lit "route") :: opt_item [lit "vrf"] (G 1) :: Run sp true :: sent [H 2; H 3] ++ T) t s2 [] c2.
Proof.
  intros (Wv & Qp & Qm & _) Nz (i & p & e & -> & <- & P & E). unfold before_hop in P. cbn [app] in P.
  destruct (phrase_trail _ _ _ _ P E) as (s0 & -> & T). rewrite arg_words in T. inversion T as [|g ? ? s1 G1 T1]; subst.
  rewrite <- app_assoc in T1.
  eapply (opt_fwd [lit "vrf"] (G 1) 1) in T1 as (s2 & T2 & K1); [|reflexivity|reflexivity|reflexivity| |].
  2:{ intros v Ev. rewrite Ev in Wv. exact Wv. }
  2:{ intros _. cbn [app]. destruct (quad_first _ Qp) as (x & y & -> & Dx). split; [cbn; now rewrite (digit_nonspace _ Dx)|].
      intros u t r0 _ Et Ex. cbv beta iota in Et. subst t. injection Ex as -> _. discriminate Dx. }
  cbn [app] in T2. inversion T2 as [|g2 ? ? s3 G2 T3]; subst. inversion T3 as [|g3 ? ? s4 G3 T4]; subst.
  exists s4. split; [exact T4|]. intros T0 u c2 HD.
  apply (D_lit true (lit "ip")). destruct (G1) as [Ga Gb]. constructor; [now apply all_sp|auto|intros _; apply (stops_iff _ _ _ in_sp); reflexivity|].
  apply (D_lit true (lit "route")). apply K1. destruct G2 as [G2a G2b]. constructor; [now apply all_sp|auto|intros _; apply (stops_iff _ _ _ in_sp)|].
  { apply nonwhite_no_more, nonwhite_head_app. now apply quad_head. }
  replace (r_prefix r ++ g3 ++ (r_mask r ++ z) ++ s4) with ((r_prefix r ++ g3 ++ r_mask r) ++ z ++ s4) by (now rewrite <- !app_assoc).
  apply (sent_fwd _ [r_prefix r; r_mask r]); [now repeat constructor|repeat constructor; apply G3|reflexivity| |exact HD].
  cbn. destruct z as [|x z]; cbn [app].
  - apply (trail_no_more _ _ _ T4). apply digit_nonspace.
  - cbn in Nz |- *. destruct (is_digit x) eqn:Dx; [|reflexivity]. rewrite (digit_nonspace _ Dx) in Nz. discriminate.
Qed.
Lemma intf_take i s1 T s2 c c2 g : intf_name i -> gap g -> no_more (fun c => negb (is_space c)) s1 -> D true T s1 s2 ((4, i) :: c) c2 ->
  D true (intf_item :: T) (g ++ i ++ s1) s2 c c2.
Proof.
  intros ([_ Wi] & a & b & r & -> & Da) [Ga Gb] Ns HD. cbn [forallb] in Wi. apply andb_true_iff in Wi as [Sa Wi].
  eapply D_take; [|exact HD]. constructor; [now apply all_sp|auto|intros _; apply (stops_iff _ _ _ in_sp)|].
  { cbn. destruct (is_space a); [discriminate|reflexivity]. }
  econstructor; [|constructor]. cbn [app]. constructor; [now rewrite in_nd, Da|].
  change (b :: r ++ s1) with ((b :: r) ++ s1). constructor; [now apply all_ns|discriminate|intros _; now apply (stops_iff _ _ _ in_ns)|constructor].
Qed.
Lemma intf_skip c0 a s : is_space c0 = true -> quad a -> forall i c1 i' s' c', ~ M (den [Run sp true; Grp 4 [One nd; Run ns true]]) i (c0 :: a ++ s) c1 i' s' c'.
Proof.
  intros S0 Qa i c1 i' s' c' HM. apply shape in HM. apply D_run_eq in HM as (g & r & E & K1 & K2 & HD). apply all_sp in K1.
  apply D_grp_eq in HD as (w & r' & c2 & -> & HD & _). apply D_one_eq in HD as (x & r2 & E2 & X1 & _). rewrite in_nd in X1. rewrite E2 in E.
  destruct (quad_first _ Qa) as (y & a' & -> & Dy). destruct g as [|g0 g]; [now apply K2|]. injection E as -> E.
  destruct g as [|g1 g]; cbn [app] in E.
  - injection E as <- _. now rewrite Dy in X1.
  - injection E as <- _. unfold white in K1. cbn in K1. rewrite (digit_nonspace _ Dy), andb_false_r in K1. discriminate.
Qed.
Definition route_caps (r : route) : caps := after_caps r (put 5 (r_addr r) (put 4 (r_intf r) (head_caps r))).
Lemma route_fwd r t : well_formed r -> writes r t -> exists s', D true route_T t s' [] (route_caps r).
Proof.
  intros WF HW. pose proof WF as (_ & _ & Qm & Wi & Wa & Had & Hnm & Htr & Htg). unfold writes in HW. unfold route_caps.
  destruct (r_intf r) as [i|] eqn:Ei.
  - unfold route_words in HW. rewrite Ei in HW. destruct (head_fwd r t [] (here (Some i) ++ here (r_addr r) ++ after_hop r) WF I) as (s & T & K).
    { now rewrite app_nil_r. }
    cbn [here app] in T. inversion T as [|g ? ? s1 G1 T1]; subst. rewrite (here_words (r_addr r)) in T1.
    pose proof (trail_no_more _ _ (fun c => negb (is_space c)) T1 (fun c Hc => proj1 (negb_true_iff _) Hc)) as Ns.
    eapply (opt_fwd [] (H 5) 5) in T1 as (s2 & T2 & K1); [|reflexivity|reflexivity|reflexivity|intros v Ev; rewrite Ev in Wa; exact Wa|].
    2:{ intros _. unfold after_hop. rewrite !flag_words, !arg_words, (here_words (r_ad r)). clear - Had Hnm Htr Htg. destruct r as [a1 a2 a3 a4 a5 dh gl ad mc nm pm tr tg].
        cbn [r_dhcp r_global r_ad r_multicast r_name r_permanent r_track r_tag] in *. clash_rest. }
    destruct (after_fwd r s2 (put 5 (r_addr r) (put 4 (Some i) (head_caps r))) Had Hnm Htr Htg T2) as (s' & HD).
    exists s'. apply K. cbn [app]. apply intf_take; auto.
  - destruct (r_addr r) as [a|] eqn:Ea; [|contradiction]. destruct HW as (ma & (c0 & S0 & ->) & HL).
    destruct (head_fwd r t (c0 :: a) (after_hop r) WF) as (s & T & K); [cbn; now rewrite S0|exact HL|].
    assert (T1 : trail (opt_words [] (Some a) ++ after_hop r) ([c0] ++ a ++ s)).
    { cbn [opt_words app]. apply (trail_word [c0] a); [|exact T]. split; [unfold white; cbn; now rewrite S0|discriminate]. }
    eapply (opt_fwd [] (H 5) 5) in T1 as (s2 & T2 & K1); [|reflexivity|reflexivity|reflexivity|intros v [= <-]; exact Wa|discriminate].
    destruct (after_fwd r s2 (put 5 (Some a) (put 4 None (head_caps r))) Had Hnm Htr Htg T2) as (s' & HD).
    exists s'. apply K. apply D_skip; [intros _; now apply intf_skip|]. apply K1. exact HD.
Qed.
(** What a match of the route pattern looks like. *)
Definition weak_intf (i : str) : Prop := exists c r, i = c :: r /\ is_digit c = false /\ word r.
(** These words, each after white space, and then the rest. *)
Inductive hung : list str -> str -> str -> Prop :=
| hung_nil s : hung [] s s
| hung_word g w ws s s' : gap g -> hung ws s s' -> hung (w :: ws) (g ++ w ++ s) s'.
Lemma hung_app a b : forall s s1 s', hung a s s1 -> hung b s1 s' -> hung (a ++ b) s s'.
Proof. intros s s1 s' A1. induction A1; intros B; [exact B|]. cbn. constructor; auto. Qed.
Lemma hung_phrase ws w s s' : hung ws s s' -> exists p, w ++ s = p ++ s' /\ phrase (w :: ws) p.
Proof.
  intros A1. revert w. induction A1 as [s|g v ws s s' G1 A1 IH]; intros w; [exists w; split; [reflexivity|constructor]|].
  destruct (IH v) as (p & E & P). exists (w ++ g ++ p). rewrite <- !app_assoc, <- E. split; [reflexivity|now constructor].
Qed.
Lemma phrase_hung ws p g s : gap g -> phrase ws p -> hung ws (g ++ p ++ s) s.
Proof.
  intros G1 P. revert g G1. induction P as [w|w g' ws p G2 P IH]; intros g G1; [constructor; [exact G1|constructor]|].
  rewrite <- !app_assoc. constructor; auto.
Qed.
Lemma opt_hung pre k n T s s' c c' : (forall v, cap1 k v = [(n, v)]) -> D false (opt_item pre k :: T) s s' c c' ->
  exists o s1, (forall v, o = Some v -> fits k v) /\ hung (opt_words pre o) s s1 /\ D false T s1 s' (put n o c) c'.
Proof.
  intros C HD. destruct (opt_shape _ _ _ _ _ _ _ _ C HD) as (o & s1 & F & HD' & X0). exists o, s1. repeat split; auto.
  destruct o as [v|]; [|subst; constructor]. destruct X0 as (g & p & -> & G1 & P). now apply phrase_hung.
Qed.
Lemma flag_hung n w T s s' c c' : D false (opt_item [] (L n (lit w)) :: T) s s' c c' ->
  exists b s1, hung (flag w b) s s1 /\ D false T s1 s' (put n (flag_opt w b) c) c'.
Proof.
  intros HD. apply (opt_hung [] (L n (lit w)) n) in HD as ([v|] & s1 & F & HH & HD); [| |reflexivity].
  - specialize (F v eq_refl). cbn in F. subst v. now exists true, s1.
  - now exists false, s1.
Qed.
Lemma given_all (P : str -> Prop) o : (forall v, o = Some v -> P v) -> given P o.
Proof. destruct o; cbn; auto. Qed.
Lemma route_shape t s' c : D false route_T t s' [] c ->
  exists r, c = route_caps r /\ given word (r_vrf r) /\ quad (r_prefix r) /\ quad (r_mask r) /\ given weak_intf (r_intf r) /\ given quad (r_addr r) /\
    given digits (r_ad r) /\ given word (r_name r) /\ given digits (r_track r) /\ given digits (r_tag r) /\
    exists p, t = p ++ s' /\ phrase (route_words r) p.
Proof.
  intros HD. unfold route_T, hop_T, after_T in HD.
  apply D_lit_eq in HD as (s0 & -> & HD). apply D_run_eq in HD as (g & s1 & -> & K1 & K2 & HD). apply all_sp in K1. apply D_lit_eq in HD as (s2 & -> & HD).
  apply (opt_hung [lit "vrf"] (G 1) 1) in HD as (vrf & s3 & Fv & H1 & HD); [|reflexivity].
  apply D_run_eq in HD as (g3 & s4 & -> & K3 & K4 & HD). apply all_sp in K3. specialize (K4 eq_refl).
  apply sent_shape in HD as (ws & p & s5 & -> & P & F & HD); [|discriminate].
  inversion F as [|? a ? ? Fa F']; subst. inversion F' as [|? b ? ? Fb F'']; subst. inversion F''; subst. clear F F' F''. cbn [caps_of cap1 app] in HD.
  assert (HI : exists i s6, given weak_intf i /\ hung (here i) s5 s6 /\ D false (opt_item [] (H 5) :: after_T) s6 s' (put 4 i ((3, b) :: (2, a) :: put 1 vrf [])) c).
  { unfold intf_item in HD. inversion HD as [| | | | | | | |? ? ? ? ? ? A1 HD'|? ? ? s1 ? ? c1 ? A1 HD']; subst.
    - exists None, s5. repeat split; auto. constructor.
    - apply D_run_eq in A1 as (g5 & r & -> & K5 & K6 & A1). apply all_sp in K5. apply D_grp_eq in A1 as (w & r' & c0 & -> & A2 & A1). apply D_nil_eq in A1 as [-> ->].
      apply D_one_eq in A2 as (x & r2 & E2 & X1 & A2). apply D_run_eq in A2 as (w2 & r3 & -> & X2 & X3 & A2). apply D_nil_eq in A2 as [-> ->].
      change (x :: w2 ++ r3) with ((x :: w2) ++ r3) in E2. apply app_inv_tail in E2. subst w. rewrite in_nd in X1. apply all_ns in X2.
      exists (Some (x :: w2)), r3. repeat split; auto.
      + exists x, w2. repeat split; auto. now destruct (is_digit x).
      + cbn [here]. constructor; [now split; auto|constructor]. }
  clear HD. destruct HI as (i & s6 & Wi & H2 & HD).
  apply (opt_hung [] (H 5) 5) in HD as (ad0 & s7 & Fa0 & H3 & HD); [|reflexivity]. unfold after_T in HD.
  apply flag_hung in HD as (dh & s8 & H4 & HD). apply flag_hung in HD as (gl & s9 & H5 & HD).
  apply (opt_hung [] (N 8) 8) in HD as (ad & s10 & Fad & H6 & HD); [|reflexivity].
  apply flag_hung in HD as (mc & s11 & H7 & HD).
  apply (opt_hung [lit "name"] (G 10) 10) in HD as (nm & s12 & Fnm & H8 & HD); [|reflexivity].
  apply flag_hung in HD as (pm & s13 & H9 & HD).
  apply (opt_hung [lit "track"] (N 12) 12) in HD as (tr & s14 & Ftr & H10 & HD); [|reflexivity].
  apply (opt_hung [lit "tag"] (N 13) 13) in HD as (tg & s15 & Ftg & H11 & HD); [|reflexivity].
  apply D_nil_eq in HD as [-> ->].
  exists {| r_vrf := vrf; r_prefix := a; r_mask := b; r_intf := i; r_addr := ad0; r_dhcp := dh; r_global := gl; r_ad := ad; r_multicast := mc; r_name := nm;
            r_permanent := pm; r_track := tr; r_tag := tg |}.
  cbn [r_vrf r_prefix r_mask r_intf r_addr r_dhcp r_global r_ad r_multicast r_name r_permanent r_track r_tag].
  split; [reflexivity|]. repeat (split; [first [assumption | apply given_all; assumption]|]).
  unfold route_words, before_hop, after_hop. cbn [r_vrf r_prefix r_mask r_intf r_addr r_dhcp r_global r_ad r_multicast r_name r_permanent r_track r_tag].
  rewrite <- !app_assoc. cbn [app]. apply hung_phrase. constructor; [split; auto|].
  rewrite !arg_words, (here_words ad0), (here_words ad).
  eapply hung_app; [exact H1|]. cbn [app].
  assert (HP : hung [a; b] (g3 ++ p ++ s5) s5) by (apply phrase_hung; [now split|exact P]).
  change (a :: b :: ?x) with ([a; b] ++ x). eapply hung_app; [exact HP|].
  repeat (eapply hung_app; [eassumption|]). exact H11.
Qed.
