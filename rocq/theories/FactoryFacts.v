(** Lemmas about the patterns of the line classes. *)
From Coq Require Import Ascii String Arith NArith ZArith Bool List Lia.
From Verif Require Import PyStr PyStrFacts PyBase CfgModel SearchModel IntfModel IntfSpec IntfFacts IpModel IpSpec IpFacts PIp PIpText PyRe PyReFacts PyReTmpl PyReSent IosSpec IosModel IosFacts RouteSpec RouteModel RouteFacts PIos PRoute FactorySpec FactoryModel.
Import ListNotations.
Local Open Scope char_scope.

Lemma D_weaken T s s' c c' : D true T s s' c c' -> D false T s s' c c'.
Proof. intros H. apply unshape with (i := 0) in H. now apply shape in H. Qed.
Lemma found_iff p T n t : reads p T n -> (rx_find (pattern false p) t <> None <-> exists s' c, D false T t s' [] c).
Proof.
  intros R. split.
  - intros NE. destruct (rx_find (pattern false p) t) as [m|] eqn:E; [|congruence]. apply (reads_shape _ _ _ _ _ R) in E as (s' & c & HD & _). eauto.
  - intros (s' & c & HD). eapply reads_found; eauto.
Qed.
Lemma finds_iff p T n t : reads (lit p) T n -> (finds p t = true <-> exists s' c, D false T t s' [] c).
Proof.
  intros R. rewrite <- (found_iff _ _ _ _ R). unfold finds. destruct (rx_find _ t); split; congruence.
Qed.
Lemma words_T ws T s s' c c' : ws <> [] -> D false (sent (map (fun w => W (lit w)) ws) ++ T) s s' c c' ->
  exists p r, s = p ++ r /\ phrase (map lit ws) p /\ D false T r s' c c'.
Proof.
  intros NE H. apply sent_shape in H as (us & p & r & -> & P & F & H); [|now destruct ws].
  assert (E : us = map lit ws /\ caps_of (map (fun w => W (lit w)) ws) us c = c).
  { clear -F. revert us c F. induction ws as [|w ws IH]; intros us c F; inversion F as [|? ? ? ? F1 F2]; subst; [auto|]. cbn [fits] in F1. subst.
    destruct (IH _ c F2) as [-> E]. cbn [map caps_of cap1 app]. auto. }
  destruct E as [-> E]. rewrite E in H. eauto.
Qed.
Lemma words_D ws : forall p T s s' c c', phrase (map lit ws) p -> D false T s s' c c' -> D false (sent (map (fun w => W (lit w)) ws) ++ T) (p ++ s) s' c c'.
Proof.
  induction ws as [|w ws IH]; intros p T s s' c c' P H; [inversion P|]. cbn [map] in *. destruct ws as [|w' ws].
  - inversion P as [|? ? ? ? ? Z]; subst; [|inversion Z]. cbn [map sent items app]. now constructor.
  - inversion P as [|? g ? q [G1 G2] P']; subst. cbn [map]. rewrite sent_cons, <- !app_assoc. cbn [items app]. constructor. constructor; [now apply all_sp|auto|discriminate|].
    now apply IH.
Qed.
Lemma begins_iff p ws n t : reads (lit p) (sent (map (fun w => W (lit w)) ws)) n -> ws <> [] -> (finds p t = true <-> begins none ws t).
Proof.
  intros R NE. rewrite (finds_iff _ _ _ _ R). rewrite <- (app_nil_r (sent _)). split.
  - intros (s' & c & HD). apply words_T in HD as (q & r & -> & P & _); [|exact NE]. exists [], q, r. repeat split; auto.
  - intros (i & q & e & -> & <- & P & _). exists e, []. change ([] ++ q ++ e) with (q ++ e). apply words_D; [exact P|constructor].
Qed.
(** White space around the line does not matter to a word at its beginning. *)
Lemma begins_strip ws l : Forall (fun w => nonwhite_head (lit w) = true) ws -> Forall (fun w => nonwhite_head (rev (lit w)) = true) ws ->
  ws <> [] -> (begins none ws (strip l) <-> begins white ws l).
Proof.
  intros Hh Hl NE.
  assert (HH : forall p, phrase (map lit ws) p -> nonwhite_head p = true).
  { intros p P. destruct ws as [|w ws]; [congruence|]. inversion Hh; subst. cbn [map] in P. inversion P; subst; [assumption|]. now destruct (lit w). }
  assert (HL : forall p, phrase (map lit ws) p -> nonwhite_head (rev p) = true).
  { clear HH NE Hh. induction ws as [|w ws IH]; intros p P; [inversion P|]. inversion Hl as [|? ? L1 L2]; subst. cbn [map] in P.
    inversion P as [|? g ? q G1 P']; subst; [assumption|]. specialize (IH L2 q P'). rewrite app_assoc, rev_app_distr. now destruct (rev q). }
  assert (RS : forall q e, nonwhite_head (rev q) = true -> rstrip (q ++ e) = q ++ rstrip e).
  { intros q e Hq. unfold rstrip. rewrite rev_app_distr. destruct (rev q) as [|c r] eqn:E; [discriminate|]. cbn in Hq.
    rewrite lstrip_app by now destruct (is_space c). rewrite rev_app_distr. f_equal. rewrite <- E. apply rev_involutive. }
  split.
  - intros (i & p & e & E & <- & P & _). destruct (rstrip_prefix l) as (b & Eb & Wb). destruct (lstrip_suffix (rstrip l)) as (a & Ea & Wa).
    exists a, p, (e ++ b). split; [|auto]. rewrite Eb, Ea. unfold strip in E. rewrite E. cbn [app]. now rewrite <- !app_assoc.
  - intros (i & p & e & -> & Wi & P & _). pose proof (HH p P) as Hp. exists [], p, (rstrip e). split; [|now repeat split].
    unfold strip. rewrite app_assoc, RS.
    + rewrite <- app_assoc, lstrip_app_space by exact Wi. destruct p as [|x p]; [discriminate|]. cbn in Hp |- *. now destruct (is_space x).
    + rewrite rev_app_distr. specialize (HL p P). now destruct (rev p).
Qed.

(** ** The first words *)

Lemma words_word i w e : white i -> word w -> word_ends e -> words (i ++ w ++ e) = w :: words e.
Proof.
  intros Wi [NE Ww] E. unfold words. rewrite words_aux_space_prefix by exact Wi. rewrite words_aux_word by exact Ww. rewrite app_nil_r.
  assert (R : rev w <> []) by (intros K; apply (f_equal (@rev _)) in K; now rewrite rev_involutive in K).
  destruct e as [|x e]; [cbn; destruct (rev w) eqn:K; [congruence|]; now rewrite <- K, rev_involutive|].
  cbn in E. apply negb_false_iff in E. rewrite words_aux_acc_space by auto. rewrite rev_involutive. f_equal. cbn. now rewrite E.
Qed.
Lemma words_inv l w ws : words l = w :: ws -> exists i e, l = i ++ w ++ e /\ white i /\ word w /\ word_ends e /\ words e = ws.
Proof.
  intros H. assert (T : word w) by (pose proof (words_tokens l) as T; rewrite H in T; inversion T; assumption).
  rewrite <- words_lstrip in H. destruct (lstrip_suffix l) as (i & Ei & Wi).
  assert (X : exists u e, lstrip l = u ++ e /\ forallb (fun c => negb (is_space c)) u = true /\ word_ends e).
  { generalize (lstrip l) as s. induction s as [|x s (u & e & E & U & W0)]; [now exists [], []|]. destruct (is_space x) eqn:F.
    - exists [], (x :: s). cbn. now rewrite F.
    - exists (x :: u), e. cbn. rewrite E, F. auto. }
  destruct X as (u & e & E & U & We). destruct u as [|x u].
  - cbn in E. destruct (lstrip l) as [|y s] eqn:L; [discriminate|]. subst e. cbn in We. apply negb_false_iff in We. pose proof (lstrip_head l) as Hd. rewrite L in Hd. cbn in Hd. congruence.
  - rewrite E in H, Ei. rewrite <- (app_nil_l ((x :: u) ++ e)) in H. rewrite words_word in H by (try reflexivity; try (split; [discriminate|exact U]); exact We). injection H as <- <-.
    exists i, e. auto.
Qed.
Lemma first_iff ws l : Forall (fun w => word (lit w)) ws -> ws <> [] -> (first_words ws l = true <-> first ws l).
Proof.
  assert (LE : forall a b, list_eqb str_eqb a b = true <-> a = b).
  { induction a as [|x a IH]; intros [|y b]; cbn; try (split; congruence). rewrite andb_true_iff, str_eqb_eq, IH. split; [intros [-> ->]|intros [= -> ->]]; auto. }
  intros F NE. unfold first_words. rewrite words_strip, LE. revert l. induction F as [|w ws Fw F IH]; intros l; [congruence|]. cbn [length firstn map]. destruct ws as [|w' ws].
  - cbn [length firstn map]. split.
    + intros H. destruct (words l) as [|u us] eqn:E; [discriminate|]. injection H as ->. apply words_inv in E as (i & e & -> & Wi & _ & We & _).
      exists i, (lit w), e. repeat split; auto. constructor.
    + intros (i & p & e & -> & Wi & P & We). cbn [map] in P. inversion P as [|? ? ? ? ? Z]; subst; [|inversion Z]. now rewrite words_word.
  - split.
    + intros H. destruct (words l) as [|u us] eqn:E; [discriminate|]. injection H as -> H. apply words_inv in E as (i & e & -> & Wi & _ & We & E).
      rewrite <- E in H. apply (IH ltac:(discriminate)) in H as (g & p & e' & -> & Wg & P & We'). exists i, (lit w ++ g ++ p), e'. split; [now rewrite <- !app_assoc|]. repeat split; auto.
      cbn [map] in *. constructor; [|exact P]. split; [exact Wg|]. intros ->. inversion F as [|? ? [N1 N2] _]; subst. cbn [app] in We.
      destruct (lit w') as [|y r] eqn:K; [congruence|]. cbn in N2. apply andb_true_iff in N2 as [N2 _]. inversion P; subst; cbn in We; congruence.
    + intros (i & p & e & -> & Wi & P & We). cbn [map] in P. inversion P as [|? g ? q [G1 G2] P']; subst. rewrite <- !app_assoc. rewrite words_word; auto.
      * f_equal. change (length (w' :: ws)) with (length (w' :: ws)). apply (IH ltac:(discriminate)). exists g, q, e. auto.
      * destruct g as [|y g]; [congruence|]. cbn. unfold white in G1. cbn in G1. apply andb_true_iff in G1 as [G1 _]. now rewrite G1.
Qed.

(** ** Words with one white character between them *)

Fixpoint tight_T (ws : list string) : list item :=
  match ws with
  | [] => []
  | [w] => [Lit (lit w)]
  | w :: r => Lit (lit w) :: One sp :: tight_T r
  end.
Lemma tight_D ws : forall p T s s' c c', tight (map lit ws) p -> D false T s s' c c' -> D false (tight_T ws ++ T) (p ++ s) s' c c'.
Proof.
  induction ws as [|w ws IH]; intros p T s s' c c' P H; [inversion P|]. cbn [map] in *. destruct ws as [|w' ws].
  - inversion P as [|? ? ? ? ? Z]; subst; [|inversion Z]. cbn [tight_T app]. now constructor.
  - inversion P as [|? x ? q X P']; subst. cbn [tight_T app]. rewrite <- app_assoc. cbn [app]. constructor. constructor; [now rewrite in_sp|]. now apply IH.
Qed.
Lemma tight_shape ws : forall T s s' c c', ws <> [] -> D false (tight_T ws ++ T) s s' c c' -> exists p r, s = p ++ r /\ tight (map lit ws) p /\ D false T r s' c c'.
Proof.
  induction ws as [|w ws IH]; intros T s s' c c' NE H; [congruence|]. destruct ws as [|w' ws].
  - cbn [tight_T app] in H. apply D_lit_eq in H as (r & -> & H). exists (lit w), r. repeat split; auto. constructor.
  - cbn [tight_T app] in H. apply D_lit_eq in H as (r & -> & H). apply D_one_eq in H as (x & r1 & -> & X & H).
    apply IH in H as (p & r2 & -> & P & H); [|discriminate]. exists (lit w ++ x :: p), r2. rewrite <- app_assoc. repeat split; auto. cbn [map] in *. constructor; [now rewrite in_sp in X|exact P].
Qed.
Lemma group_line_iff l : finds "^aaa\sgroup\sserver" l = true <-> group_line l.
Proof.
  rewrite (finds_iff _ (tight_T ["aaa"; "group"; "server"]%string) 0) by reflexivity. rewrite <- (app_nil_r (tight_T _)). split.
  - intros (s' & c & H). apply tight_shape in H as (p & r & -> & P & _); [|discriminate]. now exists p, r.
  - intros (p & e & -> & P). exists e, []. apply tight_D; [exact P|constructor].
Qed.
Lemma tight_app us vs : forall p q x, tight us p -> tight vs q -> is_space x = true -> tight (us ++ vs) (p ++ x :: q).
Proof.
  intros p q x P Q X. induction P as [w|w y us p Y P IH]; cbn [app]; [now constructor|]. rewrite <- app_assoc. cbn [app]. constructor; auto.
Qed.
Lemma tight_split us vs : us <> [] -> vs <> [] -> forall p, tight (us ++ vs) p -> exists a x b, p = a ++ x :: b /\ is_space x = true /\ tight us a /\ tight vs b.
Proof.
  intros NE NV. induction us as [|u us IH]; intros p P; [congruence|]. destruct us as [|u' us].
  - cbn [app] in P. inversion P as [|? x ? q X P']; subst; [congruence|]. exists u, x, q. repeat split; auto. constructor.
  - cbn [app] in P. inversion P as [|? x ? q X P']; subst. destruct (IH ltac:(discriminate) q P') as (a & y & b & -> & Y & A1 & B1).
    exists (u ++ x :: a), y, b. rewrite <- app_assoc. repeat split; auto. now constructor.
Qed.
Lemma group_server_iff l : finds group_pattern l = true <-> group_server l.
Proof.
  rewrite (finds_iff _ (tight_T ["aaa"; "group"; "server"]%string ++ [One sp; Grp 1 [Run ns true]; One sp; Grp 2 [Run ns true]; Run sp false; End]) 2) by reflexivity. split.
  - intros (s' & c & H). apply tight_shape in H as (p & r & -> & P & H); [|discriminate]. apply D_one_eq in H as (x & r1 & -> & X & H).
    apply (D_items_inv _ (G 1)) in H as (t1 & r2 & -> & F1 & H). apply D_one_eq in H as (y & r3 & -> & Y & H). apply (D_items_inv _ (G 2)) in H as (t2 & r4 & -> & F2 & H).
    apply D_run_eq in H as (w & r5 & -> & Ws & _ & H). inversion H as [| | | | |? ? ? ? ? E| | | |]; subst. rewrite in_sp in X, Y.
    exists t1, t2, (p ++ x :: t1 ++ y :: t2), (w ++ r5). split; [rewrite <- ?app_assoc; cbn [app]; rewrite <- ?app_assoc; reflexivity|]. split; [exact F1|]. split; [exact F2|]. split.
    + apply (tight_app [lit "aaa"; lit "group"; lit "server"] [t1; t2]); auto. constructor; [exact Y|constructor].
    + apply white_app. apply all_sp in Ws. split; [exact Ws|]. now apply line_end_white.
  - intros (t1 & t2 & p & e & -> & W1 & W2 & P & We). apply (tight_split [lit "aaa"; lit "group"; lit "server"] [t1; t2]) in P as (a & x & b & -> & X & P1 & P2); try discriminate.
    inversion P2 as [|? y ? q Y P3]; subst. inversion P3 as [|? ? ? ? ? Z]; subst; [|inversion Z].
    exists [], [(2, q); (1, t1)]. rewrite <- app_assoc. apply (tight_D ["aaa"; "group"; "server"]%string); [exact P1|]. cbn [app]. rewrite <- app_assoc. cbn [app].
    constructor; [now rewrite in_sp|].
    apply (D_items false (G 1) [One sp; Grp 2 [Run ns true]; Run sp false; End] t1); [reflexivity|exact W1|discriminate|]. constructor; [now rewrite in_sp|].
    apply (D_items false (G 2) [Run sp false; End] q); [reflexivity|exact W2|discriminate|]. rewrite <- (app_nil_r e). constructor; [now apply all_sp|discriminate|discriminate|].
    constructor; [now left|constructor].
Qed.

(** ** The global interface settings *)

Lemma cat_grp n T i s c i2 s2 c2 : M (RGrp n (den T)) i s c i2 s2 c2 -> exists c1, D false T s s2 c c1.
Proof. intros H. apply M_grp_iff in H as (w & c1 & _ & _ & _ & H). apply shape in H. eauto. Qed.
Lemma grp_found T n t s s' c c' : D false T s s' c c' -> M (RGrp n (den T)) t s c (t + (length s - length s')) s' ((n, firstn (t + (length s - length s') - t) s) :: c').
Proof. intros H. apply unshape with (i := t) in H. now apply M_grp. Qed.
Definition gp : string := "^(no\s+cdp\s+run)|(logging\s+event\s+link-status\s+global)|(spanning-tree\sportfast\sdefault)|(spanning-tree\sportfast\sbpduguard\sdefault)".
Definition g1 := sent (map (fun w => W (lit w)) ["no"; "cdp"; "run"]%string).
Definition g2 := sent (map (fun w => W (lit w)) ["logging"; "event"; "link-status"; "global"]%string).
Definition g3 := tight_T ["spanning-tree"; "portfast"; "default"]%string.
Definition g4 := tight_T ["spanning-tree"; "portfast"; "bpduguard"; "default"]%string.
Definition gr : re := RAlt (RCat RBol (RGrp 1 (den g1))) (RAlt (RGrp 2 (den g2)) (RAlt (RGrp 3 (den g3)) (RGrp 4 (den g4)))).
Lemma gp_reads : option_map (fun x => (fst x, fst (snd x))) (compile false (lit gp)) = Some (gr, 4).
Proof. reflexivity. Qed.
Lemma gp_finds l : finds gp l = true <-> search gr l <> None.
Proof.
  pose proof gp_reads as R. unfold finds, pattern. cbn [rx_find]. destruct (compile false (lit gp)) as [[r e]|]; [|discriminate]. cbn [option_map fst] in R. injection R as -> _.
  destruct (search gr l) as [[m c]|]; split; congruence.
Qed.
Lemma global_iff l : finds gp l = true <-> global_line l.
Proof.
  rewrite gp_finds. split.
  - intros NE. destruct (search gr l) as [[m c]|] eqn:E; [|congruence]. apply search_some in E as (u & v & i' & s' & -> & H & _).
    unfold gr in H. apply M_alt_iff in H as [H|H].
    + left. apply M_cat_iff in H as (i1 & s1 & c1 & B & H). apply M_bol_iff in B as (L0 & -> & -> & ->). destruct u; [|discriminate]. apply cat_grp in H as (c2 & H).
      unfold g1 in H. rewrite <- (app_nil_r (sent _)) in H. apply words_T in H as (p & r & -> & P & _); [|discriminate]. exists [], p, r. repeat split; auto.
    + right. apply M_alt_iff in H as [H|H]; [left|right; apply M_alt_iff in H as [H|H]; [left|right]]; apply cat_grp in H as (c2 & H).
      * unfold g2 in H. rewrite <- (app_nil_r (sent _)) in H. apply words_T in H as (p & r & -> & P & _); [|discriminate]. now exists u, p, r.
      * unfold g3 in H. rewrite <- (app_nil_r (tight_T _)) in H. apply tight_shape in H as (p & r & -> & P & _); [|discriminate]. now exists u, p, r.
      * unfold g4 in H. rewrite <- (app_nil_r (tight_T _)) in H. apply tight_shape in H as (p & r & -> & P & _); [|discriminate]. now exists u, p, r.
  - intros G. cut (exists u v i' s' c', l = u ++ v /\ M gr (length u) v [] i' s' c').
    { intros (u & v & i' & s' & c' & -> & H) E. exact (search_none _ _ E _ _ _ _ _ eq_refl H). }
    destruct G as [(i & p & e & -> & <- & P & _)|[(u & p & b & -> & P)|[(u & p & b & -> & P)|(u & p & b & -> & P)]]].
    + exists [], (p ++ e). assert (H : D false g1 (p ++ e) e [] []) by (unfold g1; rewrite <- (app_nil_r (sent _)); apply words_D; [exact P|constructor]).
      do 3 eexists. split; [reflexivity|]. unfold gr. apply M_left. eapply M_cat; [constructor|]. exact (grp_found _ 1 0 _ _ _ _ H).
    + exists u, (p ++ b). assert (H : D false g2 (p ++ b) b [] []) by (unfold g2; rewrite <- (app_nil_r (sent _)); apply words_D; [exact P|constructor]).
      do 3 eexists. split; [reflexivity|]. unfold gr. apply M_right, M_left. exact (grp_found _ 2 _ _ _ _ _ H).
    + exists u, (p ++ b). assert (H : D false g3 (p ++ b) b [] []) by (unfold g3; rewrite <- (app_nil_r (tight_T _)); apply tight_D; [exact P|constructor]).
      do 3 eexists. split; [reflexivity|]. unfold gr. apply M_right, M_right, M_left. exact (grp_found _ 3 _ _ _ _ _ H).
    + exists u, (p ++ b). assert (H : D false g4 (p ++ b) b [] []) by (unfold g4; rewrite <- (app_nil_r (tight_T _)); apply tight_D; [exact P|constructor]).
      do 3 eexists. split; [reflexivity|]. unfold gr. apply M_right, M_right, M_right. exact (grp_found _ 4 _ _ _ _ _ H).
Qed.
