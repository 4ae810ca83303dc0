(** C89: AAA lines of NX-OS. *)
From Coq Require Import Ascii String Arith NArith ZArith Bool List Lia.
From Verif Require Import PyStr PyStrFacts PyBase CfgModel SearchModel IntfModel IntfSpec IntfFacts IpModel IpSpec PyRe PyReFacts PyReTmpl PyReLazy PyReSent IosSpec IosModel IosFacts RouteSpec RouteFacts FactorySpec FactoryModel FactoryFacts AaaSpec AaaModel AaaFacts PAaa NxosAaaSpec NxosAaaModel.
Import ListNotations.
Local Open Scope char_scope.

(** ** Templates of words with marked white space after them *)

Fixpoint lT (ks : list (slot * bool)) : list item :=
  match ks with
  | [] => []
  | (k, one) :: r => items k ++ (if one : bool then One sp else Run sp true) :: lT r
  end.
Definition fit (k : slot * bool) (w : str * bool) : Prop := fits (fst k) (fst w) /\ snd k = snd w.

Lemma one_gap g : one_space g -> gap g.
Proof. intros (x & -> & X0). split; [unfold white; cbn; now rewrite X0|discriminate]. Qed.
Lemma laid_head ws p s : laid ws p -> (forall w, In w (map fst ws) -> nonwhite_head w = true) -> nonwhite_head s = true -> nonwhite_head (p ++ s) = true.
Proof.
  intros La F S. destruct La as [|w one g ws p G0 La]; [exact S|]. assert (X0 := F w (or_introl eq_refl)). destruct w; [discriminate|]. exact X0.
Qed.
Lemma fit_heads ks : forall ws, Forall2 fit ks ws -> forallb (fun k => proper (fst k)) ks = true -> forall w, In w (map fst ws) -> nonwhite_head w = true.
Proof.
  induction ks as [|k ks IH]; intros ws F P w I'; inversion F as [|? u ? us [F1 F1'] F2]; subst; [destruct I'|].
  cbn [forallb] in P. apply andb_true_iff in P as [P1 P2]. destruct I' as [<-|I']; [exact (fits_head _ _ P1 F1)|exact (IH us F2 P2 w I')].
Qed.
Lemma lT_fwd ks : forall ws p T s s' c c', Forall2 fit ks ws -> forallb (fun k => proper (fst k)) ks = true -> laid ws p -> nonwhite_head s = true ->
  D true T s s' (caps_of (map fst ks) (map fst ws) c) c' -> D true (lT ks ++ T) (p ++ s) s' c c'.
Proof.
  induction ks as [|[k one] ks IH]; intros ws p T s s' c c' F P La S HD; inversion F as [|? [w one'] ? us [F1 F1'] F2]; subst.
  - inversion La; subst. exact HD.
  - cbn [fst snd] in *. subst one'. inversion La as [|? ? g ? q G0 La']; subst. cbn [forallb fst] in P. apply andb_true_iff in P as [P1 P2].
    cbn [lT map fst]. rewrite <- !app_assoc. cbn [app]. assert (GG : gap g) by (destruct one; [now apply one_gap|exact G0]).
    apply D_items; [exact P1|exact F1|intros _; now apply gap_not_continue|]. destruct one.
    + destruct G0 as (x & -> & X0). cbn [app]. apply D_one; [now rewrite in_sp|]. now apply (IH us).
    + destruct GG as [G1 G2]. apply D_run; [now apply all_sp|auto| |now apply (IH us)].
      intros _. apply (stops_iff _ _ _ in_sp), nonwhite_no_more. eapply laid_head; eauto. eapply fit_heads; eauto.
Qed.
Lemma lT_shape ks : forall T s s' c c', D false (lT ks ++ T) s s' c c' ->
  exists ws p r, s = p ++ r /\ laid ws p /\ Forall2 fit ks ws /\ D false T r s' (caps_of (map fst ks) (map fst ws) c) c'.
Proof.
  induction ks as [|[k one] ks IH]; intros T s s' c c' HD.
  - exists [], [], s. repeat split; auto; constructor.
  - cbn [lT] in HD. rewrite <- app_assoc in HD. cbn [app] in HD. apply D_items_inv in HD as (t & r & -> & F & HD). destruct one.
    + apply D_one_eq in HD as (x & r1 & -> & X0 & HD). rewrite in_sp in X0. apply IH in HD as (ws & p & r & -> & La & F2 & HD).
      exists ((t, true) :: ws), (t ++ [x] ++ p), r. rewrite <- !app_assoc. split; [reflexivity|]. split; [constructor; [now exists x|exact La]|]. split; [constructor; [split; auto|exact F2]|exact HD].
    + apply D_run_eq in HD as (g & r1 & -> & G1 & G2 & HD). apply all_sp in G1. apply IH in HD as (ws & p & r & -> & La & F2 & HD).
      exists ((t, false) :: ws), (t ++ g ++ p), r. rewrite <- !app_assoc. split; [reflexivity|]. split; [constructor; [split; auto|exact La]|]. split; [constructor; [split; auto|exact F2]|exact HD].
Qed.
Ltac fit_slots := repeat (match goal with H : Forall2 fit _ _ |- _ => inversion H; clear H; subst end);
  repeat (match goal with H : fit _ ?w |- _ => destruct w as [? ?]; destruct H as [? H]; cbn [fst snd fits] in *; subst end).
Lemma words_laid ws : forall p i e, Forall word (map fst ws) -> laid ws p -> white i -> words (i ++ p ++ e) = map fst ws ++ words e.
Proof.
  induction ws as [|[w one] ws IH]; intros p i e F La Wi.
  - inversion La; subst. cbn [app map]. unfold words. now rewrite words_aux_space_prefix.
  - inversion La as [|? ? g ? q G0 La']; subst. inversion F as [|? ? F1 F2]; subst. cbn [map fst app]. assert (GG : gap g) by (destruct one; [now apply one_gap|exact G0]).
    rewrite <- !app_assoc. rewrite words_word; auto.
    + f_equal. apply IH; auto. apply GG.
    + destruct GG as [G1 G2]. destruct g as [|x g]; [congruence|]. unfold white in G1. cbn in G1. apply andb_true_iff in G1 as [G1 _]. cbn. now rewrite G1.
Qed.

(** ** Authentication and authorization *)

Definition tights (ks : list slot) : list (slot * bool) := map (fun k => (k, true)) ks.
Definition nx_list_ks (v : string) := tights [W (lit "aaa"); W (lit "authentication"); W (lit v); G 1; W (lit "group")].
Definition nx_commands_ks := tights [W (lit "aaa"); W (lit "authorization"); W (lit "commands"); N 1; G 2; W (lit "group")].
Definition nx_console_ks : list (slot * bool) :=
  [(W (lit "aaa"), false); (W (lit "authorization"), false); (W (lit "console"), false); (N 1, true); (G 2, false); (W (lit "group"), false)].
Definition nx_enable_p : string := "^aaa\sauthentication\senable\s(\S+)\sgroup\s(\S+)(.+?)$".
Definition nx_commands_p : string := "^aaa\sauthorization\scommands\s(\d+)\s(\S+)\sgroup\s(\S+)(.+?)$".
Definition nx_console_p : string := "^aaa\s+authorization\s+console\s+(\d+)\s(\S+)\s+group\s+(\S+)(.+?)$".
Lemma nx_login_reads : reads_re (lit login_p) (row (flat_map flat1 (lT (nx_list_ks "login")) ++ ending 2)) 3. Proof. reflexivity. Qed.
Lemma nx_enable_reads : reads_re (lit nx_enable_p) (row (flat_map flat1 (lT (nx_list_ks "enable")) ++ ending 2)) 3. Proof. reflexivity. Qed.
Lemma nx_commands_reads : reads_re (lit nx_commands_p) (row (flat_map flat1 (lT nx_commands_ks) ++ ending 3)) 4. Proof. reflexivity. Qed.
Lemma nx_console_reads : reads_re (lit nx_console_p) (row (flat_map flat1 (lT nx_console_ks) ++ ending 3)) 4. Proof. reflexivity. Qed.

Lemma nx_list_theorem v p t : reads_re (lit p) (row (flat_map flat1 (lT (nx_list_ks v)) ++ ending 2)) 3 -> nonwhite_head (lit v) = true -> no_newline t ->
  (forall L G m, nx_list v L G m t -> contains (lit "\s") (strip m) = false -> authentication p t = Ok (L, G, [strip m])) /\
  ((forall L G m, ~ nx_list v L G m t) -> authentication p t = Ok ([], [], [[]])).
Proof.
  intros R Hv Nt. split.
  - intros L0 G0 m (WL & q & -> & La & GR) NB. destruct (rest_ok _ _ GR) as (WG & _ & _). rewrite <- methods_one by exact NB.
    apply (authentication_ok p _ _ L0 G0 m [(1, L0)] R); [|reflexivity|exact GR]. rewrite <- (app_nil_r (lT _)).
    apply (lT_fwd (nx_list_ks v) (ones [lit "aaa"; lit "authentication"; lit v; L0; lit "group"])); [| |exact La|now apply word_head|constructor].
    + repeat (apply Forall2_cons; [split; [first [reflexivity|exact WL]|reflexivity]|]). constructor.
    + cbn [nx_list_ks tights map forallb fst proper]. now rewrite Hv.
  - intros NO. apply authentication_none. destruct (rx_find (pattern false (lit p)) t) as [u|] eqn:E; [|reflexivity]. exfalso.
    destruct (aaa_shape _ _ _ _ _ R Nt E) as (G0 & r & c & HD & GR). rewrite <- (app_nil_r (lT _)) in HD. apply lT_shape in HD as (ws & q & r1 & -> & La & F & HD). apply D_nil_eq in HD as [<- _].
    unfold nx_list_ks, tights in F. cbn [map] in F. fit_slots. eapply NO. split; [eassumption|]. exists q. split; [reflexivity|]. split; [exact La|exact GR].
Qed.
(** The list name, the group and the methods of "aaa authentication login" and "aaa authentication
    enable" lines, with one white character between the words; the methods are the rest of the line
    as one text.  A line that does not have this form reports nothing. *)
Theorem C89_authentication : forall t, no_newline t ->
  (forall L G m, nx_list "login" L G m t -> contains (lit "\s") (strip m) = false -> nx_login_authentication t = Ok (L, G, [strip m])) /\
  ((forall L G m, ~ nx_list "login" L G m t) -> nx_login_authentication t = Ok ([], [], [[]])) /\
  (forall L G m, nx_list "enable" L G m t -> contains (lit "\s") (strip m) = false -> nx_enable_authentication t = Ok (L, G, [strip m])) /\
  ((forall L G m, ~ nx_list "enable" L G m t) -> nx_enable_authentication t = Ok ([], [], [[]])).
Proof.
  intros t Nt. destruct (nx_list_theorem _ _ t nx_login_reads eq_refl Nt) as [A1 A2]. destruct (nx_list_theorem _ _ t nx_enable_reads eq_refl Nt) as [B1 B2]. auto.
Qed.
Print Assumptions C89_authentication.

(** "aaa authorization commands" and "aaa authorization console" lines also have a level. *)
Theorem C89_authorization : forall t, no_newline t ->
  (forall n L G m, nx_commands n L G m t -> contains (lit "\s") (strip m) = false -> nx_commands_authorization t = Ok (n, L, G, [strip m])) /\
  ((forall n L G m, ~ nx_commands n L G m t) -> nx_commands_authorization t = Ok (0%Z, [], [], [[]])) /\
  (forall n L G m, nx_console n L G m t -> contains (lit "\s") (strip m) = false -> nx_console_authorization t = Ok (n, L, G, [strip m])) /\
  ((forall n L G m, ~ nx_console n L G m t) -> nx_console_authorization t = Ok (0%Z, [], [], [[]])).
Proof.
  intros t Nt.
  assert (ND : forall d n, numeral d n -> d <> [] /\ forallb is_digit d = true).
  { intros d n Nd. split; [|now apply numeral_digits in Nd]. destruct (numeral_head _ _ Nd) as (x & r & -> & _). discriminate. }
  split; [|split; [|split]].
  - intros n L0 G0 m (d & Nd & WL & q & -> & La & GR) NB. destruct (rest_ok _ _ GR) as (WG & _ & _). rewrite <- methods_one by exact NB. pose proof (ND _ _ Nd) as Dd.
    apply (authorization_ok nx_commands_p _ _ n d L0 G0 m [(2, L0); (1, d)] nx_commands_reads); [|reflexivity|exact Nd|reflexivity|exact GR]. rewrite <- (app_nil_r (lT _)).
    apply (lT_fwd nx_commands_ks (ones [lit "aaa"; lit "authorization"; lit "commands"; d; L0; lit "group"])); [|reflexivity|exact La|now apply word_head|constructor].
    repeat (apply Forall2_cons; [split; [first [reflexivity|exact WL|exact Dd]|reflexivity]|]). constructor.
  - intros NO. apply authorization_none. fold nx_commands_p. destruct (rx_find (pattern false (lit nx_commands_p)) t) as [u|] eqn:E; [|reflexivity]. exfalso.
    destruct (aaa_shape _ _ _ _ _ nx_commands_reads Nt E) as (G0 & r & c & HD & GR). rewrite <- (app_nil_r (lT _)) in HD. apply lT_shape in HD as (ws & q & r1 & -> & La & F & HD). apply D_nil_eq in HD as [<- _].
    unfold nx_commands_ks, tights in F. cbn [map] in F. fit_slots.
    match goal with HH : _ <> [] /\ forallb is_digit ?d = true |- _ => eapply NO; exists d; split; [apply digits_numeral; apply HH|] end. split; [eassumption|]. exists q. split; [reflexivity|]. split; [exact La|exact GR].
  - intros n L0 G0 m (d & Nd & WL & q & -> & La & GR) NB. destruct (rest_ok _ _ GR) as (WG & _ & _). rewrite <- methods_one by exact NB. pose proof (ND _ _ Nd) as Dd.
    apply (authorization_ok nx_console_p _ _ n d L0 G0 m [(2, L0); (1, d)] nx_console_reads); [|reflexivity|exact Nd|reflexivity|exact GR]. rewrite <- (app_nil_r (lT _)).
    eapply (lT_fwd nx_console_ks); [|reflexivity|exact La|now apply word_head|constructor].
    repeat (apply Forall2_cons; [split; [first [reflexivity|exact WL|exact Dd]|reflexivity]|]). constructor.
  - intros NO. apply authorization_none. fold nx_console_p. destruct (rx_find (pattern false (lit nx_console_p)) t) as [u|] eqn:E; [|reflexivity]. exfalso.
    destruct (aaa_shape _ _ _ _ _ nx_console_reads Nt E) as (G0 & r & c & HD & GR). rewrite <- (app_nil_r (lT _)) in HD. apply lT_shape in HD as (ws & q & r1 & -> & La & F & HD). apply D_nil_eq in HD as [<- _].
    unfold nx_console_ks in F. fit_slots.
    match goal with HH : _ <> [] /\ forallb is_digit ?d = true |- _ => eapply NO; exists d; split; [apply digits_numeral; apply HH|] end. split; [eassumption|]. exists q. split; [reflexivity|]. split; [exact La|exact GR].
Qed.
Print Assumptions C89_authorization.

(** ** Accounting *)

Definition nx_ac_ks := tights [W (lit "aaa"); W (lit "accounting"); W (lit "commands"); N 1; G 2].
Definition nx_ae_ks := tights [W (lit "aaa"); W (lit "accounting"); W (lit "exec"); G 1].
Definition nx_a_T1 (n : nat) : list item := [One sp; Lit (lit "group"); One sp; Grp n [Run ns true]; End].
Definition nx_ac_p : string := "^aaa\saccounting\scommands\s(\d+)\s(\S+)\s(none|stop\-only|start\-stop)\sgroup\s(\S+)$".
Definition nx_ae_p : string := "^aaa\saccounting\sexec\s(\S+)\s(none|stop\-only|start\-stop)\sgroup\s(\S+)$".
Lemma nx_ac_reads : reads_re (lit nx_ac_p) (pick (lT nx_ac_ks) 3 record_kinds (nx_a_T1 4)) 4. Proof. reflexivity. Qed.
Lemma nx_ae_reads : reads_re (lit nx_ae_p) (pick (lT nx_ae_ks) 2 record_kinds (nx_a_T1 3)) 3. Proof. reflexivity. Qed.

Lemma laid_app us vs p q : laid us p -> laid vs q -> laid (us ++ vs) (p ++ q).
Proof. intros P Q0. induction P as [|w one g us p G0 P IH]; [exact Q0|]. cbn [app]. rewrite <- !app_assoc. now constructor. Qed.
Lemma laid_cut us : forall vs p, laid (us ++ vs) p -> exists a b, p = a ++ b /\ laid us a /\ laid vs b.
Proof.
  induction us as [|[u one] us IH]; intros vs p P; cbn [app] in P; [exists [], p; repeat split; auto; constructor|].
  inversion P as [|? ? g ? q G0 P']; subst. destruct (IH _ _ P') as (a & b & -> & A0 & B0). exists (u ++ g ++ a), b. rewrite <- !app_assoc. repeat split; auto. now constructor.
Qed.
(** The end of an accounting line. *)
Lemma nx_a_shape t a k r1 s n c c' : no_newline t -> t = a ++ k ++ r1 -> D false (nx_a_T1 n) r1 s c c' ->
  exists q g, r1 = q ++ g /\ laid (ones [k; lit "group"]) (k ++ q) /\ word g /\ c' = (n, g) :: c.
Proof.
  intros Nt E HE. unfold nx_a_T1 in HE. apply D_one_eq in HE as (x & r2 & -> & X0 & HE). apply D_lit_eq in HE as (r3 & -> & HE). apply D_one_eq in HE as (y & r4 & -> & Y0 & HE).
  apply (D_items_inv false (G n)) in HE as (w & r5 & -> & Fw & HE). apply end_eq in HE as [E5 ->]. rewrite in_sp in X0, Y0.
  assert (r5 = []) as ->.
  { subst t. change (a ++ k ++ x :: lit "group" ++ y :: w ++ r5) with (a ++ k ++ [x] ++ lit "group" ++ [y] ++ w ++ r5) in Nt. rewrite !app_assoc in Nt. now apply no_end_newline in Nt. }
  rewrite app_nil_r. exists ([x] ++ lit "group" ++ [y]), w. split; [reflexivity|]. split; [|split; [exact Fw|reflexivity]].
  change (k ++ [x] ++ lit "group" ++ [y]) with (k ++ [x] ++ (lit "group" ++ [y] ++ [])). constructor; [now exists x|]. constructor; [now exists y|constructor].
Qed.
Lemma nx_a_fwd k b g n c : laid (ones [k; lit "group"]) b -> word g -> exists q, b = k ++ q /\ D false (nx_a_T1 n) (q ++ g) [] c ((n, g) :: c).
Proof.
  intros La Wg. inversion La as [|? ? g1 ? q1 G1 La1]; subst. inversion La1 as [|? ? g2 ? q2 G2 La2]; subst. inversion La2; subst. cbn in G1, G2. destruct G1 as (x & -> & X0), G2 as (y & -> & Y0).
  exists ([x] ++ lit "group" ++ [y] ++ []). split; [reflexivity|]. unfold nx_a_T1. cbn [app]. apply D_one; [now rewrite in_sp|].
  change (D false [Lit (lit "group"); One sp; Grp n [Run ns true]; End] (lit "group" ++ y :: g) [] c ((n, g) :: c)). apply D_lit. apply D_one; [now rewrite in_sp|].
  rewrite <- (app_nil_r g) at 1. apply (D_items false (G n) [End] g []); [reflexivity|exact Wg|discriminate|]. constructor; [now left|constructor].
Qed.
Lemma nx_ac_M t i s c : no_newline t -> M (pick (lT nx_ac_ks) 3 record_kinds (nx_a_T1 4)) 0 t [] i s c ->
  exists d L k g, nx_acct_commands d L k g t /\ c = [(4, g); (3, k); (2, L); (1, d)].
Proof.
  intros Nt HM. apply pick_shape in HM as (r & c1 & k & r1 & HD & -> & IK & HE); [|discriminate]. rewrite <- (app_nil_r (lT _)) in HD. apply lT_shape in HD as (ws & p & r & -> & La & F & HD).
  apply D_nil_eq in HD as [<- ->]. destruct (nx_a_shape _ p k r1 s 4 _ _ Nt eq_refl HE) as (q & g & -> & La2 & Wg & ->).
  unfold nx_ac_ks, tights in F. cbn [map] in F. fit_slots. eexists _, _, k, g. split; [|reflexivity]. split; [eassumption|]. split; [eassumption|]. split; [exact IK|]. split; [exact Wg|].
  exists (p ++ k ++ q). split; [now rewrite <- !app_assoc|]. exact (laid_app _ _ _ _ La La2).
Qed.
Lemma nx_ac_M' t d L k g : nx_acct_commands d L k g t -> exists i s c, M (pick (lT nx_ac_ks) 3 record_kinds (nx_a_T1 4)) 0 t [] i s c.
Proof.
  intros (Dd & WL & IK & Wg & p & -> & La). apply (laid_cut (ones [lit "aaa"; lit "accounting"; lit "commands"; d; L]) (ones [k; lit "group"])) in La as (a & b & -> & La & Lb).
  assert (Kw : word k) by now apply kind_word. destruct (nx_a_fwd k b g 4 [(3, k); (2, L); (1, d)] Lb Wg) as (q & -> & HE).
  destruct (pick_found (lT nx_ac_ks) 3 record_kinds (nx_a_T1 4) ((a ++ k ++ q) ++ g) k [(2, L); (1, d)] k (q ++ g) [] [(4, g); (3, k); (2, L); (1, d)] IK) as (i & HM); eauto.
  apply D_weaken. rewrite <- (app_nil_r (lT _)), <- !app_assoc.
  apply (lT_fwd nx_ac_ks (ones [lit "aaa"; lit "accounting"; lit "commands"; d; L])); [|reflexivity|exact La|now apply word_head|constructor].
  repeat (apply Forall2_cons; [split; [first [reflexivity|exact WL|exact Dd]|reflexivity]|]). constructor.
Qed.
Lemma nx_ae_M t i s c : no_newline t -> M (pick (lT nx_ae_ks) 2 record_kinds (nx_a_T1 3)) 0 t [] i s c ->
  exists L k g, nx_acct_exec L k g t /\ c = [(3, g); (2, k); (1, L)].
Proof.
  intros Nt HM. apply pick_shape in HM as (r & c1 & k & r1 & HD & -> & IK & HE); [|discriminate]. rewrite <- (app_nil_r (lT _)) in HD. apply lT_shape in HD as (ws & p & r & -> & La & F & HD).
  apply D_nil_eq in HD as [<- ->]. destruct (nx_a_shape _ p k r1 s 3 _ _ Nt eq_refl HE) as (q & g & -> & La2 & Wg & ->).
  unfold nx_ae_ks, tights in F. cbn [map] in F. fit_slots. eexists _, k, g. split; [|reflexivity]. split; [eassumption|]. split; [exact IK|]. split; [exact Wg|].
  exists (p ++ k ++ q). split; [now rewrite <- !app_assoc|]. exact (laid_app _ _ _ _ La La2).
Qed.
Lemma nx_ae_M' t L k g : nx_acct_exec L k g t -> exists i s c, M (pick (lT nx_ae_ks) 2 record_kinds (nx_a_T1 3)) 0 t [] i s c.
Proof.
  intros (WL & IK & Wg & p & -> & La). apply (laid_cut (ones [lit "aaa"; lit "accounting"; lit "exec"; L]) (ones [k; lit "group"])) in La as (a & b & -> & La & Lb).
  assert (Kw : word k) by now apply kind_word. destruct (nx_a_fwd k b g 3 [(2, k); (1, L)] Lb Wg) as (q & -> & HE).
  destruct (pick_found (lT nx_ae_ks) 2 record_kinds (nx_a_T1 3) ((a ++ k ++ q) ++ g) k [(1, L)] k (q ++ g) [] [(3, g); (2, k); (1, L)] IK) as (i & HM); eauto.
  apply D_weaken. rewrite <- (app_nil_r (lT _)), <- !app_assoc.
  apply (lT_fwd nx_ae_ks (ones [lit "aaa"; lit "accounting"; lit "exec"; L])); [|reflexivity|exact La|now apply word_head|constructor].
  repeat (apply Forall2_cons; [split; [first [reflexivity|exact WL]|reflexivity]|]). constructor.
Qed.
Lemma laid_words ws p g : Forall word (map fst ws) -> laid ws p -> word g -> words (p ++ g) = map fst ws ++ [g].
Proof.
  intros F La Wg. rewrite (words_laid ws p [] g F La eq_refl : words (p ++ g) = _). f_equal. pose proof (words_word [] g [] eq_refl Wg I) as E. cbn [app] in E. now rewrite app_nil_r in E.
Qed.
Ltac all_words := repeat (apply Forall_cons; [first [assumption | now apply kind_word | now apply digits_word | split; [discriminate|reflexivity]]|]); constructor.

(** Accounting lines, with one white character between the words, report the level, the list name,
    the record type and the group, each as written; other lines report nothing. *)
Theorem C89_accounting : forall t, no_newline t ->
  (forall n d L k g, numeral d n -> nx_acct_commands d L k g t -> nx_commands_accounting t = Ok (n, L, k, g)) /\
  ((forall d L k g, ~ nx_acct_commands d L k g t) -> nx_commands_accounting t = Ok (0%Z, [], [], [])) /\
  (forall L k g, nx_acct_exec L k g t -> nx_exec_accounting t = Ok (L, k, g)) /\
  ((forall L k g, ~ nx_acct_exec L k g t) -> nx_exec_accounting t = Ok ([], [], [])).
Proof.
  intros t Nt. split; [|split; [|split]].
  - intros n d L0 k g Nd HA. destruct (nx_ac_M' _ _ _ _ _ HA) as (i & s & c & HM).
    assert (U : forall i s c1, M (pick (lT nx_ac_ks) 3 record_kinds (nx_a_T1 4)) 0 t [] i s c1 -> map (fun j => cap j c1) (seq 1 4) = [Some d; Some L0; Some k; Some g]).
    { intros i1 s1 c1 H1. apply nx_ac_M in H1 as (d' & L' & k' & g' & HB & ->); [|exact Nt].
      assert (FW : forall d L k g, nx_acct_commands d L k g t -> words t = [lit "aaa"; lit "accounting"; lit "commands"; d; L; k; lit "group"; g]).
      { intros d1 L1 k1 g1 (Dd & WL & IK & Wg & p & -> & La). rewrite (laid_words (ones [lit "aaa"; lit "accounting"; lit "commands"; d1; L1; k1; lit "group"]) p g1); auto. cbn [ones map fst]. all_words. }
      pose proof (FW _ _ _ _ HA) as E1. rewrite (FW _ _ _ _ HB) in E1. injection E1 as -> -> -> ->. reflexivity. }
    destruct (found_unique _ _ _ _ _ _ _ _ nx_ac_reads HM U) as (u & E). unfold nx_commands_accounting. fold nx_ac_p. cbv zeta.
    assert (CI : to_int (Some d) = Ok n).
    { rewrite to_int_digits; [f_equal; now apply numeral_value| |now apply numeral_digits in Nd]. destruct (numeral_head _ _ Nd) as (x & r & -> & _). discriminate. }
    rewrite (typed_found to_int 0%Z _ 0 t u _ d n E eq_refl CI), (typed_found to_str [] _ 1 t u _ L0 L0 E eq_refl eq_refl), (typed_found to_str [] _ 2 t u _ k k E eq_refl eq_refl), (typed_found to_str [] _ 3 t u _ g g E eq_refl eq_refl).
    reflexivity.
  - intros NO. unfold nx_commands_accounting. fold nx_ac_p. cbv zeta. rewrite !typed_none; [reflexivity|..]; apply (re_none _ _ _ _ nx_ac_reads);
      intros i s c HM; apply nx_ac_M in HM as (d & L0 & k & g & HA & _); auto; exact (NO _ _ _ _ HA).
  - intros L0 k g HA. destruct (nx_ae_M' _ _ _ _ HA) as (i & s & c & HM).
    assert (U : forall i s c1, M (pick (lT nx_ae_ks) 2 record_kinds (nx_a_T1 3)) 0 t [] i s c1 -> map (fun j => cap j c1) (seq 1 3) = [Some L0; Some k; Some g]).
    { intros i1 s1 c1 H1. apply nx_ae_M in H1 as (L' & k' & g' & HB & ->); [|exact Nt].
      assert (FW : forall L k g, nx_acct_exec L k g t -> words t = [lit "aaa"; lit "accounting"; lit "exec"; L; k; lit "group"; g]).
      { intros L1 k1 g1 (WL & IK & Wg & p & -> & La). rewrite (laid_words (ones [lit "aaa"; lit "accounting"; lit "exec"; L1; k1; lit "group"]) p g1); auto. cbn [ones map fst]. all_words. }
      pose proof (FW _ _ _ HA) as E1. rewrite (FW _ _ _ HB) in E1. injection E1 as -> -> ->. reflexivity. }
    destruct (found_unique _ _ _ _ _ _ _ _ nx_ae_reads HM U) as (u & E). unfold nx_exec_accounting. fold nx_ae_p. cbv zeta.
    rewrite (typed_found to_str [] _ 0 t u _ L0 L0 E eq_refl eq_refl), (typed_found to_str [] _ 1 t u _ k k E eq_refl eq_refl), (typed_found to_str [] _ 2 t u _ g g E eq_refl eq_refl). reflexivity.
  - intros NO. unfold nx_exec_accounting. fold nx_ae_p. cbv zeta. rewrite !typed_none; [reflexivity|..]; apply (re_none _ _ _ _ nx_ae_reads);
      intros i s c HM; apply nx_ae_M in HM as (L0 & k & g & HA & _); auto; exact (NO _ _ _ HA).
Qed.
Print Assumptions C89_accounting.

(** ** Groups of servers *)

(** protocol and group are the two words after "aaa group server"; other lines are refused.
    server_private is the set of the words after "server-private" on the indented children where
    something follows the word. *)
Theorem C89_group : forall t kids,
  (forall proto name p e, t = p ++ e -> word proto -> word name -> tight [lit "aaa"; lit "group"; lit "server"; proto; name] p -> white e ->
     nx_group_server t = Ok (proto, name)) /\
  (~ group_server t -> nx_group_server t = Err ValueError) /\
  (exists l, nx_server_private kids = Ok l /\ forall v, In v l <-> exists t, In t kids /\ private_line t v).
Proof. intros t kids. destruct (C69_group t) as [A1 A2]. split; [exact A1|]. split; [exact A2|]. exact (C69_private kids). Qed.
Print Assumptions C89_group.

(** vrf is the word after "use-vrf" on the first such indented line. *)
Definition use_vrf_T : list item := Run sp true :: sent [W (lit "use-vrf"); G 1].
Lemma use_vrf_reads : reads (lit "^\s+use-vrf\s+(\S+)") use_vrf_T 1. Proof. reflexivity. Qed.
Theorem C89_vrf : forall own below, answers use_vrf (own :: below) [] (nx_vrf own below).
Proof.
  intros own below. apply first_match_answers.
  - intros t v (Wv & i & p & e & -> & [I1 I2] & P & E). assert (NQ : nonwhite_head (p ++ e) = true) by (inversion P; reflexivity).
    assert (HD : D true use_vrf_T (i ++ p ++ e) e [] [(1, v)]).
    { unfold use_vrf_T. apply D_run; [now apply all_sp|auto|intros _; now apply (stops_iff _ _ _ in_sp), nonwhite_no_more|].
      rewrite <- (app_nil_r (sent _)). apply (sent_fwd _ [lit "use-vrf"; v]); auto; [repeat constructor; apply Wv|constructor]. }
    destruct (reads_some _ _ _ _ _ _ use_vrf_reads HD) as (u & F). eexists. split; [exact F|]. reflexivity.
  - intros t m E. apply (reads_shape _ _ _ _ _ use_vrf_reads) in E as (s' & c & HD & _). unfold use_vrf_T in HD. apply D_run_eq in HD as (i & r & -> & I1 & I2 & HD). apply all_sp in I1.
    rewrite <- (app_nil_r (sent _)) in HD. apply sent_shape in HD as (ws & q & e & -> & P & F & HD); [|discriminate].
    destruct (extend_last _ ws q e F P) as (ws' & q' & e' & -> & P' & F' & E'). slots.
    match goal with P' : phrase [_; ?v] _ |- _ => exists v end. split; [eassumption|]. exists i, q', e'. repeat split; auto.
Qed.
Print Assumptions C89_vrf.

(** source_interface is the text after "source-interface" on the first such indented line where it
    has three or more characters. *)
Definition nx_source_p : string := "^\s+source-interface\s+(\S.+?\S)\s*$".
Definition nx_source_Tg : list item := [Run sp true; Lit (lit "source-interface"); Run sp true; Grp 1 [One ns; Run dot true; One ns]; Run sp false; End].
Definition nx_source_re : re :=
  row (flat_map flat1 [Run sp true; Lit (lit "source-interface"); Run sp true] ++ [RGrp 1 (RCat (RSet ns) (RCat (rplus false (RSet dot)) (RSet ns))); RStar true (RSet sp); REol]).
Lemma nx_source_reads : reads_re (lit nx_source_p) nx_source_re 1. Proof. reflexivity. Qed.
Lemma nx_source_greed : greed nx_source_re = den nx_source_Tg. Proof. reflexivity. Qed.
Lemma nx_source_unique t v v' : nx_source t v -> nx_source t v' -> v = v'.
Proof.
  intros (i & g & e & x & m & y & -> & [I1 I2] & [G1 G2] & We & EV & _ & _ & X0 & Y0) (i' & g' & e' & x' & m' & y' & E & [I1' I2'] & [G1' G2'] & We' & EV' & _ & _ & X0' & Y0').
  apply cut_white in E as [_ E]; auto. apply app_inv_head in E. apply cut_white in E as [_ E]; auto.
  - apply (f_equal rstrip) in E. rewrite (nonwhite_rstrip v e x m y), (nonwhite_rstrip v' e' x' m' y') in E; auto.
  - subst v. cbn. now rewrite X0.
  - subst v'. cbn. now rewrite X0'.
Qed.
Lemma nx_source_M t i s c : M nx_source_re 0 t [] i s c -> exists v, nx_source t v /\ map (fun j => cap j c) (seq 1 1) = [Some v].
Proof.
  intros HM. apply greed_fwd in HM. rewrite nx_source_greed in HM. apply shape in HM. unfold nx_source_Tg in HM. apply D_run_eq in HM as (j & r & -> & J1 & J2 & HM). apply all_sp in J1.
  apply D_lit_eq in HM as (r1 & -> & HM). apply D_run_eq in HM as (g & r2 & -> & G1 & G2 & HM). apply all_sp in G1.
  apply D_grp_eq in HM as (w & r3 & c1 & -> & HB & HM). apply D_one_eq in HB as (x & r4 & E1 & X0 & HB). apply D_run_eq in HB as (m & r5 & -> & M1 & M2 & HB). apply D_one_eq in HB as (y & r6 & -> & Y0 & HB).
  apply D_nil_eq in HB as [-> ->]. assert (w = x :: m ++ [y]) as ->.
  { apply (app_inv_tail r6). rewrite E1. cbn [app]. now rewrite <- app_assoc. }
  apply D_run_eq in HM as (e & r7 & -> & E2 & _ & HM). apply end_eq in HM as [E3 ->]. exists (x :: m ++ [y]). split; [|reflexivity].
  rewrite in_ns in X0, Y0. apply all_dot in M1. exists j, g, (e ++ r7), x, m, y. repeat split; auto.
  - apply white_app. apply all_sp in E2. split; [exact E2|]. now apply line_end_white.
  - now destruct (is_space x).
  - now destruct (is_space y).
Qed.
Lemma nx_source_M' t v : nx_source t v -> exists i s c, M nx_source_re 0 t [] i s c.
Proof.
  intros (i & g & e & x & m & y & -> & [I1 I2] & [G1 G2] & We & -> & M2 & Nm & X0 & Y0).
  assert (HD : exists c, D false nx_source_Tg (i ++ lit "source-interface" ++ g ++ (x :: m ++ [y]) ++ e) [] [] c).
  { eexists. unfold nx_source_Tg. apply D_run; [now apply all_sp|auto|discriminate|]. apply D_lit. apply D_run; [now apply all_sp|auto|discriminate|].
    apply D_grp with (c1 := []).
    - cbn [app]. apply D_one; [now rewrite in_ns, X0|]. rewrite <- app_assoc. apply D_run; [now apply all_dot|auto|discriminate|]. cbn [app]. apply D_one; [now rewrite in_ns, Y0|]. constructor.
    - rewrite <- (app_nil_r e). apply D_run; [now apply all_sp|discriminate|discriminate|]. constructor; [now left|constructor]. }
  destruct HD as (c & HD). apply unshape with (i := 0) in HD. rewrite <- nx_source_greed in HD. apply greed_bwd in HD. eauto.
Qed.
Theorem C89_source : forall own below, answers nx_source (own :: below) [] (nx_source_interface own below).
Proof.
  intros own below. apply first_match_answers.
  - intros t v SL. destruct (nx_source_M' _ _ SL) as (i & s & c & HM).
    destruct (found_unique nx_source_p nx_source_re 1 t _ _ _ [Some v] nx_source_reads HM) as (u & E).
    + intros i1 s1 c1 H1. apply nx_source_M in H1 as (v' & SL' & E). rewrite E. now rewrite (nx_source_unique _ _ _ SL SL').
    + eexists. split; [exact E|]. reflexivity.
  - intros t m E. apply (re_shape _ _ _ _ _ nx_source_reads) in E as (i & s & c & HM & _). apply nx_source_M in HM as (v & SL & _). eauto.
Qed.
Print Assumptions C89_source.

(** ** Examples *)

Example C89_ex :
  nx_login_authentication (lit "aaa authentication login default group TACACS local") = Ok (lit "default", lit "TACACS", [lit "local"]) /\
  nx_enable_authentication (lit "aaa authentication enable default group TACACS enable none") = Ok (lit "default", lit "TACACS", [lit "enable none"]) /\
  nx_commands_authorization (lit "aaa authorization commands 15 default group TACACS local") = Ok (15%Z, lit "default", lit "TACACS", [lit "local"]) /\
  nx_console_authorization (lit "aaa  authorization console  15 default  group TACACS local") = Ok (15%Z, lit "default", lit "TACACS", [lit "local"]) /\
  nx_commands_accounting (lit "aaa accounting commands 15 default start-stop group TACACS") = Ok (15%Z, lit "default", lit "start-stop", lit "TACACS") /\
  nx_exec_accounting (lit "aaa accounting exec default stop-only group TACACS") = Ok (lit "default", lit "stop-only", lit "TACACS") /\
  nx_group_server (lit "aaa group server tacacs+ ACS") = Ok (lit "tacacs+", lit "ACS") /\
  nx_vrf (lit "aaa group server tacacs+ ACS") [lit "  server 10.0.0.1"; lit "  use-vrf management"; lit "  source-interface mgmt0"] = Ok (lit "management") /\
  nx_source_interface (lit "aaa group server tacacs+ ACS") [lit "  server 10.0.0.1"; lit "  use-vrf management"; lit "  source-interface mgmt0"] = Ok (lit "mgmt0").
Proof. repeat split; vm_compute; reflexivity. Qed.
Example C89_ex_line : nx_list "login" (lit "default") (lit "TACACS") (lit " local") (lit "aaa authentication login default group TACACS local") /\
  nx_acct_exec (lit "default") (lit "stop-only") (lit "TACACS") (lit "aaa accounting exec default stop-only group TACACS").
Proof.
  assert (S : one_space [" "]) by (exists " "; split; reflexivity).
  assert (W0 : word (lit "default")) by (split; [discriminate|reflexivity]). assert (W1 : word (lit "TACACS")) by (split; [discriminate|reflexivity]).
  assert (LA : forall w ws p, laid ws p -> laid ((w, true) :: ws) (w ++ [" "] ++ p)) by (intros; now constructor). split.
  - split; [exact W0|]. exists (lit "aaa authentication login default group "). split; [reflexivity|]. split.
    + apply (LA (lit "aaa") _ (lit "authentication login default group ")), (LA (lit "authentication") _ (lit "login default group ")), (LA (lit "login") _ (lit "default group ")), (LA (lit "default") _ (lit "group ")), (LA (lit "group") _ []). constructor.
    + apply gr_more; [exact W1|exists " ", (lit "local"); split; reflexivity|reflexivity].
  - split; [exact W0|]. split; [right; left; reflexivity|]. split; [exact W1|]. exists (lit "aaa accounting exec default stop-only group "). split; [reflexivity|].
    apply (LA (lit "aaa") _ (lit "accounting exec default stop-only group ")), (LA (lit "accounting") _ (lit "exec default stop-only group ")), (LA (lit "exec") _ (lit "default stop-only group ")), (LA (lit "default") _ (lit "stop-only group ")),
      (LA (lit "stop-only") _ (lit "group ")), (LA (lit "group") _ []). constructor.
Qed.

(** ** What does not hold *)

(** NX-OS writes "aaa authorization commands default group TACACS", without a level, and "aaa
    accounting default group TACACS": nothing is reported of them. *)
Theorem C89_level_refuted :
  nx_commands_authorization (lit "aaa authorization commands default group TACACS local") = Ok (0%Z, [], [], [[]]) /\
  nx_commands_accounting (lit "aaa accounting commands default start-stop group TACACS") = Ok (0%Z, [], [], []).
Proof. split; vm_compute; reflexivity. Qed.
Print Assumptions C89_level_refuted.
(** Without methods after it, the group loses its last letter, which is reported as the method. *)
Theorem C89_group_name_refuted : nx_login_authentication (lit "aaa authentication login default group TACACS") = Ok (lit "default", lit "TACAC", [lit "S"]).
Proof. vm_compute. reflexivity. Qed.
Print Assumptions C89_group_name_refuted.
(** Several methods are one. *)
Theorem C89_methods_refuted : ~ (forall L G m t, nx_list "login" L G m t -> nx_login_authentication t = Ok (L, G, words m)).
Proof.
  intros HH. specialize (HH (lit "default") (lit "TACACS") (lit " local none") (lit "aaa authentication login default group TACACS local none")).
  assert (NL : nx_list "login" (lit "default") (lit "TACACS") (lit " local none") (lit "aaa authentication login default group TACACS local none")).
  { split; [split; [discriminate|reflexivity]|]. exists (lit "aaa authentication login default group "). split; [reflexivity|]. split.
    - assert (S : one_space [" "]) by (exists " "; split; reflexivity).
      assert (LA : forall w ws p, laid ws p -> laid ((w, true) :: ws) (w ++ [" "] ++ p)) by (intros; now constructor).
      apply (LA (lit "aaa") _ (lit "authentication login default group ")), (LA (lit "authentication") _ (lit "login default group ")), (LA (lit "login") _ (lit "default group ")), (LA (lit "default") _ (lit "group ")), (LA (lit "group") _ []). constructor.
    - apply gr_more; [split; [discriminate|reflexivity]|exists " ", (lit "local none"); split; reflexivity|reflexivity]. }
  apply HH in NL. vm_compute in NL. discriminate NL.
Qed.
Print Assumptions C89_methods_refuted.
