(** C69: AAA, access-line, hostname and global interface lines. *)
From Coq Require Import Ascii String Arith NArith ZArith Bool List Lia.
From Verif Require Import PyStr PyStrFacts PyBase CfgModel SearchModel IntfModel IntfSpec IntfFacts IpModel IpSpec PyRe PyReFacts PyReTmpl PyReLazy PyReSent IosSpec IosModel IosFacts RouteSpec RouteFacts FactorySpec FactoryModel FactoryFacts AaaSpec AaaModel AaaFacts.
Import ListNotations.
Local Open Scope char_scope.

(** ** Authentication and authorization *)

Definition enable_ks : list slot := [W (lit "aaa"); W (lit "authentication"); W (lit "enable"); G 1; W (lit "group")].
Definition level_ks (v : string) : list slot := [W (lit "aaa"); W (lit "authorization"); W (lit v); N 1; G 2; W (lit "group")].
Definition spaced_T (ks : list slot) : list item := sent ks ++ [Run sp true].
Definition login_T : list item :=
  tight_T ["aaa"; "authentication"; "login"]%string ++ [One sp; Grp 1 [Run ns true]; One sp; Lit (lit "group"); One sp].
Definition enable_p : string := "^aaa\s+authentication\s+enable\s+(\S+)\s+group\s+(\S+)(.+?)$".
Definition login_p : string := "^aaa\sauthentication\slogin\s(\S+)\sgroup\s(\S+)(.+?)$".
Definition commands_p : string := "^aaa\s+authorization\s+commands\s+(\d+)\s+(\S+)\s+group\s+(\S+)(.+?)$".
Definition console_p : string := "^aaa\s+authorization\s+console\s+(\d+)\s+(\S+)\s+group\s+(\S+)(.+?)$".
Lemma enable_reads : reads_re (lit enable_p) (row (flat_map flat1 (spaced_T enable_ks) ++ ending 2)) 3. Proof. reflexivity. Qed.
Lemma login_reads : reads_re (lit login_p) (row (flat_map flat1 login_T ++ ending 2)) 3. Proof. reflexivity. Qed.
Lemma commands_reads : reads_re (lit commands_p) (row (flat_map flat1 (spaced_T (level_ks "commands")) ++ ending 3)) 4. Proof. reflexivity. Qed.
Lemma console_reads : reads_re (lit console_p) (row (flat_map flat1 (spaced_T (level_ks "console")) ++ ending 3)) 4. Proof. reflexivity. Qed.

Lemma word_head w r : word w -> nonwhite_head (w ++ r) = true.
Proof. intros [N0 F]. destruct w; [congruence|]. cbn in *. now apply andb_true_iff in F as [F _]. Qed.
Lemma spaced_fwd ks ws p g s c : Forall2 fits ks ws -> forallb proper ks = true -> phrase ws p -> gap g -> nonwhite_head s = true ->
  D true (spaced_T ks) (p ++ g ++ s) s c (caps_of ks ws c).
Proof.
  intros F P PH GG NW. unfold spaced_T. eapply sent_fwd; eauto.
  - destruct ks as [|k ks]; [exact I|]. clear -GG. revert k. induction ks as [|k' ks IH]; intros k; [now apply gap_not_continue|].
    specialize (IH k'). destruct k; exact IH.
  - destruct GG as [G1 G2]. apply D_run; [now apply all_sp|auto| |constructor]. intros _. apply (stops_iff _ _ _ in_sp). now apply nonwhite_no_more.
Qed.
Lemma spaced_shape ks s s' c c' : ks <> [] -> D false (spaced_T ks) s s' c c' -> exists ws p g, s = p ++ g ++ s' /\ Forall2 fits ks ws /\ phrase ws p /\ gap g.
Proof.
  intros NE HD. unfold spaced_T in HD. apply sent_shape in HD as (ws & p & r & -> & P & F & HD); [|exact NE]. apply D_run_eq in HD as (g & r1 & -> & G1 & G2 & HD). apply D_nil_eq in HD as [-> _].
  exists ws, p, g. apply all_sp in G1. repeat split; auto.
Qed.

(** The methods, as one text. *)
Lemma methods_one m : contains (lit "\s") (strip m) = false -> methods_of m = [strip m].
Proof. intros E. unfold methods_of. now rewrite split_bs_none. Qed.

Lemma authentication_ok p T t L G0 m c : reads_re (lit p) (row (flat_map flat1 T ++ ending 2)) 3 -> D true T t (G0 ++ m) [] c -> cap 1 c = Some L -> group_and_rest G0 m ->
  authentication p t = Ok (L, G0, methods_of m).
Proof.
  intros R HD C GR. destruct (aaa_found _ _ _ _ _ _ _ _ R HD GR eq_refl) as (u & E). cbn [seq map cap Nat.eqb] in E. rewrite C in E. unfold authentication.
  rewrite (typed_found to_str [] p 0 t u _ L L E eq_refl eq_refl), (typed_found to_str [] p 1 t u _ G0 G0 E eq_refl eq_refl), (typed_found to_str [] p 2 t u _ m m E eq_refl eq_refl). reflexivity.
Qed.
Lemma authentication_none p t : rx_find (pattern false (lit p)) t = None -> authentication p t = Ok ([], [], [[]]).
Proof. intros E. unfold authentication. rewrite !typed_none by exact E. reflexivity. Qed.
Lemma authorization_ok p T t n d L G0 m c : reads_re (lit p) (row (flat_map flat1 T ++ ending 3)) 4 -> D true T t (G0 ++ m) [] c -> cap 1 c = Some d -> numeral d n -> cap 2 c = Some L ->
  group_and_rest G0 m -> authorization p t = Ok (n, L, G0, methods_of m).
Proof.
  intros R HD C1 Nd C2 GR. destruct (aaa_found _ _ _ _ _ _ _ _ R HD GR eq_refl) as (u & E). cbn [seq map cap Nat.eqb] in E. rewrite C1, C2 in E. unfold authorization.
  assert (CI : to_int (Some d) = Ok n).
  { rewrite to_int_digits; [f_equal; now apply numeral_value| |now apply numeral_digits in Nd]. destruct (numeral_head _ _ Nd) as (x & r & -> & _). discriminate. }
  rewrite (typed_found to_int 0%Z p 0 t u _ d n E eq_refl CI), (typed_found to_str [] p 1 t u _ L L E eq_refl eq_refl), (typed_found to_str [] p 2 t u _ G0 G0 E eq_refl eq_refl), (typed_found to_str [] p 3 t u _ m m E eq_refl eq_refl).
  reflexivity.
Qed.
Lemma authorization_none p t : rx_find (pattern false (lit p)) t = None -> authorization p t = Ok (0%Z, [], [], [[]]).
Proof. intros E. unfold authorization. rewrite !typed_none by exact E. reflexivity. Qed.

Ltac slots := repeat (match goal with H : Forall2 fits _ _ |- _ => inversion H; clear H; subst end); cbn [fits] in *; subst.

(** The list name, the group and the methods of "aaa authentication enable" lines, with any white
    space between the words, and of "aaa authentication login" lines, with one white character
    between them.  The methods are the rest of the line as one text.  A line that does not have
    this form reports nothing. *)
Theorem C69_authentication : forall t, no_newline t ->
  (forall L G m, aaa_list phrase gap "authentication" "enable" L G m t -> contains (lit "\s") (strip m) = false -> enable_authentication t = Ok (L, G, [strip m])) /\
  ((forall L G m, ~ aaa_list phrase gap "authentication" "enable" L G m t) -> enable_authentication t = Ok ([], [], [[]])) /\
  (forall L G m, aaa_list tight one_space "authentication" "login" L G m t -> contains (lit "\s") (strip m) = false -> login_authentication t = Ok (L, G, [strip m])) /\
  ((forall L G m, ~ aaa_list tight one_space "authentication" "login" L G m t) -> login_authentication t = Ok ([], [], [[]])).
Proof.
  intros t Nt. split; [|split; [|split]].
  - intros L0 G0 m (WL & p & g & -> & P & GG & GR) NB. destruct (rest_ok _ _ GR) as (WG & _ & _). rewrite <- methods_one by exact NB.
    apply (authentication_ok enable_p _ _ L0 G0 m [(1, L0)] enable_reads); [|reflexivity|exact GR].
    apply (spaced_fwd enable_ks [lit "aaa"; lit "authentication"; lit "enable"; L0; lit "group"] p g (G0 ++ m) []); auto; [repeat constructor; apply WL|now apply word_head].
  - intros NO. apply authentication_none. fold enable_p. destruct (rx_find (pattern false (lit enable_p)) t) as [u|] eqn:E; [|reflexivity]. exfalso.
    destruct (aaa_shape _ _ _ _ _ enable_reads Nt E) as (G0 & r & c & HD & GR). apply spaced_shape in HD as (ws & p & g & -> & F & P & GG); [|discriminate].
    unfold enable_ks in F. slots. eapply NO. split; [eassumption|]. exists p, g. split; [reflexivity|]. split; [exact P|]. split; [exact GG|exact GR].
  - intros L0 G0 m (WL & p & g & -> & P & (c1 & -> & Cg) & GR) NB. destruct (rest_ok _ _ GR) as (WG & _ & _). rewrite <- methods_one by exact NB.
    apply (tight_split [lit "aaa"; lit "authentication"; lit "login"] [L0; lit "group"]) in P as (a & x & b & -> & X0 & P1 & P2); try discriminate.
    inversion P2 as [|? y ? q Y0 P3]; subst. inversion P3 as [|? ? ? ? ? Z]; subst; [|inversion Z].
    apply (authentication_ok login_p _ _ L0 G0 m [(1, L0)] login_reads); [|reflexivity|exact GR].
    unfold login_T. rewrite <- app_assoc. apply tight_fwd; [exact P1|]. change ((x :: L0 ++ y :: lit "group") ++ [c1] ++ G0 ++ m) with (x :: (L0 ++ y :: lit "group") ++ [c1] ++ G0 ++ m).
    apply D_one; [now rewrite in_sp|]. match goal with |- D _ _ ?z _ _ _ => replace z with (L0 ++ y :: lit "group" ++ c1 :: G0 ++ m) by (change z with ((L0 ++ y :: lit "group") ++ c1 :: G0 ++ m); now rewrite <- app_assoc) end.
    apply (D_items true (G 1) [One sp; Lit (lit "group"); One sp] L0); [reflexivity|exact WL|cbn; now rewrite Y0|]. apply D_one; [now rewrite in_sp|]. apply D_lit, D_one; [now rewrite in_sp|]. constructor.
  - intros NO. apply authentication_none. fold login_p. destruct (rx_find (pattern false (lit login_p)) t) as [u|] eqn:E; [|reflexivity]. exfalso.
    destruct (aaa_shape _ _ _ _ _ login_reads Nt E) as (G0 & r & c & HD & GR). unfold login_T in HD. apply tight_shape in HD as (p & r1 & -> & P & HD); [|discriminate].
    apply D_one_eq in HD as (x & r2 & -> & X0 & HD). apply (D_items_inv false (G 1)) in HD as (L0 & r3 & -> & F & HD). apply D_one_eq in HD as (y & r4 & -> & Y0 & HD).
    apply D_lit_eq in HD as (r5 & -> & HD). apply D_one_eq in HD as (z & r6 & -> & Z0 & HD). apply D_nil_eq in HD as [<- _]. rewrite in_sp in X0, Y0, Z0.
    apply (NO L0 G0 r). split; [exact F|]. exists (p ++ x :: L0 ++ y :: lit "group"), [z].
    split; [repeat (rewrite <- app_assoc; cbn [app]); reflexivity|]. split; [|split; [now exists z|exact GR]].
    apply (tight_app (map lit ["aaa"; "authentication"; "login"]%string) [L0; lit "group"]); auto. constructor; [exact Y0|constructor].
Qed.
Print Assumptions C69_authentication.

Lemma level_theorem v p t : reads_re (lit p) (row (flat_map flat1 (spaced_T (level_ks v)) ++ ending 3)) 4 -> nonwhite_head (lit v) = true -> no_newline t ->
  (forall n L G m, aaa_level "authorization" v n L G m t -> contains (lit "\s") (strip m) = false -> authorization p t = Ok (n, L, G, [strip m])) /\
  ((forall n L G m, ~ aaa_level "authorization" v n L G m t) -> authorization p t = Ok (0%Z, [], [], [[]])).
Proof.
  intros R Hv Nt. split.
  - intros n L0 G0 m (d & Nd & WL & q & g & -> & P & GG & GR) NB. destruct (rest_ok _ _ GR) as (WG & _ & _). rewrite <- methods_one by exact NB.
    assert (Dd : d <> [] /\ forallb is_digit d = true).
    { split; [|now apply numeral_digits in Nd]. destruct (numeral_head _ _ Nd) as (x & r & -> & _). discriminate. }
    apply (authorization_ok p _ _ n d L0 G0 m [(2, L0); (1, d)] R); [|reflexivity|exact Nd|reflexivity|exact GR].
    apply (spaced_fwd (level_ks v) [lit "aaa"; lit "authorization"; lit v; d; L0; lit "group"] q g (G0 ++ m) []); auto.
    + repeat constructor; try apply Dd; apply WL.
    + cbn [level_ks forallb proper]. now rewrite Hv.
    + now apply word_head.
  - intros NO. apply authorization_none. destruct (rx_find (pattern false (lit p)) t) as [u|] eqn:E; [|reflexivity]. exfalso.
    destruct (aaa_shape _ _ _ _ _ R Nt E) as (G0 & r & c & HD & GR). apply spaced_shape in HD as (ws & q & g & -> & F & P & GG); [|discriminate].
    unfold level_ks in F. slots. 
    match goal with HH : _ <> [] /\ forallb is_digit ?d = true |- _ => eapply NO; exists d; split; [apply digits_numeral; apply HH|] end. split; [eassumption|]. exists q, g. split; [reflexivity|]. split; [exact P|]. split; [exact GG|exact GR].
Qed.
(** "aaa authorization commands" and "aaa authorization console" also have a level. *)
Theorem C69_authorization : forall t, no_newline t ->
  (forall n L G m, aaa_level "authorization" "commands" n L G m t -> contains (lit "\s") (strip m) = false -> commands_authorization t = Ok (n, L, G, [strip m])) /\
  ((forall n L G m, ~ aaa_level "authorization" "commands" n L G m t) -> commands_authorization t = Ok (0%Z, [], [], [[]])) /\
  (forall n L G m, aaa_level "authorization" "console" n L G m t -> contains (lit "\s") (strip m) = false -> console_authorization t = Ok (n, L, G, [strip m])) /\
  ((forall n L G m, ~ aaa_level "authorization" "console" n L G m t) -> console_authorization t = Ok (0%Z, [], [], [[]])).
Proof.
  intros t Nt. destruct (level_theorem _ _ t commands_reads eq_refl Nt) as [A1 A2]. destruct (level_theorem _ _ t console_reads eq_refl Nt) as [B1 B2]. auto.
Qed.
Print Assumptions C69_authorization.

(** ** Accounting *)

Lemma words_phrase ws : forall p i e, Forall word ws -> phrase ws p -> white i -> word_ends e -> words (i ++ p ++ e) = ws ++ words e.
Proof.
  induction ws as [|w ws IH]; intros p i e F P WI E; inversion P as [|? g ? q G0 P']; subst; inversion F as [|? ? F1 F2]; subst.
  - now apply words_word.
  - replace (i ++ (w ++ g ++ q) ++ e) with (i ++ w ++ (g ++ q ++ e)) by now rewrite <- !app_assoc. rewrite words_word; auto.
    + cbn [app]. f_equal. apply IH; auto. apply G0.
    + destruct G0 as [G1 G2]. destruct g as [|x g]; [congruence|]. cbn. unfold white in G1. cbn in G1. apply andb_true_iff in G1 as [-> _]. reflexivity.
Qed.
Lemma words_of ws t : Forall word ws -> phrase ws t -> words t = ws.
Proof. intros F P. pose proof (words_phrase ws t [] [] F P eq_refl I) as E. cbn [app] in E. rewrite app_nil_r in E. rewrite E. apply app_nil_r. Qed.
Lemma phrase_app us : forall vs p q g, phrase us p -> phrase vs q -> gap g -> phrase (us ++ vs) (p ++ g ++ q).
Proof. intros vs p q g P Q0 GG. induction P as [w|w h us p GH P IH]; cbn [app]; [now constructor|]. rewrite <- !app_assoc. now constructor. Qed.
Lemma phrase_cut us vs : us <> [] -> vs <> [] -> forall p, phrase (us ++ vs) p -> exists a g b, p = a ++ g ++ b /\ gap g /\ phrase us a /\ phrase vs b.
Proof.
  intros NE NV. induction us as [|u us IH]; intros p P; [congruence|]. destruct us as [|u' us].
  - cbn [app] in P. inversion P as [|? g ? q GG P']; subst; [congruence|]. exists u, g, q. repeat split; auto; try apply GG. constructor.
  - cbn [app] in P. inversion P as [|? g ? q GG P']; subst. destruct (IH ltac:(discriminate) q P') as (a & h & b & -> & GH & A1 & B1).
    exists (u ++ g ++ a), h, b. rewrite <- !app_assoc. repeat split; auto; try apply GH. now constructor.
Qed.

Definition commands_ks : list slot := [W (lit "aaa"); W (lit "accounting"); W (lit "commands"); N 1; G 2].
Definition exec_ks : list slot := [W (lit "aaa"); W (lit "accounting"); W (lit "exec"); G 1].
Definition commands_T1 : list item := Run sp true :: sent [W (lit "group"); G 4] ++ [End].
Definition exec_T1 : list item := [Run sp true; Lit (lit "group"); One sp; Grp 3 [Run ns true]; End].
Definition acct_commands_p : string := "^aaa\s+accounting\s+commands\s+(\d+)\s+(\S+)\s+(none|stop\-only|start\-stop)\s+group\s+(\S+)$".
Definition acct_exec_p : string := "^aaa\s+accounting\s+exec\s+(\S+)\s+(none|stop\-only|start\-stop)\s+group\s(\S+)$".
Lemma acct_commands_reads : reads_re (lit acct_commands_p) (pick (spaced_T commands_ks) 3 record_kinds commands_T1) 4. Proof. reflexivity. Qed.
Lemma acct_exec_reads : reads_re (lit acct_exec_p) (pick (spaced_T exec_ks) 2 record_kinds exec_T1) 3. Proof. reflexivity. Qed.
Lemma kind_word k : In k record_kinds -> word k.
Proof. revert k. apply Forall_forall. unfold record_kinds. repeat constructor; discriminate. Qed.
Lemma spaced_caps ks s s' c c' : ks <> [] -> D false (spaced_T ks) s s' c c' -> exists ws p g, s = p ++ g ++ s' /\ Forall2 fits ks ws /\ phrase ws p /\ gap g /\ c' = caps_of ks ws c.
Proof.
  intros NE HD. unfold spaced_T in HD. apply sent_shape in HD as (ws & p & r & -> & P & F & HD); [|exact NE]. apply D_run_eq in HD as (g & r1 & -> & G1 & G2 & HD). apply D_nil_eq in HD as [-> ->].
  exists ws, p, g. apply all_sp in G1. repeat split; auto.
Qed.
Lemma end_eq b s s' c c' : D b [End] s s' c c' -> line_end s /\ c' = c.
Proof. intros HD. inversion HD as [| | | | |? ? ? ? ? E HD'| | | |]; subst. apply D_nil_eq in HD' as [_ ->]. auto. Qed.
Lemma no_end_newline a e : no_newline (a ++ e) -> line_end e -> e = [].
Proof. intros Nn [-> | ->]; [reflexivity|]. apply newline_app in Nn as [_ Nn]. discriminate. Qed.
Lemma acct_commands_M t i s c : no_newline t -> M (pick (spaced_T commands_ks) 3 record_kinds commands_T1) 0 t [] i s c ->
  exists d L k g, acct_commands d L k g t /\ c = [(4, g); (3, k); (2, L); (1, d)].
Proof.
  intros Nt HM. apply pick_shape in HM as (r & c1 & k & r1 & HD & -> & IK & HE); [|discriminate]. apply spaced_caps in HD as (ws & p & g & -> & F & P & GG & ->); [|discriminate].
  unfold commands_T1 in HE. apply D_run_eq in HE as (h & r2 & -> & H1 & H2 & HE). apply all_sp in H1. apply sent_shape in HE as (vs & q & r & -> & Q0 & F2 & HE); [|discriminate].
  apply end_eq in HE as [E ->]. assert (r = []) as ->. { rewrite !app_assoc in Nt. now apply no_end_newline in Nt. }
  unfold commands_ks in F. slots. rewrite app_nil_r in *.
  eexists _, _, k, _. split; [|reflexivity]. split; [split; eapply proj1 + eapply proj2; eassumption|]. split; [eassumption|]. split; [exact IK|]. split; [eassumption|].
  apply (phrase_app [_; _; _; _; _] [k; _; _] p (k ++ h ++ q) g P); [|exact GG]. constructor; [split; auto|exact Q0].
Qed.
Lemma acct_commands_M' t d L k g : acct_commands d L k g t -> exists i s c, M (pick (spaced_T commands_ks) 3 record_kinds commands_T1) 0 t [] i s c.
Proof.
  intros (Dd & WL & IK & Wg & P). apply (phrase_cut [lit "aaa"; lit "accounting"; lit "commands"; d; L] [k; lit "group"; g]) in P as (a & h & b & -> & GH & P1 & P2); try discriminate.
  inversion P2 as [|? h2 ? q GH2 P3]; subst. assert (Kw : word k) by now apply kind_word. assert (Nq : nonwhite_head q = true) by (inversion P3; reflexivity).
  destruct (pick_found (spaced_T commands_ks) 3 record_kinds commands_T1 (a ++ h ++ k ++ h2 ++ q) k [(2, L); (1, d)] k (h2 ++ q) [] [(4, g); (3, k); (2, L); (1, d)] IK) as (i & HM); eauto.
  - apply D_weaken. apply (spaced_fwd commands_ks [lit "aaa"; lit "accounting"; lit "commands"; d; L] a h (k ++ h2 ++ q) []); auto; [|now apply word_head].
    repeat constructor; try apply Dd; apply WL.
  - apply D_weaken. unfold commands_T1. destruct GH2 as [G1 G2]. apply D_run; [now apply all_sp|auto| |].
    + intros _. apply (stops_iff _ _ _ in_sp). now apply nonwhite_no_more.
    + rewrite <- (app_nil_r q). apply (sent_fwd [W (lit "group"); G 4] [lit "group"; g]); auto; [repeat constructor; apply Wg|exact I|]. cbn [caps_of cap1 app]. constructor; [now left|constructor].
Qed.
Lemma acct_exec_M t i s c : no_newline t -> M (pick (spaced_T exec_ks) 2 record_kinds exec_T1) 0 t [] i s c ->
  exists L k g, acct_exec L k g t /\ c = [(3, g); (2, k); (1, L)].
Proof.
  intros Nt HM. apply pick_shape in HM as (r & c1 & k & r1 & HD & -> & IK & HE); [|discriminate]. apply spaced_caps in HD as (ws & p & g & -> & F & P & GG & ->); [|discriminate].
  unfold exec_T1 in HE. apply D_run_eq in HE as (h & r2 & -> & H1 & H2 & HE). apply all_sp in H1. apply D_lit_eq in HE as (r3 & -> & HE). apply D_one_eq in HE as (x & r4 & -> & X0 & HE).
  apply (D_items_inv false (G 3)) in HE as (w & r5 & -> & Fw & HE). apply end_eq in HE as [E ->]. rewrite in_sp in X0.
  assert (r5 = []) as ->. { change (p ++ g ++ k ++ h ++ lit "group" ++ x :: w ++ r5) with (p ++ g ++ k ++ h ++ lit "group" ++ [x] ++ w ++ r5) in Nt. rewrite !app_assoc in Nt. now apply no_end_newline in Nt. }
  unfold exec_ks in F. slots. rewrite app_nil_r in *.
  eexists _, k, w. split; [|reflexivity]. split; [eassumption|]. split; [exact IK|]. split; [exact Fw|]. exists (lit "group" ++ [x] ++ w). split; [now exists x|].
  apply (phrase_app [_; _; _; _] [k; _] p (k ++ h ++ lit "group" ++ [x] ++ w) g P); [|exact GG]. constructor; [split; auto|constructor].
Qed.
Lemma acct_exec_M' t L k g : acct_exec L k g t -> exists i s c, M (pick (spaced_T exec_ks) 2 record_kinds exec_T1) 0 t [] i s c.
Proof.
  intros (WL & IK & Wg & z & (x & X0 & ->) & P). apply (phrase_cut [lit "aaa"; lit "accounting"; lit "exec"; L] [k; _]) in P as (a & h & b & -> & GH & P1 & P2); try discriminate.
  inversion P2 as [|? h2 ? q [G1 G2] P3]; subst. assert (Kw : word k) by now apply kind_word. inversion P3 as [|? ? ? ? ? Z]; subst; [|inversion Z].
  destruct (pick_found (spaced_T exec_ks) 2 record_kinds exec_T1 (a ++ h ++ k ++ h2 ++ lit "group" ++ [x] ++ g) k [(1, L)] k (h2 ++ lit "group" ++ [x] ++ g) [] [(3, g); (2, k); (1, L)] IK) as (i & HM); eauto.
  - apply D_weaken. apply (spaced_fwd exec_ks [lit "aaa"; lit "accounting"; lit "exec"; L] a h (k ++ h2 ++ lit "group" ++ [x] ++ g) []); auto; [|now apply word_head].
    repeat constructor; apply WL.
  - unfold exec_T1. apply D_run; [now apply all_sp|auto|discriminate|]. apply D_lit. apply D_one; [now rewrite in_sp|]. rewrite <- (app_nil_r g) at 1.
    apply (D_items false (G 3) [End] g []); [reflexivity|exact Wg|discriminate|]. constructor; [now left|constructor].
Qed.
Lemma digits_word d : digits d -> word d.
Proof.
  intros [D1 D2]. split; [exact D1|]. clear D1. induction d as [|x d IH]; [reflexivity|]. cbn in *. apply andb_true_iff in D2 as [X0 D2]. rewrite (digit_nonspace _ X0). auto.
Qed.
Lemma joined_words w a : word w -> forall v, word v -> joined v w a -> words a = [v; w].
Proof.
  intros Ww v Wv (x & X0 & ->). rewrite <- (words_of [v; w] (v ++ [x] ++ w)); auto. constructor; [|constructor]. split; [|discriminate]. unfold white. cbn. now rewrite X0.
Qed.

(** Accounting lines report the level, the list name, the record type and the group, each as
    written; other lines report nothing.  In "aaa accounting exec" lines exactly one white
    character stands after "group". *)
Theorem C69_accounting : forall t, no_newline t ->
  (forall n d L k g, numeral d n -> acct_commands d L k g t -> commands_accounting t = Ok (n, L, k, g)) /\
  ((forall d L k g, ~ acct_commands d L k g t) -> commands_accounting t = Ok (0%Z, [], [], [])) /\
  (forall L k g, acct_exec L k g t -> exec_accounting t = Ok (L, k, g)) /\
  ((forall L k g, ~ acct_exec L k g t) -> exec_accounting t = Ok ([], [], [])).
Proof.
  intros t Nt. split; [|split; [|split]].
  - intros n d L0 k g Nd HA. destruct (acct_commands_M' _ _ _ _ _ HA) as (i & s & c & HM).
    assert (U : forall i s c1, M (pick (spaced_T commands_ks) 3 record_kinds commands_T1) 0 t [] i s c1 -> map (fun j => cap j c1) (seq 1 4) = [Some d; Some L0; Some k; Some g]).
    { intros i1 s1 c1 H1. apply acct_commands_M in H1 as (d' & L' & k' & g' & HB & ->); [|exact Nt].
      assert (FW : forall d L k g, acct_commands d L k g t -> words t = [lit "aaa"; lit "accounting"; lit "commands"; d; L; k; lit "group"; g]).
      { intros d1 L1 k1 g1 ([D1 D2] & WL & IK & Wg & P). apply words_of; [|exact P]. assert (Wd : word d1) by now apply digits_word.
        repeat (apply Forall_cons; [first [assumption | now apply kind_word | split; [discriminate|reflexivity]]|]). constructor. }
      pose proof (FW _ _ _ _ HA) as E1. rewrite (FW _ _ _ _ HB) in E1. injection E1 as -> -> -> ->. reflexivity. }
    destruct (found_unique _ _ _ _ _ _ _ _ acct_commands_reads HM U) as (u & E). unfold commands_accounting. fold acct_commands_p. cbv zeta.
    assert (CI : to_int (Some d) = Ok n).
    { rewrite to_int_digits; [f_equal; now apply numeral_value| |now apply numeral_digits in Nd]. destruct (numeral_head _ _ Nd) as (x & r & -> & _). discriminate. }
    rewrite (typed_found to_int 0%Z _ 0 t u _ d n E eq_refl CI), (typed_found to_str [] _ 1 t u _ L0 L0 E eq_refl eq_refl), (typed_found to_str [] _ 2 t u _ k k E eq_refl eq_refl), (typed_found to_str [] _ 3 t u _ g g E eq_refl eq_refl).
    reflexivity.
  - intros NO. unfold commands_accounting. fold acct_commands_p. cbv zeta. rewrite !typed_none; [reflexivity|..]; apply (re_none _ _ _ _ acct_commands_reads);
      intros i s c HM; apply acct_commands_M in HM as (d & L0 & k & g & HA & _); auto; exact (NO _ _ _ _ HA).
  - intros L0 k g HA. destruct (acct_exec_M' _ _ _ _ HA) as (i & s & c & HM).
    assert (U : forall i s c1, M (pick (spaced_T exec_ks) 2 record_kinds exec_T1) 0 t [] i s c1 -> map (fun j => cap j c1) (seq 1 3) = [Some L0; Some k; Some g]).
    { intros i1 s1 c1 H1. apply acct_exec_M in H1 as (L' & k' & g' & HB & ->); [|exact Nt].
      assert (FW : forall L k g, acct_exec L k g t -> words t = [lit "aaa"; lit "accounting"; lit "exec"; L; k; lit "group"; g]).
      { intros L1 k1 g1 (WL & IK & Wg & a & (x & X0 & ->) & P). apply (phrase_cut [lit "aaa"; lit "accounting"; lit "exec"; L1; k1] [lit "group" ++ [x] ++ g1]) in P as (a & h & b & -> & GH & P1 & P2); try discriminate.
        inversion P2 as [|? ? ? ? ? Z]; subst; [|inversion Z]. apply words_of.
        - repeat (apply Forall_cons; [first [assumption | now apply kind_word | split; [discriminate|reflexivity]]|]). constructor.
        - apply (phrase_app [lit "aaa"; lit "accounting"; lit "exec"; L1; k1] [lit "group"; g1] a (lit "group" ++ [x] ++ g1) h P1); [|exact GH]. constructor; [|constructor]. split; [unfold white; cbn; now rewrite X0|discriminate]. }
      pose proof (FW _ _ _ HA) as E1. rewrite (FW _ _ _ HB) in E1. injection E1 as -> -> ->. reflexivity. }
    destruct (found_unique _ _ _ _ _ _ _ _ acct_exec_reads HM U) as (u & E). unfold exec_accounting. fold acct_exec_p. cbv zeta.
    rewrite (typed_found to_str [] _ 0 t u _ L0 L0 E eq_refl eq_refl), (typed_found to_str [] _ 1 t u _ k k E eq_refl eq_refl), (typed_found to_str [] _ 2 t u _ g g E eq_refl eq_refl). reflexivity.
  - intros NO. unfold exec_accounting. fold acct_exec_p. cbv zeta. rewrite !typed_none; [reflexivity|..]; apply (re_none _ _ _ _ acct_exec_reads);
      intros i s c HM; apply acct_exec_M in HM as (L0 & k & g & HA & _); auto; exact (NO _ _ _ HA).
Qed.
Print Assumptions C69_accounting.

(** ** Groups of servers *)

Definition group_T : list item := tight_T ["aaa"; "group"; "server"]%string ++ [One sp; Grp 1 [Run ns true]; One sp; Grp 2 [Run ns true]; Run sp false; End].
(** protocol and group are the two words after "aaa group server"; other lines are refused. *)
Theorem C69_group : forall t,
  (forall proto name p e, t = p ++ e -> word proto -> word name -> tight [lit "aaa"; lit "group"; lit "server"; proto; name] p -> white e ->
     group_server_init t = Ok (proto, name)) /\
  (~ group_server t -> group_server_init t = Err ValueError).
Proof.
  intros t. split.
  - intros t1 t2 p e -> W1 W2 P We. apply (tight_split [lit "aaa"; lit "group"; lit "server"] [t1; t2]) in P as (a & x & b & -> & X0 & P1 & P2); try discriminate.
    inversion P2 as [|? y ? q Y0 P3]; subst. inversion P3 as [|? ? ? ? ? Z]; subst; [|inversion Z].
    assert (HD : D true group_T ((a ++ x :: t1 ++ y :: q) ++ e) [] [] [(2, q); (1, t1)]).
    { unfold group_T. rewrite <- app_assoc. apply tight_fwd; [exact P1|]. cbn [app]. rewrite <- app_assoc. cbn [app]. apply D_one; [now rewrite in_sp|].
      apply (D_items true (G 1) [One sp; Grp 2 [Run ns true]; Run sp false; End] t1); [reflexivity|exact W1|cbn; now rewrite Y0|]. apply D_one; [now rewrite in_sp|].
      apply (D_items true (G 2) [Run sp false; End] q); [reflexivity|exact W2| |].
      - intros _. destruct e as [|c e]; [exact I|]. unfold white in We. cbn in We. apply andb_true_iff in We as [We _]. cbn. now rewrite We.
      - rewrite <- (app_nil_r e). apply D_run; [now apply all_sp|discriminate|intros _; exact I|]. constructor; [now left|constructor]. }
    destruct (reads_some (lit group_pattern) group_T 2 _ _ _ ltac:(reflexivity) HD) as (u & E). unfold group_server_init. rewrite E. vm_compute. reflexivity.
  - intros N0. unfold group_server_init. rewrite <- group_server_iff in N0. unfold finds in N0. destruct (rx_find (pattern false (lit group_pattern)) t); [congruence|reflexivity].
Qed.
Print Assumptions C69_group.

(** vrf of a group of servers: any number of words "ip", then "vrf forwarding" and the name,
    on the first such indented line. *)
Definition vrf_T : list item := Run sp true :: Many 1 (rep_T (Word (lit "ip"))) :: sent [W (lit "vrf"); W (lit "forwarding"); G 2].
Lemma vrf_reads : reads (lit "^\s+(ip\s+)*vrf\s+forwarding\s+(\S+)") vrf_T 2. Proof. reflexivity. Qed.
Theorem C69_vrf : forall own below, answers vrf_line (own :: below) [] (server_vrf own below).
Proof.
  intros own below. apply first_match_answers.
  - intros t v (Wv & ips & FI & i & p & e & -> & [I1 I2] & P & E).
    assert (FO : Forall (rep_ok (Word (lit "ip"))) ips) by (revert FI; apply Forall_impl; intros w <-; reflexivity).
    apply phrase_split in P as (gs & q & -> & GP & P); [|discriminate].
    assert (NQ : nonwhite_head (q ++ e) = true) by (inversion P; reflexivity).
    assert (HD : D true vrf_T (i ++ (heads ips gs ++ q) ++ e) e [] (caps_of [W (lit "vrf"); W (lit "forwarding"); G 2] [lit "vrf"; lit "forwarding"; v] (rounds 1 ips gs []))).
    { unfold vrf_T. apply D_run; [now apply all_sp|auto| |].
      - intros _. apply (stops_iff _ _ _ in_sp), nonwhite_no_more. rewrite <- app_assoc. eapply heads_nonspace; eauto; [apply GP|]. intros w [= <-]. reflexivity.
      - rewrite <- app_assoc. apply many_fwd; auto.
        + inversion P; cbn; discriminate.
        + intros w [= <-]. reflexivity.
        + rewrite <- (app_nil_r (sent _)). apply (sent_fwd _ [lit "vrf"; lit "forwarding"; v]); auto; [repeat constructor; apply Wv|constructor]. }
    destruct (reads_some _ _ _ _ _ _ vrf_reads HD) as (u & F). eexists. split; [exact F|]. reflexivity.
  - intros t m E. apply (reads_shape _ _ _ _ _ vrf_reads) in E as (s' & c & HD & _). unfold vrf_T in HD. apply D_run_eq in HD as (i & r & -> & I1 & I2 & HD). apply all_sp in I1.
    apply many_shape in HD as (ds & gs & s & -> & FD & GD & HD). rewrite <- (app_nil_r (sent _)) in HD. apply sent_shape in HD as (ws & q & e & -> & P & F & HD); [|discriminate].
    destruct (extend_last _ ws q e F P) as (ws' & q' & e' & -> & P' & F' & E'). slots.
    match goal with P' : phrase [_; _; ?v] _ |- _ => exists v end. split; [eassumption|]. exists ds. split; [revert FD; apply Forall_impl; intros w ->; reflexivity|].
    exists i, (heads ds gs ++ q'), e'. rewrite <- app_assoc. repeat split; auto. now apply phrase_heads.
Qed.
Print Assumptions C69_vrf.

(** server_private is the set of the words after "server-private" on the indented children
    where something follows the word. *)
Definition private_T : list item := Run sp true :: sent [W (lit "server-private"); G 1] ++ [One sp].
Lemma private_reads : reads (lit "^\s+server-private\s+(\S+)\s") private_T 1. Proof. reflexivity. Qed.
Lemma private_one t : match rx_find (pattern false (lit "^\s+server-private\s+(\S+)\s")) t with
  | Some m => exists v, group 1 m = Ok (Some v) /\ private_line t v /\ forall v', private_line t v' -> v' = v
  | None => forall v, ~ private_line t v end.
Proof.
  assert (FW : forall v, private_line t v -> exists u, rx_find (pattern false (lit "^\s+server-private\s+(\S+)\s")) t = Some (mkMatch u [Some v])).
  { intros v (Wv & c & e & C0 & i & p & e' & -> & [I1 I2] & P & <-). assert (NP : nonwhite_head (p ++ c :: e) = true) by (inversion P; reflexivity).
    apply (reads_some _ private_T 1 _ e [(1, v)] private_reads). unfold private_T. apply D_run; [now apply all_sp|auto|intros _; now apply (stops_iff _ _ _ in_sp), nonwhite_no_more|].
    apply (sent_fwd _ [lit "server-private"; v]); auto; [repeat constructor; apply Wv|cbn; now rewrite C0|]. apply D_one; [now rewrite in_sp|]. constructor. }
  destruct (rx_find _ t) as [m|] eqn:E.
  - pose proof E as E0. apply (reads_shape _ _ _ _ _ private_reads) in E as (s' & c & HD & _). unfold private_T in HD. apply D_run_eq in HD as (i & r & -> & I1 & I2 & HD). apply all_sp in I1.
    apply sent_shape in HD as (ws & q & e & -> & P & F & HD); [|discriminate]. apply D_one_eq in HD as (x & r & -> & X0 & HD). rewrite in_sp in X0. slots.
    match goal with P : phrase [_; ?v] _ |- _ => assert (PL : private_line (i ++ q ++ x :: r) v) end.
    { split; [eassumption|]. exists x, r. split; [exact X0|]. exists i, q, (x :: r). repeat split; auto. }
    destruct (FW _ PL) as (u & EU). injection EU as ->. eexists. split; [reflexivity|]. split; [exact PL|].
    intros v' PV. destruct (FW _ PV) as (u' & EU'). injection EU' as _ EE. now symmetry.
  - intros v PV. destruct (FW _ PV) as (u & EU). discriminate.
Qed.
Theorem C69_private : forall kids, exists l, server_private kids = Ok l /\ forall v, In v l <-> exists t, In t kids /\ private_line t v.
Proof.
  induction kids as [|t r (l & E & IH)]; [exists []; split; [reflexivity|]; intros v; split; [intros []|intros (? & [] & _)]|]. cbn [server_private]. rewrite E. cbn [bind].
  pose proof (private_one t) as O. destruct (rx_find _ t) as [m|].
  - destruct O as (v & -> & PL & U). cbn [bind to_str]. exists (v :: l). split; [reflexivity|]. intros v'. cbn [In]. rewrite IH. split.
    + intros [<-|(t' & I' & PV)]; [exists t; auto|exists t'; auto].
    + intros (t' & [<-|I'] & PV); [left; symmetry; now apply U|right; eauto].
  - exists l. split; [reflexivity|]. intros v'. rewrite IH. split; intros (t' & I' & PV); [exists t'; split; [now right|exact PV]|].
    destruct I' as [<-|I']; [now apply O in PV|eauto].
Qed.
Print Assumptions C69_private.
Lemma phrase_unique ws : forallb nonwhite_head ws = true -> forall p p' g g' s s', phrase ws p -> phrase ws p' -> gap g -> gap g' -> nonwhite_head s = true -> nonwhite_head s' = true ->
  p ++ g ++ s = p' ++ g' ++ s' -> s = s'.
Proof.
  intros F p p' g g' s s' P. revert p'. induction P as [w|w h ws p GH P IH]; intros p' P' G1 G2 N1 N2 E.
  - inversion P' as [|? ? ? ? ? Z]; subst; [|inversion Z]. apply app_inv_head in E. apply cut_white in E; [tauto|apply G1|apply G2|exact N1|exact N2].
  - inversion P' as [|? h' ? q GH' P2]; subst; [inversion P|]. rewrite <- !app_assoc in E. apply app_inv_head in E. cbn [forallb] in F. apply andb_true_iff in F as [_ F].
    assert (NH : forall q, phrase ws q -> forall r, nonwhite_head (q ++ r) = true).
    { intros q0 Q0 r. destruct Q0; cbn [forallb] in F; apply andb_true_iff in F as [F _]; apply nonwhite_head_app; auto. rewrite <- ?app_assoc. now apply nonwhite_head_app. }
    apply cut_white in E as [_ E]; [|apply GH|apply GH'|now apply NH|now apply NH]. eapply IH; eauto.
Qed.
Definition source_p : string := "^\s+ip\s+tacacs\s+source-interface\s+(\S.+?\S)\s*$".
Definition source_ks : list slot := [W (lit "ip"); W (lit "tacacs"); W (lit "source-interface")].
Definition source_Tg : list item := Run sp true :: spaced_T source_ks ++ [Grp 1 [One ns; Run dot true; One ns]; Run sp false; End].
Definition source_re : re :=
  row (flat_map flat1 (Run sp true :: spaced_T source_ks) ++ [RGrp 1 (RCat (RSet ns) (RCat (rplus false (RSet dot)) (RSet ns))); RStar true (RSet sp); REol]).
Lemma source_reads : reads_re (lit source_p) source_re 1. Proof. reflexivity. Qed.
Lemma source_greed : greed source_re = den source_Tg. Proof. reflexivity. Qed.
Lemma nonwhite_rstrip v e x m y : v = x :: m ++ [y] -> is_space y = false -> white e -> rstrip (v ++ e) = v.
Proof.
  intros -> Y0 We. unfold rstrip. rewrite rev_app_distr. rewrite lstrip_app_space.
  - change (x :: m ++ [y]) with ((x :: m) ++ [y]). generalize (x :: m). clear m. intros m. rewrite rev_app_distr. change (rev [y] ++ rev m) with (y :: rev m). cbn [lstrip]. rewrite Y0.
    cbn [rev]. now rewrite rev_involutive.
  - apply forallb_forall. intros z Z0. apply in_rev in Z0. unfold white in We. rewrite forallb_forall in We. auto.
Qed.
Lemma source_unique t v v' : source_line t v -> source_line t v' -> v = v'.
Proof.
  intros (i & p & g & e & x & m & y & -> & [I1 I2] & P & GG & We & EV & _ & _ & X0 & Y0) (i' & p' & g' & e' & x' & m' & y' & E & [I1' I2'] & P' & GG' & We' & EV' & _ & _ & X0' & Y0').
  assert (NP : forall q r, phrase (map lit ["ip"; "tacacs"; "source-interface"]%string) q -> nonwhite_head (q ++ r) = true) by (intros q r Q0; inversion Q0; reflexivity).
  apply cut_white in E as [_ E]; auto. apply phrase_unique with (ws := map lit ["ip"; "tacacs"; "source-interface"]%string) in E; auto.
  - apply (f_equal rstrip) in E. rewrite (nonwhite_rstrip v e x m y), (nonwhite_rstrip v' e' x' m' y') in E; auto.
  - subst v. cbn. now rewrite X0.
  - subst v'. cbn. now rewrite X0'.
Qed.
Lemma source_M t i s c : M source_re 0 t [] i s c -> exists v, source_line t v /\ map (fun j => cap j c) (seq 1 1) = [Some v].
Proof.
  intros HM. apply greed_fwd in HM. rewrite source_greed in HM. apply shape in HM. unfold source_Tg in HM. apply D_run_eq in HM as (j & r & -> & J1 & J2 & HM). apply all_sp in J1.
  unfold spaced_T in HM. rewrite <- app_assoc in HM. apply sent_shape in HM as (ws & p & r1 & -> & P & F & HM); [|discriminate]. cbn [app] in HM. apply D_run_eq in HM as (g & r2 & -> & G1 & G2 & HM). apply all_sp in G1.
  apply D_grp_eq in HM as (w & r3 & c1 & -> & HB & HM). apply D_one_eq in HB as (x & r4 & E1 & X0 & HB). apply D_run_eq in HB as (m & r5 & -> & M1 & M2 & HB). apply D_one_eq in HB as (y & r6 & -> & Y0 & HB).
  apply D_nil_eq in HB as [-> ->]. assert (w = x :: m ++ [y]) as ->.
  { apply (app_inv_tail r6). rewrite E1. cbn [app]. now rewrite <- app_assoc. }
  apply D_run_eq in HM as (e & r7 & -> & E2 & _ & HM). apply end_eq in HM as [E3 ->]. unfold source_ks in F. slots. exists (x :: m ++ [y]). split; [|reflexivity].
  rewrite in_ns in X0, Y0. apply all_dot in M1. exists j, p, g, (e ++ r7), x, m, y. repeat split; auto.
  - apply white_app. apply all_sp in E2. split; [exact E2|]. now apply line_end_white.
  - now destruct (is_space x).
  - now destruct (is_space y).
Qed.
Lemma source_M' t v : source_line t v -> exists i s c, M source_re 0 t [] i s c.
Proof.
  intros (i & p & g & e & x & m & y & -> & [I1 I2] & P & [G1 G2] & We & -> & M2 & Nm & X0 & Y0).
  assert (HD : exists c, D false source_Tg (i ++ p ++ g ++ (x :: m ++ [y]) ++ e) [] [] c).
  { eexists. unfold source_Tg. apply D_run; [now apply all_sp|auto|discriminate|]. unfold spaced_T. rewrite <- app_assoc. unfold source_ks.
    apply (words_D ["ip"; "tacacs"; "source-interface"]%string); [exact P|]. cbn [app]. apply D_run; [now apply all_sp|auto|discriminate|].
    change (x :: (m ++ [y]) ++ e) with ((x :: m ++ [y]) ++ e). apply D_grp with (c1 := []).
    - cbn [app]. apply D_one; [now rewrite in_ns, X0|]. rewrite <- app_assoc. apply D_run; [now apply all_dot|auto|discriminate|]. cbn [app]. apply D_one; [now rewrite in_ns, Y0|]. constructor.
    - rewrite <- (app_nil_r e). apply D_run; [now apply all_sp|discriminate|discriminate|]. constructor; [now left|constructor]. }
  destruct HD as (c & HD). apply unshape with (i := 0) in HD. rewrite <- source_greed in HD. apply greed_bwd in HD. eauto.
Qed.
Theorem C69_source : forall own below, answers source_line (own :: below) [] (source_interface own below).
Proof.
  intros own below. apply first_match_answers.
  - intros t v SL. destruct (source_M' _ _ SL) as (i & s & c & HM).
    destruct (found_unique source_p source_re 1 t _ _ _ [Some v] source_reads HM) as (u & E).
    + intros i1 s1 c1 H1. apply source_M in H1 as (v' & SL' & E). rewrite E. now rewrite (source_unique _ _ _ SL SL').
    + eexists. split; [exact E|]. reflexivity.
  - intros t m E. apply (re_shape _ _ _ _ _ source_reads) in E as (i & s & c & HM & _). apply source_M in HM as (v & SL & _). eauto.
Qed.
Print Assumptions C69_source.

(** ** Host name and access lines *)

Lemma after_found p w n t v : reads (lit p) (sent [W (lit w); G 1]) n -> nonwhite_head (lit w) = true -> after_word w t v -> exists u, rx_find (pattern false (lit p)) t = Some (mkMatch u (map (fun j => cap j [(1, v)]) (seq 1 n))).
Proof.
  intros R Nw (Wv & i & q & e & -> & <- & P & E). apply (reads_some _ _ n _ e [(1, v)] R). cbn [app]. rewrite <- (app_nil_r (sent _)).
  apply (sent_fwd _ [lit w; v]); auto; [repeat constructor; apply Wv|cbn [forallb proper]; now rewrite Nw|constructor].
Qed.
Lemma after_shape p w n t m : reads (lit p) (sent [W (lit w); G 1]) n -> rx_find (pattern false (lit p)) t = Some m -> exists v, after_word w t v.
Proof.
  intros R E. apply (reads_shape _ _ _ _ _ R) in E as (s' & c & HD & _). rewrite <- (app_nil_r (sent _)) in HD. apply sent_shape in HD as (ws & q & e & -> & P & F & HD); [|discriminate].
  destruct (extend_last _ ws q e F P) as (ws' & q' & e' & -> & P' & F' & E'). inversion F' as [|? ? ? ? F1 F2]; subst. inversion F2 as [|? ? ? ? F3 F4]; subst. inversion F4; subst. cbn [fits] in *. subst.
  eexists. split; [exact F3|]. exists [], q', e'. auto.
Qed.
(** The word after "hostname"; nothing if there is none. *)
Theorem C69_hostname : forall t, (forall v, after_word "hostname" t v -> hostname t = Ok v) /\ ((forall v, ~ after_word "hostname" t v) -> hostname t = Ok []).
Proof.
  intros t. assert (R : reads (lit "^hostname\s+(\S+)") (sent [W (lit "hostname"); G 1]) 1) by reflexivity. split.
  - intros v HA. destruct (after_found _ _ _ _ _ R eq_refl HA) as (u & E). exact (typed_found to_str [] _ 0 t u _ v v E eq_refl eq_refl).
  - intros NO. apply typed_none. destruct (rx_find _ t) eqn:E; [|reflexivity]. apply (after_shape _ _ _ _ _ R) in E as (v & HA). now apply NO in HA.
Qed.
Print Assumptions C69_hostname.

Lemma digit_search s : finds "\d+" s = existsb is_digit s.
Proof.
  assert (R : option_map (fun x => (fst x, fst (snd x))) (compile false (lit "\d+")) = Some (rplus true (RSet dg), 0)) by reflexivity.
  unfold finds, pattern. cbn [rx_find]. destruct (compile false (lit "\d+")) as [[r e]|]; [|discriminate]. cbn [option_map fst] in R. injection R as -> _.
  apply eq_true_iff_eq. rewrite existsb_exists. destruct (search (rplus true (RSet dg)) s) as [[m c]|] eqn:E; split; try discriminate; auto.
  - intros _. apply search_some in E as (u & v & i' & s' & -> & HM & _). change (rplus true (RSet dg)) with (den [Run dg true]) in HM. apply shape in HM.
    apply D_run_eq in HM as (w & r' & -> & W1 & W2 & _). apply all_dg in W1. destruct w as [|x w]; [now specialize (W2 eq_refl)|]. exists x. cbn in W1. apply andb_true_iff in W1 as [W1 _].
    split; [|exact W1]. apply in_or_app. right. now left.
  - intros (x & I' & X0). apply in_split in I' as (a & b & ->). exfalso. 
    assert (HD : D false [Run dg true] (x :: b) b [] []) by (change (x :: b) with ([x] ++ b); apply D_run; [constructor; [now rewrite in_dg|constructor]|discriminate|discriminate|constructor]).
    apply unshape with (i := length a) in HD. exact (search_none _ _ E a (x :: b) _ _ _ eq_refl HD).
Qed.
(** The name of an access line is the word after "line", if it has no digit. *)
Theorem C69_access_name : forall t,
  (forall v, after_word "line" t v -> is_accessline t = Ok true /\ access_name t = Ok (if existsb is_digit v then [] else v)) /\
  ((forall v, ~ after_word "line" t v) -> is_accessline t = Ok false /\ access_name t = Ok []).
Proof.
  intros t. assert (R : reads (lit "^line\s+(\S+)") (sent [W (lit "line"); G 1]) 1) by reflexivity.
  assert (R2 : reads (lit "^(line\s+\S+)") [Grp 1 (sent [W (lit "line"); A])] 1) by reflexivity. split.
  - intros v HA. split.
    + destruct HA as (Wv & i & q & e & -> & <- & P & E). unfold is_accessline. assert (HD : D true [Grp 1 (sent [W (lit "line"); A])] (q ++ e) e [] [(1, q)]).
      { apply D_grp with (c1 := []); [|constructor]. rewrite <- (app_nil_r (sent _)). apply (sent_fwd _ [lit "line"; v]); auto; [repeat constructor; apply Wv|constructor]. }
      destruct (reads_some _ _ _ _ _ _ R2 HD) as (u & F). cbn [app]. erewrite typed_found; [|exact F|reflexivity|reflexivity]. cbn [nonblank bind]. inversion P; reflexivity.
    + destruct (after_found _ _ _ _ _ R eq_refl HA) as (u & E). unfold access_name. rewrite (typed_found to_str [] _ 0 t u _ v v E eq_refl eq_refl). cbn [bind]. rewrite digit_search. now destruct (existsb is_digit v).
  - intros NO. split.
    + unfold is_accessline. rewrite typed_none; [reflexivity|]. destruct (rx_find _ t) eqn:E; [|reflexivity]. exfalso. apply (reads_shape _ _ _ _ _ R2) in E as (s' & c & HD & _).
      apply D_grp_eq in HD as (w & r0 & c1 & -> & HD & _). rewrite <- (app_nil_r (sent _)) in HD. apply sent_shape in HD as (ws & q & e & E & P & F & HD); [|discriminate]. rewrite E in *.
      destruct (extend_last _ ws q e F P) as (ws' & q' & e' & E2 & P' & F' & E'). rewrite E2 in *. clear P F HD E E2. slots. eapply NO. split; [eassumption|]. exists [], q', e'. split; [reflexivity|]. split; [reflexivity|]. split; [exact P'|exact E'].
    + unfold access_name. rewrite typed_none; [reflexivity|]. destruct (rx_find _ t) eqn:E; [|reflexivity]. apply (after_shape _ _ _ _ _ R) in E as (v & HA). now apply NO in HA.
Qed.
Print Assumptions C69_access_name.

(** ** The numbers of an access line *)

Definition alpha : cset := mkSet false false [CRange "a" "z"; CRange "A" "Z"].
Definition range_T : list item := [Many 1 [Run alpha true; Run sp true]; Grp 2 [Run dg true; Run sp false; Run dg false]; End].
Definition range_p : string := "([a-zA-Z]+\s+)*(\d+\s*\d*)$".
Lemma range_reads : option_map (fun x => (fst x, fst (snd x))) (compile false (lit range_p)) = Some (den range_T, 2). Proof. reflexivity. Qed.
Lemma range_find t : rx_find (pattern false (lit range_p)) t =
  match search (den range_T) t with Some (m, c) => Some (mkMatch m [cap 1 c; cap 2 c]) | None => None end.
Proof.
  pose proof range_reads as R. unfold pattern. cbn [rx_find]. destruct (compile false (lit range_p)) as [[r e]|]; [|discriminate]. cbn [option_map fst snd] in R. injection R as -> EN.
  rewrite EN. now destruct (search (den range_T) t) as [[m c]|].
Qed.
Definition tail_is (f : ascii -> bool) (p : str) : Prop := exists q c, p = q ++ [c] /\ f c = true.
Lemma cut_right f a b x y : forallb f x = true -> forallb f y = true -> ~ tail_is f a -> ~ tail_is f b -> a ++ x = b ++ y -> a = b /\ x = y.
Proof.
  revert y. induction x as [|c x IH] using rev_ind; intros y Fx Fy Na Nb E.
  - rewrite app_nil_r in E. destruct y as [|d y _] using rev_ind; [now rewrite app_nil_r in E|]. exfalso. apply Na. rewrite forallb_app in Fy. apply andb_true_iff in Fy as [_ Fy]. cbn in Fy. rewrite andb_true_r in Fy.
    exists (b ++ y), d. rewrite <- app_assoc. auto.
  - rewrite forallb_app in Fx. apply andb_true_iff in Fx as [Fx Fc]. cbn in Fc. rewrite andb_true_r in Fc. destruct y as [|d y _] using rev_ind.
    + exfalso. apply Nb. rewrite app_nil_r in E. exists (a ++ x), c. rewrite <- app_assoc. auto.
    + rewrite !app_assoc in E. apply app_inj_tail in E as [E ->]. rewrite forallb_app in Fy. apply andb_true_iff in Fy as [Fy _]. destruct (IH y Fx Fy Na Nb E) as [-> ->]. auto.
Qed.
Lemma tail_other f g p : (forall c, f c = true -> g c = false) -> tail_is f p -> ~ tail_is g p.
Proof. intros FG (q & c & -> & C0) (q' & c' & E & C1). apply app_inj_tail in E as [_ ->]. rewrite FG in C1 by assumption. discriminate. Qed.
Lemma tail_app f a x : x <> [] -> forallb f x = true -> tail_is f (a ++ x).
Proof.
  intros NE F. destruct x as [|c x _] using rev_ind; [congruence|]. rewrite forallb_app in F. apply andb_true_iff in F as [_ F]. cbn in F. rewrite andb_true_r in F. exists (a ++ x), c. rewrite <- app_assoc. auto.
Qed.
Lemma space_digit c : is_space c = true -> is_digit c = false.
Proof. intros E. destruct (is_digit c) eqn:F; [|reflexivity]. apply digit_nonspace in F. congruence. Qed.
Lemma alpha_kinds c : in_set alpha c = true -> is_space c = false /\ is_digit c = false.
Proof. destruct c as [[] [] [] [] [] [] [] []]; vm_compute; intuition congruence. Qed.
Lemma many_inv n U T s s' c c' : D false (Many n U :: T) s s' c c' ->
  exists ws r c1, s = concat ws ++ r /\ Forall (fun w => exists r0 c0 c2, D false U (w ++ r0) r0 c0 c2) ws /\ D false T r s' c1 c'.
Proof.
  remember (Many n U :: T) as L0 eqn:E. intros HD. revert E. induction HD as [| | | | | |n0 U0 T0 s s' c c' A0 HD _|n0 U0 T0 w s s' c c1 c' N0 A0 _ HD IH| |]; intros E; try discriminate; injection E as -> -> ->.
  - exists [], s, c. auto.
  - destruct (IH eq_refl) as (ws & r & c2 & -> & F & K). exists (w :: ws), r, c2. cbn [concat]. rewrite <- app_assoc. repeat split; auto. constructor; eauto.
Qed.
(** The parts of a match: nothing or words before the digits. *)
Lemma range_parts v s' c : D false range_T v s' [] c -> exists z d w d' e, v = z ++ (d ++ w ++ d') ++ e /\ digits d /\ white w /\ forallb is_digit d' = true /\ line_end e /\
  cap 2 c = Some (d ++ w ++ d') /\ (z = [] \/ exists z' l g, z = z' ++ [l] ++ g /\ in_set alpha l = true /\ gap g).
Proof.
  intros HD. unfold range_T in HD. apply many_inv in HD as (ws & r & c1 & -> & F & HD). apply D_grp_eq in HD as (g & r1 & c2 & -> & HB & HD). apply end_eq in HD as [E ->].
  apply D_run_eq in HB as (d & r2 & E1 & D1 & D2 & HB). apply D_run_eq in HB as (w & r3 & -> & W1 & _ & HB). apply D_run_eq in HB as (d' & r4 & -> & D3 & _ & HB). apply D_nil_eq in HB as [-> ->].
  apply all_dg in D1, D3. apply all_sp in W1. assert (g = d ++ w ++ d') as ->. { apply (app_inv_tail r4). rewrite E1. now rewrite <- !app_assoc. }
  exists (concat ws), d, w, d', r4. repeat split; auto. destruct ws as [|x ws _] using rev_ind; [now left|]. right. apply Forall_app in F as [_ F]. inversion F as [|? ? (r0 & c0 & c3 & HX) _]; subst.
  apply D_run_eq in HX as (a & r5 & E2 & A1 & A2 & HX). apply D_run_eq in HX as (h & r6 & -> & H1 & H2 & HX). apply D_nil_eq in HX as [-> _]. apply all_sp in H1.
  assert (x = a ++ h) as ->. { apply (app_inv_tail r6). rewrite E2. now rewrite <- app_assoc. }
  destruct a as [|l a _] using rev_ind; [now specialize (A2 eq_refl)|]. apply Forall_app in A1 as [_ A1]. inversion A1; subst.
  exists (concat ws ++ a), l, h. rewrite concat_app. cbn [concat]. rewrite app_nil_r, <- !app_assoc. repeat split; auto.
Qed.
Lemma range_exists d w d' : digits d -> white w -> forallb is_digit d' = true -> exists c, D false range_T (d ++ w ++ d') [] [] c.
Proof.
  intros [D1 D2] W0 D3. eexists. unfold range_T. apply D_stop; [discriminate|]. rewrite <- (app_nil_r (d ++ w ++ d')). apply D_grp with (c1 := []); [|constructor; [now left|constructor]].
  rewrite <- !app_assoc. apply D_run; [now apply all_dg|auto|discriminate|]. apply D_run; [now apply all_sp|discriminate|discriminate|]. apply D_run; [now apply all_dg|discriminate|discriminate|]. constructor.
Qed.
(** What the search for the numbers finds. *)
Lemma range_search t : rstrip t = t -> match search (den range_T) t with
  | Some (m, c) => exists u z d w d', t = (u ++ z) ++ d ++ w ++ d' /\ digits d /\ white w /\ forallb is_digit d' = true /\ cap 2 c = Some (d ++ w ++ d') /\
      (z = [] \/ exists z' l g, z = z' ++ [l] ++ g /\ in_set alpha l = true /\ gap g) /\
      (forall p d w d', t = p ++ d ++ w ++ d' -> digits d -> white w -> forallb is_digit d' = true -> length u <= length p)
  | None => forall p d w d', t = p ++ d ++ w ++ d' -> digits d -> white w -> forallb is_digit d' = true -> False
  end.
Proof.
  intros RT. destruct (search (den range_T) t) as [[m c]|] eqn:E.
  - unfold search in E. apply search_from_sound in E as (u & v & i' & s' & -> & HM & _ & LM). apply shape in HM. destruct (range_parts _ _ _ HM) as (z & d & w & d' & e & -> & D1 & W0 & D3 & LE & C & Z0).
    assert (e = []) as ->.
    { destruct LE as [-> | ->]; [reflexivity|]. exfalso. apply rstrip_fix_iff in RT as [RT|(p & x & RT & X0)].
      - apply (f_equal (@length _)) in RT. rewrite !app_length in RT. cbn in RT. lia.
      - rewrite !app_assoc in RT. apply app_inj_tail in RT as [_ <-]. discriminate. }
    rewrite app_nil_r in *. exists u, z, d, w, d'. split; [now rewrite <- app_assoc|]. do 4 (split; [assumption|]). split; [assumption|].
    intros p d0 w0 d0' Ep D0 W1 D2. destruct (Nat.le_gt_cases (length u) (length p)) as [LE0|GT]; [assumption|]. exfalso.
    specialize (LM p _ Ep GT). destruct (range_exists _ _ _ D0 W1 D2) as (c0 & K). apply unshape with (i := 0 + length p) in K. now apply match_at_complete in K.
  - intros p d w d' -> D1 W0 D3. destruct (range_exists _ _ _ D1 W0 D3) as (c0 & K). apply unshape with (i := length p) in K. now apply (search_none _ _ E p (d ++ w ++ d') _ _ _ eq_refl) in K.
Qed.
Lemma tail_iff p : ends_digit p <-> tail_is is_digit p. Proof. reflexivity. Qed.
Lemma prefix_of {T} (u p x y : list T) : u ++ x = p ++ y -> length u <= length p -> exists k, p = u ++ k /\ x = k ++ y.
Proof.
  revert p. induction u as [|a u IH]; intros p E L0; [now exists p|]. destruct p as [|b p]; cbn in *; [lia|]. injection E as -> E. destruct (IH p E ltac:(lia)) as (k & -> & ->). now exists k.
Qed.
Lemma digits_iff d : digits d <-> d <> [] /\ forallb is_digit d = true. Proof. unfold digits. tauto. Qed.
Lemma no_ext p k : ~ ends_digit (p ++ k) -> forallb is_digit k = true -> k = [].
Proof. intros NE F. destruct k; [reflexivity|]. exfalso. apply NE. apply tail_app; [discriminate|assumption]. Qed.
Lemma white_no_digit a w : w <> [] -> white w -> ~ tail_is is_digit (a ++ w).
Proof. intros NE W0. apply (tail_other is_space); [exact space_digit|]. now apply tail_app. Qed.
Lemma digit_no_white a d : digits d -> ~ tail_is is_space (a ++ d).
Proof. intros [NE F]. apply (tail_other is_digit); [exact digit_nonspace|]. apply tail_app; assumption. Qed.
(** The group is the last two numbers, or the last one. *)
Lemma range_group u z d w d' t : t = (u ++ z) ++ d ++ w ++ d' -> digits d -> white w -> forallb is_digit d' = true ->
  (z = [] \/ exists z' l g, z = z' ++ [l] ++ g /\ in_set alpha l = true /\ gap g) ->
  (forall p d w d', t = p ++ d ++ w ++ d' -> digits d -> white w -> forallb is_digit d' = true -> length u <= length p) ->
  rstrip t = t ->
  (forall p a g b, t = p ++ a ++ g ++ b -> ~ ends_digit p -> digits a -> gap g -> digits b -> d ++ w ++ d' = a ++ g ++ b) /\
  (forall p b, t = p ++ b -> ~ ends_digit p -> digits b -> (forall q g, p = q ++ g -> gap g -> ~ ends_digit q) -> d ++ w ++ d' = b) /\
  ends_digit t.
Proof.
  intros Et D1 W0 D3 Z0 LM RT.
  assert (ZT : z <> [] -> ~ ends_digit (u ++ z)).
  { intros NE. destruct Z0 as [->|(z' & l & g & -> & AL & GG)]; [congruence|]. rewrite !app_assoc. apply white_no_digit; apply GG. }
  assert (W1 : w <> [] -> digits d').
  { intros NE. split; [|assumption]. intros ->. apply rstrip_fix_iff in RT as [RT|(p & x & RT & X0)].
    - rewrite Et in RT. apply (f_equal (@length _)) in RT. rewrite !app_length in RT. destruct w; [congruence|cbn in RT; lia].
    - rewrite Et, app_nil_r, !app_assoc in RT. destruct (tail_app is_space ((u ++ z) ++ d) w NE W0) as (q & y & E & Y). rewrite E in RT. apply app_inj_tail in RT as [_ <-]. congruence. }
  assert (DD : w = [] -> digits (d ++ d')) by (intros _; split; [destruct D1; destruct d; [congruence|discriminate]|now rewrite forallb_app, (proj2 D1), D3]).
  split; [|split].
  - intros p a g b Ep NP DA GG DB. destruct (list_eq_dec ascii_dec w []) as [->|NW].
    + exfalso. cbn [app] in Et. specialize (DD eq_refl). rewrite Et in Ep. assert (Eb : (p ++ a) ++ g ++ b = p ++ a ++ g ++ b) by now rewrite <- !app_assoc.
      assert (NG : ~ ends_digit ((p ++ a) ++ g)) by (apply white_no_digit; apply GG).
      destruct (list_eq_dec ascii_dec z []) as [->|NZ].
      * rewrite app_nil_r in Ep. destruct (prefix_of _ _ _ _ Ep) as (k & _ & K).
        { apply (LM p a g b); [now rewrite Et, app_nil_r|exact DA|apply GG|apply DB]. }
        destruct DD as [_ DD]. rewrite K, !forallb_app in DD. apply andb_true_iff in DD as [_ DD]. apply andb_true_iff in DD as [_ DD]. apply andb_true_iff in DD as [DD _].
        destruct GG as [GW GN]. destruct g as [|x g]; [congruence|].
        unfold white in GW. cbn in GW, DD. apply andb_true_iff in GW as [GW _]. apply space_digit in GW. rewrite GW in DD. discriminate.
      * destruct (cut_right is_digit (u ++ z) ((p ++ a) ++ g) (d ++ d') b) as [E1 E2]; [apply DD|apply DB|now apply ZT|exact NG|now rewrite Ep, <- !app_assoc|].
        destruct Z0 as [->|(z' & l & h & -> & AL & GH)]; [congruence|]. rewrite !app_assoc in E1. pose proof (alpha_kinds _ AL) as [A1 A2].
        apply (cut_right is_space) in E1 as [E1 _]; [|apply GH|apply GG|intros (q & y & E & Y); apply app_inj_tail in E as [_ <-]; congruence|now apply digit_no_white].
        destruct (tail_app is_digit p a (proj1 DA) (proj2 DA)) as (q & y & E & Y). rewrite E in E1. apply app_inj_tail in E1 as [_ <-]. congruence.
    + specialize (W1 NW). rewrite Et in Ep.
      assert (E0 : ((((u ++ z) ++ d) ++ w) ++ d') = ((p ++ a) ++ g) ++ b) by now rewrite <- !app_assoc; rewrite <- !app_assoc in Ep.
      apply (cut_right is_digit) in E0 as [E0 ->]; [|assumption|apply DB|now apply white_no_digit|apply white_no_digit; apply GG].
      apply (cut_right is_space) in E0 as [E0 ->]; [|assumption|apply GG|now apply digit_no_white|now apply digit_no_white]. f_equal.
      destruct (list_eq_dec ascii_dec z []) as [->|NZ].
      * rewrite app_nil_r in *. destruct (prefix_of _ _ _ _ E0) as (k & -> & ->).
        { apply (LM p a g b); [now rewrite Et|exact DA|assumption|apply DB]. }
        destruct D1 as [_ D1]. rewrite forallb_app in D1. apply andb_true_iff in D1 as [K _]. apply (no_ext u) in K; [now subst k|assumption].
      * apply (cut_right is_digit) in E0 as [_ ->]; auto; [apply D1|apply DA].
  - intros p b Ep NP DB NO. destruct (list_eq_dec ascii_dec w []) as [->|NW].
    + cbn [app] in *. specialize (DD eq_refl). rewrite Et in Ep. destruct (list_eq_dec ascii_dec z []) as [->|NZ].
      * rewrite app_nil_r in *. destruct (prefix_of _ _ _ _ Ep) as (k & -> & K).
        { apply (LM p b [] []); [now rewrite app_nil_r, Et|exact DB|reflexivity|reflexivity]. }
        destruct DD as [_ DD]. rewrite K, forallb_app in DD. apply andb_true_iff in DD as [DK _]. apply (no_ext u) in DK; [now subst k|assumption].
      * apply (cut_right is_digit) in Ep as [_ ->]; auto; [apply DD|apply DB].
    + exfalso. specialize (W1 NW). rewrite Et in Ep.
      assert (E0 : ((((u ++ z) ++ d) ++ w) ++ d') = p ++ b) by now rewrite <- !app_assoc; rewrite <- !app_assoc in Ep.
      apply (cut_right is_digit) in E0 as [E0 _]; [|assumption|apply DB|now apply white_no_digit|assumption].
      apply (NO ((u ++ z) ++ d) w); [now symmetry|now split|]. apply tail_app; apply D1.
  - destruct (list_eq_dec ascii_dec w []) as [->|NW].
    + cbn [app] in Et. rewrite Et. apply tail_app; now apply DD.
    + specialize (W1 NW). rewrite Et, !app_assoc. apply tail_app; apply W1.
Qed.
Lemma ints_phrase ds l g : Forall2 numeral ds l -> words g = ds -> ints_of g = Ok l.
Proof.
  intros F <-. unfold ints_of. rewrite words_strip. revert F. generalize (words g) as ds. induction 1 as [|d n ds l N0 _ IH]; [reflexivity|]. cbn [int_all].
  assert (NE : d <> []) by (destruct (numeral_head _ _ N0) as (c & r & -> & _); discriminate). pose proof (to_int_digits d NE (numeral_digits _ _ N0)) as K. change (to_int (Some d) = Ok (digits_Z d)) in K. change (@Some (list ascii) d) with (@Some str d) in K. rewrite K. cbn [bind]. rewrite IH. cbn. now rewrite (numeral_value d n) by assumption.
Qed.
Lemma numeral_d a x : numeral a x -> digits a.
Proof. intros N0. split; [destruct (numeral_head _ _ N0) as (c & r & -> & _); discriminate|now apply numeral_digits in N0]. Qed.

Ltac each := repeat (apply Forall2_cons || apply Forall2_nil || apply Forall_cons || apply Forall_nil); eauto using numeral_d, digits_word.

(** The numbers of an access line are the one or two numbers at its end. *)
Theorem C69_range t l : rstrip t = t -> last_numbers t l -> line_range t = Ok l /\ range_str t = Ok (join [" "] (map show_Z l)).
Proof.
  intros RT P. assert (E : line_range t = Ok l); [|split; [exact E|unfold range_str; now rewrite E]].
  unfold line_range, typed. change "([a-zA-Z]+\s+)*(\d+\s*\d*)$"%string with range_p. rewrite range_find. pose proof (range_search t RT) as R. destruct (search (den range_T) t) as [[m c]|].
  - destruct R as (u & z & d & w & d' & Et & D1 & W0 & D3 & C & Z0 & LM). destruct (range_group u z d w d' t Et D1 W0 D3 Z0 LM RT) as (R2 & R1 & R0).
    unfold group. cbn [nth_error m_groups bind]. rewrite C. cbn [to_str bind].
    inversion P as [p a g b x y NP N1 GG N2 Et0 El|p b y NP N1 NO Et0 El|p NP Et0 El].
    + rewrite (R2 p a g b) by eauto using numeral_d. apply (ints_phrase [a; b]); [each|]. apply words_of; [each|]. constructor; [assumption|constructor].
    + rewrite (R1 p b) by eauto using numeral_d. apply (ints_phrase [b]); [each|]. apply words_of; [each|]. constructor.
    + subst p. contradiction.
  - inversion P as [p a g b x y NP N1 GG N2 Et0 El|p b y NP N1 NO Et0 El|p NP Et0 El]; [exfalso|exfalso|reflexivity].
    + apply (R p a g b); [now symmetry|now apply (numeral_d _ x)|apply GG|now apply (numeral_d _ y)].
    + apply (R p b [] []); [now rewrite app_nil_r|now apply (numeral_d _ y)|reflexivity|reflexivity].
Qed.
Print Assumptions C69_range.
(** Every line ends in two numbers, in one or in none. *)
Lemma run_right f (t : str) : exists a x, t = a ++ x /\ forallb f x = true /\ ~ tail_is f a.
Proof.
  induction t as [|c t IH] using rev_ind.
  - exists [], []. repeat split. intros (q & c & E & _). now destruct q.
  - destruct (f c) eqn:F.
    + destruct IH as (a & x & -> & FX & NA). exists a, (x ++ [c]). rewrite <- app_assoc. repeat split; auto. rewrite forallb_app, FX. cbn. now rewrite F.
    + exists (t ++ [c]), []. rewrite app_nil_r. repeat split. intros (q & d & E & G0). apply app_inj_tail in E as [_ <-]. congruence.
Qed.
Theorem C69_range_total t : exists l, last_numbers t l.
Proof.
  destruct (run_right is_digit t) as (p & b & -> & FB & NP). destruct (list_eq_dec ascii_dec b []) as [->|NB].
  { exists []. rewrite app_nil_r. now constructor. }
  destruct (run_right is_space p) as (q & g & -> & FG & NQ). destruct (run_right is_digit q) as (r & a & -> & FA & NR).
  destruct (list_eq_dec ascii_dec g []) as [->|NG]; [|destruct (list_eq_dec ascii_dec a []) as [->|NA]].
  - exists [digits_Z b]. rewrite app_nil_r in *. constructor; [assumption|now apply digits_numeral|]. intros q h E [WH NH] _. apply NQ. rewrite E. now apply tail_app.
  - exists [digits_Z b]. rewrite app_nil_r in *. constructor; [assumption|now apply digits_numeral|]. intros q h E [WH NH] EQ.
    apply (cut_right is_space) in E as [<- <-]; auto. apply (tail_other is_digit); [exact digit_nonspace|assumption].
  - exists [digits_Z a; digits_Z b]. rewrite <- !app_assoc. constructor; [assumption|now apply digits_numeral|now split|now apply digits_numeral].
Qed.
Print Assumptions C69_range_total.

(** ** exec-timeout *)
Definition tmo_p : string := "^\s*exec-timeout\s+(\d+\s*\d*)\s*$".
Definition tmo_T : list item := [Run sp false; Lit (lit "exec-timeout"); Run sp true; Grp 1 [Run dg true; Run sp false; Run dg false]; Run sp false; End].
Lemma tmo_reads : reads (lit tmo_p) tmo_T 1. Proof. reflexivity. Qed.

Lemma tmo_shape t m : rx_find (pattern false (lit tmo_p)) t = Some m -> exists i h d w d' e, t = i ++ lit "exec-timeout" ++ h ++ (d ++ w ++ d') ++ e /\
  white i /\ gap h /\ digits d /\ white w /\ forallb is_digit d' = true /\ white e /\ group 1 m = Ok (Some (d ++ w ++ d')).
Proof.
  intros F. destruct (reads_shape _ _ _ _ _ tmo_reads F) as (s' & c & HD & E). unfold tmo_T in HD.
  apply D_run_eq in HD as (i & r & -> & I1 & _ & HD). apply D_lit_eq in HD as (r1 & -> & HD). apply D_run_eq in HD as (h & r2 & -> & H1 & H2 & HD).
  apply D_grp_eq in HD as (g & r3 & c1 & -> & HB & HD). apply D_run_eq in HB as (d & r4 & E1 & D1 & D2 & HB). apply D_run_eq in HB as (w & r5 & -> & W1 & _ & HB).
  apply D_run_eq in HB as (d' & r6 & -> & D3 & _ & HB). apply D_nil_eq in HB as [-> ->]. apply D_run_eq in HD as (e & r7 & -> & E2 & _ & HD). apply end_eq in HD as [LE ->].
  assert (g = d ++ w ++ d') as ->. { apply (app_inv_tail (e ++ r7)). rewrite E1. now rewrite <- !app_assoc. }
  apply all_dg in D1, D3. apply all_sp in W1, H1, I1, E2. exists i, h, d, w, d', (e ++ r7). repeat split; auto.
  - unfold white in *. rewrite forallb_app, E2. now apply line_end_white.
  - unfold group. rewrite E. reflexivity.
Qed.
Lemma words_nil e : white e -> words e = [].
Proof. intros W0. unfold words. rewrite <- (app_nil_r e). now rewrite words_aux_space_prefix. Qed.
Lemma white_ends e : white e -> word_ends e.
Proof. destruct e; [reflexivity|]. unfold white, word_ends. cbn. intros E. apply andb_true_iff in E as [-> _]. reflexivity. Qed.
Lemma white_ends_app g r : gap g -> word_ends (g ++ r).
Proof. intros [W0 N0]. destruct g; [congruence|]. unfold white, word_ends in *. cbn in *. apply andb_true_iff in W0 as [-> _]. reflexivity. Qed.
Lemma words_phrase_end ws p e : Forall word ws -> phrase ws p -> white e -> words (p ++ e) = ws.
Proof. intros F P We. pose proof (words_phrase ws p [] e F P eq_refl (white_ends e We)) as E. cbn [app] in E. rewrite E, words_nil by exact We. apply app_nil_r. Qed.
Lemma one_or_two d w d' : digits d -> white w -> forallb is_digit d' = true ->
  exists ds p e, d ++ w ++ d' = p ++ e /\ white e /\ phrase ds p /\ Forall digits ds /\ (length ds = 1 \/ length ds = 2).
Proof.
  intros [D1 D2] W0 D3. destruct w as [|x w].
  - exists [d ++ d'], (d ++ d'), []. rewrite app_nil_r. cbn [app]. repeat split; auto; [constructor|]. constructor; [|constructor]. split; [destruct d; [congruence|discriminate]|now rewrite forallb_app, D2, D3].
  - destruct d' as [|y d'].
    + exists [d], d, (x :: w). rewrite app_nil_r. repeat split; auto; [constructor|]. now repeat constructor.
    + exists [d; y :: d'], (d ++ (x :: w) ++ (y :: d')), []. rewrite app_nil_r. repeat split; auto; [constructor; [now split|constructor]|]. repeat constructor; auto. discriminate.
Qed.
(** The timeout of an access line is read from the first line that gives one, its own or one
    below it. *)
Theorem C69_exec_timeout : forall own below, answers timeout_line (own :: below) [] (parse_exectimeout own below).
Proof.
  intros own below. assert (E : parse_exectimeout own below = first_match (fun x => do v <- to_str x; ints_of v) (Ok []) (pattern false (lit tmo_p)) 1 (own :: below)).
  { unfold parse_exectimeout, iter_str. change "^\s*exec-timeout\s+(\d+\s*\d*)\s*$"%string with tmo_p. induction (own :: below) as [|t ts IH]; [reflexivity|]. cbn [first_match].
    destruct (rx_find (pattern false (lit tmo_p)) t) as [m|]; [|exact IH]. unfold typed_group. destruct (group 1 m); [|reflexivity]. reflexivity. }
  rewrite E. clear E. apply first_match_answers.
  - intros t l (ds & F & LN & i & p & e & -> & Wi & P & We). assert (FW : Forall word ds). { clear LN P. induction F; constructor; eauto using numeral_d, digits_word. }
    assert (NF : rx_find (pattern false (lit tmo_p)) (i ++ p ++ e) <> None).
    { inversion P as [? E0|? h ? q GH P' E0]; subst; [cbn in LN; lia|]. 
      assert (SH : exists d w d', q = d ++ w ++ d' /\ digits d /\ white w /\ forallb is_digit d' = true).
      { destruct F as [|d n ds' l' N1 F']; [cbn in LN; lia|]. destruct F' as [|d' n' ds'' l'' N2 F''].
        - inversion P' as [|? ? ? ? ? K]; [|inversion K]; subst. exists q, [], []. rewrite app_nil_r. split; [reflexivity|]. split; [now apply (numeral_d _ n)|]. now split.
        - destruct ds''; [|cbn in LN; lia]. inversion P' as [|? g ? z GG P'']; subst. inversion P'' as [|? ? ? ? ? K]; [|inversion K]; subst. exists d, g, z. split; [reflexivity|]. split; [now apply (numeral_d _ n)|]. split; [apply GG|now apply numeral_digits in N2]. }
      destruct SH as (d & w & d' & -> & [D1 D2] & W0 & D3). eapply (reads_found _ _ _ false _ [] [(1, d ++ w ++ d')]); [exact tmo_reads|].
      unfold tmo_T. apply D_run; [now apply all_sp|discriminate|discriminate|]. rewrite <- app_assoc. apply D_lit. rewrite <- app_assoc. apply D_run; [apply all_sp, GH|intros _; apply GH|discriminate|].
      apply D_grp with (c1 := []).
      - rewrite <- !app_assoc. apply D_run; [now apply all_dg|auto|discriminate|]. apply D_run; [now apply all_sp|discriminate|discriminate|]. apply D_run; [now apply all_dg|discriminate|discriminate|]. constructor.
      - rewrite <- (app_nil_r e). apply D_run; [now apply all_sp|discriminate|discriminate|]. constructor; [now left|constructor]. }
    destruct (rx_find (pattern false (lit tmo_p)) (i ++ p ++ e)) as [m|] eqn:R; [|congruence]. exists m. split; [reflexivity|].
    destruct (tmo_shape _ _ R) as (i' & h & d & w & d' & e' & Et & Wi' & GH & DD & W0 & D3 & We' & ->). cbn [bind to_str]. apply (ints_phrase ds); [assumption|].
    apply (f_equal words) in Et. rewrite (words_phrase (lit "exec-timeout" :: ds)) in Et; auto; [|constructor; [split; [discriminate|reflexivity]|assumption]|destruct e; [exact I|unfold white in We; cbn in We |- *; apply andb_true_iff in We as [-> _]; reflexivity]].
    destruct (one_or_two d w d' DD W0 D3) as (ds' & p' & e1 & E1 & We1 & P' & FD & _). rewrite E1 in *.
    assert (FW' : Forall word ds') by (clear -FD; induction FD; constructor; eauto using digits_word).
    rewrite words_word in Et; [|assumption|split; [discriminate|reflexivity]|apply white_ends_app, GH].
    rewrite <- app_assoc, (words_phrase ds' p') in Et; auto; [|apply GH|apply white_ends; unfold white in *; now rewrite forallb_app, We1].
    rewrite !words_nil in Et by (unfold white in *; rewrite ?forallb_app, ?We1; assumption). rewrite !app_nil_r in Et. injection Et as ->. rewrite <- (words_phrase_end ds' p' e1); auto.
  - intros t m R. destruct (tmo_shape _ _ R) as (i & h & d & w & d' & e & -> & Wi & GH & DD & W0 & D3 & We & _).
    destruct (one_or_two d w d' DD W0 D3) as (ds & p & e1 & E1 & We1 & P & FD & LN). exists (map digits_Z ds), ds. split; [clear -FD; induction FD as [|? ? [? ?]]; constructor; auto using digits_numeral|]. split; [exact LN|].
    rewrite E1. exists i, (lit "exec-timeout" ++ h ++ p), (e1 ++ e). split; [now rewrite <- !app_assoc|]. split; [assumption|]. split; [now constructor|]. unfold white in *. now rewrite forallb_app, We1.
Qed.
Print Assumptions C69_exec_timeout.

(** ** Global interface commands *)

Lemma truth_app (a b : str) : a <> [] -> truth (a ++ b) = true.
Proof. now destruct a. Qed.
Lemma has_iff p (P : str -> Prop) t : lit p <> [] -> (finds p t = true <-> P t) -> (P t -> t <> []) -> (line_has p t = true <-> P t \/ within (eq (lit p)) t).
Proof.
  intros NE F NT. unfold line_has. destruct (contains (lit p) t) eqn:E.
  - apply TreePost.contains_spec in E as (a & b & ->). cbn [orb]. split; [intros _; right; now exists a, (lit p), b|intros _]. destruct a; cbn; [|reflexivity]. now apply truth_app.
  - cbn [orb]. split.
    + intros K. left. apply F. destruct (finds p t); [reflexivity|discriminate].
    + intros [K|(a & q & b & -> & <-)]; [|exfalso; assert (X0 : contains (lit p) (a ++ lit p ++ b) = true) by (apply TreePost.contains_spec; eauto); congruence].
      rewrite (proj2 F K). destruct t; [now specialize (NT K)|reflexivity].
Qed.
Lemma begins_ne ws t : In (lit (hd EmptyString ws)) [lit "no"; lit "logging"] -> ws <> [] -> begins none ws t -> t <> [].
Proof.
  intros I0 NE (i & p & e & -> & <- & P & _). destruct ws as [|w ws]; [congruence|]. cbn [hd map] in *. intros E. change (p ++ e = []) in E. apply app_eq_nil in E as [E _].
  assert (N0 : lit w <> []) by (destruct I0 as [<-|[<-|[]]]; discriminate). rewrite E in P. inversion P as [? E0 E1|? g ? q GG P' E0 E1]; [congruence|]. apply app_eq_nil in E1 as [E1 _]. congruence.
Qed.
Definition tight_start (ws : list string) (t : str) : Prop := exists p e, t = p ++ e /\ tight (map lit ws) p.
Lemma tight_iff p ws n t : reads (lit p) (tight_T ws) n -> ws <> [] -> (finds p t = true <-> tight_start ws t).
Proof.
  intros R NE. rewrite (finds_iff _ _ _ _ R), <- (app_nil_r (tight_T ws)). split.
  - intros (s' & c & HD). apply tight_shape in HD as (q & r & -> & P & _); [now exists q, r|assumption].
  - intros (q & e & -> & P). exists e, []. apply tight_D; [exact P|constructor].
Qed.
Lemma tight_ne w ws t : lit w <> [] -> tight_start (w :: ws) t -> t <> [].
Proof. intros NE (p & e & -> & P) E. apply app_eq_nil in E as [E _]. rewrite E in P. inversion P as [? E0 E1|? x ? q X0 P' E0 E1]; [congruence|]. now destruct (lit w). Qed.
Lemma cdp_iff t : finds "^no\s+cdp\s+run\s*" t = true <-> begins none ["no"; "cdp"; "run"]%string t.
Proof.
  rewrite (finds_iff _ (sent (map (fun w => W (lit w)) ["no"; "cdp"; "run"]%string) ++ [Run sp false]) 0 t) by reflexivity. split.
  - intros (s' & c & HD). apply words_T in HD as (q & r & -> & P & _); [|discriminate]. exists [], q, r. repeat split; auto.
  - intros (i & q & e & -> & <- & P & _). exists e, []. change ([] ++ q ++ e) with (q ++ e). apply words_D; [exact P|]. change e with ([] ++ e) at 1. apply D_run; [constructor|discriminate|discriminate|constructor].
Qed.
(** Each flag says that the line begins with its words.  The text of the pattern itself,
    anywhere in the line, counts as well. *)
Theorem C69_globals : forall t,
  (has_cdp_disabled t = true <-> begins none ["no"; "cdp"; "run"]%string t \/ within (eq (lit "^no\s+cdp\s+run\s*")) t) /\
  (has_intf_logging_def t = true <-> begins none ["logging"; "event"; "link-status"; "global"]%string t \/ within (eq (lit "^logging\s+event\s+link-status\s+global")) t) /\
  (has_stp_portfast_def t = true <-> tight_start ["spanning-tree"; "portfast"; "default"]%string t \/ within (eq (lit "^spanning-tree\sportfast\sdefault")) t) /\
  (has_stp_portfast_bpduguard_def t = true <-> tight_start ["spanning-tree"; "portfast"; "bpduguard"; "default"]%string t \/ within (eq (lit "^spanning-tree\sportfast\sbpduguard\sdefault")) t) /\
  (has_stp_mode_rapidpvst t = true <-> tight_start ["spanning-tree"; "mode"; "rapid-pvst"]%string t \/ within (eq (lit "^spanning-tree\smode\srapid-pvst")) t).
Proof.
  intros t. split; [|split; [|split; [|split]]].
  - apply has_iff; [discriminate|apply cdp_iff|]. apply begins_ne; [cbn; auto|discriminate].
  - apply has_iff; [discriminate|eapply begins_iff; [reflexivity|discriminate]|]. apply begins_ne; [cbn; auto|discriminate].
  - apply has_iff; [discriminate|eapply tight_iff; [reflexivity|discriminate]|]. apply tight_ne; discriminate.
  - apply has_iff; [discriminate|eapply tight_iff; [reflexivity|discriminate]|]. apply tight_ne; discriminate.
  - apply has_iff; [discriminate|eapply tight_iff; [reflexivity|discriminate]|]. apply tight_ne; discriminate.
Qed.
Print Assumptions C69_globals.

(** ** Where the attributes do not say what the command says *)

Fixpoint spaced (ws : list str) : str := match ws with [] => [] | [w] => w | w :: r => w ++ [" "] ++ spaced r end.
Lemma spaced_phrase ws : ws <> [] -> phrase ws (spaced ws).
Proof. induction ws as [|w [|v ws] IH]; intros NE; [congruence|constructor|]. cbn [spaced]. constructor; [split; [reflexivity|discriminate]|]. now apply IH. Qed.
Ltac spaces := match goal with |- phrase ?ws ?t => replace t with (spaced ws) by reflexivity; apply spaced_phrase; discriminate end.

(** A line whose last word is the group loses the last character of it. *)
Theorem C69_last_group_refuted : exists t, phrase (map lit ["aaa"; "authentication"; "enable"; "default"; "group"; "tacacs+"]%string) t /\
  enable_authentication t = Ok (lit "default", lit "tacacs", [lit "+"]).
Proof. exists (lit "aaa authentication enable default group tacacs+"). split; [spaces|reflexivity]. Qed.
(** Two methods are reported as one. *)
Theorem C69_methods_refuted : exists t, phrase (map lit ["aaa"; "authentication"; "login"; "default"; "group"; "G"; "local"; "enable"]%string) t /\
  login_authentication t = Ok (lit "default", lit "G", [lit "local enable"]).
Proof. exists (lit "aaa authentication login default group G local enable"). split; [spaces|reflexivity]. Qed.
(** A server at the end of its line is missed. *)
Theorem C69_private_refuted : exists t, says_below (map lit ["server-private"; "10.1.1.2"]%string) t /\ server_private [t] = Ok [].
Proof.
  exists (lit " server-private 10.1.1.2"). split; [|reflexivity]. exists [" "], (lit "server-private 10.1.1.2"), []. split; [reflexivity|]. split; [split; [reflexivity|discriminate]|]. split; [spaces|reflexivity].
Qed.
(** Of a range of lines that are written with slashes, only the last number is reported. *)
Theorem C69_slots_refuted : exists t, phrase (map lit ["line"; "0/0/0"; "0/0/15"]%string) t /\ line_range t = Ok [15%Z].
Proof. exists (lit "line 0/0/0 0/0/15"). split; [spaces|reflexivity]. Qed.
(** The minutes and the seconds of a timeout that is there cannot be read. *)
Theorem C69_minutes_refuted : exists own t l, timeout_line t l /\ parse_exectimeout own [t] = Ok l /\
  manual_exectimeout_minutes own [t] = Err TypeErr /\ manual_exectimeout_seconds own [t] = Err TypeErr.
Proof.
  exists (lit "line con 0"), (lit " exec-timeout 5 30"), [5; 30]%Z. split; [|repeat split; reflexivity]. exists (map lit ["5"; "30"]%string). split; [|split; [now right|]].
  - constructor; [split; [discriminate|exists 0; reflexivity]|]. constructor; [split; [discriminate|exists 0; reflexivity]|constructor].
  - exists [" "], (lit "exec-timeout 5 30"), []. split; [reflexivity|]. split; [reflexivity|]. split; [spaces|reflexivity].
Qed.
(** The line that sets the mode does not get the class that has the flag for it. *)
Theorem C69_mode_refuted : forall v6, exists t, has_stp_mode_rapidpvst t = true /\ config_line_factory v6 t = Ok IOSCfgLine.
Proof. intros v6. exists (lit "spanning-tree mode rapid-pvst"). split; vm_compute; reflexivity. Qed.
Print Assumptions C69_last_group_refuted.
Print Assumptions C69_methods_refuted.
Print Assumptions C69_private_refuted.
Print Assumptions C69_slots_refuted.
Print Assumptions C69_minutes_refuted.
Print Assumptions C69_mode_refuted.

(** ** Cases *)

Example C69_login_case : login_authentication (lit "aaa authentication login VTY group TAC local") = Ok (lit "VTY", lit "TAC", [lit "local"]) /\
  aaa_list tight one_space "authentication" "login" (lit "VTY") (lit "TAC") (lit " local") (lit "aaa authentication login VTY group TAC local").
Proof.
  split; [vm_compute; reflexivity|]. split; [split; [discriminate|reflexivity]|]. exists (lit "aaa authentication login VTY group"), [" "]. split; [reflexivity|]. split; [|split; [exists " "; split; reflexivity|]].
  - change (lit "aaa authentication login VTY group") with (lit "aaa" ++ " " :: lit "authentication" ++ " " :: lit "login" ++ " " :: lit "VTY" ++ " " :: lit "group"). repeat constructor.
  - apply gr_more; [split; [discriminate|reflexivity]|exists " ", (lit "local"); split; reflexivity|reflexivity].
Qed.
Example C69_authorization_case : commands_authorization (lit "aaa authorization commands 15  default group TAC none") = Ok (15%Z, lit "default", lit "TAC", [lit "none"]).
Proof. vm_compute; reflexivity. Qed.
Example C69_accounting_case : commands_accounting (lit "aaa accounting commands 15 default start-stop group tacacs+") = Ok (15%Z, lit "default", lit "start-stop", lit "tacacs+") /\
  exec_accounting (lit "aaa accounting exec default stop-only group TAC") = Ok (lit "default", lit "stop-only", lit "TAC").
Proof. split; vm_compute; reflexivity. Qed.
Example C69_group_case : group_server_init (lit "aaa group server tacacs+ TAC") = Ok (lit "tacacs+", lit "TAC") /\
  server_vrf (lit "aaa group server tacacs+ TAC") (map lit [" server-private 10.1.1.2 key 7 ABC"; " ip vrf forwarding MGMT"]%string) = Ok (lit "MGMT") /\
  server_private (map lit [" server-private 10.1.1.2 key 7 ABC"; " server-private 10.1.1.3 key 0 x"]%string) = Ok (map lit ["10.1.1.2"; "10.1.1.3"]%string) /\
  source_interface (lit "aaa group server tacacs+ TAC") [lit " ip tacacs source-interface FastEthernet0/48"] = Ok (lit "FastEthernet0/48").
Proof. repeat split; vm_compute; reflexivity. Qed.
Example C69_access_case : hostname (lit "hostname R1") = Ok (lit "R1") /\ access_name (lit "line vty 0 4") = Ok (lit "vty") /\ access_name (lit "line 33 48") = Ok [] /\
  line_range (lit "line vty 0 4") = Ok [0; 4]%Z /\ line_range (lit "line con 0") = Ok [0]%Z /\ line_range (lit "line 33 48") = Ok [33; 48]%Z /\ range_str (lit "line vty 5 15") = Ok (lit "5 15") /\
  parse_exectimeout (lit "line con 0") (map lit [" logging synchronous"; " exec-timeout 10 "]%string) = Ok [10]%Z.
Proof. repeat split; vm_compute; reflexivity. Qed.
Example C69_globals_case : has_cdp_disabled (lit "no cdp  run") = true /\ has_cdp_disabled (lit "cdp run") = false /\ has_intf_logging_def (lit "logging event link-status global") = true /\
  has_stp_portfast_def (lit "spanning-tree portfast default") = true /\ has_stp_portfast_def (lit "spanning-tree portfast bpduguard default") = false /\
  has_stp_portfast_bpduguard_def (lit "spanning-tree portfast bpduguard default") = true.
Proof. repeat split; vm_compute; reflexivity. Qed.
