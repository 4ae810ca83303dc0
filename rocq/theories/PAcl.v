(** Access list lines of an ASA. *)
From Coq Require Import Ascii String NArith ZArith Bool List Lia.
From Verif Require Import PyBase PyStr PyStrFacts PyRe PyReFacts PyReTmpl PyReGets PyReWords PyReLazy PyReTok AclModel AclSpec AclFacts AclWords AclDict.
Import ListNotations.
Local Open Scope char_scope.

Lemma remark_starts {R} (k : nat -> str -> caps -> option R) i x t c : is_space x = true -> mat r_remark i (x :: t) c k = None.
Proof.
  intros Sx. unfold r_remark. cbn [mat]. assert (N : in_set (mkSet false false [CNotSpace]) x = false) by (destruct x as [b0 b1 b2 b3 b4 b5 b6 b7]; destruct b0, b1, b2, b3, b4, b5, b6, b7; vm_compute in Sx |- *; congruence).
  now rewrite N.
Qed.
Lemma not_remark {R} name kind q t (k : nat -> str -> caps -> option R) : a_word name -> str_eqb kind (lit "remark") = false -> spaced (lit "access-list" :: name :: kind :: q) t ->
  mat (RGrp 1 (RCat RBol (RCat (tr w0) r_remark))) 0 t [] k = None.
Proof.
  intros Wn NK SP. cbn [mat Nat.eqb]. eapply unfit; [exact SP|reflexivity| |].
  - intros i x r c Wx. now apply remark_starts.
  - unfold w0. cbn [app seqs lmat wl tok grabbed]. closed. rewrite (a_whole name Wn), w_lit, NK. reflexivity.
Qed.
Lemma alt_eq {R} a b i t c (k : nat -> str -> caps -> option R) : mat (RAlt a b) i t c k = match mat a i t c k with Some z => Some z | None => mat b i t c k end.
Proof. reflexivity. Qed.
Lemma w1_eq ws c : lmat w1 ws c fin = lmat (seqs (head 5 "extended" 6 ++ [seqs [service 7 8; WSp; src1]])) ws c fin.
Proof. reflexivity. Qed.
Lemma w2_eq ws c : lmat w2 ws c fin = lmat (seqs (head 23 "extended" 24 ++ [seqs [service 25 26; WSp; src2]])) ws c fin.
Proof. reflexivity. Qed.
Definition body (e : entry) : list str := proto_words (e_protocol e) ++ end_words (e_src e) ++ after (e_sport e) (e_dst e) (e_dport e) (e_opts e).
Lemma entry_body e : entry_words e = [lit "access-list"; e_name e; lit "extended"; e_action e] ++ body e.
Proof. reflexivity. Qed.
Lemma body_some e : body e <> [].
Proof. unfold body. destruct (e_protocol e); discriminate. Qed.
Lemma svc_src {R} s p r e c (k : list str -> caps -> option R) : good_protocol (e_protocol e) ->
  lmat (seqs [service s p; WSp; r]) (body e) c k = lmat r (end_words (e_src e) ++ after (e_sport e) (e_dst e) (e_dport e) (e_opts e)) (svcaps s p (e_protocol e) ++ c) k.
Proof.
  intros GP. unfold body. change (lmat (seqs [service s p; WSp; r]) ?w c k) with (lmat (service s p) w c (fun ws c => lmat (WCat WSp r) ws c k)).
  rewrite service_head by exact GP. destruct (end_cons (e_src e) (after (e_sport e) (e_dst e) (e_dport e) (e_opts e))) as (w & ws & E). now rewrite E, sp_in.
Qed.
Lemma extended_takes e t : good_entry e -> ~ twice (e_sport e) (e_dst e) (e_dport e) -> spaced (entry_words e) t ->
  take t = Some (c1 e) /\ fits1 (e_src e) /\ fits1 (e_dst e) \/ take t = Some (c2 e).
Proof.
  intros (Gn & Ga & Gp & Gs & Gsp & Gd & Gdp & Go) NT SP. rewrite entry_body in SP. unfold take, acl_re. rewrite alt_eq. rewrite (not_remark (e_name e) (lit "extended") (e_action e :: body e) t) by (try assumption; reflexivity).
  rewrite alt_eq. rewrite (anchored w1 _ t SP) by reflexivity. rewrite w1_eq. rewrite head_in by (try assumption; apply body_some). rewrite svc_src by exact Gp.
  assert (CASE : (fits1 (e_src e) /\ e_sport e = PNone /\ fits1 (e_dst e) /\ e_dport e = PNone) \/ ~ (fits1 (e_src e) /\ e_sport e = PNone /\ fits1 (e_dst e) /\ e_dport e = PNone)).
  { assert (FD : forall x, fits1 x \/ ~ fits1 x) by (intros x; destruct x as [| |y|y|y|n m]; cbn; auto; destruct (whole r_quad y); auto). assert (PD : forall p : portspec, p = PNone \/ p <> PNone) by (intros [| | |]; auto; right; discriminate).
    destruct (FD (e_src e)); [|tauto]. destruct (FD (e_dst e)); [|tauto]. destruct (PD (e_sport e)); [|tauto]. destruct (PD (e_dport e)); tauto. }
  destruct CASE as [(F1 & E1 & F2 & E2)|NF].
  - left. split; [|now split]. rewrite E1, E2. rewrite src1_some by assumption. reflexivity.
  - right. rewrite src1_none by assumption. rewrite alt_eq. rewrite (anchored w2 _ t SP) by reflexivity. rewrite w2_eq. rewrite head_in by (try assumption; apply body_some). rewrite svc_src by exact Gp.
    rewrite src2_ok by assumption. reflexivity.
Qed.
Theorem C77_extended e t : good_entry e -> spaced (entry_words e) t -> exists v o, protocol_says (e_protocol e) v o /\
  acl_result t = Ok (dict (e_name e) (e_action e) None v o (method (e_src e)) (method (e_dst e)) (e_opts e)).
Proof.
  assert (MAIN : forall e t, good_entry e -> ~ twice (e_sport e) (e_dst e) (e_dport e) -> spaced (entry_words e) t -> exists v o, protocol_says (e_protocol e) v o /\
    acl_result t = Ok (dict (e_name e) (e_action e) None v o (method (e_src e)) (method (e_dst e)) (e_opts e))).
  { clear e t. intros e t GE NT SP. destruct (extended_takes e t GE NT SP) as [(K & F1 & F2)|K]; rewrite (acl_found t _ K); [now apply dict_1|now apply dict_2]. }
  intros GE SP. destruct e as [name act pr src [|op x|a b|x] [| |y|y|y|n m] [|op' x'|a' b'|z] opts]; try (apply MAIN; [exact GE| |exact SP]; intros (K1 & (y0 & K2) & (z0 & K3)); cbn in K1, K2, K3; congruence).
  destruct GE as (Gn & Ga & Gp & Gs & Gsp & Gd & Gdp & Go). cbn [e_name e_action e_protocol e_src e_sport e_dst e_dport e_opts] in *.
  destruct (MAIN (mkEntry name act pr src (PGroup y) (EGroup z) PNone opts) t) as (v & o & PS & R0); [unfold good_entry; cbn [e_name e_action e_protocol e_src e_sport e_dst e_dport e_opts good_port good_end]; auto 12| |exact SP|].
  - intros (K & _). discriminate K.
  - exists v, o. split; [exact PS|]. exact R0.
Qed.
Print Assumptions C77_extended.
Definition entry_ex : entry := mkEntry (lit "OUT") (lit "permit") (Proto (lit "tcp")) EAny PNone (EGroup (lit "WEB")) (PGroup (lit "PORTS")) (mkOpts (Some (Some (lit "warnings"), Some (lit "60"))) false (TimeRange (lit "NIGHT"))).
Example C77_extended_ex : good_entry entry_ex /\ spaced (entry_words entry_ex) (lit "access-list OUT  extended permit tcp any object-group WEB object-group PORTS log warnings interval 60 time-range NIGHT").
Proof.
  assert (AW : forall s, forallb (fun x => negb (is_space x)) (lit s) = true -> s <> ""%string -> a_word (lit s)).
  { intros s F NE. split; [destruct s; [congruence|discriminate]|]. apply Forall_forall. intros x I0. rewrite forallb_forall in F. specialize (F x I0). now destruct (is_space x). }
  split.
  - unfold good_entry, entry_ex. cbn [e_name e_action e_protocol e_src e_sport e_dst e_dport e_opts good_protocol good_end good_port]. repeat match goal with |- _ /\ _ => split end; try exact I; try (apply AW; [reflexivity|discriminate]).
    + exists "permit"%string. split; [now left|reflexivity].
    + exists 6%Z. apply no_name. cbn. auto 20.
    + split; cbn [o_log o_when e_opts good_log good_when].
      * split; intros x K; injection K as <-; [exists "warnings"%string; split; [cbn; auto 20|reflexivity]|]. split; [discriminate|]. repeat constructor.
      * split; [apply AW; [reflexivity|discriminate]|]. intros K. apply w_quad in K. vm_compute in K. discriminate K.
  - assert (STEP : forall w g ws t, forallb (fun x => negb (is_space x)) (lit w) = true -> w <> ""%string -> forallb is_space (lit g) = true -> g <> ""%string -> spaced ws t -> spaced (lit w :: ws) (lit w ++ lit g ++ t)).
    { intros w g ws t F NE Fg Ng SP. apply sd_more; [now apply AW| |exact SP]. split; [destruct g; [congruence|discriminate]|]. apply Forall_forall. intros x I0. rewrite forallb_forall in Fg. now apply Fg. }
    pose proof (sd_one (lit "NIGHT") (AW "NIGHT"%string eq_refl ltac:(discriminate))) as K.
    apply (STEP "time-range" " ")%string in K; try reflexivity; try discriminate. apply (STEP "60" " ")%string in K; try reflexivity; try discriminate. apply (STEP "interval" " ")%string in K; try reflexivity; try discriminate.
    apply (STEP "warnings" " ")%string in K; try reflexivity; try discriminate. apply (STEP "log" " ")%string in K; try reflexivity; try discriminate. apply (STEP "PORTS" " ")%string in K; try reflexivity; try discriminate.
    apply (STEP "object-group" " ")%string in K; try reflexivity; try discriminate. apply (STEP "WEB" " ")%string in K; try reflexivity; try discriminate. apply (STEP "object-group" " ")%string in K; try reflexivity; try discriminate.
    apply (STEP "any" " ")%string in K; try reflexivity; try discriminate. apply (STEP "tcp" " ")%string in K; try reflexivity; try discriminate. apply (STEP "permit" " ")%string in K; try reflexivity; try discriminate.
    apply (STEP "extended" " ")%string in K; try reflexivity; try discriminate. apply (STEP "OUT" "  ")%string in K; try reflexivity; try discriminate. apply (STEP "access-list" " ")%string in K; try reflexivity; try discriminate. exact K.
Qed.

(** ** Remarks *)
Definition starts_solid (s : str) : Prop := match s with x :: _ => is_space x = false | [] => True end.
Definition starts_space (s : str) : Prop := match s with x :: _ => is_space x = true | [] => True end.
Lemma gets_gap i g s c : a_gap g -> starts_solid s -> gets (tr WSp) i (g ++ s) c (i + length g) s c.
Proof.
  intros [NE Fg] Hs. cbn [tr]. apply gets_plus; [exact NE| |].
  - eapply Forall_impl; [|exact Fg]. intros z E. cbv beta in E. unfold in_set. cbn. now rewrite E.
  - destruct s as [|z s]; [exact I|]. cbn in *. unfold in_set. cbn. now rewrite Hs.
Qed.
Lemma in_nosp x : in_set (mkSet false false [CNotSpace]) x = negb (is_space x).
Proof. unfold in_set. cbn [cs_neg cs_icase cs_items existsb cls_has]. now rewrite orb_false_r, xorb_false_l. Qed.
Lemma gets_word n i w s c : a_word w -> starts_space s -> gets (tr (tok n r_word)) i (w ++ s) c (i + length w) s ((n, w) :: c).
Proof.
  intros [NE Fw] Hs. cbn [tr tok]. apply gets_grp; [reflexivity|]. unfold r_word. apply gets_plus; [exact NE| |].
  - eapply Forall_impl; [|exact Fw]. intros z. cbv beta. intros E. now rewrite in_nosp, E.
  - destruct s as [|z s]; [exact I|]. cbn [starts_space stops] in *. now rewrite in_nosp, Hs.
Qed.
Lemma gets_lit k i s c : gets (tr (wl k)) i (lit k ++ s) c (i + length (lit k)) s c.
Proof. cbn [tr wl]. apply gets_chars, gets_eps. Qed.
Lemma gets_tlit n k i s c : gets (tr (tok n (r_lit k))) i (lit k ++ s) c (i + length (lit k)) s ((n, lit k) :: c).
Proof. cbn [tr tok]. apply gets_grp; [reflexivity|]. unfold r_lit. apply gets_chars, gets_eps. Qed.
Lemma space_start g s : a_gap g -> starts_space (g ++ s).
Proof. intros [NE F]. destruct g; [congruence|]. now apply Forall_inv in F. Qed.
Lemma word_start w s : a_word w -> starts_solid (w ++ s).
Proof. intros [NE F]. destruct w; [congruence|]. now apply Forall_inv in F. Qed.
Lemma not_nl x : x <> "010"%char -> in_set (mkSet true false [CRange "010" "010"]) x = true.
Proof.
  intros N. destruct (in_set _ x) eqn:E; [reflexivity|]. exfalso. apply N. clear N. revert E. destruct x as [b0 b1 b2 b3 b4 b5 b6 b7]. destruct b0, b1, b2, b3, b4, b5, b6, b7; vm_compute; congruence.
Qed.
Lemma remark_gets i x y r c : is_space x = false -> Forall (fun z => z <> "010"%char) (y :: r) -> gets r_remark i (x :: y :: r) c (i + length (x :: y :: r)) [] ((4, x :: y :: r) :: c).
Proof.
  intros Sx NL R k z K.
  change (mat r_remark i (x :: y :: r) c k) with
    (if in_set (mkSet false false [CNotSpace]) x
     then mat (rplus false (RSet (mkSet true false [CRange "010" "010"]))) (S i) ((y :: r)) c (fun i' s' c' => mat REol i' s' ((4, firstn (i' - i) (x :: y :: r)) :: c') k) else None).
  rewrite in_nosp, Sx. cbn [negb]. apply Forall_inv_tail in NL as Nr. replace (y :: r) with ((y :: r) ++ []) at 1 by apply app_nil_r.
  apply lazy_plus_first.
  - eapply Forall_impl; [|exact NL]. intros a. apply not_nl.
  - intros w1 w2 E NE. rewrite app_nil_r. destruct w2 as [|a [|b w2]]; [congruence| |reflexivity]. cbn [mat]. replace (Ascii.eqb a "010") with false; [reflexivity|]. symmetry. apply Ascii.eqb_neq. rewrite E in Nr. apply Forall_app in Nr as [_ Nr]. now apply Forall_inv in Nr.
  - cbn [mat]. rewrite <- K. f_equal; [cbn; lia|]. f_equal. f_equal. replace (S i + length (y :: r) - i) with (length (x :: y :: r)) by (cbn [length]; lia). apply firstn_all.
Qed.
Theorem C77_remark name g1 g2 g3 x y r : a_word name -> a_gap g1 -> a_gap g2 -> a_gap g3 -> is_space x = false -> Forall (fun z => z <> "010"%char) (y :: r) ->
  acl_result (lit "access-list" ++ g1 ++ name ++ g2 ++ lit "remark" ++ g3 ++ x :: y :: r) = Ok (dict name (lit "remark") (Some (x :: y :: r)) (-1) [] [] [] plain).
Proof.
  intros Wn G1 G2 G3 Sx NL. set (t := lit "access-list" ++ g1 ++ name ++ g2 ++ lit "remark" ++ g3 ++ x :: y :: r).
  assert (RD : forall m, result_dict (G [(1, m); (4, x :: y :: r); (3, lit "remark"); (2, name)]) = Ok (dict name (lit "remark") (Some (x :: y :: r)) (-1) [] [] [] plain)).
  { intros m. pose proof (proj1 Wn) as NE. destruct name as [|n name]; [congruence|]. vm_compute. reflexivity. }
  enough (K : exists m, take t = Some [(1, m); (4, x :: y :: r); (3, lit "remark"); (2, name)]) by (destruct K as [m K]; rewrite (acl_found t _ K); apply RD).
  unfold take, acl_re. assert (GE : exists i, gets (RCat (tr w0) r_remark) 0 t [] i [] [(4, x :: y :: r); (3, lit "remark"); (2, name)]).
  { eexists. unfold t. eapply gets_cat; [|apply remark_gets; assumption]. unfold w0. cbn [seqs]. 
    eapply gets_cat; [apply gets_lit|]. eapply gets_cat; [apply gets_gap; [exact G1|now apply word_start]|]. eapply gets_cat; [apply gets_word; [exact Wn|now apply space_start]|].
    eapply gets_cat; [apply gets_gap; [exact G2|reflexivity]|]. eapply gets_cat; [apply gets_tlit|]. eapply gets_cat; [apply gets_gap; [exact G3|exact Sx]|]. apply gets_eps. }
  destruct GE as [i GE]. rewrite alt_eq. exists (firstn (i - 0) t).
  change (mat (RGrp 1 (RCat RBol (RCat (tr w0) r_remark))) 0 t [] (fun _ _ c => Some c)) with (mat (RCat (tr w0) r_remark) 0 t [] (fun i' (_ : str) c' => Some ((1, firstn (i' - 0) t) :: c'))).
  now erewrite GE by reflexivity.
Qed.
Print Assumptions C77_remark.
Example C77_remark_ex : acl_result (lit "access-list X remark hello there") = Ok (dict (lit "X") (lit "remark") (Some (lit "hello there")) (-1) [] [] [] plain).
Proof. apply (C77_remark (lit "X") (lit " ") (lit " ") (lit " ") "h" "e" (lit "llo there")); (try split; try discriminate; repeat constructor; discriminate). Qed.
(** A remark of one character is no access list line. *)
Theorem C77_short_remark_refuted : ~ (forall name x, a_word name -> is_space x = false -> exists d, acl_result (lit "access-list " ++ name ++ lit " remark " ++ [x]) = Ok d).
Proof. intros C. destruct (C (lit "X") "x"%char) as [d K]; [split; [discriminate|repeat constructor]|reflexivity|]. vm_compute in K. discriminate K. Qed.
Print Assumptions C77_short_remark_refuted.

(** ** Standard entries *)
Lemma spaced_word w ws t : spaced (w :: ws) t -> a_word w.
Proof. intros SP. now inversion SP. Qed.
Lemma spaced_more w v ws t : spaced (w :: v :: ws) t -> exists g u, t = w ++ g ++ u /\ a_word w /\ a_gap g /\ spaced (v :: ws) u.
Proof. intros SP. inversion SP; subst. eauto 10. Qed.
Lemma spaced_one w t : spaced [w] t -> t = w.
Proof. intros SP. inversion SP as [|? ? ? ? ? ? K]; subst; [reflexivity|]. inversion K. Qed.
Lemma spaced_solid w ws t : spaced (w :: ws) t -> starts_solid t.
Proof.
  intros SP. assert (a_word w) as [NE F] by (eapply spaced_word; exact SP). destruct w as [|x w]; [congruence|]. apply Forall_inv in F. inversion SP; subst; exact F.
Qed.
Lemma no_M r i s c : mat r i s c (fun _ _ _ => Some tt) = None -> forall i' s' c', ~ M r i s c i' s' c'.
Proof. intros E i' s' c' HM. apply (mat_complete _ _ _ _ _ _ _ HM (fun _ _ _ => Some tt)); [discriminate|exact E]. Qed.
Lemma gets_to r i s c i' s' c' j : gets r i s c i' s' c' -> i' = j -> gets r i s c j s' c'.
Proof. now intros K <-. Qed.
Lemma gets_action n a i s c : one_of ["permit"; "deny"]%string a -> gets (tr (tok n r_action)) i (a ++ s) c (i + length a) s ((n, a) :: c).
Proof.
  intros (k & I0 & ->). cbn [tr tok]. apply gets_grp; [reflexivity|]. unfold r_action. destruct I0 as [<-|[<-|[]]].
  - apply gets_left. intros R q z K. cbn. rewrite <- K. f_equal. cbn. lia.
  - apply gets_right; [apply no_M; reflexivity|]. intros R q z K. cbn. rewrite <- K. f_equal. cbn. lia.
Qed.
Lemma gets_digits_run i w s c : digits w -> (match s with x :: _ => is_digit x = false | [] => True end) -> gets (rplus true (RSet (mkSet false false [CDigit]))) i (w ++ s) c (i + length w) s c.
Proof.
  intros [NE F] Hs. apply gets_plus; [exact NE|now apply all_dg|]. destruct s as [|x s]; [exact I|]. cbn [stops]. now rewrite in_dg.
Qed.
Lemma space_no_digit s : starts_space s -> match s with x :: _ => is_digit x = false | [] => True end.
Proof. destruct s as [|x s]; [trivial|]. cbn. destruct x as [b0 b1 b2 b3 b4 b5 b6 b7]. destruct b0, b1, b2, b3, b4, b5, b6, b7; cbn; congruence. Qed.
Lemma gets_digits n i w s c : digits w -> starts_space s -> gets (tr (tok n r_digits)) i (w ++ s) c (i + length w) s ((n, w) :: c).
Proof. intros D Hs. cbn [tr tok]. apply gets_grp; [reflexivity|]. apply gets_digits_run; [exact D|now apply space_no_digit]. Qed.
Lemma gets_quad n i w s c : quad w -> starts_space s -> gets (tr (tok n r_quad)) i (w ++ s) c (i + length w) s ((n, w) :: c).
Proof.
  intros (a & b & d & e & Da & Db & Dd & De & ->) Hs. cbn [tr tok]. apply gets_grp; [reflexivity|]. unfold r_quad. apply space_no_digit in Hs.
  repeat (rewrite <- app_assoc; cbn [app]). eapply gets_to.
  - repeat first [eapply gets_cat; [apply gets_digits_run; [eassumption|reflexivity]|] | eapply gets_cat; [apply gets_set; reflexivity|]]. first [apply gets_digits_run; assumption|eapply gets_cat; [apply gets_digits_run; assumption|apply gets_eps]].
  - repeat (rewrite app_length; cbn [length]). lia.
Qed.
Lemma gets_any n i s c : gets (tr (tok n r_any)) i (lit "any" ++ s) c (i + 3) s ((n, lit "any") :: c).
Proof. cbn [tr tok]. apply gets_grp; [reflexivity|]. unfold r_any. apply gets_left. intros R q z K. cbn. rewrite <- K. f_equal. lia. Qed.
Lemma in_chrb x y : in_set (mkSet false false [CRange x x]) y = Ascii.eqb y x.
Proof.
  destruct (Ascii.eqb y x) eqn:E; [apply Ascii.eqb_eq in E; now apply in_chr|]. destruct (in_set _ y) eqn:K; [|reflexivity]. apply in_chr in K. subst. now rewrite Ascii.eqb_refl in E.
Qed.
Lemma any_or_not n i t c : (exists s, t = lit "any" ++ s) \/ forall R (k : nat -> str -> caps -> option R), mat (tr (tok n r_any)) i t c k = None.
Proof.
  destruct t as [|x [|y [|z t]]]; try (right; intros R k; unfold tok, r_any; cbn [tr mat]; repeat match goal with |- context [in_set ?q ?a] => destruct (in_set q a) end; reflexivity).
  destruct (Ascii.eqb x "a" && Ascii.eqb y "n" && Ascii.eqb z "y") eqn:E.
  - left. exists t. apply andb_prop in E as [E E3]. apply andb_prop in E as [E1 E2]. apply Ascii.eqb_eq in E1, E2, E3. now subst.
  - right. intros R k. unfold tok, r_any. cbn [tr mat]. rewrite !in_chrb. destruct (Ascii.eqb x "a"), (Ascii.eqb y "n"), (Ascii.eqb z "y"); try discriminate E; reflexivity.
Qed.

Definition dst3_caps (x : caps) : Prop := exists v, v <> [] /\ (x = [(57, v)] \/ x = [(58, v)] \/ exists m, m <> [] /\ x = [(60, m); (59, v)]).
Lemma sp_rejects {R} r i x t c (k : nat -> str -> caps -> option R) : is_space x = false -> mat (tr (WCat WSp r)) i (x :: t) c k = None.
Proof. intros E. cbn [tr mat rplus]. unfold in_set. cbn. now rewrite E. Qed.
Lemma dst3_gets i e c t : standard_end e -> spaced (end_words e) t -> exists x, mat (tr dst3) i t c (fun _ _ c => Some c) = Some (x ++ c) /\ dst3_caps x.
Proof.
  intros SE SP.
  assert (ANY : forall s, t = lit "any" ++ s -> exists x, mat (tr dst3) i t c (fun _ _ c => Some c) = Some (x ++ c) /\ dst3_caps x).
  { intros s ->. exists [(57, lit "any")]. split; [|exists (lit "any"); split; [discriminate|auto]]. unfold dst3. repeat change (tr (WAlt ?a ?b)) with (RAlt (tr a) (tr b)). rewrite alt_eq. now erewrite gets_any by reflexivity. }
  destruct (any_or_not 57 i t c) as [[s Et]|NA]; [now apply (ANY s)|]. destruct e as [| |x|x|x|n m]; cbn [end_words standard_end good_end] in *; try contradiction.
  - apply spaced_one in SP. now apply (ANY []).
  - apply spaced_one in SP. now apply (ANY (lit "4")).
  - apply spaced_more in SP as (g & u & -> & _ & Gg & SP). apply spaced_one in SP as ->. exists [(58, x)]. split; [|exists x; split; [apply SE|auto]]. unfold dst3. repeat change (tr (WAlt ?a ?b)) with (RAlt (tr a) (tr b)). rewrite alt_eq, NA, alt_eq.
    assert (K : gets (tr (two "host" (tok 58 r_word))) i (lit "host" ++ g ++ x) c (i + length (lit "host") + length g + length x) [] ((58, x) :: c)).
    { unfold two. cbn [seqs]. eapply gets_cat; [apply gets_lit|]. eapply gets_cat; [apply gets_gap; [exact Gg|rewrite <- (app_nil_r x); now apply word_start]|]. rewrite <- (app_nil_r x) at 1. eapply gets_cat; [now apply gets_word|apply gets_eps]. }
    now erewrite K by reflexivity.
  - destruct SE as (Wn & NK & Qm). pose proof SP as SP0. apply spaced_more in SP as (g & u & -> & _ & Gg & SP). apply spaced_one in SP as ->. exists [(60, m); (59, n)].
    split; [|exists n; split; [apply Wn|]; right; right; exists m; split; [apply (quad_word m Qm)|reflexivity]]. unfold dst3. repeat change (tr (WAlt ?a ?b)) with (RAlt (tr a) (tr b)). rewrite alt_eq, NA, alt_eq.
    assert (NH : mat (tr (two "host" (tok 58 r_word))) i (n ++ g ++ m) c (fun _ _ c => Some c) = None).
    { change (mat (tr (wl "host")) i (n ++ g ++ m) c (fun i s c => mat (tr (WCat WSp (seqs [tok 58 r_word]))) i s c (fun _ _ c => Some c)) = None). eapply unfit; [exact SP0|reflexivity| |].
      - intros j x r d Wr. now apply sp_rejects.
      - cbn [lmat wl]. apply not_foreign in NK. rewrite (foreign_no _ n "host" NK) by (cbn; auto 10). reflexivity. }
    rewrite NH. assert (K : gets (tr (seqs [tok 59 r_word; WSp; tok 60 r_quad])) i (n ++ g ++ m) c (i + length n + length g + length m) [] ((60, m) :: (59, n) :: c)).
    { cbn [seqs]. eapply gets_cat; [apply gets_word; [exact Wn|now apply space_start]|]. eapply gets_cat; [apply gets_gap; [exact Gg|rewrite <- (app_nil_r m); now apply word_start, quad_word]|]. rewrite <- (app_nil_r m) at 1. eapply gets_cat; [now apply gets_quad|apply gets_eps]. }
    now erewrite K by reflexivity.
Qed.
Lemma standard_no {R} n a name act q r c (k : list str -> caps -> option R) : a_word name -> lmat (seqs (head n "extended" a ++ r)) ([lit "access-list"; name; lit "standard"; act] ++ q) c k = None.
Proof. intros Wn. unfold head. cbn [app seqs lmat wl tok grabbed]. closed. rewrite (a_whole name Wn). reflexivity. Qed.
Theorem C77_standard name act dst t : a_word name -> one_of ["permit"; "deny"]%string act -> standard_end dst -> spaced (standard_words name act dst) t ->
  acl_result t = Ok (dict name act None 0 [] (lit "network") (lit "network") plain).
Proof.
  intros Wn Ac SE SP. enough (K : exists x, dst3_caps x /\ take t = Some (x ++ [(56, act); (55, name)])).
  { destruct K as (x & (v & NV & X) & K). rewrite (acl_found t _ K). pose proof (proj1 Wn) as NE. destruct name as [|n name]; [congruence|]. pose proof (action_solid act Ac) as NA. destruct act as [|b act]; [congruence|].
    destruct v as [|v0 v]; [congruence|]. destruct X as [->|[->|(m & NM & ->)]]; [| |destruct m as [|m0 m]; [congruence|]]; vm_compute; reflexivity. }
  unfold take, acl_re. rewrite alt_eq. rewrite (not_remark name (lit "standard") (act :: end_words dst) t) by (try assumption; reflexivity). rewrite alt_eq, (anchored w1 _ t SP) by reflexivity. unfold w1, standard_words. rewrite standard_no by exact Wn.
  rewrite alt_eq, (anchored w2 _ t SP) by reflexivity. unfold w2, standard_words. rewrite standard_no by exact Wn. rewrite alt_eq.
  unfold standard_words in SP. cbn [app] in SP. apply spaced_more in SP as (g1 & t1 & -> & _ & G1 & SP). apply spaced_more in SP as (g2 & t2 & -> & _ & G2 & SP). apply spaced_more in SP as (g3 & t3 & -> & _ & G3 & SP).
  destruct (end_cons dst []) as (w & ws & Ee). rewrite app_nil_r in Ee. rewrite Ee in SP. apply spaced_more in SP as (g4 & t4 & -> & _ & G4 & SP).
  assert (GE : exists i, gets (tr w3) 0 (lit "access-list" ++ g1 ++ name ++ g2 ++ lit "standard" ++ g3 ++ act ++ g4 ++ t4) [] i t4 [(56, act); (55, name)]).
  { eexists. unfold w3, head. cbn [seqs]. eapply gets_cat; [apply gets_lit|]. eapply gets_cat; [apply gets_gap; [exact G1|now apply word_start]|]. eapply gets_cat; [apply gets_word; [exact Wn|now apply space_start]|].
    eapply gets_cat; [apply gets_gap; [exact G2|reflexivity]|]. eapply gets_cat; [apply gets_lit|]. eapply gets_cat; [apply gets_gap; [exact G3|]|].
    { destruct Ac as (k & I0 & ->). destruct I0 as [<-|[<-|[]]]; reflexivity. }
    eapply gets_cat; [now apply gets_action|]. eapply gets_cat; [apply gets_gap; [exact G4|eapply spaced_solid; exact SP]|]. apply gets_eps. }
  destruct GE as [i GE]. rewrite <- Ee in SP. destruct (dst3_gets i dst [(56, act); (55, name)] t4 SE SP) as (x & K & DX). exists x. split; [exact DX|].
  change (mat (RCat RBol (RCat (tr w3) (tr dst3))) 0 ?t [] ?k) with (mat (tr w3) 0 t [] (fun i s c => mat (tr dst3) i s c k)). now erewrite GE by exact K.
Qed.
Print Assumptions C77_standard.
Example C77_standard_ex : let t := lit "access-list SPLIT standard permit  any4" in
  a_word (lit "SPLIT") /\ one_of ["permit"; "deny"]%string (lit "permit") /\ standard_end EAny4 /\ spaced (standard_words (lit "SPLIT") (lit "permit") EAny4) t /\
  acl_result t = Ok (dict (lit "SPLIT") (lit "permit") None 0 [] (lit "network") (lit "network") plain).
Proof.
  assert (AW : forall s, forallb (fun x => negb (is_space x)) (lit s) = true -> s <> ""%string -> a_word (lit s)).
  { intros s F NE. split; [destruct s; [congruence|discriminate]|]. apply Forall_forall. intros x I0. rewrite forallb_forall in F. specialize (F x I0). now destruct (is_space x). }
  assert (ST : forall w g ws t, forallb (fun x => negb (is_space x)) (lit w) = true -> w <> ""%string -> forallb is_space (lit g) = true -> g <> ""%string -> spaced ws t -> spaced (lit w :: ws) (lit w ++ lit g ++ t)).
  { intros w g ws t F NE Fg Ng SP. apply sd_more; [now apply AW| |exact SP]. split; [destruct g; [congruence|discriminate]|]. apply Forall_forall. intros x I0. rewrite forallb_forall in Fg. now apply Fg. }
  assert (W0 : a_word (lit "SPLIT")) by (apply AW; [reflexivity|discriminate]). assert (P0 : one_of ["permit"; "deny"]%string (lit "permit")) by (exists "permit"%string; split; [now left|reflexivity]).
  assert (SP : spaced (standard_words (lit "SPLIT") (lit "permit") EAny4) (lit "access-list SPLIT standard permit  any4")).
  { pose proof (sd_one (lit "any4") (AW "any4"%string eq_refl ltac:(discriminate))) as K.
    apply (ST "permit" "  ")%string in K; try reflexivity; try discriminate. apply (ST "standard" " ")%string in K; try reflexivity; try discriminate.
    apply (ST "SPLIT" " ")%string in K; try reflexivity; try discriminate. apply (ST "access-list" " ")%string in K; try reflexivity; try discriminate. exact K. }
  assert (SE : standard_end EAny4) by exact I.
  repeat (split; [assumption|]). now apply (C77_standard (lit "SPLIT") (lit "permit") EAny4).
Qed.
