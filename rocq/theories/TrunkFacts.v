(** Facts about the switchport attributes. *)
From Coq Require Import Ascii String Arith NArith ZArith Bool List Lia.
From Verif Require Import PyStr PyStrFacts PyBase PyBaseFacts RangeModel RangeSpec RangeFacts TrunkModel TrunkSpec.
Import ListNotations.
Local Open Scope char_scope.
Local Open Scope Z_scope.

Lemma strs_eqb_eq a : forall b, strs_eqb a b = true <-> a = b.
Proof.
  induction a as [|x a IH]; intros [|y b]; cbn [strs_eqb]; try easy.
  rewrite andb_true_iff, str_eqb_eq, IH. split; [intros [-> ->]; reflexivity|intros E; inversion E; auto].
Qed.
Lemma begins_with_iff kws t : begins_with kws t = true <-> firstn (length kws) (words t) = kws.
Proof. apply strs_eqb_eq. Qed.

(** ** Phrases *)

Lemma phrase_head kws gs v : Forall gap gs -> length gs = S (length kws) ->
  exists c r, phrase kws gs v = c :: r /\ is_space c = true.
Proof.
  intros F L. destruct gs as [|g gs]; [discriminate|]. inversion F as [|? ? [N H] _]; subst.
  destruct g as [|c g]; [contradiction|]. cbn [forallb] in H. apply andb_true_iff in H as [H _].
  destruct kws; cbn [phrase app]; eauto.
Qed.

Lemma phrase_words kws : forall gs v, Forall gap gs -> length gs = S (length kws) -> Forall is_token kws ->
  words (phrase kws gs v) = kws ++ words v.
Proof.
  unfold words. induction kws as [|k kws IH]; intros gs v F L T; (destruct gs as [|g gs]; [discriminate|]);
    inversion F as [|? ? [N H] F2]; subst; cbn [phrase app].
  - now rewrite words_aux_space_prefix.
  - inversion T as [|? ? [K1 K2] T2]; subst. cbn [length] in L. injection L as L.
    rewrite words_aux_space_prefix, words_aux_word, app_nil_r by assumption.
    destruct (phrase_head kws gs v F2 L) as (c & r & E & Hc). specialize (IH gs v F2 L T2). rewrite E in *.
    rewrite words_aux_acc_space by (assumption || intros C; apply (f_equal (@rev ascii)) in C; rewrite rev_involutive in C; contradiction).
    rewrite rev_involutive. f_equal. rewrite <- IH. cbn [words_aux]. now rewrite Hc.
Qed.

Lemma drop_word k s : forallb (fun c => negb (is_space c)) k = true -> (exists c r, s = c :: r /\ is_space c = true) ->
  drop_while (fun c => negb (is_space c)) (k ++ s) = s.
Proof.
  intros K (c & r & -> & Hc). induction k as [|d k IH]; cbn [app drop_while]; [now rewrite Hc|].
  cbn [forallb] in K. apply andb_true_iff in K as [K1 K2]. rewrite K1. auto.
Qed.

Lemma iter_shift {A} (f : A -> A) n x : Nat.iter n f (f x) = f (Nat.iter n f x).
Proof. induction n as [|n IH]; [reflexivity|]. cbn [Nat.iter nat_rect]. now f_equal. Qed.

Lemma phrase_rest kws : forall gs c v, Forall gap gs -> length gs = S (length kws) -> Forall is_token kws -> is_space c = false ->
  word_rest (length kws) (phrase kws gs (c :: v)) = c :: v.
Proof.
  unfold word_rest. induction kws as [|k kws IH]; intros gs c v F L T Hc; (destruct gs as [|g gs]; [discriminate|]);
    inversion F as [|? ? [N H] F2]; subst; cbn [phrase length].
  - rewrite lstrip_app_space by exact H. now apply lstrip_not_space.
  - inversion T as [|? ? [K1 K2] T2]; subst. cbn [length] in L. injection L as L.
    rewrite lstrip_app_space by exact H. rewrite lstrip_not_space.
    2:{ destruct k as [|d k]; [contradiction|]. cbn [forallb] in K2. apply andb_true_iff in K2 as [K2 _]. now apply negb_true_iff in K2. }
    change (Nat.iter (S (length kws)) after_word ?x) with (after_word (Nat.iter (length kws) after_word x)).
    rewrite <- iter_shift. unfold after_word at 2. rewrite drop_word by (assumption || now apply phrase_head).
    now apply IH.
Qed.

Lemma words_head c r : is_space c = false -> exists w ws, words (c :: r) = (c :: w) :: ws.
Proof.
  intros Hc. unfold words. cbn [words_aux]. rewrite Hc.
  assert (G : forall s acc, exists w ws, words_aux (acc ++ [c]) s = (c :: w) :: ws).
  { induction s as [|d s IH]; intros acc; cbn [words_aux].
    - destruct (acc ++ [c]) eqn:E; [destruct acc; discriminate|]. rewrite <- E, rev_app_distr. cbn [rev app]. eauto.
    - destruct (is_space d).
      + destruct (acc ++ [c]) eqn:E; [destruct acc; discriminate|]. rewrite <- E, rev_app_distr. cbn [rev app]. eauto.
      + apply (IH (d :: acc)). }
  apply (G r []).
Qed.

Lemma trunk_tokens : Forall is_token trunk_words.
Proof. repeat constructor; discriminate. Qed.
Lemma trunk_tokens5 w : is_token (lit w) -> Forall is_token (trunk_words ++ [lit w]).
Proof. intros H. apply Forall_app. split; [apply trunk_tokens|constructor; [exact H|constructor]]. Qed.

(** ** VLAN lists *)

Lemma lower_vlan c : vlan_char c = true -> lower_char c = c.
Proof. destruct c as [[] [] [] [] [] [] [] []]; vm_compute; congruence. Qed.

Lemma digit_vlan c : is_digit c = true -> vlan_char c = true.
Proof. unfold vlan_char. now intros ->. Qed.
Lemma forallb_imp {A} (f g : A -> bool) l : (forall x, f x = true -> g x = true) -> forallb f l = true -> forallb g l = true.
Proof. intros H. rewrite !forallb_forall. auto. Qed.
Lemma spaces_vlan i : forallb vlan_char (spaces i) = true.
Proof. unfold spaces. induction i as [|i IH]; [reflexivity|exact IH]. Qed.

Lemma denotes_vlan t e : denotes t e -> forallb vlan_char t = true.
Proof.
  intros [i j a Ha|i j k m a b Ha Hb]; rewrite !forallb_app, !spaces_vlan;
    rewrite ?(forallb_imp _ _ _ digit_vlan (show_digits a Ha)), ?(forallb_imp _ _ _ digit_vlan (show_digits b Hb)); reflexivity.
Qed.

Lemma join_vlan ts es : Forall2 denotes ts es -> forallb vlan_char (join (lit ",") ts) = true.
Proof.
  induction 1 as [|t e ts es D H IH]; [reflexivity|]. destruct ts as [|t' ts]; [exact (denotes_vlan t e D)|].
  change (join (lit ",") (t :: t' :: ts)) with (t ++ lit "," ++ join (lit ",") (t' :: ts)).
  rewrite !forallb_app, IH, (denotes_vlan t e D). reflexivity.
Qed.

Lemma vlan_list_chars v es : vlan_list v es -> forallb vlan_char v = true.
Proof. intros (ts & -> & _ & D & _). now apply (join_vlan ts es). Qed.

Lemma vlan_list_lower v es : vlan_list v es -> lower v = v.
Proof.
  intros H. apply vlan_list_chars in H. unfold lower. induction v as [|c v IH]; [reflexivity|].
  cbn [forallb] in H. apply andb_true_iff in H as [H1 H2]. cbn [map]. rewrite lower_vlan, IH by assumption. reflexivity.
Qed.

Lemma join_app sep (a b : list str) : a <> [] -> b <> [] -> join sep (a ++ b) = join sep a ++ sep ++ join sep b.
Proof.
  intros Ha Hb. induction a as [|x a IH]; [contradiction|]. destruct a as [|y a].
  - destruct b; [contradiction|]. reflexivity.
  - change (join sep ((x :: y :: a) ++ b)) with (x ++ sep ++ join sep ((y :: a) ++ b)).
    rewrite IH by discriminate. change (join sep (x :: y :: a)) with (x ++ sep ++ join sep (y :: a)). now rewrite !app_assoc.
Qed.

Lemma forall2_nonempty {A B} (R : A -> B -> Prop) l m : Forall2 R l m -> m <> [] -> l <> [].
Proof. intros F N. destruct F; [contradiction|discriminate]. Qed.

Lemma vlan_list_app v es w fs : vlan_list v es -> vlan_list w fs -> vlan_list (v ++ "," :: w) (es ++ fs).
Proof.
  intros (ts & E & N & D & c & r & Ev & Hc) (us & F & M & D' & c' & r' & Ew & Hc'). exists (ts ++ us). split; [|split; [|split]].
  - rewrite join_app by (eapply forall2_nonempty; eassumption). now rewrite <- E, <- F.
  - intros C. apply app_eq_nil in C as [C _]. contradiction.
  - now apply Forall2_app.
  - exists c, (r ++ "," :: w). rewrite Ev. auto.
Qed.

Lemma rstrip_app_spaces s j : rstrip (s ++ spaces j) = rstrip s.
Proof.
  unfold rstrip. f_equal. rewrite rev_app_distr. apply lstrip_app_space. rewrite forallb_rev. apply spaces_space.
Qed.
Lemma rstrip_digits p s : forallb is_digit s = true -> s <> [] -> rstrip (p ++ s) = p ++ s.
Proof.
  intros D N. destruct (exists_last N) as (s' & c & ->). rewrite app_assoc. apply rstrip_app_cons.
  rewrite forallb_app in D. apply andb_true_iff in D as [_ D]. cbn [forallb] in D. rewrite andb_true_r in D. now apply digit_not_space.
Qed.

Lemma denotes_rstrip t e : denotes t e -> exists t', denotes t' e /\ t' <> [] /\ forall p, rstrip (p ++ t) = p ++ t'.
Proof.
  intros [i j a Ha|i j k m a b Ha Hb].
  - exists (spaces i ++ show_Z a). split; [|split].
    + pose proof (d_one i 0 a Ha) as D. cbn [spaces repeat] in D. now rewrite app_nil_r in D.
    + intros C. apply app_eq_nil in C as [_ C]. now apply show_nonempty in C.
    + intros p. rewrite !app_assoc, rstrip_app_spaces. apply rstrip_digits; [now apply show_digits|apply show_nonempty].
  - exists ((spaces i ++ show_Z a ++ spaces j) ++ lit "-" ++ spaces k ++ show_Z b). split; [|split].
    + pose proof (d_run i j k 0 a b Ha Hb) as D. cbn [spaces repeat] in D. now rewrite app_nil_r in D.
    + intros C. apply app_eq_nil in C as [_ C]. discriminate.
    + intros p. rewrite !app_assoc, rstrip_app_spaces. apply rstrip_digits; [now apply show_digits|apply show_nonempty].
Qed.

Lemma join_rstrip ts es : Forall2 denotes ts es -> es <> [] ->
  exists ts', Forall2 denotes ts' es /\ forall p, rstrip (p ++ join (lit ",") ts) = p ++ join (lit ",") ts'.
Proof.
  induction 1 as [|t e ts es D H IH]; [contradiction|]. intros _. destruct H as [|t2 e2 ts es D2 H].
  - destruct (denotes_rstrip t e D) as (t' & D' & _ & E). exists [t']. split; [now repeat constructor|exact E].
  - destruct (IH ltac:(discriminate)) as (ts' & D' & E). inversion D' as [|t2' e2' ts2' es' D2' H']; subst.
    exists (t :: t2' :: ts2'). split; [now constructor|]. intros p.
    change (join (lit ",") (t :: t2 :: ts)) with (t ++ lit "," ++ join (lit ",") (t2 :: ts)).
    change (join (lit ",") (t :: t2' :: ts2')) with (t ++ lit "," ++ join (lit ",") (t2' :: ts2')).
    specialize (E (p ++ t ++ lit ",")). now rewrite <- !app_assoc in E.
Qed.

Lemma vlan_list_strip v es : vlan_list v es -> vlan_list (strip v) es.
Proof.
  intros (ts & E & N & D & c & r & Ev & Hc). destruct (join_rstrip ts es D N) as (ts' & D' & R).
  specialize (R []). cbn [app] in R. rewrite <- E in R.
  assert (H : exists r', rstrip v = c :: r').
  { destruct (rstrip_prefix v) as (p & P & Sp). rewrite Ev in P at 1. destruct (rstrip v) as [|d r'].
    - cbn [app] in P. subst p. cbn [forallb] in Sp. apply andb_true_iff in Sp as [Sp _]. apply digit_not_space in Hc. congruence.
    - cbn [app] in P. injection P as -> _. eauto. }
  destruct H as [r' H].
  assert (Es : strip v = rstrip v) by (unfold strip; rewrite H; apply lstrip_not_space; now apply digit_not_space).
  exists ts'. split; [now rewrite Es|]. split; [exact N|]. split; [exact D'|]. exists c, r'. now rewrite Es.
Qed.

Lemma vlan_list_parse f v es : vlan_list v es -> range_of_text f v = Ok (f (flat_map expand es)).
Proof. intros (ts & -> & N & D & _). now apply range_of_denotes. Qed.

Lemma listed_expand es x : In x (flat_map expand es) <-> listed es x.
Proof.
  rewrite in_flat_map. split; intros (e & H & K); exists e; (split; [exact H|now apply expand_covers]).
Qed.

Lemma vlan_list_nonempty v es : vlan_list v es -> v <> [].
Proof. intros (_ & _ & _ & _ & c & r & -> & _). discriminate. Qed.

Lemma vlan_list_comma v es w : vlan_list v es -> v ++ "," :: w <> lit "1-4094".
Proof.
  intros _ C. apply (f_equal (has_char ",")) in C. rewrite has_char_app in C.
  change (has_char "," ("," :: w)) with true in C. rewrite orb_true_r in C. discriminate.
Qed.

(** ** One statement *)

Lemma vlan_group_phrase kws gs v es : Forall gap gs -> length gs = S (length kws) -> Forall is_token kws -> vlan_list v es ->
  vlan_group (length kws) (phrase kws gs v) = Some v.
Proof.
  intros F L T V. pose proof (vlan_list_chars v es V) as C. destruct V as (_ & _ & _ & _ & c & r & -> & Hc).
  pose proof (phrase_rest kws gs c r F L T (digit_not_space c Hc)) as R.
  destruct (phrase_head kws gs (c :: r) F L) as (d & q & E & Hd). unfold vlan_group.
  rewrite E in *. rewrite Hd, R, Hc. cbn [forallb andb] in *. apply andb_true_iff in C as [_ C]. now rewrite C.
Qed.

Definition value_word (v : str) : Prop := exists w ws, words v = w :: ws /\
  str_eqb w (lit "add") = false /\ str_eqb w (lit "except") = false /\ str_eqb w (lit "remove") = false.
Lemma digit_word c r : is_digit c = true -> value_word (c :: r).
Proof.
  intros H. destruct (words_head c r (digit_not_space c H)) as (w & ws & E). exists (c :: w), ws. split; [exact E|].
  cbn [str_eqb lit list_ascii_of_string].
  destruct (Ascii.eqb_spec c "a") as [->|]; [discriminate|]. destruct (Ascii.eqb_spec c "e") as [->|]; [discriminate|].
  destruct (Ascii.eqb_spec c "r") as [->|]; [discriminate|]. auto.
Qed.

Lemma begins5 gs v w kw : Forall gap gs -> length gs = 6%nat -> is_token (lit w) ->
  begins_with (trunk_words ++ [lit kw]) (phrase (trunk_words ++ [lit w]) gs v) = str_eqb (lit w) (lit kw).
Proof.
  intros F L T. unfold begins_with. rewrite phrase_words by (assumption || now apply trunk_tokens5).
  change (firstn (length (trunk_words ++ [lit kw])) ((trunk_words ++ [lit w]) ++ words v)) with (trunk_words ++ [lit w]).
  destruct (str_eqb_spec (lit w) (lit kw)) as [->|N]; [now apply strs_eqb_eq|].
  apply not_true_iff_false. rewrite strs_eqb_eq. intros C. apply app_inj_tail in C as [_ C]. contradiction.
Qed.

Lemma begins4 gs v : Forall gap gs -> length gs = 5%nat -> value_word v ->
  begins_with kw_add (phrase trunk_words gs v) = false /\ begins_with kw_except (phrase trunk_words gs v) = false /\
  begins_with kw_remove (phrase trunk_words gs v) = false /\ begins_with kw_allowed (phrase trunk_words gs v) = true.
Proof.
  intros F L (w & ws & E & W1 & W2 & W3). unfold begins_with. rewrite phrase_words by (assumption || apply trunk_tokens).
  rewrite E.
  assert (G : forall k, str_eqb w (lit k) = false ->
    strs_eqb (firstn 5 (trunk_words ++ w :: ws)) (trunk_words ++ [lit k]) = false).
  { intros k H. change (firstn 5 (trunk_words ++ w :: ws)) with (trunk_words ++ [w]).
    apply not_true_iff_false. rewrite strs_eqb_eq. intros C. apply app_inj_tail in C as [_ C]. apply str_eqb_eq in C. congruence. }
  split; [now apply (G "add"%string)|]. split; [now apply (G "except"%string)|]. split; [now apply (G "remove"%string)|].
  reflexivity.
Qed.

(** ** The fold over the children *)

Definition rel_allowed (b : option (list entry)) (v : str) : Prop :=
  match b with
  | None => v = all_vlans
  | Some [] => v = []
  | Some es => vlan_list v es /\ v <> all_vlans
  end.
Definition rel_opt (es : list entry) (o : option str) : Prop :=
  match o with None => es = [] | Some v => vlan_list v es end.

Definition adds_of (s : stmt) : list entry := match s with SAdd es => es | _ => [] end.
Definition excepts_of (s : stmt) : list entry := match s with SExcept es => es | _ => [] end.
Definition removes_of (s : stmt) : list entry := match s with SRemove es => es | _ => [] end.

Record rel (b : option (list entry)) (a e r : list entry) (d : vdict) : Prop := {
  r_allowed : rel_allowed b (v_allowed d);
  r_add : rel_opt a (v_add d);
  r_except : rel_opt e (v_except d);
  r_remove : rel_opt r (v_remove d) }.

Lemma comma_rel es o v fs : rel_opt es o -> vlan_list v fs -> rel_opt (es ++ fs) (comma_add o v).
Proof.
  destruct o as [w|]; cbn [rel_opt comma_add]; [intros H K; now apply vlan_list_app|]. intros -> K. exact K.
Qed.

Lemma step_rel t s : writes t s -> forall b a e r d, rel b a e r d ->
  rel (base_step b s) (a ++ adds_of s) (e ++ excepts_of s) (r ++ removes_of s) (vdict_step d t).
Proof.
  intros W b a e r d [R1 R2 R3 R4]. unfold vdict_step.
  destruct W as [gs v es F L V NV|gs F L|gs F L|gs v es F L V|gs v es F L V|gs v es F L V|t Wt N];
    cbn [base_step adds_of excepts_of removes_of]; rewrite ?app_nil_r.
  - assert (VW : value_word v) by (destruct V as (_ & _ & _ & _ & c & q & -> & Hc); now apply digit_word).
    destruct (begins4 gs v F L VW) as (-> & -> & -> & ->).
    assert (G : allowed_group 4 (phrase trunk_words gs v) = Some v).
    { pose proof (vlan_group_phrase trunk_words gs v es F L trunk_tokens V) as Q. change (length trunk_words) with 4%nat in Q.
      destruct V as (_ & _ & _ & _ & c & q & -> & Hc).
      pose proof (phrase_rest trunk_words gs c q F L trunk_tokens (digit_not_space c Hc)) as R. change (length trunk_words) with 4%nat in R.
      destruct (phrase_head trunk_words gs (c :: q) F L) as (c0 & q0 & E & H0).
      unfold allowed_group. rewrite E in *. rewrite H0, R.
      assert (D : forall w k, is_digit k = false -> str_eqb (c :: q) (k :: w) = false).
      { intros w k Hk. cbn [str_eqb]. destruct (Ascii.eqb_spec c k); [congruence|reflexivity]. }
      change (lit "all") with ("a" :: lit "ll"). change (lit "none") with ("n" :: lit "one"). cbn [app].
      rewrite !D by reflexivity. exact Q. }
    rewrite G. rewrite (vlan_list_lower v es V).
    assert (D : forall w k, is_digit k = false -> str_eqb v (k :: w) = false).
    { intros w k Hk. destruct V as (_ & _ & _ & _ & c & q & -> & Hc). cbn [str_eqb]. destruct (Ascii.eqb_spec c k); [congruence|reflexivity]. }
    change (lit "all") with ("a" :: lit "ll"). change (lit "none") with ("n" :: lit "one").
    rewrite (D (lit "one") "n"), (D (lit "ll") "a") by reflexivity.
    constructor; cbn [v_allowed v_add v_except v_remove]; try assumption.
    assert (NE : es <> []) by (destruct V as (_ & _ & NE & _); exact NE).
    destruct b as [[|e0 old]|]; cbn [rel_allowed] in R1.
    + rewrite R1. cbn [str_eqb app rel_allowed]. change (str_eqb [] all_vlans) with false. cbn iota.
      destruct es; [contradiction|]. cbn [rel_allowed]. auto.
    + destruct R1 as [R1 R1']. rewrite (proj2 (str_eqb_neq _ _) R1'). cbn [rel_allowed app].
      destruct (v_allowed d) as [|c0 q0] eqn:E; [now apply vlan_list_nonempty in R1|]. split; [exact (vlan_list_app (c0 :: q0) (e0 :: old) v es R1 V)|].
      exact (vlan_list_comma (c0 :: q0) (e0 :: old) v R1).
    + rewrite R1, str_eqb_refl. cbn [rel_allowed]. destruct es; [contradiction|]. cbn [rel_allowed]. auto.
  - assert (VW : value_word (lit "all")) by (exists (lit "all"), []; repeat split).
    destruct (begins4 gs _ F L VW) as (-> & -> & -> & ->).
    pose proof (phrase_rest trunk_words gs "a" (lit "ll") F L trunk_tokens eq_refl) as R. change (length trunk_words) with 4%nat in R.
    destruct (phrase_head trunk_words gs (lit "all") F L) as (c0 & q0 & E & H0). change ("a" :: lit "ll") with (lit "all") in R.
    unfold allowed_group. rewrite E in *. rewrite H0, R. cbn. constructor; cbn; auto.
  - assert (VW : value_word (lit "none")) by (exists (lit "none"), []; repeat split).
    destruct (begins4 gs _ F L VW) as (-> & -> & -> & ->).
    pose proof (phrase_rest trunk_words gs "n" (lit "one") F L trunk_tokens eq_refl) as R. change (length trunk_words) with 4%nat in R.
    destruct (phrase_head trunk_words gs (lit "none") F L) as (c0 & q0 & E & H0). change ("n" :: lit "one") with (lit "none") in R.
    unfold allowed_group. rewrite E in *. rewrite H0, R. cbn. constructor; cbn; auto.
  - change kw_add with (trunk_words ++ [lit "add"]).
    rewrite begins5 by (assumption || (split; [discriminate|reflexivity])). rewrite str_eqb_refl.
    pose proof (vlan_group_phrase (trunk_words ++ [lit "add"]) gs v es F L (trunk_tokens5 "add" ltac:(split; [discriminate|reflexivity])) V) as Q.
    change (length (trunk_words ++ [lit "add"])) with 5%nat in Q. rewrite Q, (vlan_list_lower v es V).
    constructor; cbn [v_allowed v_add v_except v_remove]; try assumption. now apply comma_rel.
  - change kw_add with (trunk_words ++ [lit "add"]). change kw_except with (trunk_words ++ [lit "except"]).
    rewrite !begins5 by (assumption || (split; [discriminate|reflexivity])). rewrite str_eqb_refl.
    change (str_eqb (lit "except") (lit "add")) with false. cbn iota.
    pose proof (vlan_group_phrase (trunk_words ++ [lit "except"]) gs v es F L (trunk_tokens5 "except" ltac:(split; [discriminate|reflexivity])) V) as Q.
    change (length (trunk_words ++ [lit "except"])) with 5%nat in Q. rewrite Q, (vlan_list_lower v es V).
    constructor; cbn [v_allowed v_add v_except v_remove]; try assumption. now apply comma_rel.
  - change kw_add with (trunk_words ++ [lit "add"]). change kw_except with (trunk_words ++ [lit "except"]).
    change kw_remove with (trunk_words ++ [lit "remove"]).
    rewrite !begins5 by (assumption || (split; [discriminate|reflexivity])). rewrite str_eqb_refl.
    change (str_eqb (lit "remove") (lit "add")) with false. change (str_eqb (lit "remove") (lit "except")) with false. cbn iota.
    pose proof (vlan_group_phrase (trunk_words ++ [lit "remove"]) gs v es F L (trunk_tokens5 "remove" ltac:(split; [discriminate|reflexivity])) V) as Q.
    change (length (trunk_words ++ [lit "remove"])) with 5%nat in Q. rewrite Q, (vlan_list_lower v es V).
    constructor; cbn [v_allowed v_add v_except v_remove]; try assumption. now apply comma_rel.
  - assert (G4 : begins_with kw_allowed t = false).
    { apply not_true_iff_false. rewrite begins_with_iff. exact N. }
    assert (G5 : forall k, begins_with (trunk_words ++ [k]) t = false).
    { intros k. apply not_true_iff_false. rewrite begins_with_iff. intros C. apply N.
      apply (f_equal (firstn 4)) in C. rewrite firstn_firstn in C. exact C. }
    change kw_add with (trunk_words ++ [lit "add"]). change kw_except with (trunk_words ++ [lit "except"]).
    change kw_remove with (trunk_words ++ [lit "remove"]). rewrite !G5, G4. now constructor.
Qed.

Lemma fold_rel ts ss : Forall2 writes ts ss -> forall b a e r d, rel b a e r d ->
  rel (fold_left base_step ss b) (a ++ flat_map adds_of ss) (e ++ flat_map excepts_of ss) (r ++ flat_map removes_of ss)
      (fold_left vdict_step ts d).
Proof.
  induction 1 as [|t s ts ss W _ IH]; intros b a e r d R; cbn [fold_left flat_map]; [now rewrite !app_nil_r|].
  rewrite !app_assoc. apply IH. now apply step_rel.
Qed.

Lemma rel0 : rel None [] [] [] vdict0.
Proof. constructor; reflexivity. Qed.

Lemma is_switchport_true ts : Forall (fun t => words t <> []) ts -> switchport ts -> is_switchport ts = Ok true.
Proof.
  intros F (t & r & H & E). induction ts as [|u ts IH]; [destruct H|]. inversion F as [|? ? N F2]; subst. cbn [is_switchport].
  rewrite words_strip. destruct (words u) as [|w ws] eqn:Eu; [contradiction|].
  destruct (str_eqb_spec w (lit "switchport")) as [|Nw]; [reflexivity|]. apply IH; [exact F2|].
  destruct H as [->|H]; [|exact H]. rewrite E in Eu. injection Eu as <- _. contradiction.
Qed.
Lemma is_switchport_false ts : Forall (fun t => words t <> []) ts -> ~ switchport ts -> is_switchport ts = Ok false.
Proof.
  intros F S. induction ts as [|u ts IH]; [reflexivity|]. inversion F as [|? ? N F2]; subst. cbn [is_switchport].
  rewrite words_strip. destruct (words u) as [|w ws] eqn:Eu; [contradiction|].
  destruct (str_eqb_spec w (lit "switchport")) as [->|Nw].
  - exfalso. apply S. exists u, ws. split; [now left|exact Eu].
  - apply IH; [exact F2|]. intros (t & r & H & E). apply S. exists t, r. split; [now right|exact E].
Qed.
Lemma manual_access_iff ts : has_manual_switch_access ts = true <-> access_mode ts.
Proof.
  unfold has_manual_switch_access, access_mode. rewrite existsb_exists. split; intros (t & H & E); exists t; (split; [exact H|]).
  - apply begins_with_iff in E. now rewrite words_strip in E.
  - apply begins_with_iff. now rewrite words_strip.
Qed.

Lemma writes_words t s : writes t s -> words t <> [].
Proof.
  intros [gs v es F L V NV|gs F L|gs F L|gs v es F L V|gs v es F L V|gs v es F L V|u Wt N]; try exact Wt;
    rewrite phrase_words; try assumption; try discriminate; try apply trunk_tokens; apply trunk_tokens5; (split; [discriminate|reflexivity]).
Qed.
