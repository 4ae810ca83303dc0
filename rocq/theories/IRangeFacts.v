(** Lemmas on sorting interfaces and on the parts of a range. *)
From Coq Require Import Ascii String Arith NArith ZArith Bool List Lia Sorted Permutation.
From Verif Require Import PyStr PyStrFacts PyBase PyBaseFacts RangeModel RangeFacts IntfModel IntfSpec IntfFacts PIntf IRangeModel IRangeSpec.
Import ListNotations.
Local Open Scope char_scope.
Local Open Scope Z_scope.

Lemma intf_eq_same x y : intf_eq x y = true <-> same x y.
Proof.
  unfold intf_eq, same. rewrite andb_true_iff, str_eqb_eq, keys_eqb_eq, !components_keys.
  split; intros [A B]; split; auto; [now rewrite B|now apply map_conv_inj].
Qed.
Lemma intf_eq_sym x y : intf_eq x y = intf_eq y x.
Proof. apply eq_true_iff_eq. rewrite !intf_eq_same. unfold same. intuition congruence. Qed.
Lemma intf_eq_trans x y z : intf_eq x y = true -> intf_eq y z = true -> intf_eq x z = true.
Proof. rewrite !intf_eq_same. unfold same. intuition congruence. Qed.

(** ** Order *)

Lemma lt_before x y : intf_lt x y = Ok true <-> before x y.
Proof. apply C37_order. Qed.
Lemma key_ltb_total a b : key_eqb a b = false -> key_ltb a b = Ok false -> key_ltb b a = Ok true.
Proof.
  destruct a as [|x|x], b as [|y|y]; cbn [key_ltb key_eqb]; try discriminate.
  - intros D [= H]. apply Z.eqb_neq in D. apply Z.ltb_ge in H. f_equal. apply Z.ltb_lt. lia.
  - intros D [= H]. apply str_eqb_neq in D. f_equal. apply str_ltb_before.
    destruct (word_total x y) as [K|[K|K]]; [contradiction| |assumption]. apply str_ltb_before in K. congruence.
Qed.
Lemma key_eqb_sym a b : key_eqb a b = key_eqb b a.
Proof. apply eq_true_iff_eq. rewrite !key_eqb_eq. split; congruence. Qed.
Lemma keys_ltb_total l : forall m, length l = length m -> keys_ltb l m = Ok false -> keys_ltb m l = Ok true \/ l = m.
Proof.
  induction l as [|x l IH]; intros [|y m] L; try discriminate L; [now right|]. cbn [keys_ltb]. rewrite (key_eqb_sym y x).
  destruct (key_eqb x y) eqn:E.
  - intros H. apply key_eqb_eq in E as ->. injection L as L. destruct (IH m L H) as [K| ->]; auto.
  - intros H. left. now apply key_ltb_total.
Qed.
Lemma lt_false x y : intf_lt x y = Ok false -> components x = components y \/ before y x.
Proof.
  intros H. destruct (keys_ltb_total (sort_list x) (sort_list y) eq_refl H) as [K|K].
  - right. now apply lt_before.
  - left. now rewrite !components_keys, K.
Qed.
Lemma before_irrefl x : ~ before x x.
Proof. apply fd_irrefl. Qed.
Lemma before_trans x y z : before x y -> before y z -> before x z.
Proof. apply fd_trans. Qed.
Lemma same_components_before x y z : components x = components y -> (before x z <-> before y z) /\ (before z x <-> before z y).
Proof. intros E. unfold before. rewrite E. tauto. Qed.
Definition upto (x y : intf) : Prop := components x = components y \/ before x y.
Lemma upto_trans x y z : upto x y -> upto y z -> upto x z.
Proof.
  intros [A|A] [B|B].
  - left. congruence.
  - right. now apply (same_components_before x y z A).
  - right. now apply (same_components_before y z x B).
  - right. eauto using before_trans.
Qed.
Lemma upto_not x y : upto x y -> ~ before y x.
Proof.
  intros [A|A] B.
  - apply (before_irrefl x). now apply (proj1 (same_components_before x y x A)).
  - apply (before_irrefl x). eauto using before_trans.
Qed.

Lemma fd_iff (R Q : component -> component -> Prop) a b : (forall k x y, nth_error a k = Some x -> nth_error b k = Some y -> x <> y -> (R x y <-> Q x y)) ->
  first_difference R a b <-> first_difference Q a b.
Proof. intros H. split; intros (k & x & y & A & B & D & F & G); exists k, x, y; repeat split; auto; now apply (H k x y A B D). Qed.
Lemma fd_some a : forall b, length a = length b -> a <> b -> first_difference (fun _ _ => True) a b.
Proof.
  induction a as [|x a IH]; intros [|y b] L N; try discriminate L; [congruence|]. apply fd_cons.
  assert (D : x = y \/ x <> y) by (repeat decide equality). destruct D as [->|D]; [|auto].
  right. split; [reflexivity|]. apply IH; [now injection L|congruence].
Qed.
Lemma fd_or R Q a : forall b, first_difference R a b -> first_difference Q a b -> first_difference (fun x y => R x y /\ Q x y) a b.
Proof.
  induction a as [|x a IH]; intros [|y b]; try (intros H; now apply fd_nil in H).
  - intros (k & u & v & _ & E & _). now destruct k.
  - rewrite !fd_cons. intros [[D H]|[E H]] [[D1 K]|[E1 K]]; try contradiction; auto.
Qed.
(** Comparison succeeds exactly on comparable interfaces. *)
Lemma can_compare_ok x y : can_compare x y <-> exists b, intf_lt x y = Ok b.
Proof.
  assert (L : length (components x) = length (components y)) by reflexivity.
  assert (P : forall u v, first_difference comparable u v -> first_difference (fun x y => x = Absent \/ y = Absent) u v -> False).
  { intros u v A B. pose proof (fd_or _ _ _ _ A B) as (k & p & q & _ & _ & _ & _ & C & D). inversion C; subst; destruct D; discriminate. }
  split.
  - intros H. destruct (intf_lt x y) as [b|e] eqn:E; [now exists b|]. exfalso.
    assert (e = TypeErr) as -> by (apply (C37_order x y); auto). apply lt_error in E. destruct H as [H|H].
    + destruct E as (k & p & q & A & B & D & _). congruence.
    + now apply (P _ _ H).
  - intros [[] H].
    + right. apply lt_before in H. destruct H as (k & p & q & A & B & D & F & G). exists k, p, q. repeat split; auto. inversion G; constructor.
    + apply lt_false in H as [H|H]; [now left|]. right. destruct H as (k & p & q & A & B & D & F & G). exists k, q, p. repeat split; auto. inversion G; constructor.
Qed.
Lemma can_compare_sym x y : can_compare x y -> can_compare y x.
Proof.
  intros [H|(k & p & q & A & B & D & F & G)]; [now left|]. right. exists k, q, p. repeat split; auto. inversion G; constructor.
Qed.
Lemma upto_compare x y : upto x y -> can_compare x y.
Proof. intros [H|(k & p & q & A & B & D & F & G)]; [now left|]. right. exists k, p, q. repeat split; auto. inversion G; constructor. Qed.

(** ** Sorting *)

Lemma insert_intf_spec x l m : StronglySorted upto l -> insert_intf x l = Ok m ->
  Permutation (x :: l) m /\ StronglySorted upto m /\ Forall (can_compare x) l.
Proof.
  revert m. induction l as [|y r IH]; intros m S H; cbn [insert_intf] in H.
  - injection H as <-. repeat split; auto. now repeat constructor.
  - inversion S as [|? ? S' F]; subst. destruct (intf_lt y x) as [[]|e] eqn:E; cbn [bind] in H; [| |discriminate].
    + destruct (insert_intf x r) as [r'|e] eqn:I; cbn [bind] in H; [|discriminate]. injection H as <-.
      destruct (IH r' S' eq_refl) as (P & Q & G). apply lt_before in E. split; [|split].
      * rewrite perm_swap. now constructor.
      * constructor; [assumption|]. apply Forall_forall. intros z Hz. apply (Permutation_in z (Permutation_sym P)) in Hz as [<-|Hz]; [now right|].
        now apply (proj1 (Forall_forall _ _) F).
      * constructor; [|assumption]. apply can_compare_sym, upto_compare. now right.
    + injection H as <-. assert (U : upto x y) by (apply lt_false in E; destruct E; [left; congruence|now right]).
      split; [reflexivity|]. split.
      * constructor; [now constructor|]. constructor; [assumption|]. eapply Forall_impl; [|exact F]. intros z. now apply upto_trans.
      * constructor; [now apply upto_compare|]. eapply Forall_impl; [|exact F]. intros z Hz. apply upto_compare. now apply (upto_trans x y).
Qed.
Lemma insert_intf_ok x l : Forall (can_compare x) l -> exists m, insert_intf x l = Ok m.
Proof.
  induction 1 as [|y r C F [r' IH]]; cbn [insert_intf]; [now eexists|].
  apply can_compare_sym, can_compare_ok in C as [[] ->]; cbn [bind]; [|now eexists]. rewrite IH. now eexists.
Qed.
Lemma insert_intf_err x l e : insert_intf x l = Err e -> e = TypeErr.
Proof.
  induction l as [|y r IH]; cbn [insert_intf]; [discriminate|].
  destruct (intf_lt y x) as [[]|f] eqn:E; cbn [bind].
  - destruct (insert_intf x r); cbn [bind]; [discriminate|]. intros [= <-]. now apply IH.
  - discriminate.
  - intros [= <-]. apply (C37_order y x). auto.
Qed.

Definition all_compare (l : list intf) : Prop := forall x y, In x l -> In y l -> can_compare x y.
Lemma can_compare_refl x : can_compare x x. Proof. now left. Qed.
Lemma sort_intfs_inv l : forall m, sort_intfs l = Ok m -> Permutation l m /\ StronglySorted upto m /\ all_compare l.
Proof.
  induction l as [|x l IH]; intros m H; cbn [sort_intfs] in H.
  - injection H as <-. repeat split; auto; [constructor|]. intros x y [].
  - destruct (sort_intfs l) as [r|e] eqn:E; cbn [bind] in H; [|discriminate]. destruct (IH r eq_refl) as (P & S & C).
    destruct (insert_intf_spec x r m S H) as (Q & T & F). split; [|split; [assumption|]].
    + now rewrite P.
    + assert (G : forall y, In y l -> can_compare x y) by (intros y Hy; apply (proj1 (Forall_forall _ _) F); now apply (Permutation_in y P)).
      intros u v [<-|Hu] [<-|Hv]; auto using can_compare_refl, can_compare_sym.
Qed.
Lemma sort_intfs_ok l : all_compare l -> exists m, sort_intfs l = Ok m.
Proof.
  induction l as [|x l IH]; intros C; cbn [sort_intfs]; [now eexists|].
  destruct IH as [r E]; [intros u v Hu Hv; apply C; now right|]. rewrite E. cbn [bind]. apply insert_intf_ok.
  destruct (sort_intfs_inv _ _ E) as (P & _). apply Forall_forall. intros y Hy. apply C; [now left|right]. now apply (Permutation_in y (Permutation_sym P)).
Qed.
Lemma sort_intfs_err l e : sort_intfs l = Err e -> e = TypeErr.
Proof.
  induction l as [|x l IH]; cbn [sort_intfs]; [discriminate|]. destruct (sort_intfs l) as [r|f]; cbn [bind].
  - apply insert_intf_err.
  - intros [= <-]. now apply IH.
Qed.
Lemma compare_dec x y : can_compare x y \/ ~ can_compare x y.
Proof. rewrite can_compare_ok. destruct (intf_lt x y) as [b|e]; [left; now exists b|right; intros [b H]; discriminate]. Qed.
Lemma sort_intfs_fails l x y : In x l -> In y l -> ~ can_compare x y -> sort_intfs l = Err TypeErr.
Proof.
  intros Hx Hy N. destruct (sort_intfs l) as [m|e] eqn:E; [|now rewrite (sort_intfs_err _ _ E)].
  destruct (sort_intfs_inv _ _ E) as (_ & _ & C). now specialize (C x y Hx Hy).
Qed.
Lemma attribute_sort_cons l : l <> [] -> attribute_sort l = sort_intfs l.
Proof. now destruct l. Qed.

(** ** Parts *)

Lemma intf_of_name_strip t : intf_of_name (strip t) = intf_of_name t.
Proof.
  unfold intf_of_name. rewrite strip_idem.
  assert (E : has_char "," (strip t) = has_char "," t); [|now rewrite E].
  destruct (strip_parts t) as (a & b & E & A & B). rewrite E at 2. rewrite !has_char_app.
  assert (W : forall w, white w -> has_char "," w = false).
  { intros w Hw. apply has_char_false. intros I. apply (proj1 (forallb_forall _ _) Hw) in I. discriminate. }
  rewrite (W a A), (W b B). now rewrite orb_false_r.
Qed.
Lemma intf_name_chars t i : intf_of_name t = Ok i -> has_char "," t = false /\ t <> [].
Proof.
  unfold intf_of_name. destruct (has_char "," t) eqn:E; [discriminate|]. intros H. split; [reflexivity|]. intros ->. discriminate.
Qed.
Lemma intf_name_sep t i : intf_of_name t = Ok i -> forall s, i_slot i = Some s -> i_sep i <> None.
Proof.
  intros H s E. destruct (C36_normal_form _ _ H) as (n & _ & En & _). rewrite En in *. cbn [interface i_slot i_sep] in *. now destruct n.
Qed.
Lemma set_class_ok w t i : intf_of_name t = Ok i -> intf_of_dict (set_class w i) = Ok (set_class w i).
Proof.
  intros H. pose proof (C36_copy _ _ H) as C. unfold intf_of_dict in *. unfold set_class. cbn [i_slot i_sep i_prefix i_card i_port i_sub i_chan i_class].
  destruct (i_slot i) eqn:S.
  - destruct (i_sep i); [reflexivity|discriminate].
  - injection C as C. assert (K : i_card i = None) by (rewrite <- C; reflexivity). now rewrite K.
Qed.

Lemma no_digit_isdigit c : str_isdigit c = false <-> no_digit c.
Proof.
  unfold str_isdigit, no_digit, code. rewrite !orb_false_iff, !N.eqb_neq. cbn [In]. intuition.
Qed.
Lemma digit_isdigit c : is_digit c = true -> str_isdigit c = true.
Proof. unfold str_isdigit. now intros ->. Qed.
Lemma space_isdigit c : is_space c = true -> str_isdigit c = false. Proof. revert c. by_chars. Qed.
Lemma filter_all {A} (f : A -> bool) l : (forall x, In x l -> f x = true) -> filter f l = l.
Proof. induction l as [|x l IH]; intros H; [reflexivity|]. cbn [filter]. rewrite H by now left. f_equal. apply IH. intros; apply H; now right. Qed.
Lemma filter_none {A} (f : A -> bool) l : (forall x, In x l -> f x = false) -> filter f l = [].
Proof. induction l as [|x l IH]; intros H; [reflexivity|]. cbn [filter]. rewrite H by now left. apply IH. intros; apply H; now right. Qed.
Lemma filter_strip f s : (forall c, is_space c = true -> f c = false) -> filter f (strip s) = filter f s.
Proof.
  intros H. destruct (strip_parts s) as (a & b & E & A & B). rewrite E at 2. rewrite !filter_app.
  assert (W : forall w, white w -> filter f w = []).
  { intros w Hw. apply filter_none. intros c Hc. apply H. now apply (proj1 (forallb_forall _ _) Hw). }
  rewrite (W a A), (W b B). now rewrite app_nil_r.
Qed.
Lemma end_number g d e r : white g -> numeral d e -> (forall c, In c r -> no_digit c) ->
  int_or_err (filter str_isdigit (strip (g ++ d ++ r))) = Ok e.
Proof.
  intros G D R. rewrite filter_strip by apply space_isdigit. rewrite !filter_app.
  rewrite (filter_none _ g), (filter_none _ r).
  - rewrite app_nil_r. cbn [app]. pose proof (numeral_digits _ _ D) as DD. rewrite filter_all.
    + unfold int_or_err. rewrite py_int_digits.
      * f_equal. change (digits_Z d = e). now apply numeral_value.
      * exact DD.
      * destruct (numeral_head _ _ D) as (c & u & -> & _). discriminate.
    + intros c Hc. apply digit_isdigit. now apply (proj1 (forallb_forall _ _) DD).
  - intros c Hc. now apply no_digit_isdigit, R.
  - intros c Hc. apply space_isdigit. now apply (proj1 (forallb_forall _ _) G).
Qed.

Lemma digit_not c x : is_digit c = true -> is_digit x = false -> c <> x.
Proof. congruence. Qed.
Lemma part_chars a t i v e : writes_part a t i v e -> has_char "," t = false /\ t <> [].
Proof.
  intros [h j x D I V|h j x g d n r D I V G N R]; [now apply (intf_name_chars _ j)|].
  destruct (intf_name_chars _ _ I) as [C NE]. split.
  - rewrite has_char_app, C. cbn [orb]. change (has_char "," ("-" :: g ++ d ++ r)) with (has_char "," (g ++ d ++ r)).
    apply has_char_false. rewrite !in_app_iff. intros [H|[H|H]].
    + apply (proj1 (forallb_forall _ _) G) in H. discriminate.
    + pose proof (numeral_digits _ _ N) as DD. apply (proj1 (forallb_forall _ _) DD) in H. discriminate.
    + now apply R in H.
  - intros E. apply app_eq_nil in E as [_ E]. discriminate.
Qed.
Lemma part_head a t i v e : writes_part a t i v e -> intf_of_name (head_of t) = Ok i.
Proof.
  intros [h j x D I V|h j x g d n r D I V G N R]; unfold head_of.
  - now rewrite split_on_nochar by now apply has_char_false.
  - now rewrite split_on_app by now apply has_char_false.
Qed.
Lemma part_number a t i v e : writes_part a t i v e -> number_of a i = Some v.
Proof. now intros []. Qed.

Lemma get_number a i : get_attr a i = number_of a i. Proof. now destruct a. Qed.
Lemma set_renumbered a n i : set_attr a (Some n) i = renumbered a n (i_class i) i. Proof. now destruct a. Qed.
Lemma renumbered_again a n m c d i : renumbered a n c (renumbered a m d i) = renumbered a n c i. Proof. now destruct a. Qed.
Lemma renumbered_self a v i : number_of a i = Some v -> renumbered a v (i_class i) i = i.
Proof. destruct a, i; cbn; intros [= <-] || intros ->; reflexivity. Qed.
Lemma renumbered_inj a n m c i : same (renumbered a n c i) (renumbered a m c i) -> n = m.
Proof. intros [_ H]. unfold components in H. destruct a; cbn [renumbered i_slot i_card i_port i_sub i_chan i_class num] in H; injection H; auto. Qed.
Lemma renumbered_before a n m c i : n < m -> before (renumbered a n c i) (renumbered a m c i).
Proof.
  intros H. unfold before, components. destruct a; cbn [renumbered i_slot i_card i_port i_sub i_chan i_class num]; rewrite !fd_cons;
    repeat first [left; split; [injection; intros; subst; lia|now constructor] | right; split; [reflexivity|]].
Qed.
Lemma iter_runs i a : runs_over i a -> iter_attr i = a.
Proof. unfold iter_attr. intros [j c H|j s H K|j H K]; now rewrite H, ?K. Qed.

Lemma expand_part_spec a t i v e this : writes_part a t i v e -> number_of a this = Some v ->
  exists l, expand_part a this t = Ok l /\ forall j, In j l <-> exists n, v <= n <= e /\ j = renumbered a n (i_class this) this.
Proof.
  intros [h j x D I V|h j x g d n r D I V G N R] T; unfold expand_part.
  - rewrite (proj2 (has_char_false _ _) D). exists [this]. split; [reflexivity|]. intros k. split.
    + intros [<-|[]]. exists x. split; [lia|]. now rewrite renumbered_self.
    + intros (m & H & ->). assert (m = x) as -> by lia. left. now rewrite renumbered_self.
  - rewrite has_char_app, (proj2 (has_char_false _ _) D). cbn [orb].
    change (has_char "-" ("-" :: g ++ d ++ r)) with true. cbv iota.
    assert (ND : has_char "-" (g ++ d ++ r) = false).
    { apply has_char_false. rewrite !in_app_iff. intros [H|[H|H]].
      - apply (proj1 (forallb_forall _ _) G) in H. discriminate.
      - pose proof (numeral_digits _ _ N) as DD. apply (proj1 (forallb_forall _ _) DD) in H. discriminate.
      - now apply R in H. }
    rewrite split_on_app by now apply has_char_false. rewrite (split_on_nochar _ _ ND).
    rewrite intf_of_name_strip, I. cbn [bind]. rewrite (end_number g d n r G N) by (intros c Hc; now apply R). cbn [bind].
    rewrite get_number, V. eexists. split; [reflexivity|]. intros k. rewrite in_map_iff. split.
    + intros (m & <- & H). apply interval_in in H. exists m. split; [assumption|]. apply set_renumbered.
    + intros (m & H & ->). exists m. split; [apply set_renumbered|now apply interval_in].
Qed.

Lemma later_parts_spec a b ps vs : Forall2 (fun t ve => exists i, writes_part a t i (fst ve) (snd ve)) ps vs -> number_of a b <> None ->
  exists l, later_parts a b ps = Ok l /\
    forall j, In j l <-> exists v e n, In (v, e) vs /\ v <= n <= e /\ j = renumbered a n (i_class b) b.
Proof.
  intros H B. induction H as [|t [v e] ps vs (i & W) _ (m & Em & IH)]; cbn [later_parts].
  - exists []. split; [reflexivity|]. intros j. split; [intros []|]. intros (v & e & n & [] & _).
  - cbn [fst snd] in W. unfold later_obj. rewrite intf_of_name_strip, (part_head _ _ _ _ _ W). cbn [bind].
    rewrite get_number, (part_number _ _ _ _ _ W).
    destruct (expand_part_spec a t i v e (set_attr a (Some v) b) W) as (l & -> & L); [now destruct a|]. cbn [bind]. rewrite Em. cbn [bind].
    exists (l ++ m). split; [reflexivity|]. intros j. rewrite in_app_iff, L, IH. rewrite set_renumbered.
    change (i_class (renumbered a v (i_class b) b)) with (i_class b). split.
    + intros [(n & R & ->)|(v' & e' & n & I & R & ->)].
      * exists v, e, n. repeat split; try lia; [now left|]. apply renumbered_again.
      * exists v', e', n. repeat split; try lia. now right.
    + intros (v' & e' & n & [[= -> ->]|I] & R & ->).
      * left. exists n. split; [assumption|]. symmetry. apply renumbered_again.
      * right. now exists v', e', n.
Qed.

Lemma last_word_words t w : last_word t w -> exists ws, rev (words t) = w :: ws.
Proof.
  intros (NE & NS & r & post & -> & P & H).
  assert (T : words (w ++ post) = [w]).
  { rewrite <- words_strip. replace (strip (w ++ post)) with w.
    - change w with (join [" "] [w]) at 1. apply words_join. constructor; [|constructor]. split; [assumption|].
      apply forallb_forall. intros c Hc. now rewrite (NS c Hc).
    - unfold strip. rewrite rstrip_app_white by exact P.
      destruct (exists_last NE) as (u & c & E). rewrite E. rewrite rstrip_app_cons by (apply NS; rewrite E; apply in_or_app; right; now left).
      rewrite <- E. destruct w as [|x w']; [congruence|]. symmetry. apply lstrip_not_space. apply NS. now left. }
  assert (A : forall s acc, words_aux acc (r ++ s) = words_aux acc (r ++ s)) by reflexivity.
  destruct H as [-> |(u & c & -> & C)].
  - rewrite app_nil_l, T. now exists [].
  - assert (G : forall s acc d, is_space d = true -> words_aux acc (s ++ d :: (w ++ post)) = words_aux acc (s ++ [d]) ++ words (w ++ post)).
    { clear. induction s as [|x s IH]; intros acc d D; cbn [app words_aux].
      - rewrite D. now destruct acc.
      - destruct (is_space x); [|now apply IH]. destruct acc; [now apply IH|]. rewrite (IH [] d D). reflexivity. }
    rewrite <- app_assoc. cbn [app]. unfold words. rewrite G by assumption. rewrite T, rev_app_distr. cbn [rev app]. now eexists.
Qed.
