(** Properties of transport port specifications (L4Object). *)
From Coq Require Import Ascii String Arith NArith ZArith Bool List Lia Sorted.
From Verif Require Import PyStr PyStrFacts PyBase PyBaseFacts RangeModel RangeSpec RangeFacts L4Model L4Spec.
Import ListNotations.
Local Open Scope char_scope.
Local Open Scope Z_scope.

(** ** Port words *)

Definition token_char (c : ascii) : bool := negb (is_space c).
Definition name_ok (kv : str * Z) : bool :=
  match fst kv with [] => false | c :: _ => is_alpha c end && forallb token_char (fst kv).

Lemma names_ok ports pr : protocol_names pr ports -> forallb name_ok ports = true.
Proof. intros []; vm_compute; reflexivity. Qed.

Definition unique_names (ports : list (str * Z)) : bool :=
  forallb (fun kv => match find (fun kv' => str_eqb (fst kv') (fst kv)) ports with Some kv' => snd kv' =? snd kv | None => false end) ports.
Lemma names_unique ports pr : protocol_names pr ports -> unique_names ports = true.
Proof. intros []; vm_compute; reflexivity. Qed.

Lemma show_no_alpha z c r : show_Z z = c :: r -> is_alpha c = false.
Proof.
  destruct z as [|q|q]; cbn [show_Z]; intros E.
  - injection E as <- _. reflexivity.
  - pose proof (show_N_digits (Npos q)) as D. rewrite E in D. cbn [forallb] in D. apply andb_true_iff in D as [D _].
    destruct (is_alpha c) eqn:A; [apply alpha_not_digit in A; congruence|reflexivity].
  - injection E as <- _. reflexivity.
Qed.
Lemma show_tokens z : forallb token_char (show_Z z) = true.
Proof.
  assert (D : forall s, forallb is_digit s = true -> forallb token_char s = true).
  { intros s. rewrite !forallb_forall. intros H c Hc. unfold token_char. now rewrite digit_not_space by auto. }
  destruct z as [|q|q]; cbn [show_Z]; [reflexivity|apply D, show_N_digits|]. cbn [forallb app lit list_ascii_of_string]. apply (D _ (show_N_digits (Npos q))).
Qed.

Lemma port_of_named pr ports w p : protocol_names pr ports -> names_port ports w p -> port_of ports w = Ok p.
Proof.
  intros P [H| ->]; unfold port_of.
  - pose proof (names_unique ports pr P) as U. unfold unique_names in U. rewrite forallb_forall in U. specialize (U _ H). cbn [fst snd] in U.
    destruct (find _ ports) as [kv|]; [|discriminate]. apply Z.eqb_eq in U. now rewrite U.
  - destruct (find _ ports) as [kv|] eqn:E; [|unfold int_or_err; now rewrite py_int_show_Z].
    exfalso. apply find_some in E as [E1 E2]. apply str_eqb_eq in E2. pose proof (names_ok ports pr P) as N. rewrite forallb_forall in N.
    specialize (N _ E1). unfold name_ok in N. rewrite E2 in N. apply andb_true_iff in N as [N _].
    destruct (show_Z p) as [|c r] eqn:F; [discriminate|]. apply show_no_alpha in F. congruence.
Qed.

Lemma named_token pr ports w p : protocol_names pr ports -> names_port ports w p -> w <> [] /\ forallb token_char w = true.
Proof.
  intros P [H| ->].
  - pose proof (names_ok ports pr P) as N. rewrite forallb_forall in N. specialize (N _ H). unfold name_ok in N. cbn [fst] in N.
    apply andb_true_iff in N as [N M]. split; [intros ->; discriminate|exact M].
  - split; [apply show_nonempty|apply show_tokens].
Qed.

(** ** Searching for "kw " *)

Fixpoint ends_with (k w : str) : bool :=
  match w with
  | [] => str_eqb k []
  | _ :: w' => str_eqb k w || ends_with k w'
  end.

Lemma starts_with_sep k : forall w c r, forallb token_char k = true -> forallb token_char w = true -> is_space c = true ->
  starts_with (k ++ [" "]) (w ++ c :: r) = str_eqb k w && Ascii.eqb " " c.
Proof.
  induction k as [|x k IH]; intros w c r K W C.
  - destruct w as [|y w]; cbn [app starts_with str_eqb andb].
    + now rewrite andb_true_r.
    + cbn [forallb] in W. apply andb_true_iff in W as [W _]. destruct (Ascii.eqb_spec " " y) as [<-|]; [discriminate|reflexivity].
  - cbn [forallb] in K. apply andb_true_iff in K as [K1 K2]. destruct w as [|y w]; cbn [app starts_with str_eqb].
    + destruct (Ascii.eqb_spec x c) as [->|]; [unfold token_char in K1; rewrite C in K1; discriminate|reflexivity].
    + cbn [forallb] in W. apply andb_true_iff in W as [_ W]. rewrite IH by assumption. now rewrite andb_assoc.
Qed.

Lemma contains_sep k w c r : k <> [] -> forallb token_char k = true -> forallb token_char w = true -> is_space c = true ->
  contains (k ++ [" "]) (w ++ c :: r) = (ends_with k w && Ascii.eqb " " c) || contains (k ++ [" "]) r.
Proof.
  intros N K W C. induction w as [|y w IH].
  - change (contains (k ++ [" "]) ([] ++ c :: r)) with (starts_with (k ++ [" "]) ([] ++ c :: r) || contains (k ++ [" "]) r).
    rewrite starts_with_sep by assumption. reflexivity.
  - pose proof W as W'. cbn [forallb] in W'. apply andb_true_iff in W' as [_ W'].
    change (contains (k ++ [" "]) ((y :: w) ++ c :: r)) with (starts_with (k ++ [" "]) ((y :: w) ++ c :: r) || contains (k ++ [" "]) (w ++ c :: r)).
    rewrite starts_with_sep, IH by assumption. cbn [ends_with]. now destruct (str_eqb k (y :: w)), (ends_with k w), (Ascii.eqb " " c), (contains (k ++ [" "]) r).
Qed.

Lemma starts_with_long p : forall s, starts_with p s = true -> exists r, s = p ++ r.
Proof.
  induction p as [|x p IH]; intros s H; [now exists s|]. destruct s as [|y s]; [discriminate|]. cbn [starts_with] in H.
  apply andb_true_iff in H as [H1 H2]. apply Ascii.eqb_eq in H1. subst y. destruct (IH s H2) as [r ->]. now exists r.
Qed.
Lemma contains_token k w : forallb token_char w = true -> contains (k ++ [" "]) w = false.
Proof.
  induction w as [|y w IH]; intros W.
  - destruct k; reflexivity.
  - change (contains (k ++ [" "]) (y :: w)) with (starts_with (k ++ [" "]) (y :: w) || contains (k ++ [" "]) w).
    pose proof W as W'. cbn [forallb] in W'. apply andb_true_iff in W' as [_ W']. rewrite IH, orb_false_r by exact W'.
    apply not_true_iff_false. intros H. apply starts_with_long in H as [r H]. rewrite <- app_assoc in H. rewrite H in W.
    rewrite !forallb_app in W. apply andb_true_iff in W as [_ W]. discriminate.
Qed.
Lemma contains_gap k g r : k <> [] -> forallb token_char k = true -> blank g -> contains (k ++ [" "]) (g ++ r) = contains (k ++ [" "]) r.
Proof.
  intros N K G. unfold blank in G. induction g as [|c g IH]; [reflexivity|]. cbn [forallb] in G. apply andb_true_iff in G as [G1 G2].
  change ((c :: g) ++ r) with ([] ++ c :: (g ++ r)). rewrite contains_sep by (assumption || reflexivity). rewrite IH by exact G2.
  destruct k; [contradiction|reflexivity].
Qed.

(** ** Stripping *)

Lemma strip_blank pre s post c d t : blank pre -> blank post -> s = c :: t -> is_space c = false ->
  (exists u, s = u ++ [d]) -> is_space d = false -> strip (pre ++ s ++ post) = s.
Proof.
  intros P Q E C [u U] D. unfold strip.
  assert (R : rstrip (pre ++ s ++ post) = pre ++ s).
  { unfold rstrip. rewrite !rev_app_distr, <- app_assoc. rewrite lstrip_app_space by (rewrite forallb_rev; exact Q).
    rewrite U, rev_app_distr. cbn [rev app lstrip]. rewrite D. cbn [rev]. rewrite rev_app_distr, !rev_involutive. now rewrite <- app_assoc. }
  rewrite R, lstrip_app_space by exact P. rewrite E. apply lstrip_not_space. exact C.
Qed.

Lemma token_ends w : w <> [] -> forallb token_char w = true ->
  (exists c t, w = c :: t /\ is_space c = false) /\ (exists u d, w = u ++ [d] /\ is_space d = false).
Proof.
  intros N W. split.
  - destruct w as [|c t]; [contradiction|]. exists c, t. split; [reflexivity|]. cbn [forallb] in W. apply andb_true_iff in W as [W _]. now apply negb_true_iff in W.
  - destruct (exists_last N) as (u & d & ->). exists u, d. split; [reflexivity|]. rewrite forallb_app in W. apply andb_true_iff in W as [_ W].
    cbn [forallb] in W. rewrite andb_true_r in W. now apply negb_true_iff in W.
Qed.

Lemma strip_spec pre k s w post : blank pre -> blank post -> k <> [] -> forallb token_char k = true -> w <> [] -> forallb token_char w = true ->
  strip (pre ++ (k ++ s ++ w) ++ post) = k ++ s ++ w.
Proof.
  intros P Q K1 K2 W1 W2. destruct (token_ends k K1 K2) as [(c & t & E & C) _]. destruct (token_ends w W1 W2) as [_ (u & d & F & D)].
  apply (strip_blank pre _ post c d (t ++ s ++ w)); try assumption.
  - now rewrite E.
  - exists (k ++ s ++ u). rewrite F. now rewrite <- !app_assoc.
Qed.
Lemma strip_one pre w post : blank pre -> blank post -> w <> [] -> forallb token_char w = true -> strip (pre ++ w ++ post) = w.
Proof.
  intros P Q W1 W2. destruct (token_ends w W1 W2) as [(c & t & E & C) (u & d & F & D)].
  apply (strip_blank pre _ post c d t); try assumption. now exists u.
Qed.

Lemma words_sep w c r : w <> [] -> forallb token_char w = true -> is_space c = true -> words (w ++ c :: r) = w :: words r.
Proof.
  intros N W C. unfold words. rewrite words_aux_word by exact W. rewrite app_nil_r. rewrite words_aux_acc_space; [now rewrite rev_involutive| |exact C].
  intros E. apply (f_equal (@rev ascii)) in E. now rewrite rev_involutive in E.
Qed.
Lemma words_token w : w <> [] -> forallb token_char w = true -> words w = [w].
Proof.
  intros N W. unfold words. rewrite words_aux_token_end by (exact W || (rewrite app_nil_r; intros E; apply (f_equal (@rev ascii)) in E; now rewrite rev_involutive in E)).
  now rewrite app_nil_r, rev_involutive.
Qed.
Lemma words_blank g r : blank g -> words (g ++ r) = words r.
Proof. apply words_aux_space_prefix. Qed.

(** ** The branches *)

Lemma one_word_space k c r : is_space c = true -> one_word (k ++ c :: r) = false.
Proof.
  intros C. unfold one_word. destruct (k ++ c :: r) eqn:E; [reflexivity|]. rewrite <- E, forallb_app. cbn [forallb]. rewrite C. cbn [negb andb]. apply andb_false_r.
Qed.

Section branches.
  Variables (pr : str) (ports : list (str * Z)).
  Hypothesis P : protocol_names pr ports.

  Lemma object_list s : l4_object pr s (lit "asa") = rmap (fun l => {| l4_protocol := pr; l4_ports := l |}) (l4_list ports s).
  Proof. destruct P; unfold l4_object; cbn [str_eqb lit list_ascii_of_string]; cbn; destruct (l4_list _ s); reflexivity. Qed.

  Lemma two_words_contains k kw g w : k <> [] -> forallb token_char k = true -> forallb token_char kw = true -> blank g -> forallb token_char w = true ->
    contains (k ++ [" "]) (kw ++ (" " :: g) ++ w) = ends_with k kw.
  Proof.
    intros K1 K2 KW G W. cbn [app]. rewrite contains_sep by (assumption || reflexivity). rewrite contains_gap by assumption.
    rewrite contains_token by exact W. cbn. now rewrite andb_true_r, orb_false_r.
  Qed.

  Lemma list_two kw pre g w post p : kw <> [] -> forallb token_char kw = true -> blank pre -> blank g -> blank post -> names_port ports w p ->
    l4_list ports (pre ++ (kw ++ (" " :: g) ++ w) ++ post) =
      if ends_with (lit "eq") kw then if between 1 p 65535 then Ok [p] else Err RequirementFailure
      else if ends_with (lit "range") kw then Err IndexError
      else if ends_with (lit "lt") kw then if between 2 p 65535 then Ok (interval 1 (p - 1)) else Err RequirementFailure
      else if ends_with (lit "gt") kw then if between 1 p 65534 then Ok (interval (p + 1) 65535) else Err RequirementFailure
      else Err NotImplementedErr.
  Proof.
    intros K1 K2 Bp Bg Bq W. destruct (named_token pr ports w p P W) as [W1 W2]. unfold l4_list.
    rewrite strip_spec by assumption.
    change (lit "eq ") with (lit "eq" ++ [" "]). change (lit "range ") with (lit "range" ++ [" "]).
    change (lit "lt ") with (lit "lt" ++ [" "]). change (lit "gt ") with (lit "gt" ++ [" "]).
    rewrite !two_words_contains by (assumption || discriminate || reflexivity).
    assert (E : words (kw ++ (" " :: g) ++ w) = [kw; w]).
    { cbn [app]. rewrite words_sep by (assumption || reflexivity). rewrite words_blank by exact Bg. now rewrite words_token. }
    assert (O : one_word (kw ++ (" " :: g) ++ w) = false) by (apply one_word_space; reflexivity).
    unfold last_word. rewrite E, O. cbn [last tl].
    pose proof (strip_one [] w [] eq_refl eq_refl W1 W2) as St. cbn [app] in St. rewrite app_nil_r in St. rewrite St.
    rewrite (port_of_named pr ports w p P W). reflexivity.
  Qed.
End branches.

Lemma assoc_eq (pre k g w post : str) : pre ++ (k ++ " " :: g) ++ w ++ post = pre ++ (k ++ (" " :: g) ++ w) ++ post.
Proof. now rewrite <- !app_assoc. Qed.

(** ** C38 *)

(** "eq w" is the port that w stands for, which must lie in 1..65535. *)
Theorem C38_eq : forall pr ports pre g w post p, protocol_names pr ports -> blank pre -> blank g -> blank post -> names_port ports w p ->
  let r := l4_object pr (pre ++ (lit "eq" ++ " " :: g) ++ w ++ post) (lit "asa") in
  (1 <= p <= 65535 -> r = Ok {| l4_protocol := pr; l4_ports := [p] |}) /\
  (~ 1 <= p <= 65535 -> r = Err RequirementFailure).
Proof.
  intros pr ports pre g w post p P B1 B2 B3 W. cbv zeta. rewrite assoc_eq, (object_list pr ports P).
  rewrite (list_two pr ports P (lit "eq") pre g w post p) by (assumption || discriminate || reflexivity).
  change (ends_with (lit "eq") (lit "eq")) with true. cbn iota. unfold between.
  split; intros H; destruct (Z.leb_spec 1 p), (Z.leb_spec p 65535); cbn [andb rmap]; try reflexivity; lia.
Qed.
Print Assumptions C38_eq.

(** "eq" may be left out. *)
Theorem C38_plain : forall pr ports pre w post p, protocol_names pr ports -> blank pre -> blank post -> names_port ports w p ->
  let r := l4_object pr (pre ++ w ++ post) (lit "asa") in
  (1 <= p <= 65535 -> r = Ok {| l4_protocol := pr; l4_ports := [p] |}) /\
  (~ 1 <= p <= 65535 -> r = Err RequirementFailure).
Proof.
  intros pr ports pre w post p P B1 B3 W. cbv zeta. rewrite (object_list pr ports P). unfold l4_list.
  destruct (named_token pr ports w p P W) as [W1 W2]. rewrite strip_one by assumption.
  change (lit "eq ") with (lit "eq" ++ [" "]). rewrite contains_token by exact W2. cbn iota.
  assert (O : one_word w = true) by (unfold one_word; destruct w; [contradiction|exact W2]). rewrite O.
  rewrite (port_of_named pr ports w p P W). cbn [bind]. unfold between.
  split; intros H; destruct (Z.leb_spec 1 p), (Z.leb_spec p 65535); cbn [andb rmap]; try reflexivity; lia.
Qed.
Print Assumptions C38_plain.

Lemma interval_ascending a b : ascending (interval a b).
Proof.
  unfold interval, ascending. generalize (Z.to_nat (b + 1 - a)). intros n. generalize 0%nat. induction n as [|n IH]; intros i; cbn [seq map]; constructor; [apply IH|].
  apply Forall_forall. intros x H. apply in_map_iff in H as (j & <- & Hj). apply in_seq in Hj. lia.
Qed.

(** "lt w" is every port below, from 1. *)
Theorem C38_lt : forall pr ports pre g w post p, protocol_names pr ports -> blank pre -> blank g -> blank post -> names_port ports w p ->
  let r := l4_object pr (pre ++ (lit "lt" ++ " " :: g) ++ w ++ post) (lit "asa") in
  (2 <= p <= 65535 -> exists l, r = Ok {| l4_protocol := pr; l4_ports := l |} /\ ascending l /\ forall x, In x l <-> 1 <= x < p) /\
  (~ 2 <= p <= 65535 -> r = Err RequirementFailure).
Proof.
  intros pr ports pre g w post p P B1 B2 B3 W. cbv zeta. rewrite assoc_eq, (object_list pr ports P).
  rewrite (list_two pr ports P (lit "lt") pre g w post p) by (assumption || discriminate || reflexivity).
  change (ends_with (lit "eq") (lit "lt")) with false. change (ends_with (lit "range") (lit "lt")) with false. change (ends_with (lit "lt") (lit "lt")) with true. cbn iota. unfold between.
  split; intros H; destruct (Z.leb_spec 2 p), (Z.leb_spec p 65535); cbn [andb rmap]; try reflexivity; try lia.
  eexists. split; [reflexivity|]. split; [apply interval_ascending|]. intros x. rewrite interval_in. lia.
Qed.
Print Assumptions C38_lt.

(** "gt w" is every port above, up to 65535. *)
Theorem C38_gt : forall pr ports pre g w post p, protocol_names pr ports -> blank pre -> blank g -> blank post -> names_port ports w p ->
  let r := l4_object pr (pre ++ (lit "gt" ++ " " :: g) ++ w ++ post) (lit "asa") in
  (1 <= p < 65535 -> exists l, r = Ok {| l4_protocol := pr; l4_ports := l |} /\ ascending l /\ forall x, In x l <-> p < x <= 65535) /\
  (~ 1 <= p < 65535 -> r = Err RequirementFailure).
Proof.
  intros pr ports pre g w post p P B1 B2 B3 W. cbv zeta. rewrite assoc_eq, (object_list pr ports P).
  rewrite (list_two pr ports P (lit "gt") pre g w post p) by (assumption || discriminate || reflexivity).
  change (ends_with (lit "eq") (lit "gt")) with false. change (ends_with (lit "range") (lit "gt")) with false. change (ends_with (lit "lt") (lit "gt")) with false. change (ends_with (lit "gt") (lit "gt")) with true. cbn iota. unfold between.
  split; intros H; destruct (Z.leb_spec 1 p), (Z.leb_spec p 65534); cbn [andb rmap]; try reflexivity; try lia.
  eexists. split; [reflexivity|]. split; [apply interval_ascending|]. intros x. rewrite interval_in. lia.
Qed.
Print Assumptions C38_gt.

(** Finding: "neq w" gives the port itself instead of all the others. *)
Theorem C38_neq_refuted : forall pr ports pre g w post p, protocol_names pr ports -> blank pre -> blank g -> blank post -> names_port ports w p ->
  1 <= p <= 65535 ->
  l4_object pr (pre ++ (lit "neq" ++ " " :: g) ++ w ++ post) (lit "asa") = Ok {| l4_protocol := pr; l4_ports := [p] |}.
Proof.
  intros pr ports pre g w post p P B1 B2 B3 W H. rewrite assoc_eq, (object_list pr ports P).
  rewrite (list_two pr ports P (lit "neq") pre g w post p) by (assumption || discriminate || reflexivity).
  change (ends_with (lit "eq") (lit "neq")) with true. cbn iota. unfold between.
  destruct (Z.leb_spec 1 p), (Z.leb_spec p 65535); cbn [andb rmap]; try reflexivity; lia.
Qed.
Print Assumptions C38_neq_refuted.

Definition no_eq_suffix (ports : list (str * Z)) : bool := forallb (fun kv => negb (ends_with (lit "eq") (fst kv))) ports.
Lemma named_no_eq pr ports w p : protocol_names pr ports -> names_port ports w p -> ends_with (lit "eq") w = false.
Proof.
  intros P [H| ->].
  - assert (N : no_eq_suffix ports = true) by (destruct P; vm_compute; reflexivity). unfold no_eq_suffix in N. rewrite forallb_forall in N.
    specialize (N _ H). now apply negb_true_iff in N.
  - assert (G : forall s, has_char "q" s = false -> ends_with (lit "eq") s = false).
    { induction s as [|c s IH]; intros Hs; [reflexivity|]. change (has_char "q" (c :: s)) with (Ascii.eqb "q" c || has_char "q" s) in Hs.
      apply orb_false_iff in Hs as [H1 H2]. cbn [ends_with]. rewrite IH, orb_false_r by exact H2.
      change (str_eqb (lit "eq") (c :: s)) with (Ascii.eqb "e" c && str_eqb (lit "q") s). destruct (Ascii.eqb "e" c); [cbn [andb]|reflexivity].
      destruct s as [|d s]; [reflexivity|]. change (has_char "q" (d :: s)) with (Ascii.eqb "q" d || has_char "q" s) in H2.
      apply orb_false_iff in H2 as [H2 _]. cbn [str_eqb lit list_ascii_of_string]. now rewrite H2. }
    apply G. apply has_char_false. intros H.
    assert (D : forall c, In c (show_Z p) -> is_digit c = true \/ c = "-").
    { intros c Hc. destruct p as [|q|q]; cbn [show_Z] in Hc.
      - destruct Hc as [<-|[]]. now left.
      - left. pose proof (show_N_digits (Npos q)) as D. rewrite forallb_forall in D. auto.
      - destruct Hc as [<-|Hc]; [now right|]. left. pose proof (show_N_digits (Npos q)) as D. rewrite forallb_forall in D. auto. }
    destruct (D _ H); discriminate.
Qed.

(** "range a b" is every port from a to b; the bounds are not checked. *)
Theorem C38_range : forall pr ports pre g v g2 w post a b, protocol_names pr ports -> blank pre -> blank g -> blank g2 -> g2 <> [] -> blank post ->
  names_port ports v a -> names_port ports w b ->
  let r := l4_object pr (pre ++ (lit "range" ++ " " :: g) ++ v ++ g2 ++ w ++ post) (lit "asa") in
  (a <= b -> exists l, r = Ok {| l4_protocol := pr; l4_ports := l |} /\ ascending l /\ forall x, In x l <-> a <= x <= b) /\
  (b < a -> r = Err RequirementFailure).
Proof.
  intros pr ports pre g v g2 w post a b P B1 B2 B3 N3 B4 V W. cbv zeta.
  replace (pre ++ (lit "range" ++ " " :: g) ++ v ++ g2 ++ w ++ post) with (pre ++ (lit "range" ++ (" " :: g ++ v ++ g2) ++ w) ++ post)
    by (rewrite <- !app_assoc; cbn [app]; now rewrite <- !app_assoc).
  rewrite (object_list pr ports P). destruct (named_token pr ports v a P V) as [V1 V2]. destruct (named_token pr ports w b P W) as [W1 W2].
  unfold l4_list. rewrite strip_spec by (assumption || discriminate || reflexivity).
  destruct g2 as [|c g2]; [contradiction|]. unfold blank in B3. cbn [forallb] in B3. apply andb_true_iff in B3 as [C B3].
  assert (Sh : lit "range" ++ (" " :: g ++ v ++ c :: g2) ++ w = lit "range" ++ " " :: g ++ v ++ c :: g2 ++ w)
    by (cbn [app]; now rewrite <- !app_assoc).
  rewrite Sh.
  assert (E1 : contains (lit "eq ") (lit "range" ++ " " :: g ++ v ++ c :: g2 ++ w) = false).
  { change (lit "eq ") with (lit "eq" ++ [" "]). rewrite contains_sep by (discriminate || reflexivity). rewrite contains_gap by (discriminate || reflexivity || assumption).
    rewrite contains_sep by (discriminate || reflexivity || assumption). rewrite (named_no_eq pr ports v a P V). cbn [andb orb].
    rewrite contains_gap by (discriminate || reflexivity || assumption). rewrite contains_token by exact W2. reflexivity. }
  assert (E2 : contains (lit "range ") (lit "range" ++ " " :: g ++ v ++ c :: g2 ++ w) = true).
  { change (lit "range ") with (lit "range" ++ [" "]). rewrite contains_sep by (discriminate || reflexivity). reflexivity. }
  assert (E3 : one_word (lit "range" ++ " " :: g ++ v ++ c :: g2 ++ w) = false) by (apply one_word_space; reflexivity).
  assert (E4 : words (lit "range" ++ " " :: g ++ v ++ c :: g2 ++ w) = [lit "range"; v; w]).
  { rewrite words_sep by (discriminate || reflexivity). rewrite words_blank by exact B2. rewrite words_sep by assumption.
    rewrite words_blank by exact B3. now rewrite words_token. }
  rewrite E1, E2, E3, E4. cbn [tl]. rewrite (port_of_named pr ports v a P V), (port_of_named pr ports w b P W). cbn [bind].
  split; intros H; destruct (Z.ltb_spec b a); cbn [rmap]; try lia; [|reflexivity].
  eexists. split; [reflexivity|]. split; [apply interval_ascending|]. intros x. apply interval_in.
Qed.
Print Assumptions C38_range.

(** Objects are equal exactly when they have the same protocol and the same ports. *)
Lemma zs_eqb_eq a : forall b, zs_eqb a b = true <-> a = b.
Proof.
  induction a as [|x a IH]; intros [|y b]; cbn [zs_eqb]; try easy.
  rewrite andb_true_iff, Z.eqb_eq, IH. split; [intros [-> ->]; reflexivity|intros E; inversion E; auto].
Qed.
Lemma l4_list_ascending ports s l : l4_list ports s = Ok l -> ascending l.
Proof.
  assert (O : forall p, ascending [p]) by (intros p; repeat constructor).
  unfold l4_list. intros H.
  repeat match type of H with
  | (if ?c then _ else _) = _ => destruct c
  | bind ?r _ = _ => destruct r; cbn [bind] in H
  | match ?m with [] => _ | _ => _ end = _ => destruct m
  end; try discriminate; assert (E : forall x y : list Z, Ok x = Ok y -> x = y) by congruence; apply E in H; subst l; try apply O; apply interval_ascending.
Qed.
Theorem C38_equality : forall p1 s1 y1 a p2 s2 y2 b, l4_object p1 s1 y1 = Ok a -> l4_object p2 s2 y2 = Ok b ->
  (l4_eq a b = true <-> p1 = p2 /\ forall x, In x (l4_ports a) <-> In x (l4_ports b)).
Proof.
  assert (G : forall p s y a, l4_object p s y = Ok a -> l4_protocol a = p /\ ascending (l4_ports a)).
  { intros p s y a. unfold l4_object. destruct (str_eqb y (lit "asa")); [|discriminate].
    destruct (str_eqb p (lit "tcp")); [|destruct (str_eqb p (lit "udp")); [|discriminate]];
    match goal with |- (do l <- ?t; _) = _ -> _ => destruct t as [l|] eqn:El; cbn [bind]; [|discriminate] end;
    intros H; assert (E : forall x y : l4, Ok x = Ok y -> x = y) by congruence; apply E in H; subst a; (split; [reflexivity|now apply l4_list_ascending in El]). }
  intros p1 s1 y1 a p2 s2 y2 b H K. apply G in H as [H1 H2], K as [K1 K2]. unfold l4_eq.
  rewrite andb_true_iff, str_eqb_eq, zs_eqb_eq, H1, K1. split; intros [-> E]; (split; [reflexivity|]).
  - now rewrite E.
  - now apply ascending_unique.
Qed.
Print Assumptions C38_equality.

(** Other syntaxes and protocols are refused. *)
Theorem C38_unsupported : forall pr spec syn, syn <> lit "asa" \/ (pr <> lit "tcp" /\ pr <> lit "udp") ->
  l4_object pr spec syn = Err NotImplementedErr.
Proof.
  intros pr spec syn H. unfold l4_object. destruct (str_eqb_spec syn (lit "asa")) as [->|]; [|reflexivity].
  destruct H as [H|[H1 H2]]; [contradiction|]. now rewrite (proj2 (str_eqb_neq _ _) H1), (proj2 (str_eqb_neq _ _) H2).
Qed.
Print Assumptions C38_unsupported.

Example C38_ex1 : protocol_names (lit "tcp") asa_tcp_ports /\ names_port asa_tcp_ports (lit "ssh") 22 /\ names_port asa_tcp_ports (lit "8080") 8080.
Proof. split; [constructor|]. split; [left; cbn; tauto|right; reflexivity]. Qed.
Example C38_ex2 : l4_object (lit "tcp") (lit " range ssh  smtp ") (lit "asa") = Ok {| l4_protocol := lit "tcp"; l4_ports := [22; 23; 24; 25] |}.
Proof. vm_compute. reflexivity. Qed.
Example C38_ex3 : l4_object (lit "udp") (lit "lt 4") (lit "asa") = Ok {| l4_protocol := lit "udp"; l4_ports := [1; 2; 3] |} /\
  l4_object (lit "udp") (lit "gt 65532") (lit "asa") = Ok {| l4_protocol := lit "udp"; l4_ports := [65533; 65534; 65535] |} /\
  l4_object (lit "udp") (lit "eq 0") (lit "asa") = Err RequirementFailure /\
  l4_object (lit "tcp") (lit "neq www") (lit "asa") = Ok {| l4_protocol := lit "tcp"; l4_ports := [80] |}.
Proof. vm_compute. auto. Qed.
