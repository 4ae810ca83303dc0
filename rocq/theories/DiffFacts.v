(** Facts about normalised texts and about the marking of lines. *)
From Coq Require Import Ascii String Arith NArith ZArith Bool List Lia Sorting.Sorted Permutation.
From Verif Require Import PyStr PyStrFacts PyBase PyBaseFacts CfgModel MutModel TreeSpec TreeProofs TreePost TreeRel TreeWorld BraceSpec TreeFull WorldSpec CommitMain TreeMain TrunkFacts DiffModel DiffSpec.
Import ListNotations.
Local Open Scope nat_scope.

(** ** Text *)
Lemma is_token_edges t : is_token t -> (exists c r, t = c :: r /\ is_space c = false) /\ (exists u e, t = u ++ [e] /\ is_space e = false).
Proof.
  intros [Ne F]. rewrite forallb_forall in F. split.
  - destruct t as [|c r]; [congruence|]. exists c, r. split; [reflexivity|]. specialize (F c (or_introl eq_refl)). now apply negb_true_iff in F.
  - destruct (exists_last Ne) as (u & e & ->). exists u, e. split; [reflexivity|]. specialize (F e). rewrite in_app_iff in F. cbn in F. now apply negb_true_iff, F; right; left.
Qed.
Lemma join_last l : Forall is_token l -> l <> [] -> exists u e, join [" "%char] l = u ++ [e] /\ is_space e = false.
Proof.
  induction 1 as [|t l T H IH]; intros Ne; [congruence|]. destruct l as [|t' l].
  - cbn [join]. apply (is_token_edges t T).
  - destruct IH as (u & e & E & S'); [discriminate|]. change (join [" "%char] (t :: t' :: l)) with (t ++ [" "%char] ++ join [" "%char] (t' :: l)).
    rewrite E. exists (t ++ [" "%char] ++ u), e. split; [now rewrite <- !app_assoc|exact S'].
Qed.
Lemma words_nil t : blank t = true -> words t = [].
Proof. intros H. unfold words. rewrite <- (app_nil_r t). now rewrite words_aux_space_prefix. Qed.
Lemma lstrip_cons_lead t : blank t = false -> exists c r, lstrip t = c :: r /\ is_space c = false /\ find (fun x => negb (is_space x)) t = Some c /\ t = firstn (leading t) t ++ c :: r.
Proof.
  induction t as [|c t IH]; [discriminate|]. cbn [blank forallb lstrip find leading]. destruct (is_space c) eqn:E; cbn [negb andb].
  - intros H. destruct (IH H) as (d & r & A & B & C & D). exists d, r. repeat split; auto. cbn [firstn app]. now f_equal.
  - intros _. exists c, t. now repeat split.
Qed.
Lemma join_words_head t : blank t = false -> exists c r, join [" "%char] (words t) = c :: r /\ is_space c = false /\ find (fun x => negb (is_space x)) t = Some c.
Proof.
  intros H. destruct (lstrip_cons_lead t H) as (c & r & E & Sc & F & _). destruct (words_head c r Sc) as (w & ws & W).
  rewrite <- words_lstrip, E, W. destruct ws as [|w' ws]; cbn [join app]; eauto.
Qed.

Lemma leading_spaces n c r : is_space c = false -> leading (spaces n ++ c :: r) = n.
Proof. intros H. induction n as [|n IH]; cbn [spaces repeat app leading]; [now rewrite H|]. change (is_space " ") with true. cbn iota. f_equal. exact IH. Qed.
Lemma find_spaces n c r : is_space c = false -> find (fun x => negb (is_space x)) (spaces n ++ c :: r) = Some c.
Proof. intros H. induction n as [|n IH]; cbn [spaces repeat app find]; [now rewrite H|exact IH]. Qed.
Lemma blank_cons n c r : is_space c = false -> blank (spaces n ++ c :: r) = false.
Proof. intros H. unfold blank. rewrite forallb_app. cbn [forallb]. rewrite H. apply andb_false_r. Qed.

Lemma blank_rstrip t : blank (rstrip t) = blank t.
Proof.
  destruct (rstrip_prefix t) as (p & E & F). unfold blank. rewrite E at 2. rewrite forallb_app, F. now rewrite andb_true_r.
Qed.
Lemma leading_rstrip t : blank t = false -> leading (rstrip t) = leading t.
Proof.
  intros H. rewrite <- blank_rstrip in H. destruct (rstrip_prefix t) as (p & E & _). rewrite E at 2. revert H. clear.
  induction (rstrip t) as [|c s IH]; [discriminate|]. cbn [blank forallb app leading]. destruct (is_space c); [|reflexivity]. cbn [andb]. intros H. now rewrite IH.
Qed.
Lemma indent_rstrip t : line_indent (rstrip t) = line_indent t.
Proof. unfold line_indent. rewrite blank_rstrip. destruct (blank t) eqn:E; [reflexivity|now apply leading_rstrip]. Qed.
Lemma find_rstrip t : find (fun x => negb (is_space x)) (rstrip t) = find (fun x => negb (is_space x)) t.
Proof.
  destruct (rstrip_prefix t) as (p & E & F). rewrite E at 2. clear E. induction (rstrip t) as [|c s IH]; cbn [find app].
  - induction p as [|c p IH]; [reflexivity|]. cbn [forallb] in F. apply andb_true_iff in F as [F1 F2]. cbn [find]. rewrite F1. cbn [negb]. now apply IH.
  - destruct (negb (is_space c)); [reflexivity|]. exact IH.
Qed.

Lemma squeezed_blank t : blank t = true -> squeezed t = [].
Proof. intros H. unfold squeezed, line_indent. rewrite H, words_nil by exact H. reflexivity. Qed.
Lemma squeezed_shape t : blank t = false -> exists c r, squeezed t = spaces (leading t) ++ c :: r /\ is_space c = false /\
  find (fun x => negb (is_space x)) t = Some c /\ exists u e, squeezed t = u ++ [e] /\ is_space e = false.
Proof.
  intros H. destruct (join_words_head t H) as (c & r & E & Sc & F). exists c, r. unfold squeezed, line_indent. rewrite H.
  split; [now rewrite E|]. split; [exact Sc|]. split; [exact F|].
  destruct (join_last (words t)) as (u & e & E' & Se); [apply words_tokens|intros K; rewrite K in E; discriminate|].
  exists (spaces (leading t) ++ u), e. rewrite E', app_assoc. now split.
Qed.
Lemma squeezed_rstrip t : rstrip (squeezed t) = squeezed t.
Proof.
  destruct (blank t) eqn:B; [now rewrite squeezed_blank|]. destruct (squeezed_shape t B) as (_ & _ & _ & _ & _ & u & e & -> & Se). now apply rstrip_app_cons.
Qed.
Lemma squeezed_indent t : line_indent (squeezed t) = line_indent t.
Proof.
  destruct (blank t) eqn:B; [rewrite squeezed_blank by exact B; unfold line_indent; now rewrite B|].
  destruct (squeezed_shape t B) as (c & r & E & Sc & _). unfold line_indent. rewrite B, E, blank_cons, leading_spaces by assumption. reflexivity.
Qed.
Lemma squeezed_text_indent t : text_indent (squeezed t) = line_indent t.
Proof.
  unfold text_indent. rewrite squeezed_rstrip. destruct (blank t) eqn:B; [rewrite squeezed_blank by exact B; unfold line_indent; now rewrite B|].
  destruct (squeezed_shape t B) as (c & r & E & Sc & _). rewrite E, lstrip_app_space by apply spaces_space. cbn [lstrip]. rewrite Sc, app_length, spaces_length.
  unfold line_indent. rewrite B. lia.
Qed.
Lemma squeezed_words t : words (squeezed t) = words t.
Proof. unfold squeezed. rewrite words_spaces_prefix. apply words_join, words_tokens. Qed.
Lemma squeezed_idem t : squeezed (squeezed t) = squeezed t.
Proof. unfold squeezed at 1. rewrite squeezed_indent, squeezed_words. reflexivity. Qed.
Lemma squeezed_of_rstrip t : squeezed (rstrip t) = squeezed t.
Proof.
  unfold squeezed. rewrite indent_rstrip. f_equal. f_equal. rewrite <- (words_strip (rstrip t)), strip_rstrip. apply words_strip.
Qed.
Lemma squeezed_comment d t : comment_line d (squeezed t) = comment_line d t.
Proof.
  destruct (blank t) eqn:B.
  - rewrite squeezed_blank by exact B. unfold comment_line. cbn [find]. destruct (find _ t) eqn:F; [|reflexivity].
    apply find_some in F as [I F]. unfold blank in B. rewrite forallb_forall in B. rewrite (B _ I) in F. discriminate.
  - destruct (squeezed_shape t B) as (c & r & E & Sc & F & _). unfold comment_line. rewrite E, find_spaces by exact Sc. now rewrite F.
Qed.
Lemma comment_line_text d t : text_is_comment d t = comment_line d t.
Proof.
  unfold text_is_comment, comment_line. induction t as [|c t IH]; [reflexivity|]. cbn [lstrip find]. destruct (is_space c); [exact IH|reflexivity].
Qed.
Lemma squeezed_no_digit t : no_digit_start t = true -> no_digit_start (squeezed t) = true.
Proof.
  intros H. destruct (blank t) eqn:B; [now rewrite squeezed_blank|]. destruct (squeezed_shape t B) as (c & r & E & Sc & F & _). rewrite E.
  destruct (leading t) as [|n] eqn:L; [|reflexivity]. cbn [spaces repeat app no_digit_start]. destruct t as [|x t]; [discriminate|].
  cbn [leading] in L. cbn [find] in F. destruct (is_space x); [discriminate|]. cbn [negb] in F. injection F as <-. exact H.
Qed.
Lemma comment_rstrip d t : comment_line d (rstrip t) = comment_line d t.
Proof. unfold comment_line. now rewrite find_rstrip. Qed.

(** ** The world after the texts are normalised *)
Definition norm_line (delims : str) (x : nat) (l : cfgline) : cfgline :=
  let newtext := spaces (cl_indent l) ++ join (lit " ") (words (strip (cl_text l))) in
  let t := rstrip newtext in
  let cm := text_is_comment delims t in
  mkLine t (cl_linenum l) (text_indent newtext) cm (if cm then x else cl_parent l)
         (cl_children l) (cl_child_indent l) (cl_keep l) (cl_owned l).

Lemma normal_fold xs : forall w, NoDup xs ->
  let v := fold_left (fun v x => set_text v x (spaces (indent_of v x) ++ join (lit " ") (words (strip (text_of v x))))) xs w in
  w_opts v = w_opts w /\ w_conf v = w_conf w /\ length (w_heap v) = length (w_heap w) /\
  forall y, obj v y = if in_dec Nat.eq_dec y xs then option_map (norm_line (o_comment (w_opts w)) y) (obj w y) else obj w y.
Proof.
  induction xs as [|x xs IH]; intros w N; [now repeat split|]. inversion N as [|? ? Nx Nxs]; subst. cbn [fold_left].
  set (w1 := set_text w x _). destruct (IH w1 Nxs) as (A & B & C & D).
  assert (A1 : w_opts w1 = w_opts w) by reflexivity. assert (B1 : w_conf w1 = w_conf w) by reflexivity.
  assert (C1 : length (w_heap w1) = length (w_heap w)) by (unfold w1, set_text, set_heap; cbn [w_heap]; apply upd_length).
  assert (D1 : forall y, obj w1 y = if Nat.eq_dec y x then option_map (norm_line (o_comment (w_opts w)) y) (obj w y) else obj w y).
  { intros y. unfold w1, set_text, set_heap, obj. cbn [w_heap]. destruct (Nat.eq_dec y x) as [->|Nyx].
    - rewrite upd_nth_same. unfold text_of, indent_of, obj. destruct (nth_error (w_heap w) x) as [l|]; reflexivity.
    - apply upd_nth_other. congruence. }
  split; [congruence|]. split; [congruence|]. split; [congruence|]. intros y. rewrite D, A1, D1.
  destruct (Nat.eq_dec y x) as [->|Nyx].
  - destruct (in_dec Nat.eq_dec x xs) as [I|I]; [contradiction|]. destruct (in_dec Nat.eq_dec x (x :: xs)) as [J|J]; [reflexivity|]. destruct J. now left.
  - destruct (in_dec Nat.eq_dec y xs) as [I|I]; destruct (in_dec Nat.eq_dec y (x :: xs)) as [J|J]; try reflexivity.
    + destruct J. now right.
    + destruct J as [->|J]; congruence.
Qed.

Section Side.
  Variables (w : world) (b : nat) (lines : list str).
  Hypothesis HL : loaded w b lines.
  Let v := normal_texts w.
  Let d := o_comment (w_opts w).

  Lemma conf_sorted : StronglySorted lt (w_conf w).
  Proof.
    destruct (loaded_text w b lines HL) as (ks & Sk & _ & -> & _). clear -Sk. induction Sk as [|x l Hs IH Hf]; cbn [map]; constructor; [exact IH|].
    rewrite Forall_forall in *. intros y Hy. apply in_map_iff in Hy as (z & <- & Hz). specialize (Hf z Hz). lia.
  Qed.
  Lemma conf_nodup : NoDup (w_conf w).
  Proof. apply ssorted_nodup, conf_sorted. Qed.

  Lemma v_opts : w_opts v = w_opts w. Proof. apply (normal_fold (w_conf w) w conf_nodup). Qed.
  Lemma v_conf : w_conf v = w_conf w. Proof. apply (normal_fold (w_conf w) w conf_nodup). Qed.
  Lemma v_heap : length (w_heap v) = length (w_heap w). Proof. apply (normal_fold (w_conf w) w conf_nodup). Qed.
  Lemma v_obj y : obj v y = if in_dec Nat.eq_dec y (w_conf w) then option_map (norm_line d y) (obj w y) else obj w y.
  Proof. apply (normal_fold (w_conf w) w conf_nodup). Qed.

  Lemma loaded_parent i : i < length lines -> b <= parent_of w (b + i) <= b + i.
  Proof.
    intros Hi. destruct (loaded_boot w b lines HL) as (objs & B & Ob & _ & _ & Hlen & _).
    destruct (nth_error_lt_some objs i) as (l & Hl); [lia|]. specialize (Ob i). rewrite Hl in Ob. cbn [option_map] in Ob.
    destruct (bootstrap_facts _ _ _ _ B) as (_ & L & _). destruct (L i l Hl) as (_ & L2 & _).
    unfold parent_of. rewrite Ob. unfold relocate. cbn [cl_parent]. lia.
  Qed.

  (** A line of the configuration, before and after. *)
  Lemma v_line x : In x (w_conf w) -> exists i line l, x = b + i /\ nth_error lines i = Some line /\ obj w x = Some l /\
    text_of w x = rstrip line /\ text_of v x = squeezed line /\ indent_of v x = line_indent line /\ linenum_of v x = Z.of_nat i /\
    comment_line d (text_of w x) = comment_line d line /\
    obj v x = Some (norm_line d x l) /\
    parent_of v x = (if comment_line d line then x else parent_of w x) /\ children_of v x = children_of w x /\
    In (parent_of w x) (w_conf w) /\ b <= parent_of w x <= x /\ In (parent_of v x) (w_conf w) /\ b <= parent_of v x <= x /\ x < length (w_heap v).
  Proof.
    intros Hx. destruct (conf_in w b lines HL x Hx) as (i & line & -> & Hi & Hk). exists i, line.
    destruct (loaded_obj w b lines HL i line Hi) as (l & Hl & T & N & I & C & (p & Hp & Fp) & _ & _).
    exists l. split; [reflexivity|]. split; [exact Hi|]. split; [exact Hl|].
    assert (Lp : b <= parent_of w (b + i) <= b + i) by (apply loaded_parent; eapply nth_error_length_lt; eauto).
    assert (Ip : In (parent_of w (b + i)) (w_conf w)).
    { unfold parent_of. rewrite Hl, Hp. pose proof (full_parent_kept _ _ _ _ Fp Hk) as (lp & Hlp & Kp).
      destruct (loaded_obj w b lines HL p lp Hlp) as (l' & _ & _ & _ & _ & _ & _ & _ & K). apply K. now exists lp. }
    assert (Nt : spaces (cl_indent l) ++ join (lit " ") (words (strip (cl_text l))) = squeezed line).
    { unfold squeezed. rewrite I, T, words_strip. f_equal. change (lit " ") with [" "%char]. f_equal. rewrite <- (words_strip (rstrip line)), strip_rstrip. apply words_strip. }
    assert (V : obj v (b + i) = Some (norm_line d (b + i) l)).
    { rewrite v_obj. destruct (in_dec Nat.eq_dec (b + i) (w_conf w)); [|contradiction]. now rewrite Hl. }
    assert (Pv : parent_of v (b + i) = (if comment_line d line then b + i else parent_of w (b + i))).
    { unfold parent_of. rewrite V, Hl. unfold norm_line. rewrite Nt, squeezed_rstrip, comment_line_text, squeezed_comment. reflexivity. }
    unfold text_of, indent_of, linenum_of, children_of. rewrite V, Hl. unfold norm_line. rewrite Nt. cbn [cl_text cl_indent cl_linenum cl_comment cl_children].
    rewrite squeezed_rstrip, squeezed_text_indent. repeat (split; [first [assumption|reflexivity]|]).
    split; [now rewrite T, comment_rstrip|]. split; [reflexivity|]. split; [exact Pv|]. split; [reflexivity|]. split; [exact Ip|]. split; [exact Lp|].
    split; [rewrite Pv; now destruct (comment_line d line)|]. split; [rewrite Pv; destruct (comment_line d line); lia|].
    rewrite v_heap. unfold obj in Hl. now apply nth_error_length_lt in Hl.
  Qed.
  Lemma v_step x : In x (w_conf w) -> In (parent_of v x) (w_conf w) /\ parent_of v x <= x /\ x < length (w_heap v) /\ exists l, obj v x = Some l /\ cl_parent l = parent_of v x.
  Proof.
    intros Hx. destruct (v_line x Hx) as (i & line & l & _ & _ & _ & _ & _ & _ & _ & _ & V & _ & _ & _ & _ & Ip & Lp & Hh).
    repeat split; auto; [lia|]. eexists. split; [exact V|]. unfold parent_of. now rewrite V.
  Qed.

  (** The genealogy of a line, without assumptions on the texts. *)
  Lemma walk_ok n : forall x acc, In x (w_conf w) -> x < n -> exists r, parents_walk n v x acc = Ok r /\
    (forall y, In y r -> In y acc \/ (In y (w_conf w) /\ y <= x)).
  Proof.
    induction n as [|n IH]; intros x acc Hx Hn; [lia|]. destruct (v_step x Hx) as (Ip & Lp & _ & l & V & El).
    cbn [parents_walk]. rewrite V, El. destruct (obj_eqb v (parent_of v x) x) eqn:E; [exists acc; split; [reflexivity|tauto]|].
    assert (parent_of v x <> x) by (intros K; rewrite K in E; unfold obj_eqb in E; rewrite str_eqb_refl in E; discriminate).
    destruct (IH (parent_of v x) (set_add v acc (parent_of v x)) Ip ltac:(lia)) as (r & R & M). exists r. split; [exact R|].
    intros y Hy. destruct (M y Hy) as [K|[K1 K2]]; [|right; split; [exact K1|lia]].
    unfold set_add in K. destruct (existsb _ acc); [now left|]. apply in_app_iff in K as [K|[<-|[]]]; [now left|]. right. split; [exact Ip|lia].
  Qed.
  Lemma sorted_objs_in l y : In y (sorted_objs v l) <-> In y l.
  Proof. apply sort_by_in. Qed.
  Lemma geneology_ok x : In x (w_conf w) -> exists g, geneology v x = Ok g /\ In x g /\ forall y, In y g -> In y (w_conf w) /\ y <= x.
  Proof.
    intros Hx. destruct (v_step x Hx) as (_ & _ & Hh & _).
    destruct (walk_ok (S (length (w_heap v))) x [] Hx ltac:(lia)) as (r & R & M).
    unfold geneology, all_parents. rewrite R. cbn [rmap bind]. eexists. split; [reflexivity|]. split; [apply in_app_iff; right; now left|].
    intros y Hy. apply in_app_iff in Hy as [Hy|[<-|[]]]; [|split; [exact Hx|lia]]. rewrite !sorted_objs_in in Hy. destruct (M y Hy) as [[]|K]. exact K.
  Qed.
End Side.

(** ** Marking *)
Lemma set_words_ok w xs u : forall f, (forall x, In x xs -> In x (w_conf w)) ->
  exists f', set_words w f xs u = Ok f' /\ forall y, f' y = if in_dec Nat.eq_dec y xs then u else f y.
Proof.
  induction xs as [|x xs IH]; intros f H; [now exists f|]. cbn [set_words].
  replace (existsb (Nat.eqb x) (w_conf w)) with true.
  2:{ symmetry. apply existsb_exists. exists x. split; [apply H; now left|apply Nat.eqb_refl]. }
  destruct (IH (set_word f x u)) as (f' & E & M); [intros y Hy; apply H; now right|]. exists f'. split; [exact E|]. intros y. rewrite M.
  unfold set_word. destruct (in_dec Nat.eq_dec y xs) as [I|I]; destruct (in_dec Nat.eq_dec y (x :: xs)) as [J|J]; try reflexivity.
  - destruct J. now right.
  - destruct J as [->|J]; [now rewrite Nat.eqb_refl|contradiction].
  - destruct (Nat.eqb_spec y x) as [->|_]; [|reflexivity]. destruct J. now left.
Qed.

Section Marks.
  Variables (hash : str -> Z) (wb wa : world) (gb ga : nat -> list nat) (ib ia : nat -> list Z).
  Hypothesis Gb : forall x, In x (w_conf wb) -> geneology wb x = Ok (gb x) /\ In x (gb x) /\ forall y, In y (gb x) -> In y (w_conf wb).
  Hypothesis Ga : forall x, In x (w_conf wa) -> geneology wa x = Ok (ga x) /\ In x (ga x) /\ forall y, In y (ga x) -> In y (w_conf wa) /\ y <= x.
  Hypothesis Ib : forall x, In x (w_conf wb) -> diff_id_list hash wb x = Ok (ib x).
  Hypothesis Ia : forall x, In x (w_conf wa) -> diff_id_list hash wa x = Ok (ia x).
  Hypothesis Sa : StronglySorted lt (w_conf wa).

  Definition matched (a : nat) : Prop := exists c, In c (w_conf wb) /\ ib c = ia a.
  Definition closed_b : Prop := forall c e, In e (w_conf wb) -> In c (gb e) -> forall y, In y (gb c) -> In y (gb e).
  (** What the marks of the earlier lines mean. *)
  Definition inv_b (fb : words_of) : Prop :=
    (forall y, fb y = Keep \/ fb y = Remove) /\
    (closed_b -> forall y, fb y = Keep -> exists e a, In e (w_conf wb) /\ In a (w_conf wa) /\ ib e = ia a /\ In y (gb e)).
  Definition grows (f f' : words_of) : Prop := forall y : nat, f y = Keep -> f' y = Keep.

  Lemma inv_mark fb fb' c : In c (w_conf wb) -> inv_b fb ->
    (fb c = Keep \/ exists a, In a (w_conf wa) /\ ib c = ia a) ->
    (forall y, fb' y = if in_dec Nat.eq_dec y (gb c) then Keep else fb y) -> inv_b fb' /\ grows fb fb'.
  Proof.
    intros Hc [W C] Hk M. split; [split|].
    - intros y. rewrite M. destruct (in_dec Nat.eq_dec y (gb c)); [now left|apply W].
    - intros Cl y. rewrite M. destruct (in_dec Nat.eq_dec y (gb c)) as [I|I]; [|now apply C]. intros _.
      destruct Hk as [Hk|(a & Ha & E)].
      + destruct (C Cl c Hk) as (e & a & He & Ha & E & Ie). exists e, a. repeat split; auto. now apply (Cl c e).
      + now exists c, a.
    - intros y Hy. rewrite M. now destruct (in_dec Nat.eq_dec y (gb c)).
  Qed.

  Lemma find_before_spec a (Ha : In a (w_conf wa)) : forall bs fb fa, (forall x, In x bs -> In x (w_conf wb)) -> inv_b fb ->
    exists fb' fa', find_before hash wb wa a (ia a) bs fb fa = Ok (fb', fa') /\ inv_b fb' /\ grows fb fb' /\
      ((exists pre c post, bs = pre ++ c :: post /\ ib c = ia a /\ (forall x, In x pre -> ib x <> ia a) /\ fb' c = Keep /\
          forall y, fa' y = if in_dec Nat.eq_dec y (ga a) then Unchanged else fa y) \/
       ((forall x, In x bs -> ib x <> ia a) /\ forall y, fa' y = if y =? a then Add else fa y)).
  Proof.
    induction bs as [|c bs IH]; intros fb fa Sub I.
    - eexists fb, _. split; [reflexivity|]. split; [exact I|]. split; [now intros y|]. right. split; [intros x []|reflexivity].
    - assert (Hc : In c (w_conf wb)) by (apply Sub; now left). destruct (Gb c Hc) as (Eg & Ic & Subg). destruct (Ga a Ha) as (Eg' & Iaa & Subga).
      cbn [find_before]. rewrite (Ib c Hc). cbn [bind].
      destruct (set_words_ok wb (gb c) Keep fb Subg) as (fb1 & Es & Ms).
      destruct (list_eq_dec Z.eq_dec (ib c) (ia a)) as [E|E].
      + assert (Fin : forall fa0, (forall y, fa0 y = fa y \/ (y = a /\ fa0 y = Unchanged)) ->
          exists fa', set_words wa fa0 (ga a) Unchanged = Ok fa' /\ forall y, fa' y = if in_dec Nat.eq_dec y (ga a) then Unchanged else fa y).
        { intros fa0 H0. destruct (set_words_ok wa (ga a) Unchanged fa0) as (fa' & Ef & Mf); [intros x Hx; now apply Subga|].
          exists fa'. split; [exact Ef|]. intros y. rewrite Mf. destruct (in_dec Nat.eq_dec y (ga a)) as [J|J]; [reflexivity|].
          destruct (H0 y) as [->|[-> _]]; [reflexivity|contradiction]. }
        destruct (inv_mark fb fb1 c Hc I) as [I1 G1]; [right; now exists a|exact Ms|].
        assert (K1 : fb1 c = Keep) by (rewrite Ms; now destruct (in_dec Nat.eq_dec c (gb c))).
        destruct (proj1 I c) as [->| ->]; rewrite Eg; cbn [bind]; rewrite Es; cbn [bind]; rewrite Eg'; cbn [bind].
        * destruct (Fin fa) as (fa' & Ef & Mf); [now left|]. rewrite Ef. cbn [bind]. exists fb1, fa'. repeat (split; [first [reflexivity|assumption]|]).
          left. exists [], c, bs. repeat (split; [first [reflexivity|assumption|now intros x []]|]). exact Mf.
        * destruct (Fin (set_word fa a Unchanged)) as (fa' & Ef & Mf).
          { intros y. unfold set_word. destruct (Nat.eqb_spec y a) as [->|_]; auto. }
          rewrite Ef. cbn [bind]. exists fb1, fa'. repeat (split; [first [reflexivity|assumption]|]).
          left. exists [], c, bs. repeat (split; [first [reflexivity|assumption|now intros x []]|]). exact Mf.
      + assert (Next : forall f1, inv_b f1 -> grows fb f1 -> exists fb' fa', find_before hash wb wa a (ia a) bs f1 fa = Ok (fb', fa') /\ inv_b fb' /\ grows fb fb' /\
          ((exists pre e post, c :: bs = pre ++ e :: post /\ ib e = ia a /\ (forall x, In x pre -> ib x <> ia a) /\ fb' e = Keep /\
              forall y, fa' y = if in_dec Nat.eq_dec y (ga a) then Unchanged else fa y) \/
           ((forall x, In x (c :: bs) -> ib x <> ia a) /\ forall y, fa' y = if y =? a then Add else fa y))).
        { intros f1 I1 G1. destruct (IH f1 fa) as (fb' & fa' & Ef & I' & G' & Cs); [intros x Hx; apply Sub; now right|exact I1|].
          exists fb', fa'. split; [exact Ef|]. split; [exact I'|]. split; [intros y Hy; apply G', G1, Hy|].
          destruct Cs as [(pre & e & post & -> & R)|[R1 R2]].
          - left. exists (c :: pre), e, post. split; [reflexivity|]. destruct R as (R1 & R2 & R3). split; [exact R1|]. split; [|exact R3].
            intros x [<-|Hx]; auto.
          - right. split; [|exact R2]. intros x [<-|Hx]; auto. }
        destruct (proj1 I c) as [Kc|Kc]; rewrite Kc.
        * rewrite Eg. cbn [bind]. rewrite Es. cbn [bind]. destruct (inv_mark fb fb1 c Hc I) as [I1 G1]; [now left|exact Ms|]. now apply Next.
        * apply Next; [exact I|now intros y].
  Qed.

  Definition first_with (p : list Z) (c : nat) : Prop :=
    exists pre post, w_conf wb = pre ++ c :: post /\ ib c = p /\ forall x, In x pre -> ib x <> p.

  Lemma mark_after_spec : forall todo done fb fa, w_conf wa = done ++ todo -> inv_b fb ->
    (forall y, In y todo -> fa y = Unknown) -> (forall y, In y done -> fa y = Unchanged \/ fa y = Add) ->
    (forall y, In y done -> matched y -> fa y = Unchanged) ->
    (forall y, In y done -> fa y = Unchanged -> exists a, In a (w_conf wa) /\ matched a /\ In y (ga a)) ->
    (forall y, In y done -> matched y -> exists c, first_with (ia y) c /\ fb c = Keep) ->
    exists fb' fa', mark_after hash wb wa todo fb fa = Ok (fb', fa') /\ inv_b fb' /\
      (forall y, In y (w_conf wa) -> fa' y = Unchanged \/ fa' y = Add) /\
      (forall y, In y (w_conf wa) -> matched y -> fa' y = Unchanged /\ exists c, first_with (ia y) c /\ fb' c = Keep) /\
      (forall y, In y (w_conf wa) -> fa' y = Unchanged -> exists a, In a (w_conf wa) /\ matched a /\ In y (ga a)).
  Proof.
    induction todo as [|a todo IH]; intros done fb fa Hc I U D1 D2 D3 D4.
    - rewrite app_nil_r in Hc. rewrite Hc in *. exists fb, fa. split; [reflexivity|]. split; [exact I|]. repeat split; auto.
    - assert (Ha : In a (w_conf wa)) by (rewrite Hc; apply in_elt). cbn [mark_after]. rewrite (U a (or_introl eq_refl)), (Ia a Ha). cbn [bind].
      destruct (find_before_spec a Ha (w_conf wb) fb fa (fun x H => H) I) as (fb1 & fa1 & Ef & I1 & G1 & Cs). rewrite Ef. cbn [bind fst snd].
      assert (Srt : forall x y, In x done -> In y (a :: todo) -> x < y).
      { rewrite Hc in Sa. clear -Sa. induction done as [|z done IHd]; [intros x y []|]. cbn [app] in Sa. apply StronglySorted_inv in Sa as [S1 S2].
        intros x y [<-|Hx] Hy; [|now apply IHd]. rewrite Forall_forall in S2. apply S2, in_app_iff. now right. }
      assert (Srt2 : forall y, In y todo -> a < y).
      { rewrite Hc in Sa. clear -Sa. induction done as [|z done IHd]; cbn [app] in Sa; apply StronglySorted_inv in Sa as [S1 S2]; [|now apply IHd].
        intros y Hy. rewrite Forall_forall in S2. now apply S2. }
      destruct (Ga a Ha) as (_ & Iaa & Subga).
      apply (IH (done ++ [a]) fb1 fa1).
      + now rewrite <- app_assoc.
      + exact I1.
      + intros y Hy. pose proof (Srt2 y Hy). destruct Cs as [(pre & c & post & _ & _ & _ & _ & M)|[_ M]]; rewrite M.
        * destruct (in_dec Nat.eq_dec y (ga a)) as [J|J]; [apply Subga in J; lia|apply U; now right].
        * destruct (Nat.eqb_spec y a); [lia|apply U; now right].
      + intros y Hy. apply in_app_iff in Hy. destruct Cs as [(pre & c & post & _ & _ & _ & _ & M)|[_ M]]; rewrite M.
        * destruct (in_dec Nat.eq_dec y (ga a)) as [J|J]; [now left|]. destruct Hy as [Hy|[<-|[]]]; [now apply D1|contradiction].
        * destruct (Nat.eqb_spec y a); [now right|]. destruct Hy as [Hy|[<-|[]]]; [now apply D1|congruence].
      + intros y Hy Hm. apply in_app_iff in Hy. destruct Cs as [(pre & c & post & _ & _ & _ & _ & M)|[N M]]; rewrite M.
        * destruct (in_dec Nat.eq_dec y (ga a)) as [J|J]; [reflexivity|]. destruct Hy as [Hy|[<-|[]]]; [now apply D2|contradiction].
        * destruct Hy as [Hy|[<-|[]]].
          -- pose proof (Srt y a Hy (or_introl eq_refl)). destruct (Nat.eqb_spec y a); [lia|now apply D2].
          -- destruct Hm as (c & Hcc & E). now apply N in Hcc.
      + intros y Hy. apply in_app_iff in Hy. destruct Cs as [(pre & c & post & Ew & Ec & _ & _ & M)|[N M]]; rewrite M.
        * destruct (in_dec Nat.eq_dec y (ga a)) as [J|J].
          -- intros _. exists a. repeat split; auto. exists c. split; [rewrite Ew; apply in_elt|exact Ec].
          -- destruct Hy as [Hy|[<-|[]]]; [now apply D3|contradiction].
        * destruct (Nat.eqb_spec y a); [discriminate|]. destruct Hy as [Hy|[<-|[]]]; [now apply D3|congruence].
      + intros y Hy Hm. apply in_app_iff in Hy as [Hy|[<-|[]]].
        * destruct (D4 y Hy Hm) as (c & F & K). exists c. split; [exact F|now apply G1].
        * destruct Cs as [(pre & c & post & Ew & Ec & Nc & K & M)|[N M]].
          -- exists c. split; [now exists pre, post|exact K].
          -- destruct Hm as (c & Hcc & E). now apply N in Hcc.
  Qed.
End Marks.
