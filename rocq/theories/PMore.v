(** Further theorems on searches and modifications (C09, C10, C17-C20, C41, C47). *)
From Coq Require Import Ascii String Arith NArith ZArith Bool List Lia Permutation Sorting.Sorted.
From Verif Require Import PyStr PyStrFacts PyBase PyBaseFacts CfgModel TreeSpec BraceSpec WorldSpec
  TreeProofs TreePost TreeRel TreeWorld TreeBanner TreeFull CommitProofs CommitMain TreeMain FamilyProofs
  SearchModel SearchSpec SearchProofs PTree PSearch MutModel MutSpec MutProofs MutProofs2 PMut DiffFacts.
Import ListNotations.
Local Open Scope nat_scope.

(** ** C09, C10, C41: searches *)

(** re_search_children of the configuration: with recurse the matching lines, without it
    those of them that are their own parent. *)
Theorem C09_re_search_children : forall w r x,
  (In x (conf_re_search_children w r true) <-> In x (w_conf w) /\ matches r (text_of w x)) /\
  (In x (conf_re_search_children w r false) <-> In x (w_conf w) /\ matches r (text_of w x) /\ parent_of w x = x).
Proof.
  intros w r x. unfold conf_re_search_children, find_objects, rfilter. split.
  - now rewrite filter_In, hits_spec.
  - rewrite filter_In, filter_In, hits_spec, Nat.eqb_eq. tauto.
Qed.
Print Assumptions C09_re_search_children.

Theorem C09_has_line_with : forall w r, has_line_with w r = true <-> exists t, In t (ioscfg w) /\ matches r t.
Proof.
  intros w r. unfold has_line_with. rewrite existsb_exists. split; intros (t & Ht & M); exists t; (split; [exact Ht|]); now apply hits_spec.
Qed.
Print Assumptions C09_has_line_with.

(** has_child_with: a child, or with all_children a descendant, in which the pattern is
    found. *)
Theorem C10_has_child_with : forall w b lines r recurse i, loaded w b lines -> no_digit_cfg lines -> i < length lines ->
  exists v, has_child_with w r recurse (b + i) = Ok v /\ (v = true <-> exists y, below w recurse (b + i) y /\ found r (text_of w y)).
Proof.
  intros w b lines r recurse i HL Hd Hi.
  destruct (offspring_ok w b (length lines) (loaded_region w b lines HL Hd) (loaded_heap w b lines HL) recurse (b + i)) as (cs & E & M); [unfold inr; lia|].
  unfold has_child_with. rewrite E. cbn [bind]. eexists. split; [reflexivity|]. split.
  - intros Hv. destruct (filter (line_re_search w r) cs) as [|y l] eqn:EF; [discriminate|]. exists y.
    assert (Hy : In y (filter (line_re_search w r) cs)) by (rewrite EF; now left). apply filter_In in Hy as [Hy F]. split; [now apply M|now apply line_re_search_spec].
  - intros (y & Hy & F). assert (Hin : In y (filter (line_re_search w r) cs)) by (apply filter_In; split; [now apply M|now apply line_re_search_spec]).
    destruct (filter (line_re_search w r) cs); [destruct Hin|reflexivity].
Qed.
Print Assumptions C10_has_child_with.

(** re_match_typed looks at the line alone; a group that took no part counts as no match. *)
Theorem C41_match_typed : forall T (conv : option str -> result T) dflt w r g x,
  (forall m s, rx_find r (text_of w x) = Some m -> group g m = Ok (Some s) -> line_re_match_typed conv dflt w r g x = conv (Some s)) /\
  (forall m, rx_find r (text_of w x) = Some m -> group g m = Ok None -> line_re_match_typed conv dflt w r g x = dflt) /\
  (forall m e, rx_find r (text_of w x) = Some m -> group g m = Err e -> line_re_match_typed conv dflt w r g x = Err e) /\
  (~ matches r (text_of w x) -> line_re_match_typed conv dflt w r g x = dflt).
Proof.
  intros T conv dflt w r g x. unfold line_re_match_typed. split; [|split; [|split]].
  - intros m s -> G. now rewrite G.
  - intros m -> G. now rewrite G.
  - intros m e -> G. now rewrite G.
  - intros N. destruct (rx_find r (text_of w x)) as [m|] eqn:E; [exfalso; apply N; now exists m|reflexivity].
Qed.
Print Assumptions C41_match_typed.

Example C09_more_ex : 
  map (text_of w_search) (conf_re_search_children w_search (rx "ip address") true) = map lit [" ip address 1.1.1.1"; " ip address 2.2.2.2"; " no ip address"]%string /\
  conf_re_search_children w_search (rx "ip address") false = [] /\ has_line_with w_search (rx "shutdown") = true /\
  has_child_with w_search (rx "secondary") false 0 = Ok false /\ has_child_with w_search (rx "secondary") true 0 = Ok true.
Proof. vm_compute. repeat split; reflexivity. Qed.

(** ** C17: insertion with atomic *)

Lemma ioscfg_reassign w : ioscfg (reassign_linenums w) = ioscfg w.
Proof. unfold ioscfg. cbn [reassign_linenums set_heap w_conf]. apply map_ext. intros. apply reassign_text. Qed.
(** The same lines are inserted, and the result is parsed again. *)
Theorem C17_atomic : forall w fo r v, valid w -> blank_text v && o_ignore_blank (w_opts w) = false -> fo = true \/ rx_src r <> [] ->
  (exists lines, inserted_before (matches r) [rstrip v] (ioscfg w) lines /\
     match conf_insert_before w fo r v true with
     | Ok w' => loaded w' (S (length (w_heap w))) lines /\ w_opts w' = w_opts w
     | Err e => bootstrap (w_opts w) lines = Err e
     end) /\
  (exists lines, inserted_after (matches r) [rstrip v] (ioscfg w) lines /\
     match conf_insert_after w fo r v true with
     | Ok w' => loaded w' (S (length (w_heap w))) lines /\ w_opts w' = w_opts w
     | Err e => bootstrap (w_opts w) lines = Err e
     end).
Proof.
  intros w fo r v Hv Hb Hs.
  assert (G : forall d, d <= 1 -> exists w2, conf_insert d w fo r v true = reboot w2 (ins_lines d r (rstrip v) (ioscfg w)) /\ w_opts w2 = w_opts w /\ length (w_heap w2) = S (length (w_heap w))).
  { intros d Hd. destruct (conf_insert_spec d w fo r v Hd Hv Hb Hs) as (w' & E & T & _ & (KO & _) & _ & _ & _ & HH).
    unfold conf_insert in *. rewrite Hb in *. destruct (negb fo && negb (nonempty (rx_src r))); [discriminate|].
    destruct (alloc w v) as [w1 x]. injection E as <-. rewrite ioscfg_reassign in T. eexists. split; [now rewrite T|]. split.
    - exact KO.
    - cbn [reassign_linenums set_heap w_heap] in HH. now rewrite renumber_length in HH. }
  assert (B : forall w2 ls, w_opts w2 = w_opts w -> length (w_heap w2) = S (length (w_heap w)) ->
    match reboot w2 ls with Ok w' => loaded w' (S (length (w_heap w))) ls /\ w_opts w' = w_opts w | Err e => bootstrap (w_opts w) ls = Err e end).
  { intros w2 ls O2 L2. destruct (reboot w2 ls) as [w'|e] eqn:E.
    - assert (OW : w_opts w' = w_opts w2). { unfold reboot in E. destruct (bootstrap (w_opts w2) ls); [|discriminate]. injection E as <-. reflexivity. }
      split; [|congruence]. exists w2. repeat split; auto.
    - unfold reboot in E. rewrite O2 in E. destruct (bootstrap (w_opts w) ls); [discriminate|]. now injection E as ->. }
  split.
  - destruct (G 0 ltac:(lia)) as (w2 & E & O2 & L2). exists (ins_lines 0 r (rstrip v) (ioscfg w)). split; [apply ins_before_spec|]. unfold conf_insert_before. rewrite E. now apply B.
  - destruct (G 1 ltac:(lia)) as (w2 & E & O2 & L2). exists (ins_lines 1 r (rstrip v) (ioscfg w)). split; [apply ins_after_spec|]. unfold conf_insert_after. rewrite E. now apply B.
Qed.
Print Assumptions C17_atomic.

(** ** C18: the text that is inserted, and the value returned *)

(** Without new_val_indent the new line is as given; with it, it has that indentation
    instead of its own.  (White space at the end goes in both cases.) *)
Theorem C18_new_text : forall a t z n, blank a = true -> blank z = true ->
  (exists c u, t = c :: u /\ is_space c = false) -> (exists u e, t = u ++ [e] /\ is_space e = false) ->
  rstrip (indented (Some n) (a ++ t ++ z)) = spaces n ++ t /\ rstrip (indented None (a ++ t ++ z)) = a ++ t.
Proof.
  intros a t z n Ha Hz (c & u & E1 & C1) (u' & e & E2 & C2). unfold indented.
  assert (R : forall p, rstrip (p ++ t ++ z) = p ++ t).
  { intros p. unfold rstrip. rewrite !rev_app_distr. rewrite <- app_assoc. rewrite lstrip_app_space.
    - rewrite <- (rev_involutive (p ++ t)). f_equal. rewrite rev_app_distr. rewrite E2, rev_app_distr. cbn [rev app lstrip]. now rewrite C2.
    - rewrite forallb_forall. intros x Hx. apply in_rev in Hx. unfold blank in Hz. rewrite forallb_forall in Hz. now apply Hz. }
  split; [|apply R]. rewrite lstrip_app_space by exact Ha. replace (lstrip (t ++ z)) with (t ++ z); [apply R|]. rewrite E1. cbn [app lstrip]. now rewrite C1.
Qed.
Print Assumptions C18_new_text.

(** The call returns the texts of the lines found. *)
Theorem C18_returned : forall w b lines rf r v indent d, loaded w b lines -> rx_src r <> [] -> v <> [] ->
  blank_text (indented indent v) && o_ignore_blank (w_opts w) = false -> d <= 1 ->
  exists ret w', (if d =? 0 then ccp_insert_before w rf r v indent false else ccp_insert_after w rf r v indent false) = Ok (ret, w') /\
    Permutation ret (filter (hits rf) (ioscfg w)).
Proof.
  intros w b lines rf r v ind d HL Hr Hv Hb Hd.
  assert (G : forall d, d <= 1 -> exists w', insert_loop d w r (indented ind v) (find_objects w rf) = Ok w' /\
     Permutation (map (text_of w') (sorted_objs w' (find_objects w rf))) (filter (hits rf) (ioscfg w))).
  { intros d0 Hd0. destruct (insert_loop_spec d0 r (indented ind v) (find_objects w rf) Hd0 Hr w (loaded_valid _ _ _ HL) Hb (find_objects_ok w b lines rf HL)) as (w' & E & K & _).
    exists w'. split; [exact E|]. unfold sorted_objs. rewrite (Permutation_map _ (Permutation_sym (sort_by_perm (linenum_of w') (find_objects w rf)))).
    assert (EM : map (text_of w') (find_objects w rf) = filter (hits rf) (ioscfg w)); [|now rewrite EM].
    unfold find_objects, rfilter, ioscfg. pose proof (loaded_valid _ _ _ HL) as V. unfold valid in V. induction (w_conf w) as [|y l IH]; [reflexivity|]. cbn [map filter].
    assert (Hy : y < length (w_heap w)) by (apply V; now left). rewrite <- IH by (intros; apply V; now right).
    destruct (hits rf (text_of w y)); [|reflexivity]. cbn [map]. f_equal. destruct (nth_error_lt_some _ _ Hy) as (o & Ho). exact (kept_text w w' y o K Ho). }
  destruct d as [|[|d]]; [| |lia]; cbn [Nat.eqb].
  - destruct (G 0 ltac:(lia)) as (w' & E & P). unfold ccp_insert_before. replace (nonempty (rx_src r) && nonempty v) with true by (destruct (rx_src r), v; try contradiction; reflexivity).
    rewrite E. cbn [bind]. eauto.
  - destruct (G 1 ltac:(lia)) as (w' & E & P). unfold ccp_insert_after. rewrite E. cbn [bind]. eauto.
Qed.
Print Assumptions C18_returned.

(** ** C19: insertion at a line, and after children *)

(** insert_before and insert_after of a line: the new line goes to every line that the
    text of this line, as a pattern, matches. *)
Theorem C19_line_insert : forall compile w x v r, valid w -> owned w x = true -> compile (text_of w x) = Ok r -> rx_src r <> [] ->
  blank_text v && o_ignore_blank (w_opts w) = false ->
  (exists w', line_insert compile 0 w x v = Ok w' /\ inserted_before (matches r) [rstrip v] (ioscfg w) (ioscfg w') /\ objects_kept w w' /\ numbered_last w') /\
  (exists w', line_insert compile 1 w x v = Ok w' /\ inserted_after (matches r) [rstrip v] (ioscfg w) (ioscfg w') /\ objects_kept w w' /\ numbered_last w').
Proof.
  intros compile w x v r Hv Ho Hc Hr Hb. unfold line_insert. rewrite Ho, Hc. cbn [bind]. split.
  - destruct (C17_insert_before w false r v Hv Hb (or_intror Hr)) as (w' & E & I & _ & K & _ & N). exists w'. auto.
  - destruct (C17_insert_after w false r v Hv Hb (or_intror Hr)) as (w' & E & I & _ & K & _ & N). exists w'. auto.
Qed.
Print Assumptions C19_line_insert.
(** If it matches this line only, exactly one line is added, next to it. *)
Lemma only_before {X} (P : X -> Prop) v a x z l' : inserted_before P [v] (a ++ x :: z) l' -> P x -> (forall y, In y a \/ In y z -> ~ P y) -> l' = a ++ v :: x :: z.
Proof.
  assert (Z : forall z l', inserted_before P [v] z l' -> (forall y, In y z -> ~ P y) -> l' = z).
  { induction 1 as [|y l m Py _ IH|y l m Py _ IH]; intros N; [reflexivity| |].
    - exfalso. now apply (N y); [left|].
    - f_equal. apply IH. intros; apply N. now right. }
  revert l'. induction a as [|y a IH]; intros l' I Px N; cbn [app] in I; inversion I as [|? ? m Py I'|? ? m Py I']; subst.
  - cbn [app]. do 2 f_equal. apply Z; auto.
  - contradiction.
  - exfalso. apply (N y); [left; now left|exact Py].
  - cbn [app]. f_equal. apply IH; auto. intros u [Hu|Hu]; apply N; [left; now right|now right].
Qed.
Lemma only_after {X} (P : X -> Prop) v a x z l' : inserted_after P [v] (a ++ x :: z) l' -> P x -> (forall y, In y a \/ In y z -> ~ P y) -> l' = a ++ x :: v :: z.
Proof.
  assert (Z : forall z l', inserted_after P [v] z l' -> (forall y, In y z -> ~ P y) -> l' = z).
  { induction 1 as [|y l m Py _ IH|y l m Py _ IH]; intros N; [reflexivity| |].
    - exfalso. now apply (N y); [left|].
    - f_equal. apply IH. intros; apply N. now right. }
  revert l'. induction a as [|y a IH]; intros l' I Px N; cbn [app] in I; inversion I as [|? ? m Py I'|? ? m Py I']; subst.
  - cbn [app]. do 2 f_equal. apply Z; auto.
  - contradiction.
  - exfalso. apply (N y); [left; now left|exact Py].
  - cbn [app]. f_equal. apply IH; auto. intros u [Hu|Hu]; apply N; [left; now right|now right].
Qed.
Theorem C19_line_insert_once : forall compile w x v r a z, valid w -> owned w x = true -> compile (text_of w x) = Ok r -> rx_src r <> [] ->
  blank_text v && o_ignore_blank (w_opts w) = false ->
  ioscfg w = a ++ text_of w x :: z -> matches r (text_of w x) -> (forall t, In t a \/ In t z -> ~ matches r t) ->
  (exists w', line_insert compile 0 w x v = Ok w' /\ ioscfg w' = a ++ rstrip v :: text_of w x :: z) /\
  (exists w', line_insert compile 1 w x v = Ok w' /\ ioscfg w' = a ++ text_of w x :: rstrip v :: z).
Proof.
  intros compile w x v r a z Hv Ho Hc Hr Hb E M N. destruct (C19_line_insert compile w x v r Hv Ho Hc Hr Hb) as [(w1 & E1 & I1 & _) (w2 & E2 & I2 & _)].
  rewrite E in I1, I2. split.
  - exists w1. split; [exact E1|]. exact (only_before (matches r) (rstrip v) a (text_of w x) z _ I1 M N).
  - exists w2. split; [exact E2|]. exact (only_after (matches r) (rstrip v) a (text_of w x) z _ I2 M N).
Qed.
Print Assumptions C19_line_insert_once.

(** insert_after_child: one round for each child found, in order; the pattern of a round
    is the text of that child. *)
Inductive rounds (v : str) : list regex -> list str -> list str -> Prop :=
| rd_nil l : rounds v [] l l
| rd_cons r rs l m n : inserted_after (matches r) [v] l m -> rounds v rs m n -> rounds v (r :: rs) l n.
Lemma after_each_spec compile v ks : forall w rs, valid w -> (forall k, In k ks -> k < length (w_heap w)) ->
  Forall2 (fun k r => compile (text_of w k) = Ok r) ks rs -> blank_text v && o_ignore_blank (w_opts w) = false ->
  exists w', insert_after_each compile w v ks = Ok w' /\ rounds (rstrip v) rs (ioscfg w) (ioscfg w') /\ objects_kept w w' /\ valid w'.
Proof.
  induction ks as [|k ks IH]; intros w rs Hv Hk F Hb; inversion F as [|? r ? rs' F1 F2]; subst; cbn [insert_after_each].
  - exists w. split; [reflexivity|]. split; [constructor|]. split; [apply objects_kept_refl|exact Hv].
  - rewrite F1. cbn [bind]. destruct (conf_insert_spec 1 w true r v ltac:(lia) Hv Hb (or_introl eq_refl)) as (w1 & E & T & _ & K & V & _ & _ & L).
    rewrite E. cbn [bind]. destruct (IH w1 rs' V) as (w' & E' & R' & K' & V').
    + intros y Hy. specialize (Hk y (or_intror Hy)). lia.
    + clear -F2 Hk K. assert (Hk' : forall y, In y ks -> y < length (w_heap w)) by (intros; apply Hk; now right). clear Hk. induction F2 as [|y r' ks rs' H _ IH]; constructor.
      * destruct (nth_error_lt_some (w_heap w) y (Hk' y (or_introl eq_refl))) as (l & Hl). now rewrite (kept_text w w1 y l K Hl).
      * apply IH. intros; apply Hk'; now right.
    + now rewrite (proj1 K).
    + exists w'. split; [exact E'|]. split; [econstructor; [|exact R']; rewrite T; apply ins_after_spec|]. split; [eapply objects_kept_trans; eauto|exact V'].
Qed.
Theorem C19_insert_after_child : forall compile w b lines p c v ex rs, loaded w b lines ->
  (forall k, In k (matching_children w p c ex) <-> exists q, In q (w_conf w) /\ matches p (text_of w q) /\ (forall e, ex = Some e -> ~ matches e (text_of w q)) /\
      In k (children_of w q) /\ matches c (text_of w k) /\ (forall e, ex = Some e -> ~ matches e (text_of w k))) /\
  (Forall2 (fun k r => compile (text_of w k) = Ok r) (matching_children w p c ex) rs -> blank_text v && o_ignore_blank (w_opts w) = false ->
   (forall k, In k (matching_children w p c ex) -> k < length (w_heap w)) ->
   exists w', insert_after_child compile w p c v ex = Ok w' /\ rounds (rstrip v) rs (ioscfg w) (ioscfg w') /\ objects_kept w w').
Proof.
  intros compile w b lines p c v ex rs HL. split.
  - intros k. unfold matching_children. rewrite in_flat_map.
    assert (X : forall y, negb (excluded w ex y) = true <-> forall e, ex = Some e -> ~ matches e (text_of w y)).
    { intros y. unfold excluded. destruct ex as [e|]; [|split; [intros _ e'; discriminate|reflexivity]]. rewrite negb_true_iff. split.
      - intros H e' [= <-] M. apply hits_spec in M. congruence.
      - intros H. destruct (hits e (text_of w y)) eqn:G; [|reflexivity]. apply hits_spec in G. exfalso. now apply (H e). }
    split.
    + intros (q & Hq & Hk). apply filter_In in Hq as [Hq Q]. unfold find_objects, rfilter in Hq. apply filter_In in Hq as [Hq M]. apply filter_In in Hk as [Hk K].
      apply andb_true_iff in K as [K1 K2]. exists q. apply hits_spec in M. apply hits_spec in K2. pose proof (proj1 (X k) K1). pose proof (proj1 (X q) Q). auto 10.
    + intros (q & Hq & M & Q & Hk & K2 & K1). exists q. split.
      * apply filter_In. split; [apply filter_In; split; [exact Hq|now apply hits_spec]|now apply X].
      * apply filter_In. split; [exact Hk|]. apply andb_true_iff. split; [now apply X|now apply hits_spec].
  - intros F Hb Hk. destruct (after_each_spec compile v _ w rs (loaded_valid _ _ _ HL) Hk F Hb) as (w' & E & R & K & _). exists w'. auto.
Qed.
Print Assumptions C19_insert_after_child.

Example C19_more_ex :
  rmap ioscfg (line_insert lit_compile 0 w_search 3 (lit " mtu 9")) = Ok (map lit ["interface Gi0/1"; " ip address 1.1.1.1"; "  secondary"; " mtu 9"; " shutdown";
           "interface Gi0/2"; " ip address 2.2.2.2"; "interface Gi0/3"; " no ip address"; "end"]%string) /\
  rmap ioscfg (insert_after_child lit_compile w_search (rx "interface") (rx "ip address") (lit " mtu 9") (Some (rx "no"))) =
    Ok (map lit ["interface Gi0/1"; " ip address 1.1.1.1"; " mtu 9"; "  secondary"; " shutdown";
           "interface Gi0/2"; " ip address 2.2.2.2"; " mtu 9"; "interface Gi0/3"; " no ip address"; "end"]%string).
Proof. vm_compute. split; reflexivity. Qed.

(** ** C20: re_sub and the comment flag; C62: replace_children *)

(** After re_sub the line is a comment exactly if its new text is one. *)
Theorem C20_comment_flag : forall w sub ign x l v w', obj w x = Some l -> blank (sub (cl_text l)) = false ->
  (forall e, ign = Some e -> ~ matches e (cl_text l)) -> re_sub w sub ign x = Ok (v, w') ->
  exists l', obj w' x = Some l' /\ cl_comment l' = comment_line (o_comment (w_opts w)) (sub (cl_text l)).
Proof.
  intros w sub ign x l v w' Ho Hb Hi E. unfold re_sub in E. assert (Et : text_of w x = cl_text l) by (unfold text_of; now rewrite Ho). rewrite Et in E.
  replace (match ign with Some e => hits e (cl_text l) | None => false end) with false in E.
  2:{ destruct ign as [e|]; [|reflexivity]. destruct (hits e (cl_text l)) eqn:G; [|reflexivity]. apply hits_spec in G. exfalso. now apply (Hi e). }
  replace (blank_text (sub (cl_text l))) with false in E.
  2:{ unfold blank_text. destruct (strip (sub (cl_text l))) eqn:G; [|reflexivity]. apply strip_nil_iff in G. unfold blank in Hb. congruence. }
  injection E as _ <-. unfold obj in *. cbn [set_heap w_heap]. rewrite upd_nth_same, Ho. cbn [option_map].
  eexists. split; [reflexivity|]. cbn [put_text cl_comment]. apply comment_line_text.
Qed.
Print Assumptions C20_comment_flag.

Definition target (w : world) (c : regex) (ex : option regex) (y : nat) : Prop :=
  matches c (text_of w y) /\ forall e, ex = Some e -> ~ matches e (text_of w y).
Definition replaced (w w' : world) (sub : str -> str) (y : nat) : Prop :=
  exists l l', obj w y = Some l /\ obj w' y = Some l' /\ cl_text l' = sub (cl_text l) /\ same_but_text l l'.
Lemma excluded_spec w ex y : excluded w ex y = false <-> forall e, ex = Some e -> ~ matches e (text_of w y).
Proof.
  unfold excluded. destruct ex as [e|]; [|split; [intros _ e'; discriminate|reflexivity]]. split.
  - intros H e' [= <-] M. apply hits_spec in M. congruence.
  - intros H. destruct (hits e (text_of w y)) eqn:G; [|reflexivity]. apply hits_spec in G. exfalso. now apply (H e).
Qed.
Lemma target_bool w c ex y : negb (excluded w ex y) && hits c (text_of w y) = true <-> target w c ex y.
Proof. rewrite andb_true_iff, negb_true_iff, hits_spec, excluded_spec. unfold target. tauto. Qed.
Lemma among_spec c sub ex xs : forall w, NoDup xs -> (forall x, In x xs -> x < length (w_heap w)) ->
  (forall x, In x xs -> target w c ex x -> blank (sub (text_of w x)) = false) ->
  exists w', replace_among w c sub ex xs = Ok w' /\ w_conf w' = w_conf w /\ w_opts w' = w_opts w /\ length (w_heap w') = length (w_heap w) /\
    (forall y, ~ (In y xs /\ target w c ex y) -> obj w' y = obj w y) /\
    (forall y, In y xs -> target w c ex y -> replaced w w' sub y).
Proof.
  induction xs as [|x xs IH]; intros w Hn Hl Hb; cbn [replace_among].
  - exists w. repeat split; auto. intros y [].
  - inversion Hn as [|? ? N1 N2]; subst. destruct (negb (excluded w ex x) && hits c (text_of w x)) eqn:Ex.
    + apply target_bool in Ex. destruct (nth_error_lt_some (w_heap w) x (Hl x (or_introl eq_refl))) as (l & Ho).
      assert (Et : text_of w x = cl_text l) by (unfold text_of, obj; now rewrite Ho).
      destruct (C20_re_sub w sub None x l Ho) as (w1 & E1 & C1 & O1 & L1 & (l' & Ho' & T' & S') & F).
      { intros e. discriminate. } { rewrite <- Et. apply Hb; [now left|exact Ex]. }
      rewrite E1. cbn [bind snd].
      assert (Hy1 : forall y, In y xs -> obj w1 y = obj w y) by (intros y Hy; apply F; intros ->; contradiction).
      assert (Ht1 : forall y, In y xs -> (target w1 c ex y <-> target w c ex y)) by (intros y Hy; unfold target, text_of; now rewrite Hy1).
      destruct (IH w1 N2) as (w' & E & C & O & L & F1 & F2).
      { intros y Hy. rewrite L1. apply Hl. now right. }
      { intros y Hy Tg. unfold text_of. rewrite Hy1 by exact Hy. apply (Hb y (or_intror Hy)). now apply Ht1. }
      exists w'. split; [exact E|]. split; [congruence|]. split; [congruence|]. split; [congruence|]. split.
      * intros y Hy. assert (Hyx : y <> x) by (intros ->; apply Hy; split; [now left|exact Ex]). rewrite F1; [now apply F|]. intros [G1 G2]. apply Hy. split; [now right|]. now apply Ht1.
      * intros y [<-|Hy] Tg.
        -- exists l, l'. split; [exact Ho|]. split; [rewrite F1; [exact Ho'|]; intros [G1 _]; contradiction|]. auto.
        -- destruct (F2 y Hy) as (m & m' & M1 & M2 & M3 & M4); [now apply Ht1|]. exists m, m'. rewrite Hy1 in M1 by exact Hy. auto.
    + assert (NT : ~ target w c ex x) by (intros G; apply target_bool in G; congruence).
      destruct (IH w N2) as (w' & E & C & O & L & F1 & F2).
      { intros y Hy. apply Hl. now right. } { intros y Hy. apply Hb. now right. }
      exists w'. split; [exact E|]. split; [congruence|]. split; [congruence|]. split; [congruence|]. split.
      * intros y Hy. apply F1. intros [G1 G2]. apply Hy. split; [now right|exact G2].
      * intros y [<-|Hy] Tg; [contradiction|]. now apply F2.
Qed.
Lemma NoDup_parts {X} (a b : list X) : NoDup (a ++ b) -> NoDup a /\ NoDup b.
Proof.
  induction a as [|x a IH]; cbn [app]; intros H; [split; [constructor|exact H]|]. inversion H as [|? ? H1 H2]; subst. destruct (IH H2) as [I1 I2].
  split; [|exact I2]. constructor; [|exact I1]. intros G. apply H1, in_app_iff. now left.
Qed.
Lemma below_spec c sub ex ps : forall w, NoDup (flat_map (children_of w) ps) ->
  (forall p k, In p ps -> In k (children_of w p) -> k < length (w_heap w) /\ ~ In k ps) ->
  (forall p k, In p ps -> In k (children_of w p) -> target w c ex k -> blank (sub (text_of w k)) = false) ->
  exists w', replace_below w children_of c sub ex ps = Ok w' /\ w_conf w' = w_conf w /\
    (forall y, ~ (exists p, In p ps /\ excluded w ex p = false /\ In y (children_of w p) /\ target w c ex y) -> obj w' y = obj w y) /\
    (forall p y, In p ps -> excluded w ex p = false -> In y (children_of w p) -> target w c ex y -> replaced w w' sub y).
Proof.
  induction ps as [|p ps IH]; intros w Hn Hk Hb; cbn [replace_below].
  - exists w. repeat split; auto. intros q y [].
  - cbn [flat_map] in Hn. destruct (excluded w ex p) eqn:Ep.
    + destruct (IH w) as (w' & E & C & F1 & F2).
      { now apply NoDup_parts in Hn. } { intros q k Hq Hk'. destruct (Hk q k (or_intror Hq) Hk') as [K1 K2]. split; [exact K1|]. intros G. apply K2. now right. }
      { intros q k Hq. apply Hb. now right. }
      exists w'. split; [exact E|]. split; [exact C|]. split.
      * intros y Hy. apply F1. intros (q & Hq & G). apply Hy. exists q. split; [now right|exact G].
      * intros q y [<-|Hq] Eq; [congruence|]. now apply F2.
    + destruct (among_spec c sub ex (children_of w p) w) as (w1 & E1 & C1 & O1 & L1 & F1 & F2).
      { now apply NoDup_parts in Hn. } { intros x Hx. now apply (Hk p x (or_introl eq_refl)). } { intros x Hx. now apply (Hb p x (or_introl eq_refl)). }
      rewrite E1. cbn [bind].
      assert (FR : forall y, ~ In y (children_of w p) -> obj w1 y = obj w y) by (intros y Hy; apply F1; tauto).
      assert (CH : forall q, children_of w1 q = children_of w q).
      { intros q. destruct (in_dec Nat.eq_dec q (children_of w p)) as [Hq|Hq]; [|unfold children_of; now rewrite FR].
        destruct (hits c (text_of w q) && negb (excluded w ex q)) eqn:G.
        - destruct (F2 q Hq) as (l & l' & A & B & _ & D); [apply target_bool; now rewrite andb_comm|]. unfold children_of. rewrite A, B. apply D.
        - unfold children_of. rewrite F1; [reflexivity|]. intros [_ Tg]. apply target_bool in Tg. rewrite andb_comm in Tg. congruence. }
      assert (DJ : forall q y, In q ps -> In y (children_of w q) -> ~ In y (children_of w p)).
      { intros q y Hq Hy Hyp. clear -Hn Hq Hy Hyp. induction (children_of w p) as [|z l IH]; [destruct Hyp|]. cbn [app] in Hn. inversion Hn as [|? ? Z1 Z2]; subst.
        destruct Hyp as [->|Hyp]; [|now apply IH]. apply Z1, in_app_iff. right. apply in_flat_map. eauto. }
      assert (PS : forall q, In q ps -> obj w1 q = obj w q) by (intros q Hq; apply FR; intros G; apply (Hk p q (or_introl eq_refl) G); now right).
      assert (EX : forall q, In q ps -> excluded w1 ex q = excluded w ex q) by (intros q Hq; unfold excluded, text_of; destruct ex; [now rewrite PS|reflexivity]).
      assert (TG : forall q y, In q ps -> In y (children_of w q) -> (target w1 c ex y <-> target w c ex y)).
      { intros q y Hq Hy. unfold target, text_of. rewrite FR by (now apply (DJ q)). tauto. }
      destruct (IH w1) as (w' & E & C & G1 & G2).
      { rewrite (flat_map_ext _ _ CH). now apply NoDup_parts in Hn. }
      { intros q k Hq Hk'. rewrite CH in Hk'. destruct (Hk q k (or_intror Hq) Hk') as [K1 K2]. split; [lia|]. intros G. apply K2. now right. }
      { intros q k Hq Hk' Tg. rewrite CH in Hk'. unfold text_of. rewrite FR by (now apply (DJ q)). apply (Hb q k (or_intror Hq) Hk'). now apply (TG q). }
      exists w'. split; [exact E|]. split; [congruence|]. split.
      * intros y Hy. rewrite G1.
        -- apply F1. intros [Y1 Y2]. apply Hy. exists p. split; [now left|]. auto.
        -- intros (q & Hq & Eq & Hyq & Tg). rewrite CH in Hyq. rewrite EX in Eq by exact Hq. apply (TG q y Hq Hyq) in Tg. apply Hy. exists q. split; [now right|]. auto.
      * intros q y [<-|Hq] Eq Hyq Tg.
        -- destruct (F2 y Hyq Tg) as (l & l' & A & B & R1 & R2). exists l, l'. split; [exact A|]. split; [|auto]. rewrite G1; [exact B|].
           intros (q & Hq & _ & Hyq' & _). rewrite CH in Hyq'. now apply (DJ q y Hq Hyq').
        -- destruct (G2 q y Hq) as (l & l' & A & B & R1 & R2); [now rewrite EX|now rewrite CH|now apply (TG q)|].
           exists l, l'. rewrite FR in A by (now apply (DJ q)). auto.
Qed.
(** replace_children: exactly the matching children of matching parents change, and only
    in their text.  No line is both a parent and a child here. *)
Theorem C62_replace_children : forall w p c sub ex,
  let parent q := In q (w_conf w) /\ matches p (text_of w q) in
  NoDup (flat_map (children_of w) (find_objects w p)) ->
  (forall q k, parent q -> In k (children_of w q) -> k < length (w_heap w) /\ ~ parent k) ->
  (forall q k, parent q -> In k (children_of w q) -> target w c ex k -> blank (sub (text_of w k)) = false) ->
  exists w', replace_children w p c sub ex = Ok w' /\ w_conf w' = w_conf w /\
    forall y,
      ((exists q, parent q /\ (forall e, ex = Some e -> ~ matches e (text_of w q)) /\ In y (children_of w q) /\ target w c ex y) -> replaced w w' sub y) /\
      (~ (exists q, parent q /\ (forall e, ex = Some e -> ~ matches e (text_of w q)) /\ In y (children_of w q) /\ target w c ex y) -> obj w' y = obj w y).
Proof.
  intros w p c sub ex parent Hn Hk Hb.
  assert (P : forall q, In q (find_objects w p) <-> parent q).
  { intros q. unfold find_objects, rfilter, parent. rewrite filter_In, hits_spec. reflexivity. }
  destruct (below_spec c sub ex (find_objects w p) w Hn) as (w' & E & C & F1 & F2).
  - intros q k Hq Hk'. apply P in Hq. destruct (Hk q k Hq Hk') as [K1 K2]. split; [exact K1|]. now rewrite P.
  - intros q k Hq. apply P in Hq. now apply Hb.
  - exists w'. split; [exact E|]. split; [exact C|]. intros y. split.
    + intros (q & Hq & X & Hy & T). apply (F2 q y); auto; [now apply P|now apply excluded_spec].
    + intros N. apply F1. intros (q & Hq & X & Hy & T). apply N. exists q. split; [now apply P|]. split; [now apply excluded_spec|]. auto.
Qed.
Print Assumptions C62_replace_children.

(** replace_all_children only reaches children and grandchildren. *)
Theorem C62_replace_all_children_refuted : exists lines w w', parse oT lines = Ok w /\
  replace_all_children w (rx "policy") (rx "cir") (fun _ => lit "    cir 9") None = Ok w' /\ descendant (children_of w) 0 3 /\
  matches (rx "cir") (text_of w 3) /\ text_of w' 3 = text_of w 3.
Proof.
  set (ls := map lit ["policy"; " class"; "  police"; "   cir 8"]%string).
  exists ls, (get w_none (parse oT ls)), (get w_none (parse oT ls)). split; [vm_compute; reflexivity|]. split; [vm_compute; reflexivity|].
  split; [|split; [vm_compute; eauto|reflexivity]]. 
  assert (C0 : In 1 (children_of (get w_none (parse oT ls)) 0)) by (vm_compute; tauto).
  assert (C1 : In 2 (children_of (get w_none (parse oT ls)) 1)) by (vm_compute; tauto).
  assert (C2 : In 3 (children_of (get w_none (parse oT ls)) 2)) by (vm_compute; tauto).
  eauto using descendant.
Qed.
Print Assumptions C62_replace_all_children_refuted.

Example C62_ex :
  rmap ioscfg (replace_children w_search (rx "interface") (rx "ip address") (fun _ => lit " ip address dhcp") (Some (rx "no"))) =
    Ok (map lit ["interface Gi0/1"; " ip address dhcp"; "  secondary"; " shutdown";
           "interface Gi0/2"; " ip address dhcp"; "interface Gi0/3"; " no ip address"; "end"]%string) /\
  NoDup (flat_map (children_of w_search) (find_objects w_search (rx "interface"))).
Proof. split; [vm_compute; reflexivity|]. vm_compute. repeat constructor; cbn; intuition discriminate. Qed.

(** ** C47: pop *)

(** pop removes the line at the index and returns it; nothing is renumbered. *)
Theorem C47_pop : forall w z, let n := Z.of_nat (length (w_conf w)) in
  ((z < - n \/ n <= z)%Z -> pop w z = Err IndexError) /\
  ((- n <= z < n)%Z -> exists a x c w', pop w z = Ok (x, w') /\ w_conf w = a ++ x :: c /\ w_conf w' = a ++ c /\ w_heap w' = w_heap w /\ w_opts w' = w_opts w /\
     Z.of_nat (length a) = if (z <? 0)%Z then (n + z)%Z else z).
Proof.
  intros w z n. unfold pop, py_index. fold n. split.
  - intros Hz. replace ((0 <=? z) && (z <? n))%Z with false by (symmetry; apply andb_false_iff; rewrite Z.leb_gt, Z.ltb_ge; lia).
    now replace ((z <? 0) && (- n <=? z))%Z with false by (symmetry; apply andb_false_iff; rewrite Z.leb_gt, Z.ltb_ge; lia).
  - intros Hz.
    assert (X : exists i, (if (0 <=? z) && (z <? n) then Some (Z.to_nat z) else if (z <? 0) && (- n <=? z) then Some (Z.to_nat (n + z)) else None)%Z = Some i /\
      Z.of_nat i = (if z <? 0 then n + z else z)%Z /\ i < length (w_conf w)).
    { destruct (Z.ltb_spec z 0).
      - replace (0 <=? z)%Z with false by (symmetry; apply Z.leb_gt; lia). replace (- n <=? z)%Z with true by (symmetry; apply Z.leb_le; lia).
        exists (Z.to_nat (n + z)). cbn [andb]. split; [reflexivity|]. subst n. lia.
      - replace (0 <=? z)%Z with true by (symmetry; apply Z.leb_le; lia). replace (z <? n)%Z with true by (symmetry; apply Z.ltb_lt; lia).
        exists (Z.to_nat z). cbn [andb]. split; [reflexivity|]. subst n. lia. }
    destruct X as (i & -> & Ei & Hi). destruct (nth_error_lt_some (w_conf w) i Hi) as (x & Hx). rewrite Hx.
    destruct (nth_error_split _ _ Hx) as (a & c & E & La). exists a, x, c. eexists. split; [reflexivity|]. split; [exact E|]. split; [|split; [reflexivity|split; [reflexivity|now rewrite La]]].
    cbn [set_conf w_conf]. rewrite E, <- La. clear. induction a as [|y a IH]; [reflexivity|]. cbn [length app del_nth]. now rewrite IH.
Qed.
Print Assumptions C47_pop.
Example C47_pop_ex : (do r <- pop w_search (-2); Ok (text_of w_search (fst r), length (w_conf (snd r)))) = Ok (lit " no ip address", 8).
Proof. vm_compute. reflexivity. Qed.
