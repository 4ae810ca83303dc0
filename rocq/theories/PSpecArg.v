(** C91: searches for texts taken literally, and searches given line objects. *)
From Coq Require Import Ascii String Arith NArith ZArith Bool List Lia Sorted.
From Verif Require Import PyStr PyStrFacts PyBase CfgModel TreeSpec TreeProofs TreePost TreeMain WorldSpec SearchModel SearchSpec SearchProofs PTree PSearch PyRe PyReFacts PyReTmpl PyReSent PyReLit JunosReModel SyncSpec SyncModel PSync SpecArgModel SpecArgSpec.
Import ListNotations.
Local Open Scope char_scope.

(** ** The reader on escaped texts *)

Definition closes (r : str) : Prop := r = [] \/ exists q, r = ")" :: q.
Lemma escape_next s r : closes r -> match escape s ++ r with [] => True | c :: _ => plain_char c = true \/ c = "\" \/ c = ")" end.
Proof.
  intros C. destruct s as [|c s]; cbn.
  - destruct C as [->|(q & ->)]; auto.
  - destruct c as [[] [] [] [] [] [] [] []]; cbn; auto.
Qed.
Lemma quantify_esc a s : match s with [] => True | c :: _ => plain_char c = true \/ c = "\" \/ c = ")" end -> quantify a s = (a, s).
Proof. destruct s as [|c s]; [reflexivity|]. intros [H|[->| ->]]; [|reflexivity..]. destruct c as [[] [] [] [] [] [] [] []]; try discriminate H; reflexivity. Qed.
Lemma escape_cases c : (re_escape c = [c] /\ plain_char c = true) \/ (re_escape c = ["\"; c] /\ esc c = CRange c c).
Proof. destruct c as [[] [] [] [] [] [] [] []]; first [left; split; reflexivity|right; split; reflexivity]. Qed.
Lemma read_escaped_char c f e r : read_seq false (S (S f)) e (re_escape c ++ r) = let (b, r1) := quantify (chr c) r in seq_cont (S f) b e r1.
Proof.
  destruct (escape_cases c) as [[-> Pc]|[-> Ec]]; cbn [app].
  - rewrite seq_step by now left. now rewrite atom_char.
  - rewrite seq_step by (right; now left). change (read_atom false (S f) e ("\" :: c :: r)) with (Some (RSet (mkSet false false [esc c]), e, r)). now rewrite Ec.
Qed.
Lemma read_escaped s : forall r f e, closes r -> 2 + length s <= f -> read_seq false f e (escape s ++ r) = Some (row (map chr s), e, r).
Proof.
  induction s as [|c s IH]; intros r f e C L; (destruct f as [|[|f]]; [cbn [length] in L; lia|cbn [length] in L; lia|]).
  - cbn [escape flat_map app map row]. destruct C as [->|(q & ->)]; reflexivity.
  - change (escape (c :: s) ++ r) with ((re_escape c ++ escape s) ++ r). rewrite <- app_assoc, read_escaped_char. pose proof (escape_next s r C) as N. rewrite quantify_esc by exact N.
    destruct s as [|d s].
    + cbn [escape flat_map app map row]. destruct C as [->|(q & ->)]; reflexivity.
    + assert (E : seq_cont (S f) (chr c) e (escape (d :: s) ++ r) = match read_seq false (S f) e (escape (d :: s) ++ r) with Some (x, e2, r2) => Some (RCat (chr c) x, e2, r2) | None => None end).
      { change (escape (d :: s)) with (re_escape d ++ escape s). rewrite <- app_assoc. apply cont_free.
        - destruct (escape_cases d) as [[-> Pd]|[-> _]]; cbn [app]; auto.
        - unfold re_escape. destruct (has_char _ _); discriminate. }
      rewrite E. rewrite IH; [reflexivity|exact C|]. cbn [length] in *. lia.
Qed.
Lemma escape_length s : length s <= length (escape s).
Proof. induction s as [|c s IH]; [reflexivity|]. change (escape (c :: s)) with (re_escape c ++ escape s). rewrite app_length. assert (1 <= length (re_escape c)) by (unfold re_escape; destruct (has_char _ _); cbn; lia). cbn [length]. lia. Qed.
Lemma compile_escape s : compile false (escape s) = Some (row (map chr s), (0, [])).
Proof.
  unfold compile. pose proof (escape_length s) as L. remember (4 * S (length (escape s))) as f eqn:E. destruct f as [|f]; [lia|]. cbn [read_alt].
  rewrite <- (app_nil_r (escape s)). rewrite read_escaped; [reflexivity|now left|lia].
Qed.
Lemma seq_open f e r : read_seq false (S f) e ("(" :: r) =
  match read_atom false f e ("(" :: r) with Some (a, e1, r') => let (b, r1) := quantify a r' in seq_cont f b e1 r1 | None => None end.
Proof. reflexivity. Qed.
Lemma atom_open f e c r : plain_char c = true -> read_atom false (S f) e ("(" :: c :: r) = match read_alt false f (S (fst e), snd e) (c :: r) with Some (a, e1, ")" :: r1) => Some (RGrp (S (fst e)) a, e1, r1) | _ => None end.
Proof.
  intros P. assert (N : c <> "?") by (intros ->; discriminate P). destruct c as [b0 b1 b2 b3 b4 b5 b6 b7].
  destruct b0; [|reflexivity]. destruct b1; [|reflexivity]. destruct b2; [|reflexivity]. destruct b3; [|reflexivity]. destruct b4; [|reflexivity]. destruct b5; [|reflexivity]. destruct b6; [reflexivity|]. destruct b7; [reflexivity|]. congruence.
Qed.
Lemma alt_eq f e s : read_alt false (S f) e s =
  match read_seq false f e s with
  | Some (a, e1, "|" :: r) => match read_alt false f e1 r with Some (b, e2, r2) => Some (RAlt a b, e2, r2) | None => None end
  | x => x
  end.
Proof. reflexivity. Qed.
Lemma alt_step f e s a e1 : read_seq false f e s = Some (a, e1, []) -> read_alt false (S f) e s = Some (a, e1, []).
Proof. intros E. rewrite alt_eq. now rewrite E. Qed.
Lemma alt_close f e s a e1 r : read_seq false f e s = Some (a, e1, ")" :: r) -> read_alt false (S f) e s = Some (a, e1, ")" :: r).
Proof. intros E. rewrite alt_eq. now rewrite E. Qed.
Lemma compile_group s : compile false (["("] ++ escape s ++ [")"]) = Some (RGrp 1 (row (map chr s)), (1, [])).
Proof.
  unfold compile. pose proof (escape_length s) as L. cbn [app]. remember (4 * S (length ("(" :: escape s ++ [")"]))) as f eqn:E. cbn [length] in E. rewrite app_length in E. cbn [length] in E.
  destruct f as [|[|[|[|f]]]]; [lia..|].
  assert (A : read_atom false (S (S f)) (0, []) ("(" :: escape s ++ [")"]) = match read_alt false (S f) (1, []) (escape s ++ [")"]) with Some (a, e1, ")" :: r1) => Some (RGrp 1 a, e1, r1) | _ => None end).
  { destruct s as [|c s]; [reflexivity|]. change (escape (c :: s)) with (re_escape c ++ escape s). rewrite <- !app_assoc. destruct (escape_cases c) as [[-> Pc]|[-> _]]; cbn [app]; [|reflexivity].
    now apply atom_open. }
  rewrite (alt_step _ _ _ (RGrp 1 (row (map chr s))) (1, [])); [reflexivity|].
  rewrite seq_open, A. rewrite (alt_close f (1, []) _ (row (map chr s)) (1, []) []); [reflexivity|].
  apply read_escaped; [right; now exists []|lia].
Qed.

(** ** What they match *)

Lemma chrs_elems s : map chr s = map elem_re (map EChar s).
Proof. now rewrite map_map. Qed.
Lemma chars_inner s : forallb inner (map EChar s) = true.
Proof. induction s as [|c s IH]; [reflexivity|exact IH]. Qed.
Lemma M_chrs s i t c i2 s2 c2 : M (row (map chr s)) i t c i2 s2 c2 <-> t = s ++ s2 /\ i2 = i + length s /\ c2 = c.
Proof.
  rewrite chrs_elems, <- (app_nil_r (map elem_re _)), (M_elems _ [] _ _ _ _ _ _ (chars_inner s)). cbn [row]. split.
  - intros (w & s1 & -> & Sp & A). apply spelled_chars in Sp as ->. apply M_eps_iff in A as (-> & -> & ->). auto.
  - intros (-> & -> & ->). exists s, s2. split; [reflexivity|]. split; [now apply spelled_chars|]. apply M_eps_iff. auto.
Qed.
Lemma escape_backslashed s : escape s = backslashed s.
Proof. induction s as [|c s IH]; [reflexivity|]. cbn [backslashed]. change (escape (c :: s)) with (re_escape c ++ escape s). now rewrite IH. Qed.

(** An escaped text is found exactly in the texts that it is part of. *)
Theorem C91_escape : forall s t, matches (pattern false (escape s)) t <-> occurs s t.
Proof.
  intros s t. unfold matches, pattern. cbn [rx_find]. rewrite compile_escape. split.
  - intros (m & E). destruct (search (row (map chr s)) t) as [[g c]|] eqn:S; [|discriminate]. apply search_some in S as (u & v & i' & s' & -> & A & _).
    apply M_chrs in A as (-> & _). now exists u, s'.
  - intros (u & v & ->). destruct (search (row (map chr s)) (u ++ s ++ v)) as [[g c]|] eqn:S; [eauto|]. exfalso.
    apply (search_none _ _ S u (s ++ v) (length u + length s) v [] eq_refl). apply M_chrs. auto.
Qed.
Print Assumptions C91_escape.

Lemma group_some s t : matches_some (in_group (escape s)) t <-> s <> [] /\ occurs s t.
Proof.
  unfold matches_some, in_group, pattern. cbn [rx_find]. rewrite compile_group. split.
  - intros (m & E & N). destruct (search (RGrp 1 (row (map chr s))) t) as [[g c]|] eqn:S; [|discriminate]. injection E as <-. cbn [m_all] in N.
    apply search_some in S as (u & v & i' & s' & -> & A & F). apply M_grp_iff in A as (w & c1 & E1 & E2 & _ & A). apply M_chrs in A as (E3 & E4 & _). split; [|exists u, s'; now rewrite E3].
    intros ->. cbn [length] in E4. rewrite Nat.add_0_r in E4. rewrite E4, Nat.sub_diag in F. cbn in F. congruence.
  - intros (N & u & v & ->). destruct (search (RGrp 1 (row (map chr s))) (u ++ s ++ v)) as [[g c]|] eqn:S.
    + eexists. split; [reflexivity|]. cbn [m_all]. apply search_some in S as (u' & v' & i' & s' & E & A & ->). apply M_grp_iff in A as (w & c1 & E1 & E2 & _ & A). apply M_chrs in A as (E3 & E4 & _).
      rewrite E4, E3. replace (length u' + length s - length u') with (length s) by lia. destruct s as [|x s]; [congruence|]. discriminate.
    + exfalso. apply (search_none _ _ S u (s ++ v) (length u + length s) v [(1, s)] eq_refl). apply M_grp_iff. exists s, []. repeat split. apply M_chrs. auto.
Qed.

Lemma in_config_escape w s x : in_config w (prx false true s) x <-> has_text w s x.
Proof. unfold in_config, has_text, prx, prepared. now rewrite C91_escape. Qed.
Lemma found_escape s t : found (prx false true s) t <-> shows s t.
Proof.
  unfold found, shows, prx, prepared. rewrite C91_escape, (eq_sym (escape_backslashed s)). change (rx_src (pattern false (escape s))) with (escape s). unfold occurs. tauto.
Qed.

(** With [escape_chars], and for a configuration that was parsed or committed: the parents are the
    lines with the text of the first argument (a text, or the text of a line object) and a line
    below that shows the second; the others of them are those without. *)
Theorem C91_parents : forall w b lines parent p c recurse, loaded w b lines -> no_digit_cfg lines -> names parent p ->
  exists l1 l2,
    find_parent_objects_args w false true recurse parent (SText c) = Ok l1 /\
    find_parent_objects_wo_child_args w false true recurse parent (SText c) = Ok l2 /\
    StronglySorted lt l1 /\ StronglySorted lt l2 /\
    (forall x, In x l1 <-> has_text w p x /\ exists y, below w recurse x y /\ shows c (text_of w y)) /\
    (forall x, In x l2 <-> has_text w p x /\ ~ exists y, below w recurse x y /\ shows c (text_of w y)).
Proof.
  intros w b lines parent p c recurse HL Hd N.
  destruct (C10_loaded w b lines (prx false true p) (prx false true c) recurse HL Hd) as (l1 & l2 & E1 & E2 & S1 & S2 & I1 & I2).
  assert (K : forall x, (exists y, below w recurse x y /\ found (prx false true c) (text_of w y)) <-> (exists y, below w recurse x y /\ shows c (text_of w y))).
  { intros x. split; intros (y & B & F); exists y; (split; [exact B|]); now apply found_escape. }
  exists l1, l2. split; [destruct N; exact E1|]. split; [destruct N; exact E2|]. split; [exact S1|]. split; [exact S2|]. split; intros x.
  - now rewrite I1, in_config_escape, K.
  - now rewrite I2, in_config_escape, K.
Qed.
Print Assumptions C91_parents.

(** The children are the lines below such a parent that have the second text, unless it is empty. *)
Theorem C91_children : forall w b lines parent p c recurse, loaded w b lines -> no_digit_cfg lines -> names parent p ->
  exists l, find_child_objects_args w false true recurse parent (SText c) = Ok l /\ StronglySorted lt l /\
    forall y, In y l <-> c <> [] /\ occurs c (text_of w y) /\ exists x, has_text w p x /\ below w recurse x y.
Proof.
  intros w b lines parent p c recurse HL Hd N.
  destruct (C11_find_child_objects w b lines (prx false true p) (in_group (escape c)) recurse HL Hd) as (l & E & S & I0).
  exists l. split; [destruct N; exact E|]. split; [exact S|]. intros y. rewrite I0, group_some. split.
  - intros ([H1 H2] & x & C & B). repeat split; auto. exists x. split; [now apply in_config_escape|exact B].
  - intros (H1 & H2 & x & C & B). repeat split; auto. exists x. split; [now apply in_config_escape|exact B].
Qed.
Print Assumptions C91_children.

(** A list of texts: the parents below which some of the other texts is shown, provided each of
    them is shown below some parent. *)
Theorem C91_list : forall w b lines p c cs child recurse, loaded w b lines -> no_digit_cfg lines ->
  exists l, find_parent_objects_args w false true recurse (SList (p :: c :: cs)) child = Ok l /\
    ((StronglySorted lt l /\
      (forall c', In c' (c :: cs) -> exists x, has_text w p x /\ exists y, below w recurse x y /\ shows c' (text_of w y)) /\
      forall x, In x l <-> has_text w p x /\ exists c' y, In c' (c :: cs) /\ below w recurse x y /\ shows c' (text_of w y))
     \/
     (l = [] /\ exists c', In c' (c :: cs) /\ forall x, has_text w p x -> ~ exists y, below w recurse x y /\ shows c' (text_of w y))).
Proof.
  intros w b lines p c cs child recurse HL Hd.
  destruct (C10_pattern_list w b lines (prx false true p) (prx false true c) (map (prx false true) cs) recurse HL Hd) as (l & E & D).
  exists l. split; [exact E|]. change (prx false true c :: map (prx false true) cs) with (map (prx false true) (c :: cs)) in D.
  destruct D as [(S & A & B)|(-> & c' & I' & A)]; [left; split; [exact S|]; split|right; split; [reflexivity|]].
  - intros c' I'. destruct (A (prx false true c') (in_map _ _ _ I')) as (x & C & y & Bx & F). exists x. split; [now apply in_config_escape|]. exists y. split; [exact Bx|now apply found_escape].
  - intros x. rewrite B, in_config_escape. split; intros (H & c' & y & I' & Bx & F); (split; [exact H|]).
    + apply in_map_iff in I' as (s & <- & I'). exists s, y. split; [exact I'|]. split; [exact Bx|now apply found_escape].
    + exists (prx false true c'), y. split; [now apply in_map|]. split; [exact Bx|now apply found_escape].
  - apply in_map_iff in I' as (s & <- & I'). exists s. split; [exact I'|]. intros x H (y & Bx & F). apply (A x); [now apply in_config_escape|]. exists y. split; [exact Bx|now apply found_escape].
Qed.
Print Assumptions C91_list.

(** The children for a list of texts: those with the last text, provided each of the texts after
    the first is found below some parent. *)
Lemma children_list_eq w recurse p cs : children_list w false true recurse p cs = fcol_loop w (prx false true p) (map (fun c => in_group (escape c)) cs) recurse.
Proof.
  induction cs as [|c cs IH]; [reflexivity|]. cbn [children_list map fcol_loop children_with prepared]. destruct (find_child_objects w _ _ recurse) as [[|v vs]|]; cbn [bind]; try reflexivity.
  destruct cs as [|c2 cs]; [reflexivity|]. exact IH.
Qed.
Theorem C91_child_list : forall w b lines p c cs child recurse, loaded w b lines -> no_digit_cfg lines ->
  exists l, find_child_objects_args w false true recurse (SList (p :: c :: cs)) child = Ok l /\ StronglySorted lt l /\
    forall y, In y l <->
      (forall c', In c' (c :: cs) -> c' <> [] /\ exists x z, has_text w p x /\ below w recurse x z /\ occurs c' (text_of w z)) /\
      occurs (last (c :: cs) c) (text_of w y) /\ exists x, has_text w p x /\ below w recurse x y.
Proof.
  intros w b lines p c cs child recurse HL Hd. set (g := fun c => in_group (escape c)).
  destruct (C11_pattern_list w b lines (prx false true p) (g c) (map g cs) recurse HL Hd) as (l & E & S & I0).
  exists l. split; [cbn [find_child_objects_args]; rewrite children_list_eq; exact E|]. split; [exact S|]. intros y. rewrite I0. clear I0 E.
  change (g c :: map g cs) with (map g (c :: cs)). assert (LL : last (map g (c :: cs)) (g c) = g (last (c :: cs) c)).
  { generalize c at 2 4. revert c. induction cs as [|d cs IH]; intros c e; [reflexivity|]. exact (IH d e). }
  rewrite LL. clear LL. unfold g at 2. rewrite group_some. split.
  - intros (A & (N & O) & x & C & B). split; [|split; [exact O|exists x; split; [now apply in_config_escape|exact B]]].
    intros c' I'. destruct (A (g c') (in_map g _ _ I')) as (x1 & z & C1 & B1 & M1). apply group_some in M1 as [N1 O1]. split; [exact N1|]. exists x1, z. split; [now apply in_config_escape|auto].
  - intros (A & O & x & C & B). split; [|split; [split; [|exact O]|exists x; split; [now apply in_config_escape|exact B]]].
    + intros r I'. apply in_map_iff in I' as (c' & <- & I'). destruct (A c' I') as (N1 & x1 & z & C1 & B1 & O1). exists x1, z. split; [now apply in_config_escape|]. split; [exact B1|]. now apply group_some.
    + assert (IL : In (last (c :: cs) c) (c :: cs)).
      { generalize c at 2. revert c A O. clear. intros c _ _ e. revert c. induction cs as [|d cs IH]; intros c; [now left|]. right. exact (IH d). }
      now destruct (A _ IL).
Qed.
Print Assumptions C91_child_list.

(** A list of one text or none, or an argument of another type, is refused. *)
Theorem C91_refused : forall w i e recurse child,
  (forall l, length l < 2 -> find_parent_objects_args w i e recurse (SList l) child = Err InvalidParameters /\ find_child_objects_args w i e recurse (SList l) child = Err InvalidParameters) /\
  (forall l, find_parent_objects_wo_child_args w i e recurse (SList l) child = Err InvalidParameters) /\
  (forall o, find_parent_objects_args w i e recurse (SOther o) child = Err InvalidParameters /\ find_child_objects_args w i e recurse (SOther o) child = Err InvalidParameters).
Proof.
  intros w i e recurse child. split; [|split].
  - intros [|a [|b l]] L; cbn in L; try lia; split; reflexivity.
  - reflexivity.
  - intros o. split; reflexivity.
Qed.
Print Assumptions C91_refused.

(** ** Examples *)

Definition acl_cfg := map lit ["interface Gi0/1 (up)"; " ip address 10.0.0.1"; " description a.b*"; "interface Gi0/2"; " ip address 10x0y0z1"]%string.
Definition acl_w : world := PSync.W acl_cfg.
Example C91_ex : loaded acl_w 0 acl_cfg /\
  find_parent_objects_args acl_w false true false (SText (lit "interface")) (SText (lit "10.0.0.1")) = Ok [0] /\
  find_parent_objects_args acl_w false false false (SText (lit "interface")) (SText (lit "10.0.0.1")) = Ok [0; 3] /\
  find_parent_objects_wo_child_args acl_w false true false (SText (lit "interface")) (SText (lit "10.0.0.1")) = Ok [3] /\
  find_child_objects_args acl_w false true false (SText (lit "Gi0/1 (")) (SText (lit "b*")) = Ok [2] /\
  find_parent_objects_args acl_w false true false (SLine (lit "interface Gi0/2") (lit "<IOSCfgLine # 3 'interface Gi0/2'>")) (SText (lit "ip address")) = Ok [3] /\
  find_parent_objects_args acl_w false true false (SList [lit "interface"; lit "10.0"; lit "b*"]) (SOther (lit "None")) = Ok [0].
Proof.
  split; [|repeat split; vm_compute; reflexivity].
  assert (P : parse oI acl_cfg = Ok acl_w) by (vm_compute; reflexivity). exact (proj2 (TreeMain.parse_loaded _ _ _ P)).
Qed.

(** ** What does not hold *)

(** Both options together find nothing when the text has a blank, though each alone does: the
    pattern for white space is escaped as well. *)
Theorem C91_both_refuted :
  find_parent_objects_args acl_w true false false (SText (lit "interface")) (SText (lit "ip address")) = Ok [0; 3] /\
  find_parent_objects_args acl_w false true false (SText (lit "interface")) (SText (lit "ip address")) = Ok [0; 3] /\
  find_parent_objects_args acl_w true true false (SText (lit "interface")) (SText (lit "ip address")) = Ok [].
Proof. repeat split; vm_compute; reflexivity. Qed.
Print Assumptions C91_both_refuted.
(** A line object given for the child takes the place of the parent, and TypeError follows when
    that line has children; given one without children nothing is found, although its parent
    has it as a child. *)
Theorem C91_line_child_refuted : forall shown,
  find_parent_objects_args acl_w false false false (SText (lit "interface")) (SLine (lit "interface Gi0/2") shown) = Err TypeErr /\
  find_parent_objects_args acl_w false false false (SText (lit "interface")) (SLine (lit " ip address 10x0y0z1") shown) = Ok [] /\
  find_parent_objects_wo_child_args acl_w false false false (SText (lit "interface")) (SLine (lit " ip address 10x0y0z1") shown) = Ok [4].
Proof. intros shown. repeat split; vm_compute; reflexivity. Qed.
Print Assumptions C91_line_child_refuted.
(** A child is also reported when it has the text with backslashes. *)
Theorem C91_backslash_refuted : exists lines w, parse oI lines = Ok w /\ find_parent_objects_args w false true false (SText (lit "a")) (SText (lit "x.y")) = Ok [0] /\
  forall y, In y (children_of w 0) -> ~ occurs (lit "x.y") (text_of w y).
Proof.
  exists (map lit ["a"; " x\.y"]%string), (PSync.W (map lit ["a"; " x\.y"]%string)). split; [vm_compute; reflexivity|]. split; [vm_compute; reflexivity|].
  intros y Hy. vm_compute in Hy. destruct Hy as [<-|[]]. intros O. apply TreePost.contains_spec in O. vm_compute in O. discriminate O.
Qed.
Print Assumptions C91_backslash_refuted.
