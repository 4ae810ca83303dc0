(** Properties of parsing: text, tree, commit. *)
From Coq Require Import Ascii String Arith NArith ZArith Bool List Lia Sorting.Sorted.
From Verif Require Import PyStr PyStrFacts PyBase PyBaseFacts CfgModel TreeSpec BraceSpec WorldSpec
  TreeProofs TreePost TreeRel TreeWorld TreeBanner TreeFull CommitProofs CommitMain TreeMain FamilyProofs.
Import ListNotations.
Local Open Scope nat_scope.

(** Configurations used in the examples. *)
Definition oT : opts := mkOpts (lit "!") true Ios.
Definition oF : opts := mkOpts (lit "!") false Ios.
Definition cfg_plain : list str :=
  map lit ["interface Gi0/1"; " ip address 1.1.1.1 255.255.255.0"; "  deeper"; " ! note"; " shutdown ";
           "   "; "router bgp 1"; "  neighbor x"; " dedent"; "end"]%string.
Definition cfg_clean : list str :=
  map lit ["interface Gi0/1"; " ip address 1.1.1.1 255.255.255.0"; "   deeper"; "  less deep"; " shutdown";
           "router bgp 1"; "  neighbor x"; " dedent"; "end"]%string.
Definition cfg_banner : list str :=
  map lit ["a"; "banner motd ^"; "  hello"; "  "; "bye"; "^"; " x"; "b {"; " c"; "}"]%string.
Definition get {A} (d : A) (r : result A) : A := match r with Ok x => x | Err _ => d end.
Definition w_none : world := mkW oT [] [].
Definition plain_cfg (lines : list str) : Prop := Forall (fun l => plain_line l = true) lines.
Definition no_digit_cfg (lines : list str) : Prop := Forall (fun l => no_digit_start l = true) lines.

Lemma forallb_Forall {A} (f : A -> bool) l : forallb f l = true -> Forall (fun x => f x = true) l.
Proof. intros H. apply Forall_forall. now apply forallb_forall. Qed.

(** The two ways a configuration is loaded. *)
Theorem parse_is_loaded : forall o lines w,
  parse o lines = Ok w -> w_opts w = o /\ loaded w 0 (input_lines o lines).
Proof. exact parse_loaded. Qed.

Theorem commit_is_loaded : forall w w',
  commit w = Ok w' -> w_opts w' = w_opts w /\ loaded w' (length (w_heap w)) (ioscfg w).
Proof. exact commit_loaded. Qed.

Example ex_plain_loaded : loaded (get w_none (parse oT cfg_plain)) 0 (input_lines oT cfg_plain).
Proof. apply (parse_is_loaded oT cfg_plain). vm_compute. reflexivity. Qed.
Example ex_banner_loaded : loaded (get w_none (parse oT cfg_banner)) 0 (input_lines oT cfg_banner).
Proof. apply (parse_is_loaded oT cfg_banner). vm_compute. reflexivity. Qed.

(** ** C01 Text is preserved *)

Theorem C01_text_preserved : forall w b lines, loaded w b lines ->
  exists ks, StronglySorted lt ks /\
    (forall i, In i ks <-> line_kept (w_opts w) lines i) /\
    w_conf w = map (Nat.add b) ks /\
    ioscfg w = map (fun i => rstrip (nth i lines [])) ks.
Proof. exact loaded_text. Qed.
Print Assumptions C01_text_preserved.

Theorem C01_nonblank_lines : forall o lines w, parse o lines = Ok w ->
  filter (fun l => negb (blank l)) (ioscfg w) = map rstrip (filter (fun l => negb (blank l)) lines).
Proof.
  intros o lines w H. destruct (parse_loaded _ _ _ H) as [_ HL]. rewrite (loaded_nonblank _ _ _ HL).
  f_equal. unfold input_lines. destruct (o_ignore_blank o); [|reflexivity].
  clear. induction lines as [|[|c l] ls IH]; cbn [filter]; auto.
  destruct (negb (blank (c :: l))); now rewrite IH.
Qed.
Print Assumptions C01_nonblank_lines.

Theorem C01_nothing_dropped : forall o lines w, parse o lines = Ok w -> o_ignore_blank o = false ->
  ioscfg w = map rstrip lines.
Proof.
  intros o lines w H Hb. destruct (parse_loaded _ _ _ H) as [E HL].
  replace (input_lines o lines) with lines in HL by (unfold input_lines; now rewrite Hb).
  apply (loaded_all _ _ _ HL). intros i Hi. destruct (nth_error_lt_some lines i Hi) as (l & Hl).
  exists l. rewrite E. auto.
Qed.
Print Assumptions C01_nothing_dropped.

Example C01_ex : ioscfg (get w_none (parse oT cfg_plain)) <> [] /\
  length (ioscfg (get w_none (parse oT cfg_plain))) = 9 /\
  length (ioscfg (get w_none (parse oF cfg_plain))) = 10 /\
  length (ioscfg (get w_none (parse oT cfg_banner))) = 10.
Proof. vm_compute. repeat split; discriminate. Qed.

(** ** C02 Parents *)

(** The parent of every line of every configuration, also with braces, banners
    and macros. *)
Theorem C02_parent_general : forall w b lines i line,
  loaded w b lines -> nth_error lines i = Some line ->
  exists p, parent_of w (b + i) = b + p /\ full_parent (w_opts w) lines i p.
Proof.
  intros w b lines i line HL Hl. destruct (loaded_obj w b lines HL i line Hl) as (l & Ho & _ & _ & _ & _ & (p & Hp & Hf) & _).
  exists p. split; [|exact Hf]. unfold parent_of. now rewrite Ho.
Qed.
Print Assumptions C02_parent_general.

Theorem C02_parent_determined : forall o lines i p q,
  full_parent o lines i p -> full_parent o lines i q -> p = q.
Proof. exact full_parent_unique. Qed.
Print Assumptions C02_parent_determined.

Theorem C02_parent_rule : forall w b lines i p,
  loaded w b lines -> plain_cfg lines -> i < length lines ->
  (parent_of w (b + i) = b + p <-> tree_parent (o_comment (w_opts w)) lines i p).
Proof.
  intros w b lines i p HL Hp Hi. rewrite (plain_parent w b lines HL Hp i Hi).
  rewrite <- (par_iff (o_comment (w_opts w)) lines i p Hi). lia.
Qed.
Print Assumptions C02_parent_rule.

(** The parent of a line of the configuration is in the configuration. *)
Theorem C02_parent_in_config : forall w b lines x,
  loaded w b lines -> In x (w_conf w) -> In (parent_of w x) (w_conf w).
Proof.
  intros w b lines x HL Hx. destruct (conf_in w b lines HL x Hx) as (i & line & -> & Hl & Hk).
  destruct (C02_parent_general w b lines i line HL Hl) as (p & -> & Hf).
  pose proof (full_parent_kept _ _ _ _ Hf Hk) as (lp & Hlp & Hr).
  destruct (loaded_obj w b lines HL p lp Hlp) as (l & _ & _ & _ & _ & _ & _ & _ & H). apply H.
  exists lp. auto.
Qed.
Print Assumptions C02_parent_in_config.

Example C02_ex :
  plain_cfg (input_lines oT cfg_plain) /\
  map (parent_of (get w_none (parse oT cfg_plain))) (seq 0 10) = [0; 0; 1; 3; 0; 5; 6; 6; 6; 9] /\
  map (parent_of (get w_none (parse oT cfg_banner))) (seq 0 10) = [0; 1; 1; 1; 1; 1; 5; 7; 7; 7].
Proof. split; [apply forallb_Forall; vm_compute; reflexivity|]. vm_compute. split; reflexivity. Qed.

(** ** C03 Links agree *)

Theorem C03_links_agree : forall w b lines i j,
  loaded w b lines -> plain_cfg lines -> i < length lines -> j < length lines ->
  (In (b + j) (children_of w (b + i)) <-> parent_of w (b + j) = b + i /\ j <> i).
Proof.
  intros w b lines i j HL Hp Hi Hj. 
  pose proof (plain_agree w b lines HL Hp (b + i) (b + j)) as A.
  rewrite A by (unfold inr; lia). lia.
Qed.
Print Assumptions C03_links_agree.

Theorem C03_children_are_lines : forall w b lines i c,
  loaded w b lines -> plain_cfg lines -> i < length lines -> In c (children_of w (b + i)) ->
  b + i < c < b + length lines /\ In c (w_conf w).
Proof.
  intros w b lines i c HL Hp Hi Hc. apply (plain_children w b lines HL Hp i c Hi) in Hc as (j & -> & Hj & E & Hne).
  pose proof (par_le (o_comment (w_opts w)) lines j). split; [lia|].
  destruct (nth_error_lt_some lines j Hj) as (l & Hl).
  destruct (loaded_obj w b lines HL j l Hl) as (x & _ & _ & _ & _ & _ & _ & _ & H'). apply H'.
  apply (tree_child_kept _ (o_comment (w_opts w)) lines j i); [|exact Hne]. now apply par_iff.
Qed.
Print Assumptions C03_children_are_lines.

Theorem C03_children_in_order : forall w b lines i,
  loaded w b lines -> plain_cfg lines -> i < length lines -> StronglySorted lt (children_of w (b + i)).
Proof. exact plain_children_sorted. Qed.
Print Assumptions C03_children_in_order.

(** For every configuration: following parent links ends at a root. *)
Theorem C03_root_reached : forall w b lines i,
  loaded w b lines -> i < length lines -> exists path, root_path w path (b + i).
Proof. intros w b lines i HL Hi. exact (loaded_root w b lines HL i Hi). Qed.
Print Assumptions C03_root_reached.

(** With braces the closing line points to its block but is not among its
    children; with banners the old indentation parent keeps the line as a child. *)
Theorem C03_links_refuted : exists lines w x y,
  parse oT lines = Ok w /\ In y (w_conf w) /\ parent_of w y = x /\ x <> y /\ ~ In y (children_of w x).
Proof.
  exists (map lit ["a {"; "}"]%string), (get w_none (parse oT (map lit ["a {"; "}"]%string))), 0, 1.
  vm_compute. repeat split; auto; try discriminate.
Qed.
Theorem C03_links_refuted_banner : exists lines w x y,
  parse oT lines = Ok w /\ In y (children_of w x) /\ parent_of w y <> x.
Proof.
  exists (map lit ["banner motd ^"; "a"; " b"; "^"]%string),
    (get w_none (parse oT (map lit ["banner motd ^"; "a"; " b"; "^"]%string))), 1, 2.
  vm_compute. repeat split; auto. discriminate.
Qed.

(** An indented banner line is listed twice among the children of the banner. *)
Theorem C03_duplicate_child_refuted : exists lines w x,
  parse oT lines = Ok w /\ ~ NoDup (children_of w x).
Proof.
  exists cfg_banner, (get w_none (parse oT cfg_banner)), 1. split; [vm_compute; reflexivity|].
  intros H. vm_compute in H. inversion H as [|? ? N _]. apply N. now left.
Qed.

Example C03_ex : map (children_of (get w_none (parse oT cfg_plain))) (seq 0 10)
  = [[1; 4]; [2]; []; []; []; []; [7; 8]; []; []; []].
Proof. vm_compute. reflexivity. Qed.

(** ** C04 Closures *)

(** For every configuration, also with braces, banners and macros. *)
Theorem C04_all_children_closure : forall w b lines i,
  loaded w b lines -> no_digit_cfg lines -> i < length lines ->
  exists l, all_children w (b + i) = Ok l /\ StronglySorted lt l /\ NoDup l /\ ~ In (b + i) l /\
    forall y, In y l <-> descendant (children_of w) (b + i) y.
Proof.
  intros w b lines i HL Hd Hi. pose proof (loaded_region w b lines HL Hd) as R.
  assert (Hx : inr b (length lines) (b + i)) by (unfold inr; lia).
  destruct (all_children_region w b _ R (loaded_heap _ _ _ HL) (b + i) Hx) as (l & E & S & M).
  exists l. repeat split; auto; try (now apply ssorted_nodup); try apply M.
  intros H. apply M in H. apply (descendant_gt w b _ R) in H; [lia|exact Hx].
Qed.
Print Assumptions C04_all_children_closure.

Theorem C04_all_parents_closure : forall w b lines i,
  loaded w b lines -> no_digit_cfg lines -> i < length lines ->
  exists l, all_parents w (b + i) = Ok l /\ StronglySorted lt l /\ NoDup l /\ ~ In (b + i) l /\
    forall y, In y l <-> ancestor (fun c p => parent_of w c = p) y (b + i).
Proof.
  intros w b lines i HL Hd Hi. pose proof (loaded_region w b lines HL Hd) as R.
  assert (Hx : inr b (length lines) (b + i)) by (unfold inr; lia).
  pose proof (loaded_heap _ _ _ HL) as Hh.
  destruct (all_parents_region w b _ R Hh (b + i) Hx) as (l & E & S & M).
  exists l. repeat split; auto; try (now apply ssorted_nodup); try apply M.
  intros H. apply M in H. apply (ancestor_lt w b _ R Hh) in H; [lia|exact Hx].
Qed.
Print Assumptions C04_all_parents_closure.

Theorem C04_dual : forall w b lines i j,
  loaded w b lines -> plain_cfg lines -> no_digit_cfg lines -> i < length lines -> j < length lines ->
  exists cs ps, all_children w (b + i) = Ok cs /\ all_parents w (b + j) = Ok ps /\
    (In (b + j) cs <-> In (b + i) ps).
Proof.
  intros w b lines i j HL Hp Hd Hi Hj.
  destruct (C04_all_children_closure w b lines i HL Hd Hi) as (cs & E & _ & _ & _ & M).
  destruct (C04_all_parents_closure w b lines j HL Hd Hj) as (ps & E' & _ & _ & _ & M').
  exists cs, ps. repeat split; auto; rewrite M, M';
    apply (duality w b (length lines) (loaded_region w b lines HL Hd) (loaded_heap _ _ _ HL));
    try (apply (plain_agree w b lines HL Hp)); unfold inr; lia.
Qed.
Print Assumptions C04_dual.

Example C04_ex : no_digit_cfg (input_lines oT cfg_plain) /\
  all_children (get w_none (parse oT cfg_plain)) 0 = Ok [1; 2; 4] /\
  all_parents (get w_none (parse oT cfg_plain)) 2 = Ok [0; 1].
Proof. split; [apply forallb_Forall; vm_compute; reflexivity|]. vm_compute. split; reflexivity. Qed.

(** ** C05 Families are contiguous *)

Theorem C05_family_contiguous : forall w b lines i,
  loaded w b lines -> plain_cfg lines ->
  Forall (fun l => config_line (o_comment (w_opts w)) l = true) lines ->
  no_digit_cfg lines -> i < length lines ->
  exists k,
    all_children w (b + i) = Ok (map (Nat.add b) (seq (S i) k)) /\
    family_endpoint w (b + i) = Ok (Z.of_nat (i + k)) /\
    i + k < length lines /\
    (forall j, i < j <= i + k -> line_indent (nth i lines []) < line_indent (nth j lines [])) /\
    (S (i + k) = length lines \/
     line_indent (nth (S (i + k)) lines []) <= line_indent (nth i lines [])).
Proof. exact family_run. Qed.
Print Assumptions C05_family_contiguous.

Example C05_ex : forallb (config_line (lit "!")) cfg_clean && forallb plain_line cfg_clean
    && forallb no_digit_start cfg_clean = true /\
  all_children (get w_none (parse oT cfg_clean)) 0 = Ok [1; 2; 3; 4] /\
  family_endpoint (get w_none (parse oT cfg_clean)) 0 = Ok 4%Z.
Proof. vm_compute. repeat split; reflexivity. Qed.

(** With comments the family has gaps. *)
Theorem C05_comment_gap_refuted : exists lines w,
  parse oT lines = Ok w /\ plain_cfg lines /\ all_children w 0 = Ok [1; 2; 4] /\
  line_indent (nth 0 lines []) < line_indent (nth 3 lines []).
Proof.
  exists cfg_plain, (get w_none (parse oT cfg_plain)). split; [vm_compute; reflexivity|].
  split; [apply forallb_Forall; vm_compute; reflexivity|]. vm_compute. split; [reflexivity|lia].
Qed.

(** ** C06 commit() on an unmodified configuration *)

Theorem C06_commit_noop : forall w b lines,
  loaded w b lines -> no_bare_macro (w_opts w) lines ->
  exists w1 w2, commit w = Ok w1 /\ commit w1 = Ok w2 /\
    ioscfg w1 = ioscfg w /\ ioscfg w2 = ioscfg w /\ same_objects w1 w2 /\
    (no_comment_after_dropped (w_opts w) lines -> same_tree w w1).
Proof. exact commit_twice. Qed.
Print Assumptions C06_commit_noop.

Example C06_ex : no_bare_macro oT (input_lines oT cfg_plain) /\
  no_comment_after_dropped oT (input_lines oT cfg_plain).
Proof.
  split.
  - intros _ l Hl E. vm_compute in Hl. repeat (destruct Hl as [<-|Hl]; [discriminate E|]). destruct Hl.
  - intros i l Hl Hc. do 9 (destruct i as [|i]; [
      first [ exfalso; vm_compute in Hl; injection Hl as <-; vm_compute in Hc; discriminate Hc
            | eexists; split; [vm_compute; reflexivity|right; left; vm_compute; reflexivity] ] |]).
    vm_compute in Hl. destruct i; discriminate Hl.
Qed.

(** Without the conditions the claim is false. *)
Theorem C06_commit_refuted_comment : exists lines w w' x x',
  parse oT lines = Ok w /\ commit w = Ok w' /\
  nth_error (w_conf w) 2 = Some x /\ nth_error (w_conf w') 2 = Some x' /\
  text_of w x = text_of w' x' /\
  text_of w (parent_of w x) = lit "a" /\ text_of w' (parent_of w' x') = lit " !c".
Proof.
  set (ls := map lit ["a"; "  b"; "   "; " !c"]%string).
  set (w1 := get w_none (parse oT ls)).
  exists ls, w1, (get w_none (commit w1)), 3, 6. vm_compute. repeat split; reflexivity.
Qed.
Theorem C06_commit_refuted_macro : exists lines w w',
  parse oT lines = Ok w /\ commit w = Ok w' /\ ioscfg w <> ioscfg w'.
Proof.
  set (ls := map lit ["macro name "; "  "; "@"]%string).
  exists ls, (get w_none (parse oT ls)), (get w_none (commit (get w_none (parse oT ls)))).
  vm_compute. repeat split; try reflexivity. discriminate.
Qed.

(** ** C07 Line numbers *)

Theorem C07_linenum_is_index : forall w b lines i x,
  loaded w b lines -> (forall j, j < length lines -> line_kept (w_opts w) lines j) ->
  nth_error (w_conf w) i = Some x -> linenum_of w x = Z.of_nat i.
Proof.
  intros w b lines i x HL Hk Hx. destruct (loaded_all w b lines HL Hk) as [C _].
  rewrite C, nth_error_map_iff, nth_error_seq in Hx. destruct (i <? length lines) eqn:E; [|discriminate].
  injection Hx as <-. apply Nat.ltb_lt in E. destruct (nth_error_lt_some lines i E) as (l & Hl).
  destruct (loaded_obj w b lines HL i l Hl) as (o & Ho & _ & Hn & _). unfold linenum_of. now rewrite Ho.
Qed.
Print Assumptions C07_linenum_is_index.

(** In general the line number is the index of the line in the parsed text. *)
Theorem C07_linenum_is_input_index : forall w b lines x,
  loaded w b lines -> In x (w_conf w) ->
  exists i line, x = b + i /\ nth_error lines i = Some line /\
    linenum_of w x = Z.of_nat i /\ text_of w x = rstrip line.
Proof.
  intros w b lines x HL Hx. destruct (conf_in w b lines HL x Hx) as (i & line & -> & Hl & _).
  destruct (loaded_obj w b lines HL i line Hl) as (o & Ho & T & Hn & _).
  exists i, line. unfold linenum_of, text_of. now rewrite Ho.
Qed.
Print Assumptions C07_linenum_is_input_index.

Theorem C07_linenum_refuted : exists lines w x,
  parse oT lines = Ok w /\ nth_error (w_conf w) 1 = Some x /\ linenum_of w x = 2%Z.
Proof.
  set (ls := map lit ["a"; "  "; "b"]%string).
  exists ls, (get w_none (parse oT ls)), 2. vm_compute. repeat split; reflexivity.
Qed.

Example C07_ex : forall j, j < length cfg_clean -> line_kept oT cfg_clean j.
Proof.
  intros j Hj. do 9 (destruct j as [|j]; [eexists; split; [vm_compute; reflexivity|
    right; left; vm_compute; reflexivity]|]). cbn in Hj. lia.
Qed.

(** ** C08 Banners *)

Theorem C08_banner_body : forall w b lines p j d,
  loaded w b lines -> o_syntax (w_opts w) <> Junos ->
  banner_open lines p j d -> j < length lines ->
  In (b + j) (children_of w (b + p)) /\ In (b + j) (w_conf w) /\
  ((forall q, p < q -> ~ in_banner lines q j) ->
   (o_syntax (w_opts w) = Ios -> forall q, ~ in_macro lines q j) ->
   parent_of w (b + j) = b + p).
Proof.
  intros w b lines p j d HL Hs Hb Hj.
  destruct (nth_error_lt_some lines j Hj) as (lj & Hlj).
  destruct Hb as (Hpj & Hrest). assert (Hb : in_banner lines p j) by (exists d; split; auto).
  destruct (nth_error_lt_some lines p ltac:(lia)) as (lp & Hlp).
  destruct (loaded_obj w b lines HL p lp Hlp) as (op & Hop & _ & _ & _ & _ & _ & Hc & _).
  destruct (loaded_obj w b lines HL j lj Hlj) as (oj & Hoj & _ & _ & _ & _ & (q & Hq & Hf) & _ & Hk).
  split.
  - unfold children_of. rewrite Hop. apply Hc. exists j. eauto 6.
  - split.
    + apply Hk. exists lj. eauto 8.
    + intros H1 H2. unfold parent_of. rewrite Hoj, Hq. f_equal.
      eapply full_parent_unique; [exact Hf|]. right. split.
      * intros r [Hi Hr]. exact (H2 Hi r Hr).
      * left. split; [auto|]. intros r Hr [_ H]. exact (H1 r Hr H).
Qed.
Print Assumptions C08_banner_body.

(** Lines after the end of the banner are unaffected: they are children of the
    banner line only through indentation or a macro. *)
Theorem C08_banner_end : forall w b lines p j,
  loaded w b lines -> p < length lines -> In (b + j) (children_of w (b + p)) ->
  in_banner lines p j \/ tree_parent (o_comment (w_opts w)) lines j p \/ in_macro lines p j.
Proof.
  intros w b lines p j HL Hp Hin. destruct (nth_error_lt_some lines p Hp) as (lp & Hlp).
  destruct (loaded_obj w b lines HL p lp Hlp) as (op & Hop & _ & _ & _ & _ & _ & Hc & _).
  unfold children_of in Hin. rewrite Hop in Hin. apply Hc in Hin as (j' & E & _ & H).
  assert (j' = j) by lia. subst j'. tauto.
Qed.
Print Assumptions C08_banner_end.

Example C08_ex : banner_open cfg_banner 1 3 "^" /\ banner_open cfg_banner 1 5 "^" /\
  ~ in_banner cfg_banner 1 6 /\
  children_of (get w_none (parse oT cfg_banner)) 1 = [2; 2; 3; 4; 5].
Proof.
  assert (G : forall n, n <= 4 -> forall k lk, 1 < k < S n -> nth_error cfg_banner k = Some lk -> has_char "^" lk = false).
  { intros n Hn k lk Hk H. do 5 (destruct k as [|k]; [try lia; vm_compute in H; injection H as <-; reflexivity|]). lia. }
  assert (B : exists l, nth_error cfg_banner 1 = Some l /\ is_banner_line (rstrip l) = true /\
     banner_delim (rstrip l) = Some "^"%char /\ count_occ ascii_dec (rstrip l) "^"%char <= 1).
  { exists (lit "banner motd ^"). split; [reflexivity|]. split; [reflexivity|]. split; [reflexivity|]. vm_compute. lia. }
  split; [split; [lia|]; split; [exact B|]; apply (G 2); lia|].
  split; [split; [lia|]; split; [exact B|]; apply (G 4); lia|].
  split; [|vm_compute; reflexivity].
  intros (d & _ & (l & Hl & _ & Hd & _) & Hall).
  vm_compute in Hl. injection Hl as <-. vm_compute in Hd. injection Hd as <-.
  specialize (Hall 5 (lit "^") ltac:(lia) eq_refl). discriminate.
Qed.

(** A banner-like line inside a banner takes over the rest of the text. *)
Theorem C08_nested_refuted : exists lines w,
  parse oT lines = Ok w /\ banner_open lines 0 2 "^" /\ parent_of w 2 = 1.
Proof.
  set (ls := map lit ["banner motd ^"; "banner exec #"; "text"; "#"; "^"]%string).
  exists ls, (get w_none (parse oT ls)). split; [vm_compute; reflexivity|]. split.
  - split; [lia|]. split.
    + exists (lit "banner motd ^"). split; [reflexivity|]. split; [reflexivity|]. split; [reflexivity|]. vm_compute. lia.
    + intros [|[|k]] lk Hk H; try lia. vm_compute in H. injection H as <-. reflexivity.
  - vm_compute. reflexivity.
Qed.

(** ** C14 Paths *)

Theorem C14_geneology_is_root_path : forall w b lines i,
  loaded w b lines -> no_digit_cfg lines -> i < length lines ->
  exists l, geneology w (b + i) = Ok l /\ root_path w l (b + i).
Proof.
  intros w b lines i HL Hd Hi.
  apply (region_root_path w b (length lines)); [now apply loaded_region|now apply loaded_heap|unfold inr; lia].
Qed.
Print Assumptions C14_geneology_is_root_path.

Theorem C14_lineage : forall w b lines i,
  loaded w b lines -> no_digit_cfg lines -> i < length lines ->
  exists g cs, geneology w (b + i) = Ok g /\ all_children w (b + i) = Ok cs /\
    lineage w (b + i) = Ok (g ++ cs) /\ StronglySorted lt (g ++ cs).
Proof.
  intros w b lines i HL Hd Hi. pose proof (loaded_region w b lines HL Hd) as R.
  assert (Hx : inr b (length lines) (b + i)) by (unfold inr; lia).
  destruct (geneology_region w b _ R (loaded_heap _ _ _ HL) _ Hx) as (g & E & _ & _ & ps & Ep & ->).
  destruct (lineage_region w b _ R (loaded_heap _ _ _ HL) _ Hx) as (ps' & cs & Ep' & Ec & El & S).
  rewrite Ep in Ep'. injection Ep' as <-. exists (ps ++ [b + i]), cs.
  rewrite <- app_assoc. auto.
Qed.
Print Assumptions C14_lineage.

Example C14_ex :
  geneology (get w_none (parse oT cfg_plain)) 2 = Ok [0; 1; 2] /\
  lineage (get w_none (parse oT cfg_plain)) 1 = Ok [0; 1; 2] /\
  root_path (get w_none (parse oT cfg_plain)) [0; 1; 2] 2.
Proof.
  split; [vm_compute; reflexivity|]. split; [vm_compute; reflexivity|].
  apply (rp_step _ [0; 1] 2); [vm_compute; discriminate|].
  change (parent_of (get w_none (parse oT cfg_plain)) 2) with (parent_of (get w_none (parse oT cfg_plain)) 2).
  replace (parent_of (get w_none (parse oT cfg_plain)) 2) with 1 by (vm_compute; reflexivity).
  apply (rp_step _ [0] 1); [vm_compute; discriminate|].
  replace (parent_of (get w_none (parse oT cfg_plain)) 1) with 0 by (vm_compute; reflexivity).
  apply rp_root. vm_compute. reflexivity.
Qed.

(** ** C21 commit() is a fresh parse *)

Theorem C21_commit_is_fresh_parse : forall w,
  (o_ignore_blank (w_opts w) = false \/ ~ In [] (ioscfg w)) ->
  match commit w, parse (w_opts w) (ioscfg w) with
  | Ok v1, Ok v2 => same_objects v1 v2
  | Err e1, Err e2 => e1 = e2
  | _, _ => False
  end.
Proof. exact commit_is_parse. Qed.
Print Assumptions C21_commit_is_fresh_parse.

Theorem C21_blank_banner_line_refuted : exists lines w v1 v2,
  parse oT lines = Ok w /\ commit w = Ok v1 /\ parse oT (ioscfg w) = Ok v2 /\
  length (ioscfg v1) = 3 /\ length (ioscfg v2) = 2.
Proof.
  set (ls := map lit ["banner motd ^"; "  "; "^"]%string). set (w := get w_none (parse oT ls)).
  exists ls, w, (get w_none (commit w)), (get w_none (parse oT (ioscfg w))).
  vm_compute. repeat split; reflexivity.
Qed.

Example C21_ex : ~ In [] (ioscfg (get w_none (parse oT cfg_plain))).
Proof. vm_compute. intros H. repeat (destruct H as [H|H]; [discriminate|]). exact H. Qed.

(** ** C23 Object equality *)

Theorem C23_equality : forall w b lines i j,
  loaded w b lines -> no_digit_cfg lines -> i < length lines -> j < length lines ->
  (obj_eqb w (b + i) (b + j) = true <-> i = j).
Proof.
  intros w b lines i j HL Hd Hi Hj.
  rewrite (region_eqb w b (length lines) (loaded_region w b lines HL Hd)); [|unfold inr; lia|unfold inr; lia].
  rewrite Nat.eqb_eq. lia.
Qed.
Print Assumptions C23_equality.

Theorem C23_equality_refuted : exists lines w x y,
  parse oT lines = Ok w /\ In x (w_conf w) /\ In y (w_conf w) /\
  linenum_of w x <> linenum_of w y /\ text_of w x <> text_of w y /\ obj_eqb w x y = true.
Proof.
  set (ls := map lit ["a"; "1a"; "b"; "b"; "b"; "b"; "b"; "b"; "b"; "b"; "b"; "a"]%string).
  exists ls, (get w_none (parse oT ls)), 1, 11. vm_compute.
  repeat split; auto 15; discriminate.
Qed.

(** ** C27 Closing braces *)

Theorem C27_closing_brace_parent : forall w b lines p i,
  loaded w b lines -> closes_block lines p i ->
  (o_syntax (w_opts w) <> Junos -> forall q, ~ in_banner lines q i) ->
  (o_syntax (w_opts w) = Ios -> forall q, ~ in_macro lines q i) ->
  parent_of w (b + i) = b + p.
Proof.
  intros w b lines p i HL Hc Hb Hm.
  assert (Hi : exists l, nth_error lines i = Some l) by (destruct Hc as (_ & _ & (l & Hl & _) & _); eauto).
  destruct Hi as (l & Hl). destruct (C02_parent_general w b lines i l HL Hl) as (q & -> & Hf). f_equal.
  eapply full_parent_unique; [exact Hf|]. right. split; [intros r [Hs H]; exact (Hm Hs r H)|].
  right. split; [intros r [Hs H]; exact (Hb Hs r H)|]. left. exact Hc.
Qed.
Print Assumptions C27_closing_brace_parent.

(** Every closing line of a parsed configuration closes exactly one block. *)
Theorem C27_closing_brace_has_block : forall w b lines i,
  loaded w b lines -> closer lines i ->
  exists p, closes_block lines p i /\ forall q, closes_block lines q i -> q = p.
Proof.
  intros w b lines i HL Hc. destruct (loaded_boot w b lines HL) as (objs & B & _).
  unfold bootstrap, bind in B. rewrite (boot_loop_exp (o_comment (w_opts w))) in B by reflexivity.
  rewrite exp_texts in B.
  pose proof (close_braces_full lines (exp_objs (o_comment (w_opts w)) lines) (exp_objs_length _ _)) as F.
  destruct (close_braces _ _ _ _) as [objs1|e]; [|discriminate]. destruct F as [_ F].
  assert (Hi : i < length lines) by (destruct Hc as (l & Hl & _); eapply nth_error_length_lt; eauto).
  specialize (F i (exp_line (o_comment (w_opts w)) lines i)). rewrite exp_objs_nth in F.
  replace (i <? length lines) with true in F by (symmetry; now apply Nat.ltb_lt).
  destruct (F eq_refl) as [F1 _]. destruct (F1 Hc) as (p & Hp & _).
  exists p. split; [exact Hp|]. intros q Hq. eapply closes_block_unique; eauto.
Qed.
Print Assumptions C27_closing_brace_has_block.

Theorem C27_unmatched_brace : forall o lines,
  (parse o lines = Err ValueError <-> ~ braces_ok (input_lines o lines)).
Proof.
  intros o lines. unfold parse, reboot, bind. cbn [w_opts].
  pose proof (bootstrap_full o (input_lines o lines)) as B.
  destruct (bootstrap o (input_lines o lines)) as [[objs kept]|e].
  - split; [discriminate|]. intros H. exfalso. apply H. apply B.
  - destruct B as [[-> B]|(-> & B1 & _)]; [tauto|]. split; [discriminate|tauto].
Qed.
Print Assumptions C27_unmatched_brace.

Example C27_ex : closes_block cfg_banner 7 9 /\ parent_of (get w_none (parse oT cfg_banner)) 9 = 7
  /\ parse oT [lit "}"] = Err ValueError.
Proof.
  split; [|vm_compute; split; reflexivity].
  split; [lia|]. split; [eexists; split; reflexivity|]. split; [eexists; repeat split; reflexivity|].
  split; [vm_compute; reflexivity|]. intros k Hk.
  assert (k = 8 \/ k = 9) as [->| ->] by lia; vm_compute; discriminate.
Qed.

(** ** C42 Totality *)

Theorem C42_parse_outcome : forall o lines,
  match parse o lines with
  | Ok w => braces_ok (input_lines o lines) /\ (o_syntax o = Ios -> macros_ok (input_lines o lines))
  | Err e =>
      (e = ValueError /\ ~ braces_ok (input_lines o lines)) \/
      (e = IndexError /\ o_syntax o = Ios /\ ~ macros_ok (input_lines o lines))
  end.
Proof.
  intros o lines. unfold parse, reboot, bind. cbn [w_opts].
  pose proof (bootstrap_full o (input_lines o lines)) as B.
  destruct (bootstrap o (input_lines o lines)) as [[objs kept]|e]; tauto.
Qed.
Print Assumptions C42_parse_outcome.

Theorem C42_macro_refuted : exists lines,
  braces_ok lines /\ parse oT lines = Err IndexError.
Proof.
  exists [lit "macro name x"; lit "y"]. split; [|vm_compute; reflexivity].
  intros [|[|[|k]]]; vm_compute; discriminate.
Qed.
