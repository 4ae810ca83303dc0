(** Properties C63 to C65. *)
From Coq Require Import Ascii String Arith NArith ZArith Bool List Lia Sorted.
From Verif Require Import PyStr PyStrFacts PyBase CfgModel MutModel TreeSpec TreeProofs TreeRel PyBaseFacts TreePost TreeWorld TreeMain WorldSpec SearchModel SearchSpec SearchProofs DiffModel DiffSpec DiffFacts PTree PDiff
  PyRe PyReFacts PyReTmpl PyReSent PyReLit SyncSpec SyncModel SyncFacts.
Import ListNotations.
Local Open Scope char_scope.

Lemma strip_in c s : In c (strip s) -> In c s.
Proof.
  assert (L : forall s, In c (lstrip s) -> In c s).
  { clear. induction s as [|x s IH]; cbn [lstrip]; [tauto|]. destruct (is_space x); [intros K; right; auto|auto]. }
  unfold strip, rstrip. intros K. apply L in K. rewrite <- in_rev in K. apply L in K. now rewrite <- in_rev in K.
Qed.
Lemma squeezed_one_line t : one_line (squeezed t).
Proof.
  unfold one_line, squeezed. rewrite in_app_iff. intros [K|K].
  - unfold spaces in K. apply repeat_spec in K. discriminate.
  - pose proof (words_tokens t) as F. induction (words t) as [|w l IH]; [exact K|]. inversion F as [|? ? [_ Fw] Fl]; subst.
    assert (Q : ~ In "010" w). { intros Q. rewrite Forall_forall in Fw || rewrite forallb_forall in Fw. specialize (Fw _ Q). discriminate. }
    destruct l as [|v l]; [auto|]. change (join [" "] (w :: v :: l)) with (w ++ [" "] ++ join [" "] (v :: l)) in K. rewrite !in_app_iff in K.
    destruct K as [K|[[K|[]]|K]]; [auto|discriminate|now apply IH].
Qed.
Lemma ancestry_ends w x p : ancestry w x p -> exists q t, p = q ++ [squeezed t].
Proof. destruct 1; [now exists [], (text_of w x)|eauto]. Qed.
Lemma reported_ends wb wa s p : reported wb wa s p -> exists q t, p = q ++ [squeezed t].
Proof. destruct s; intros [H1 H2]; destruct H1 as (x & _ & H1); now apply ancestry_ends in H1. Qed.

(** ** C63 *)

Lemma sync_entries linespec uncfgspec rm : within uncfgspec -> forall ds es,
  unified ds = map DiffSpec.shown es -> map d_parents ds = map (fun e => removelast (snd e)) es -> Forall own_indent ds ->
  (forall e, In e es -> exists q t, snd e = q ++ [squeezed t]) ->
  (forall cmds, sync_all linespec uncfgspec rm ds = Ok cmds -> exists parts, cmds = concat parts /\ Forall2 (remedy linespec uncfgspec rm) es parts) /\
  (forall x, sync_all linespec uncfgspec rm ds = Err x -> x = AttributeErr /\ exists e, In e es /\ no_remedy linespec uncfgspec rm e).
Proof.
  intros Wi. induction ds as [|d ds IH]; intros [|[s p] es] U P Ow En; try discriminate.
  - split; [intros cmds [= <-]; exists []; split; [reflexivity|constructor]|discriminate].
  - cbn [unified map] in U. injection U as Us Ut U. cbn [map] in P. injection P as Pp P. inversion Ow as [|? ? Od Ow']; subst.
    destruct (En _ (or_introl eq_refl)) as (q & t & Ep). cbn [snd fst] in *. subst p. rewrite last_last in Ut. rewrite removelast_last in Pp.
    destruct (IH es U P Ow') as [I1 I2]; [intros e He; apply En; now right|].
    assert (K : (forall a, sync_one linespec uncfgspec rm d = Ok a -> remedy linespec uncfgspec rm (s, q ++ [squeezed t]) a) /\
      (forall x, sync_one linespec uncfgspec rm d = Err x -> x = AttributeErr /\ no_remedy linespec uncfgspec rm (s, q ++ [squeezed t]))).
    { unfold sync_one, remedy, no_remedy. cbn [fst snd]. rewrite last_last, Ut, Pp. unfold own_indent in Od. rewrite Od, Ut.
      destruct (hits linespec (squeezed t)) eqn:Hh; cbn [negb]; [|split; [now intros a [= <-]|discriminate]].
      destruct (d_word d), s; try discriminate Us; try (split; [now intros a [= <-]|discriminate]).
      destruct rm; [|split; [now intros a [= <-]|discriminate]]. destruct (rx_find uncfgspec (squeezed t)) as [m|] eqn:Fm.
      - assert (O : one_line (spaces (line_indent (squeezed t)) ++ lit "no " ++ strip (m_all m))).
        { intros K. rewrite !in_app_iff in K. destruct K as [K|[K|K]].
          - unfold spaces in K. apply repeat_spec in K. discriminate.
          - cbn in K. intuition discriminate.
          - apply strip_in in K. destruct (Wi _ _ Fm) as (u & v & E). apply (squeezed_one_line t). rewrite E, !in_app_iff. auto. }
        assert (Ne : spaces (line_indent (squeezed t)) ++ lit "no " ++ strip (m_all m) <> []) by (destruct (spaces _); discriminate).
        destruct (fix_repeated _ Ne O) as (c & -> & Uc). cbn [bind]. split; [|discriminate].
        intros a [= <-]. exists m, c. split; [reflexivity|]. split; [now apply Uc|reflexivity].
      - cbn [bind]. split; [discriminate|]. intros x [= <-]. auto. }
    destruct K as [K1 K2]. cbn [sync_all]. destruct (sync_one linespec uncfgspec rm d) as [a|x]; cbn [bind].
    + destruct (sync_all linespec uncfgspec rm ds) as [r|x]; cbn [bind].
      * split; [|discriminate]. intros cmds [= <-]. destruct (I1 r eq_refl) as (parts & -> & F). exists (a :: parts). split; [reflexivity|]. constructor; auto.
      * split; [discriminate|]. intros y [= <-]. destruct (I2 x eq_refl) as (-> & e & He & Ne). split; [reflexivity|]. exists e. split; [now right|exact Ne].
    + split; [discriminate|]. intros y [= <-]. destruct (K2 x eq_refl) as (-> & Ne). split; [reflexivity|]. eexists. split; [now left|exact Ne].
Qed.

Theorem C63_sync_diff : forall hash sy w cfgspec linespec uncfgspec remove_lines wb wa,
  let o := mkOpts (lit "!") true sy in
  sy = Ios \/ sy = Nxos -> parse o (ioscfg w) = Ok wb -> parse o cfgspec = Ok wa -> within uncfgspec ->
  Forall (fun l => no_digit_start l = true) (ioscfg w ++ cfgspec) ->
  no_collision hash (map squeezed (ioscfg w ++ cfgspec)) ->
  exists es, NoDup (map snd es) /\ (forall s p, In (s, p) es <-> reported wb wa s p) /\
    match sync_diff hash sy w cfgspec linespec uncfgspec remove_lines with
    | Ok cmds => exists parts, cmds = concat parts /\ Forall2 (remedy linespec uncfgspec remove_lines) es parts
    | Err x => x = AttributeErr /\ exists e, In e es /\ no_remedy linespec uncfgspec remove_lines e
    end.
Proof.
  intros hash sy w cfgspec linespec uncfgspec rm wb wa o Sy Pb Pa Wi Nd NC.
  destruct (C24_lines hash sy true (ioscfg w) cfgspec wb wa Sy Pb Pa Nd NC) as (ds & es & E & U & P & N & R & _).
  exists es. split; [exact N|]. split; [exact R|]. unfold sync_diff. rewrite E. cbn [bind].
  assert (Ow : Forall own_indent ds).
  { unfold hdiff in E. fold o in E. destruct (parse_loaded _ _ _ Pb) as [Lb _]. destruct (parse_loaded _ _ _ Pa) as [La _].
    assert (NDb : NoDup (w_conf wb)) by (apply ssorted_nodup; eapply loaded_conf_sorted; exact Lb).
    assert (NDa : NoDup (w_conf wa)) by (apply ssorted_nodup; eapply loaded_conf_sorted; exact La).
    destruct Sy as [-> | ->]; fold o in E; rewrite Pb in E; cbn [bind] in E; rewrite Pa in E; cbn [bind] in E; exact (diff_own hash wb wa ds NDb NDa E). }
  destruct (sync_entries linespec uncfgspec rm Wi ds es U P Ow) as [I1 I2].
  { intros [s p] He. cbn [snd]. apply R in He. now apply reported_ends in He. }
  destruct (sync_all linespec uncfgspec rm ds) as [cmds|x]; auto.
Qed.
Print Assumptions C63_sync_diff.

(** A configuration that already is as required needs no command. *)
Theorem C63_nothing_to_do : forall hash sy w linespec uncfgspec remove_lines wb, sy = Ios \/ sy = Nxos ->
  parse (mkOpts (lit "!") true sy) (ioscfg w) = Ok wb ->
  sync_diff hash sy w (ioscfg w) linespec uncfgspec remove_lines = Ok [].
Proof.
  intros hash sy w linespec uncfgspec rm wb Sy P. pose proof (C25_same hash sy true (ioscfg w) Sy) as C. unfold sync_diff.
  destruct (hdiff hash sy true (ioscfg w) (ioscfg w)) as [ds|e]; [|congruence]. cbn [bind].
  induction ds as [|d ds IH]; [reflexivity|]. cbn [sync_all]. rewrite IH by (intros l Hl; apply C; now right).
  destruct (C _ (or_introl eq_refl)) as (t & E). unfold sync_one. destruct (negb _); [reflexivity|]. now destruct (d_word d).
Qed.
Print Assumptions C63_nothing_to_do.

(** "no no" is never sent: the command loses both words. *)
Theorem C63_double_negation : forall s, s <> [] -> ~ In "010" s ->
  exists t, fix_repeated_words s (lit "no") = Ok t /\ (forall u, undoubled s u <-> u = t) /\ forall a c, ~ twice t a c.
Proof.
  intros s N O. destruct (fix_repeated s N O) as (t & E & U). exists t. split; [exact E|]. split; [exact U|].
  pose proof (proj2 (U t) eq_refl) as K. clear E U. induction K; auto. apply IHK.
  - match goal with T : twice _ _ _ |- _ => destruct T as (g & g' & x & r & _ & _ & _ & _ & _ & -> & _) end. destruct a; discriminate.
  - now apply (twice_one_line s).
Qed.
Print Assumptions C63_double_negation.

Lemma pattern_within v p : within (pattern v p).
Proof.
  intros t m. unfold pattern. cbn [rx_find]. destruct (compile v p) as [[r e]|]; [|discriminate]. destruct (search r t) as [[u c]|] eqn:E; [|discriminate].
  intros [= <-]. cbn [m_all]. apply search_some in E as (a & b & i & s' & -> & _ & ->). exists a, (skipn (i - length a) b). now rewrite firstn_skipn.
Qed.
Definition sync_before := map lit ["logging trap debugging"; "logging 172.28.26.15"; "interface Gi0"; " no ip proxy-arp"; "logging 10.0.0.1"]%string.
Definition sync_after := map lit ["logging 10.0.0.1"; "interface Gi0"; " ip address 10.1.1.1 255.255.255.0"; "logging 1.2.3.4"]%string.
Example C63_case : let o := mkOpts (lit "!") true Ios in let u := pattern false (lit "logging\s+\S+|no ip \S+") in
  exists w wb wa, parse o sync_before = Ok w /\ parse o (ioscfg w) = Ok wb /\ parse o sync_after = Ok wa /\ within u /\
  Forall (fun l => no_digit_start l = true) (ioscfg w ++ sync_after) /\ no_collision toy_hash (map squeezed (ioscfg w ++ sync_after)) /\
  sync_diff toy_hash Ios w sync_after (pattern false (lit "logging\s+\d|proxy|address")) u true
    = Ok (map lit ["no logging 172.28.26.15"; "interface Gi0"; " ip address 10.1.1.1 255.255.255.0"; " ip proxy-arp"; "logging 1.2.3.4"]%string).
Proof.
  cbv zeta. set (o := mkOpts (lit "!") true Ios). set (W := fun l => match parse o l with Ok w => w | Err _ => mkW o [] [] end).
  assert (P : parse o sync_before = Ok (W sync_before)) by (vm_compute; reflexivity).
  assert (E : ioscfg (W sync_before) = sync_before) by (vm_compute; reflexivity).
  exists (W sync_before), (W sync_before), (W sync_after). rewrite E. split; [exact P|]. split; [exact P|]. split; [vm_compute; reflexivity|].
  split; [apply pattern_within|]. split; [apply forallb_Forall; vm_compute; reflexivity|]. split; [apply no_collision_b; vm_compute; reflexivity|].
  vm_compute. reflexivity.
Qed.

Lemma ancestry_root w x p : ancestry w x p -> parent_of w x = x -> length p = 1.
Proof. destruct 1; [reflexivity|contradiction]. Qed.
(** Finding.  A line below another one is removed without naming the line above it: the
    device takes the command in whatever context it is in. *)
Theorem C63_removal_context_refuted : exists w wa p, let o := mkOpts (lit "!") true Ios in
  parse o (ioscfg w) = Ok w /\ parse o (map lit ["interface Gi0"]%string) = Ok wa /\ reported w wa Minus p /\ length p = 2 /\
  sync_diff toy_hash Ios w (map lit ["interface Gi0"]%string) (pattern false (lit "shutdown")) (pattern false (lit "shutdown")) true = Ok [lit " no shutdown"].
Proof.
  set (o := mkOpts (lit "!") true Ios). set (W := fun l => match parse o l with Ok w => w | Err _ => mkW o [] [] end).
  exists (W (map lit ["interface Gi0"; " shutdown"]%string)), (W (map lit ["interface Gi0"]%string)), (map lit ["interface Gi0"; " shutdown"]%string).
  cbv zeta. split; [vm_compute; reflexivity|]. split; [vm_compute; reflexivity|]. split; [|split; [reflexivity|vm_compute; reflexivity]]. split.
  - exists 1. split; [vm_compute; auto|]. change (map lit ["interface Gi0"; " shutdown"]%string) with ([lit "interface Gi0"] ++ [lit " shutdown"]).
    replace (lit " shutdown") with (squeezed (text_of (W (map lit ["interface Gi0"; " shutdown"]%string)) 1)) by (vm_compute; reflexivity).
    apply an_child; [vm_compute; discriminate|vm_compute; reflexivity|].
    replace (lit "interface Gi0") with (squeezed (text_of (W (map lit ["interface Gi0"; " shutdown"]%string)) 0)) by (vm_compute; reflexivity).
    replace (parent_of _ 1) with 0 by (vm_compute; reflexivity). apply an_root. left. vm_compute. reflexivity.
  - intros (x & Hx & K). assert (x = 0) by (vm_compute in Hx; tauto || (destruct Hx as [<-|[]]; reflexivity)). subst x. apply ancestry_root in K; [discriminate K|vm_compute; reflexivity].
Qed.
Print Assumptions C63_removal_context_refuted.

(** ** C64 *)

Fixpoint elems (in_gap : bool) (s : str) : list elem :=
  match s with
  | [] => []
  | c :: r => if is_space c then (if in_gap then [] else [EGap]) ++ elems true r else EChar c :: elems false r
  end.
Lemma elems_text s : forall b, text (elems b s) = space_tolerant b s.
Proof.
  induction s as [|c s IH]; intros b; [reflexivity|]. cbn [elems space_tolerant]. destruct (is_space c).
  - unfold text. rewrite flat_map_app. fold (text (elems true s)). rewrite IH. now destruct b.
  - unfold text. cbn [flat_map elem_text app]. fold (text (elems false s)). now rewrite IH.
Qed.
Lemma elems_ok s : literal s -> forall b, forallb elem_ok (elems b s) = true /\ forallb inner (elems b s) = true.
Proof.
  unfold literal. induction s as [|c s IH]; intros L b; [auto|]. cbn [forallb] in L. apply andb_true_iff in L as [Lc L]. cbn [elems].
  destruct (is_space c); [|cbn [forallb elem_ok inner]; destruct (IH L false) as [-> ->]; unfold plain_char, special; unfold ordinary in Lc; rewrite Lc; auto].
  destruct (IH L true) as [A B]. destruct b; cbn [app forallb elem_ok inner]; now rewrite ?A, ?B.
Qed.
Lemma elems_white g s : whites g -> forall b, elems b (g ++ s) = (if b then [] else match g with [] => [] | _ => [EGap] end) ++ elems (b || match g with [] => false | _ => true end) s.
Proof.
  unfold whites. induction g as [|c g IH]; intros W b; [cbn [app]; rewrite orb_false_r; now destruct b|]. cbn [forallb] in W. apply andb_true_iff in W as [Wc W].
  cbn [app elems]. rewrite Wc, (IH W true). cbn [orb app]. rewrite orb_true_r. reflexivity.
Qed.
Lemma elems_head s : match s with c :: _ => is_space c = false | [] => True end -> elems true s = elems false s.
Proof. destruct s as [|c s]; [reflexivity|]. intros E. cbn [elems]. now rewrite E. Qed.
Lemma split_white s : exists g r, s = g ++ r /\ whites g /\ match r with c :: _ => is_space c = false | [] => True end.
Proof.
  induction s as [|c s (g & r & -> & W & Hh)]; [exists [], []; repeat split|]. destruct (is_space c) eqn:Ec.
  - exists (c :: g), r. repeat split; auto. unfold whites in *. cbn [forallb]. now rewrite Ec.
  - exists [], (c :: g ++ r). repeat split; auto.
Qed.
Lemma spelled_respaced s : forall t, spelled (elems false s) t <-> respaced s t.
Proof.
  assert (F : forall s t, respaced s t -> spelled (elems false s) t).
  { induction 1 as [|c s' t' Sc R IH|g g' s' t' [Wg Ng] [Wg' Ng'] Hh R IH]; [constructor|cbn [elems]; rewrite Sc; now constructor|].
    rewrite (elems_white g s' Wg false). destruct g as [|x g]; [congruence|]. cbn [orb app]. rewrite elems_head by exact Hh. apply sp_gap; auto. now apply all_sp'. }
  intros t. split; [|apply F]. revert t. remember (length s) as n eqn:E. revert s E. induction n as [n IH] using lt_wf_ind. intros s E t K.
  destruct (split_white s) as (g & r & -> & Wg & Hh). rewrite (elems_white g r Wg false) in K. destruct g as [|x g].
  - cbn [orb app] in *. destruct r as [|c r]; [inversion K; subst; constructor|]. cbn [elems] in K. rewrite Hh in K. inversion K as [|? ? t' K'|]; subst.
    constructor; [exact Hh|]. eapply IH; [|reflexivity|exact K']. cbn [length]. lia.
  - cbn [orb app] in K. rewrite elems_head in K by exact Hh. inversion K as [| |g' ? t' Ag Ng K']; subst. apply rs_gap; auto.
    + split; [exact Wg|discriminate].
    + split; [now apply all_sp'|exact Ng].
    + eapply IH; [|reflexivity|exact K']. rewrite app_length. cbn [length]. lia.
Qed.
(** Without [ignore_ws] every character stands for itself. *)
Lemma chars_text s : text (map EChar s) = s.
Proof. induction s as [|c s IH]; [reflexivity|]. unfold text in *. cbn [map flat_map elem_text app]. now rewrite IH. Qed.
Lemma chars_ok s : literal s -> forallb elem_ok (map EChar s) = true /\ forallb inner (map EChar s) = true.
Proof.
  unfold literal. induction s as [|c s IH]; intros L; [auto|]. cbn [forallb] in L. apply andb_true_iff in L as [Lc L]. cbn [map forallb elem_ok inner].
  destruct (IH L) as [-> ->]. unfold plain_char, special. unfold ordinary in Lc. now rewrite Lc.
Qed.
Lemma spelled_chars s : forall t, spelled (map EChar s) t <-> t = s.
Proof.
  induction s as [|c s IH]; intros t; cbn [map]; split.
  - intros K. now inversion K.
  - intros ->. constructor.
  - intros K. inversion K as [|? ? t' K'|]; subst. apply IH in K'. now subst.
  - intros ->. constructor. now apply IH.
Qed.
Lemma text_anchors es : text (EBol :: es ++ [EEol]) = lit "^" ++ text es ++ lit "$".
Proof. unfold text. cbn [flat_map elem_text app]. rewrite flat_map_app. reflexivity. Qed.

(** Any text, with a line feed at its end or not. *)
Lemma spec_hits s e i t : literal s -> (forall u, t <> u ++ ["010"]) -> (hits (spec_pattern s e i) t = true <-> selects s e i t).
Proof.
  intros L NL. unfold spec_pattern, selects.
  assert (X : forall es q, forallb elem_ok es = true /\ forallb inner es = true -> text es = q ->
    (hits (pattern false q) t = true <-> exists u w v, t = u ++ w ++ v /\ spelled es w) /\ (hits (pattern false (lit "^" ++ q ++ lit "$")) t = true <-> spelled es t)).
  { intros es q [A B] <-. split; [now apply hits_elems|]. rewrite <- text_anchors, hits_exact by assumption. split.
    - intros (w & z & -> & K & [-> | ->]); [now rewrite app_nil_r|]. now destruct (NL w).
    - intros K. exists t, []. rewrite app_nil_r. auto. }
  destruct i.
  - destruct (X (elems false s) _ (elems_ok s L false) (elems_text s false)) as [X1 X2]. destruct e; [rewrite X2; apply spelled_respaced|].
    rewrite X1. split; intros (u & w & v & E & K); exists u, w, v; (split; [exact E|]); now apply spelled_respaced.
  - destruct (X (map EChar s) _ (chars_ok s L) (chars_text s)) as [X1 X2]. destruct e; [rewrite X2; apply spelled_chars|].
    rewrite X1. split.
    + intros (u & w & v & E & K). apply spelled_chars in K as ->. eauto.
    + intros (u & v & E). exists u, s, v. split; [exact E|]. now apply spelled_chars.
Qed.
Lemma rstrip_no_feed s u : rstrip s <> u ++ ["010"].
Proof.
  intros E. pose proof (rstrip_idem s) as R. rewrite E in R at 2. rewrite E in R. unfold rstrip in R. rewrite rev_app_distr in R. cbn [rev app lstrip] in R.
  apply (f_equal (@length ascii)) in R. rewrite rev_length, app_length in R. cbn [length] in R.
  assert (K : forall s, length (lstrip s) <= length s) by (clear; induction s as [|c s IH]; cbn [lstrip length]; [lia|destruct (is_space c); cbn [length]; lia]).
  change (is_space "010") with true in R. cbv iota in R. specialize (K (rev u)). rewrite rev_length in K. lia.
Qed.
Lemma loaded_no_feed w b lines x u : loaded w b lines -> In x (w_conf w) -> text_of w x <> u ++ ["010"].
Proof.
  intros HL Hx. destruct (loaded_conf_inr w b lines HL x Hx) as [A B]. destruct (nth_error_lt_some lines (x - b)) as (line & Hl); [lia|].
  destruct (loaded_obj w b lines HL (x - b) line Hl) as (l & E & T & _). replace (b + (x - b)) with x in E by lia. unfold text_of. rewrite E, T. apply rstrip_no_feed.
Qed.

Theorem C64_find_objects : forall w b lines s exactmatch ignore_ws, loaded w b lines -> literal s ->
  exists f, find_objects_spec w s exactmatch ignore_ws = filter f (w_conf w) /\
    forall x, In x (w_conf w) -> (f x = true <-> selects s exactmatch ignore_ws (text_of w x)).
Proof.
  intros w b lines s e i HL L. exists (fun x => hits (spec_pattern s e i) (text_of w x)). split; [reflexivity|]. intros x Hx. apply spec_hits; [exact L|].
  intros u. eapply loaded_no_feed; eauto.
Qed.
Print Assumptions C64_find_objects.

Theorem C64_find_lines : forall w b lines s exactmatch ignore_ws, loaded w b lines -> literal s ->
  exists f, find_lines_spec w s exactmatch ignore_ws = filter f (ioscfg w) /\
    forall t, In t (ioscfg w) -> (f t = true <-> selects s exactmatch ignore_ws t).
Proof.
  intros w b lines s e i HL L. exists (hits (spec_pattern s e i)). split; [reflexivity|]. intros t Ht. apply spec_hits; [exact L|].
  intros u. unfold ioscfg in Ht. apply in_map_iff in Ht as (x & <- & Hx). eapply loaded_no_feed; eauto.
Qed.
Print Assumptions C64_find_lines.

Definition oI := mkOpts (lit "!") true Ios.
Definition W (l : list str) : world := match parse oI l with Ok w => w | Err _ => mkW oI [] [] end.
Definition spaced := map lit ["ip  route a"; "ip route a"; " ip route  a b"; "ip route"]%string.
Example C64_case : loaded (W spaced) 0 spaced /\ literal (lit "ip route a") /\
  find_lines_spec (W spaced) (lit "ip route a") false false = [lit "ip route a"] /\
  find_lines_spec (W spaced) (lit "ip route a") false true = map lit ["ip  route a"; "ip route a"; " ip route  a b"]%string /\
  find_lines_spec (W spaced) (lit "ip route a") true true = map lit ["ip  route a"; "ip route a"]%string /\
  find_lines_spec (W spaced) (lit "ip route") true false = [lit "ip route"].
Proof.
  split; [|repeat split; vm_compute; reflexivity].
  assert (P : parse oI spaced = Ok (W spaced)) by (vm_compute; reflexivity). destruct (parse_loaded _ _ _ P) as [L _]. exact L.
Qed.

(** ** C65 *)

Lemma letters_hit t : hits (pattern false (lit "[a-zA-Z]")) t = true <-> exists c, In c t /\ letter c = true.
Proof.
  set (k := mkSet false false [CRange "a" "z"; CRange "A" "Z"]).
  assert (R : compile false (lit "[a-zA-Z]") = Some (RSet k, (0, []))) by (vm_compute; reflexivity).
  assert (K : forall c, in_set k c = letter c) by (intros [[] [] [] [] [] [] [] []]; reflexivity).
  unfold hits, pattern. cbn [rx_find]. rewrite R. split.
  - destruct (search (RSet k) t) as [[m c]|] eqn:S0; [|discriminate]. intros _. apply search_some in S0 as (u & v & i' & s' & -> & A0 & _).
    inversion A0; subst. eexists. split; [apply in_app_iff; right; now left|]. rewrite <- K. assumption.
  - intros (c & Hc & Lc). apply in_split in Hc as (u & v & ->). destruct (search (RSet k) (u ++ c :: v)) as [[m c']|] eqn:S0; [reflexivity|]. exfalso.
    apply (search_none _ _ S0 u (c :: v) (S (length u)) v [] eq_refl). constructor. now rewrite K.
Qed.
Lemma existsb_false_iff {A} (f : A -> bool) l : negb (existsb f l) = true <-> forall x, In x l -> f x = false.
Proof.
  rewrite negb_true_iff, <- not_true_iff_false, existsb_exists. split.
  - intros K x Hx. apply not_true_iff_false. intros E. apply K. eauto.
  - intros K (x & Hx & E). rewrite K in E by exact Hx. discriminate.
Qed.
Lemma lstrip_letter c s : letter c = true -> In c s -> In c (lstrip s).
Proof.
  intros L. induction s as [|x s IH]; cbn [lstrip]; [tauto|]. intros [->|K]; destruct (is_space _) eqn:E; [|now left|auto|now right].
  exfalso. destruct c as [[] [] [] [] [] [] [] []]; discriminate.
Qed.
Lemma strip_letter c s : letter c = true -> In c s -> In c (strip s).
Proof. intros L K. unfold strip, rstrip. apply lstrip_letter; [exact L|]. rewrite <- in_rev. apply lstrip_letter; [exact L|]. now rewrite <- in_rev. Qed.

(** The required lines that no line of the configuration equals, up to the white space
    around them, in their order.  A required line without a letter is always reported. *)
Theorem C65_required : forall w cfgspec, exists f, req_all_diff w cfgspec false = filter f cfgspec /\
  (forall r, (exists c, In c r /\ letter c = true) -> (f r = true <-> forall x, In x (w_conf w) -> strip (text_of w x) <> strip r)) /\
  (forall r, (forall c, In c r -> letter c = false) -> f r = true).
Proof.
  intros w cfgspec. eexists. split; [reflexivity|].
  assert (Q : forall r x, same_line w false x r = true <-> strip (text_of w x) = strip r) by (intros; unfold same_line; apply str_eqb_eq).
  split.
  - intros r (c & Hc & Lc). rewrite existsb_false_iff. split.
    + intros K x Hx E. assert (Hf : In x (find_objects w (pattern false (lit "[a-zA-Z]")))).
      { apply filter_In. split; [exact Hx|]. apply letters_hit. exists c. split; [|exact Lc]. apply strip_in. rewrite E. now apply strip_letter. }
      specialize (K x Hf). apply Q in E. congruence.
    + intros K x Hx. apply filter_In in Hx as [Hx _]. apply not_true_iff_false. rewrite Q. now apply K.
  - intros r Nl. apply existsb_false_iff. intros x Hx. apply filter_In in Hx as [_ Hx]. apply letters_hit in Hx as (c & Hc & Lc). apply not_true_iff_false. rewrite Q. intros E.
    rewrite (Nl c) in Lc; [discriminate|]. apply strip_in. rewrite <- E. now apply strip_letter.
Qed.
Print Assumptions C65_required.

Lemma strip_no_feed s u : strip s <> u ++ ["010"].
Proof. rewrite strip_alt. apply rstrip_no_feed. Qed.

(** The same up to the white space inside the line. *)
Theorem C65_required_ws : forall w cfgspec, Forall literal cfgspec -> exists f, req_all_diff w cfgspec true = filter f cfgspec /\
  forall r, In r cfgspec -> (f r = true <-> forall x, In x (w_conf w) -> (exists c, In c (text_of w x) /\ letter c = true) -> ~ respaced r (strip (text_of w x))).
Proof.
  intros w cfgspec Fl. eexists. split; [reflexivity|]. intros r Hr. rewrite Forall_forall in Fl. specialize (Fl r Hr). rewrite existsb_false_iff.
  assert (Q : forall x, same_line w true x r = true <-> respaced r (strip (text_of w x))).
  { intros x. unfold same_line. apply (spec_hits r true true _ Fl). intros u. apply strip_no_feed. }
  split.
  - intros K x Hx Hl E. apply Q in E. rewrite K in E; [discriminate|]. apply filter_In. split; [exact Hx|]. now apply letters_hit.
  - intros K x Hx. apply filter_In in Hx as [Hx Hl]. apply letters_hit in Hl. apply not_true_iff_false. rewrite Q. now apply K.
Qed.
Print Assumptions C65_required_ws.

(** Finding.  With ignore_ws a required line that is indented is always reported as
    missing: the line of the configuration is stripped, the required one is not. *)
Theorem C65_indented_refuted : forall w c r, literal (c :: r) -> is_space c = true -> req_all_diff w [c :: r] true = [c :: r].
Proof.
  intros w c r L Sc. destruct (C65_required_ws w [c :: r]) as (f & E & K); [now repeat constructor|]. rewrite E. cbn [filter].
  replace (f (c :: r)) with true; [reflexivity|]. symmetry. apply K; [now left|]. intros x Hx _ R. remember (c :: r) as q eqn:Eq. remember (strip (text_of w x)) as z eqn:Ht. destruct R as [|c' s t Sc' R|g g' s t [Wg Ng] [Wg' Ng'] Hh R].
  - discriminate.
  - injection Eq as -> ->. congruence.
  - destruct g' as [|y g']; [congruence|]. unfold whites in Wg'. cbn [forallb] in Wg'. apply andb_true_iff in Wg' as [Sy _].
    pose proof (lstrip_head (rstrip (text_of w x))) as Lh. fold (strip (text_of w x)) in Lh. rewrite <- Ht in Lh. cbn [app] in Lh. congruence.
Qed.
Print Assumptions C65_indented_refuted.

(** *** Lines to undo *)
Lemma no_compiled : compile false no_pattern = Some (RCat RBol (RCat (RGrp 1 (RStar true (RSet sp))) (RCat (RGrp 2 (RCat (chr "n") (RCat (chr "o") (rplus true (RSet sp)))))
  (RCat (RAlt (RGrp 3 (RCat (RSet ns) (RStar true (RSet dot)))) REps) REol))), (3, [])).
Proof. vm_compute. reflexivity. Qed.
Lemma no_found t : one_line t -> match rx_find (pattern false no_pattern) t with Some m => negative t /\ m_all m = t | None => ~ negative t end.
Proof.
  intros O. unfold pattern. cbn [rx_find]. rewrite no_compiled. destruct (search _ t) as [[m c]|] eqn:S0.
  - apply bol_some in S0 as (i' & s' & A0 & ->). destruct (M_consumes _ _ _ _ _ _ _ A0) as (w & E & ->). cbn [m_all].
    apply M_cat_iff in A0 as (i1 & s1 & c1 & A1 & A0). apply M_grp_iff in A1 as (a & c1' & -> & -> & -> & A1). apply M_star_iff in A1 as (a' & Ea & Wa & _ & _).
    apply app_inv_tail in Ea as <-.
    apply M_cat_iff in A0 as (i2 & s2 & c2 & A2 & A0). apply M_grp_iff in A2 as (u & c2' & -> & -> & -> & A2).
    apply M_cat_iff in A2 as (i3 & s3 & c3 & A2 & A3). apply M_chr_iff in A2 as (E3 & -> & ->).
    apply M_cat_iff in A3 as (i4 & s4 & c4 & A3 & A4). apply M_chr_iff in A3 as (-> & -> & ->). apply M_plus_iff in A4 as (g & -> & Ng & Wg & _ & _).
    assert (s' = []) as ->.
    { apply M_cat_iff in A0 as (i5 & s5 & c5 & A5 & A6). apply M_eol_iff in A6 as ([-> | ->] & _ & -> & _); [reflexivity|]. exfalso. apply O. rewrite E. apply in_app_iff. right. now left. }
    rewrite app_nil_r in E. subst w. split; [|rewrite Nat.add_0_l; apply firstn_all]. exists a, g, s2. rewrite E3. split; [reflexivity|]. split; [now apply all_sp'|]. split; [now apply all_sp'|exact Ng].
  - intros (a & g & r & E & Wa & Wg & Ng). destruct (split_white r) as (g2 & r2 & -> & Wg2 & Hh).
    assert (Fin : forall i c, exists i' s' c', M (RCat (RAlt (RGrp 3 (RCat (RSet ns) (RStar true (RSet dot)))) REps) REol) i r2 c i' s' c').
    { intros i c. destruct r2 as [|x r2].
      - exists i, [], c. apply M_cat_iff. exists i, [], c. split; [apply M_alt_iff; right; now apply M_eps_iff|apply M_eol_iff; auto].
      - exists (i + S (length r2)), [], ((3, x :: r2) :: c). apply M_cat_iff. exists (i + S (length r2)), [], ((3, x :: r2) :: c). split; [|apply M_eol_iff; auto].
        apply M_alt_iff. left. apply M_grp_iff. exists (x :: r2), c. rewrite app_nil_r. repeat (split; [reflexivity|]). apply M_cat_iff. exists (S i), r2, c. split.
        + apply M_set_iff. exists x. rewrite in_ns, Hh. auto.
        + apply M_star_iff. exists r2. rewrite app_nil_r. split; [reflexivity|]. split; [|split; [lia|reflexivity]].
          apply all_dot. intros K. apply O. rewrite E, !in_app_iff. right. right. right. right. now right. }
    destruct (Fin (length a + (2 + length (g ++ g2))) ((2, lit "no" ++ g ++ g2) :: (1, a) :: [])) as (i' & s' & c' & F).
    refine (search_none _ _ S0 [] t i' s' c' eq_refl _). cbn [length]. apply M_cat_iff. exists 0, t, []. split; [constructor|]. apply M_cat_iff.
    exists (length a), (lit "no" ++ (g ++ g2) ++ r2), [(1, a)]. split.
    { apply M_grp_iff. exists a, []. rewrite E, <- app_assoc. repeat (split; [reflexivity|]). apply M_star_iff. exists a. split; [reflexivity|]. split; [now apply all_sp'|auto]. }
    apply M_cat_iff. exists (length a + (2 + length (g ++ g2))), r2, [(2, lit "no" ++ g ++ g2); (1, a)]. split; [|exact F].
    apply M_grp_iff. exists (lit "no" ++ g ++ g2), [(1, a)]. split; [now rewrite <- !app_assoc|]. split; [reflexivity|]. split; [reflexivity|].
    apply M_cat_iff. exists (S (length a)), ("o" :: (g ++ g2) ++ r2), [(1, a)]. split; [now apply M_chr_iff|].
    apply M_cat_iff. exists (S (S (length a))), ((g ++ g2) ++ r2), [(1, a)]. split; [now apply M_chr_iff|].
    apply M_plus_iff. exists (g ++ g2). split; [reflexivity|]. split; [destruct g; [congruence|discriminate]|]. split; [|split; [lia|reflexivity]].
    apply all_sp'. unfold whites in *. now rewrite forallb_app, Wg, Wg2.
Qed.
Lemma undone_text w x m : one_line m -> (exists l, obj w (parent_of w x) = Some l) -> undone w x m (uncfg_text w x m).
Proof.
  intros O (l & El). unfold undone, uncfg_text. rewrite El. pose proof (no_found m O) as K. destruct (rx_find _ m) as [r|].
  - destruct K as [K ->]. exists l, [ascii_of_nat 3]. rewrite skipn_all. auto.
  - exists l, m. auto.
Qed.

Section Excl.
  Variables (w : world) (b : nat) (lines : list str) (linespec uncfgspec : regex) (cfgspec : list str).
  Hypothesis HL : loaded w b lines.
  Hypothesis Hd : no_digit_cfg lines.
  Let R := loaded_region w b lines HL Hd.
  Let Hh := loaded_heap w b lines HL.
  Lemma with_parents_ok xs : Forall (inr b (length lines)) xs ->
    exists l, with_parents w xs = Ok l /\ Forall (inr b (length lines)) l /\ forall y, In y l <-> exists x, In x xs /\ (y = x \/ above w y x).
  Proof.
    induction 1 as [|x xs Hx Hxs (l & E & Fl & Ml)]; cbn [with_parents].
    - exists []. split; [reflexivity|]. split; [constructor|]. intros y. split; [intros []|intros (x & [] & _)].
    - destruct (all_parents_region w b _ R Hh x Hx) as (ps & -> & _ & Mp). cbn [bind]. rewrite E. cbn [bind]. eexists. split; [reflexivity|]. split.
      + apply Forall_app. split; [|now constructor]. apply Forall_forall. intros y Hy. apply Mp in Hy. apply (ancestor_lt w b _ R Hh) in Hy; [|exact Hx]. destruct Hx. unfold inr. lia.
      + intros y. rewrite in_app_iff. cbn [In]. rewrite Mp, Ml. split.
        * intros [K|[<-|(z & Hz & K)]]; [exists x; auto|exists x; auto|exists z; auto].
        * intros (z & [<-|Hz] & [->|K]); auto; right; right; exists z; auto.
  Qed.
  Lemma uncfg_texts_spec xs : match uncfg_texts w uncfgspec xs with
    | Ok undo => map fst undo = xs /\ forall x t, In (x, t) undo -> exists m, rx_find uncfgspec (text_of w x) = Some m /\ t = uncfg_text w x (m_all m)
    | Err e => e = AttributeErr /\ exists x, In x xs /\ rx_find uncfgspec (text_of w x) = None
    end.
  Proof.
    induction xs as [|x xs IH]; cbn [uncfg_texts]; [split; [reflexivity|intros ? ? []]|]. destruct (rx_find uncfgspec (text_of w x)) as [m|] eqn:F.
    - destruct (uncfg_texts w uncfgspec xs) as [r|e]; cbn [bind].
      + destruct IH as [IH1 IH2]. split; [cbn [map fst]; now rewrite IH1|]. intros y t [[= <- <-]|K]; [eauto|auto].
      + destruct IH as (-> & y & Hy & Fy). split; [reflexivity|]. exists y. split; [now right|exact Fy].
    - split; [reflexivity|]. exists x. split; [now left|exact F].
  Qed.
End Excl.

(** The lines to change: those that match and are not required, undone, each after the
    lines above it, in the order of the configuration; then the required lines that
    are missing. *)
Theorem C65_exclusive : forall w b lines linespec uncfgspec cfgspec, loaded w b lines -> no_digit_cfg lines ->
  within uncfgspec -> Forall (fun l => ~ In "010" l) lines ->
  match req_excl_diff w linespec uncfgspec cfgspec with
  | Ok out => exists xs ts f, out = ts ++ filter f cfgspec /\ StronglySorted lt xs /\
      (forall y, In y xs <-> exists x, unwanted w linespec cfgspec x /\ (y = x \/ above w y x)) /\
      Forall2 (fun y t => (unwanted w linespec cfgspec y -> exists m, rx_find uncfgspec (text_of w y) = Some m /\ undone w y (m_all m) t) /\
                          (~ unwanted w linespec cfgspec y -> t = text_of w y)) xs ts /\
      (forall r, f r = true <-> forall x, in_config w linespec x -> strip (text_of w x) <> strip r)
  | Err e => e = AttributeErr /\ exists x, unwanted w linespec cfgspec x /\ rx_find uncfgspec (text_of w x) = None
  end.
Proof.
  intros w b lines linespec uncfgspec cfgspec HL Hd Wi Of. unfold req_excl_diff. set (found := find_objects w linespec). set (bad := filter _ found).
  assert (Eq : forall x r, str_eqb (strip (text_of w x)) (strip r) = false <-> strip (text_of w x) <> strip r).
  { intros x r. rewrite <- not_true_iff_false, str_eqb_eq. reflexivity. }
  assert (Bad : forall x, In x bad <-> unwanted w linespec cfgspec x).
  { intros x. unfold bad, unwanted. rewrite filter_In, existsb_false_iff. unfold found. rewrite find_objects_in. split; intros [K1 K2]; split; auto; intros r Hr; apply Eq; auto. }
  assert (In1 : Forall (inr b (length lines)) bad).
  { apply Forall_forall. intros x Hx. apply Bad in Hx as [[Hx _] _]. now apply (loaded_conf_inr w b lines HL). }
  pose proof (uncfg_texts_spec w uncfgspec bad) as U. destruct (uncfg_texts w uncfgspec bad) as [undo|e]; cbn [bind].
  2:{ destruct U as (-> & x & Hx & Fx). split; [reflexivity|]. exists x. split; [now apply Bad|exact Fx]. }
  destruct U as [U1 U2]. destruct (with_parents_ok w b lines HL Hd bad In1) as (objs & -> & In2 & Mo). cbn [bind].
  pose proof (loaded_region w b lines HL Hd) as R. pose proof (loaded_heap w b lines HL) as Hh. unfold to_uncfg.
  assert (St : setof b (length lines) (fold_left (set_add w) objs []) (fun y => False \/ In y objs)) by (apply (setof_adds w b _ R); [apply setof_nil|exact In2]).
  destruct (setof_sorted w b _ R _ _ St) as [S1 S2]. set (xs := sorted_objs w _) in *.
  exists xs. eexists. eexists. split; [reflexivity|]. split; [exact S1|]. split; [|split].
  - intros y. rewrite S2, Mo. split.
    + intros [[]|(x & Hx & K)]. exists x. split; [now apply Bad|exact K].
    + intros (x & Hx & K). right. exists x. split; [now apply Bad|exact K].
  - assert (In3 : forall y, In y xs -> inr b (length lines) y).
    { intros y Hy. apply S2 in Hy as [[]|Hy]. rewrite Forall_forall in In2. auto. }
    revert In3. generalize xs. intros ys In3. induction ys as [|y ys IH]; cbn [map]; constructor; [|apply IH; intros z Hz; apply In3; now right].
    assert (Hy : inr b (length lines) y) by (apply In3; now left).
    destruct (find (fun p => obj_eqb w y (fst p)) undo) as [[z t]|] eqn:F; cbn [snd].
    + apply find_some in F as [F1 F2]. cbn [fst] in F2. assert (Hz : In z bad) by (rewrite <- U1; apply (in_map fst) in F1; exact F1).
      rewrite (region_eqb w b _ R) in F2; [|exact Hy|rewrite Forall_forall in In1; auto]. apply Nat.eqb_eq in F2. subst z. split; [|intros K; now destruct K; apply Bad].
      intros _. destruct (U2 _ _ F1) as (m & Fm & ->). exists m. split; [exact Fm|]. apply undone_text.
      * destruct (Wi _ _ Fm) as (u & v & E). intros K. destruct Hy as [H1 H2]. destruct (nth_error_lt_some lines (y - b)) as (line & Hl); [lia|].
        destruct (loaded_obj w b lines HL (y - b) line Hl) as (l & El & T & _). replace (b + (y - b)) with y in El by lia.
        assert (Tx : text_of w y = rstrip line) by (unfold text_of; now rewrite El). rewrite Forall_forall in Of. apply (Of line); [eapply nth_error_In; eauto|].
        destruct (rstrip_prefix line) as (q & Eq' & _). rewrite Eq', <- Tx, E, !in_app_iff. auto.
      * destruct (parent_inr w b _ R y Hy) as [P1 P2]. destruct Hy as [H1 H2]. destruct (inr_obj w b _ R (parent_of w y)) as (l & El & _); [unfold inr; lia|]. eauto.
    + split; [|reflexivity]. intros K. apply Bad in K. rewrite <- U1 in K. apply in_map_iff in K as ([z t] & <- & K). cbn [fst] in *.
      pose proof (find_none _ _ F _ K) as Q. cbn [fst] in Q. rewrite (region_eqb w b _ R), Nat.eqb_refl in Q by assumption. discriminate.
  - intros r. rewrite existsb_false_iff. unfold found. split.
    + intros K x Hx. apply Eq, K. now apply find_objects_in.
    + intros K x Hx. apply Eq, K. now apply find_objects_in.
Qed.
Print Assumptions C65_exclusive.

(** The indent of the command: that of the last line right below the same line, in a
    configuration without banners, macros and braces. *)
Theorem C65_child_indent : forall w b lines i l, loaded w b lines -> plain_cfg lines -> i < length lines -> obj w (b + i) = Some l ->
  cl_child_indent l = match rev (cl_children l) with c :: _ => indent_of w c | [] => 0 end.
Proof.
  intros w b lines i l HL Pl Hi E. destruct (loaded_boot w b lines HL) as (objs & B & Ob & _). rewrite (bootstrap_plain _ _ Pl) in B. injection B as <-.
  rewrite (Ob i), exp_objs_nth in E. replace (i <? length lines)%nat with true in E by (symmetry; now apply Nat.ltb_lt). cbn [option_map] in E. injection E as <-.
  cbn [relocate exp_line cl_child_indent cl_children]. rewrite <- map_rev. destruct (rev (kids (o_comment (w_opts w)) lines i)) as [|c r] eqn:Er; [reflexivity|]. cbn [map].
  assert (Hc : c < length lines). { assert (K : In c (kids (o_comment (w_opts w)) lines i)) by (apply in_rev; rewrite Er; now left). unfold kids in K. apply filter_In in K as [K _]. apply in_seq in K. lia. }
  unfold indent_of. rewrite (Ob c), exp_objs_nth. replace (c <? length lines)%nat with true by (symmetry; now apply Nat.ltb_lt). reflexivity.
Qed.
Print Assumptions C65_child_indent.

Definition acl := map lit ["interface Gi0"; " ip address 10.0.0.1 255.255.255.0"; " no shutdown"; " shutdown"; "logging trap"]%string.
Example C65_case : loaded (W acl) 0 acl /\ no_digit_cfg acl /\ Forall (fun l => ~ In "010" l) acl /\
  req_all_diff (W acl) (map lit ["logging  trap"; "shutdown"; "hostname a"; "!"]%string) false = map lit ["logging  trap"; "hostname a"; "!"]%string /\
  req_all_diff (W acl) (map lit ["logging  trap"; "shutdown"; " shutdown"]%string) true = [lit " shutdown"] /\
  req_excl_diff (W acl) (pattern false (lit "shutdown|trap")) (pattern false (lit "\S.*")) (map lit ["logging trap"; "logging host"]%string)
    = Ok [lit "interface Gi0"; lit " no " ++ [ascii_of_nat 3]; lit " no shutdown"; lit "logging host"].
Proof.
  assert (P : parse oI acl = Ok (W acl)) by (vm_compute; reflexivity). destruct (parse_loaded _ _ _ P) as [L _].
  split; [exact L|]. split; [apply forallb_Forall; vm_compute; reflexivity|]. split; [|repeat split; vm_compute; reflexivity].
  repeat constructor; vm_compute; intuition discriminate.
Qed.
(** Findings.  A line that begins with "no" is undone with a control character instead of
    the positive command.  A line with lines below it and none above is undone with the
    indent of the lines below. *)
Theorem C65_undo_no_refuted : exists w, parse oI (map lit ["interface Gi0"; " no shutdown"]%string) = Ok w /\
  req_excl_diff w (pattern false (lit "shutdown")) (pattern false (lit "no \S+")) [] = Ok [lit "interface Gi0"; lit " no " ++ [ascii_of_nat 3]].
Proof. exists (W (map lit ["interface Gi0"; " no shutdown"]%string)). split; vm_compute; reflexivity. Qed.
Theorem C65_undo_parent_refuted : exists w, parse oI (map lit ["interface Gi0"; " no shutdown"]%string) = Ok w /\
  req_excl_diff w (pattern false (lit "interface")) (pattern false (lit "interface.*")) [] = Ok [lit " no interface Gi0"].
Proof. exists (W (map lit ["interface Gi0"; " no shutdown"]%string)). split; vm_compute; reflexivity. Qed.
