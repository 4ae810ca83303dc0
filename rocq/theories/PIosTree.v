(** C58: which lines of a configuration the attributes of a line look at. *)
From Coq Require Import Ascii String Arith NArith ZArith Bool List Lia Sorting.Sorted.
From Verif Require Import PyStr PyStrFacts PyBase PyBaseFacts CfgModel TreeSpec BraceSpec WorldSpec
  TreeProofs TreePost TreeRel TreeWorld TreeBanner TreeFull CommitProofs CommitMain TreeMain FamilyProofs
  SearchModel SearchSpec SearchProofs PTree PyRe IosModel PIos.
Import ListNotations.
Local Open Scope nat_scope.

Lemma slice_nth {X} (d : X) : forall n i (l : list X), i + n <= length l -> firstn n (skipn i l) = map (fun j => nth j l d) (seq i n).
Proof.
  induction n as [|n IH]; intros i l Hl; [reflexivity|]. cbn [seq map]. rewrite <- (IH (S i) l) by lia.
  destruct (nth_error_lt_some l i ltac:(lia)) as (x & Hx). rewrite (nth_error_nth l i d Hx).
  assert (E : skipn i l = x :: skipn (S i) l).
  { clear -Hx. revert l Hx. induction i as [|i IH]; intros [|y l] Hx; try discriminate; [injection Hx as ->; reflexivity|]. cbn [skipn]. apply (IH l Hx). }
  now rewrite E.
Qed.

(** In a configuration without comments, braces and banners: the line and the deeper
    lines directly below it, in order and without their trailing white space; no other. *)
Theorem C58_lines : forall w b lines i, loaded w b lines -> plain_cfg lines ->
  Forall (fun l => config_line (o_comment (w_opts w)) l = true) lines -> no_digit_cfg lines -> i < length lines ->
  exists k, i + k < length lines /\
    (forall j, i < j <= i + k -> line_indent (nth i lines []) < line_indent (nth j lines [])) /\
    (S (i + k) = length lines \/ line_indent (nth (S (i + k)) lines []) <= line_indent (nth i lines [])) /\
    forall T (conv : option str -> result T) dflt r g,
      line_re_match_iter_typed conv dflt w r g true (b + i) = first_match conv dflt r g (map rstrip (firstn (S k) (skipn i lines))).
Proof.
  intros w b lines i HL HP HC Hd Hi. destruct (C05_family_contiguous w b lines i HL HP HC Hd Hi) as (k & EA & _ & Hk & Hin & Hout).
  exists k. split; [exact Hk|]. split; [exact Hin|]. split; [exact Hout|]. intros T conv dflt r g.
  assert (ET : forall j, j < length lines -> text_of w (b + j) = rstrip (nth j lines [])).
  { intros j Hj. destruct (nth_error_lt_some lines j Hj) as (l & Hl). destruct (loaded_obj w b lines HL j l Hl) as (o & Ho & Ht & _). unfold text_of. rewrite Ho, Ht.
    f_equal. symmetry. now apply nth_error_nth. }
  unfold line_re_match_iter_typed, offspring. rewrite EA. cbn [bind]. rewrite (@slice_nth str [] (S k) i lines) by lia. cbn [seq map first_match]. rewrite ET by lia.
  destruct (rx_find r (rstrip (nth i lines []))); [reflexivity|]. f_equal. rewrite !map_map. apply map_ext_in. intros j Hj. apply in_seq in Hj. apply ET. lia.
Qed.
Print Assumptions C58_lines.

Example C58_lines_ex : let lines := intf_own :: intf_lines ++ map lit ["interface Gi0/2"; " mtu 1400"]%string in
  forallb (config_line (lit "!")) lines && forallb plain_line lines && forallb no_digit_start lines = true /\
  exists w, parse oT lines = Ok w /\
    line_re_match_iter_typed to_int (Ok 0%Z) w (pattern false (lit "^\s*mtu\s+(\d+)$")) 1 true 0 = manual_mtu intf_own intf_lines /\
    line_re_match_iter_typed to_int (Ok 0%Z) w (pattern false (lit "^\s*mtu\s+(\d+)$")) 1 true 10 = Ok 1400%Z.
Proof.
  split; [vm_compute; reflexivity|]. eexists. split; [vm_compute; reflexivity|]. split; vm_compute; reflexivity.
Qed.
