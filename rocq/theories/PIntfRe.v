(** C36: the names of interfaces, read with the patterns of the code. *)
From Coq Require Import Ascii String Arith NArith ZArith Bool List Lia.
From Verif Require Import PyStr PyStrFacts PyBase IntfModel IntfSpec IntfFacts SearchModel PyRe IntfReModel PyReFacts PyReTmpl PyReSent IntfRe.
Import ListNotations.
Local Open Scope char_scope.

Lemma found_some p s g : found p s = Some g -> exists m, re_search p s = Some m /\ m_groups m = g.
Proof. unfold found, re_search. destruct (rx_find _ s) as [m|]; [|discriminate]. intros [= <-]. now exists m. Qed.
Lemma found_nothing p s : found p s = None -> re_search p s = None.
Proof. unfold found, re_search. now destruct (rx_find _ s). Qed.
Lemma named_at p r e m nm k : compile false (lit p) = Some (r, e) -> option_map snd (find (fun x => str_eqb (fst x) (lit nm)) (snd e)) = Some (S k) ->
  grp p nm m = nth k (m_groups m) None.
Proof. intros C F. unfold grp, named. rewrite C. destruct (find _ (snd e)) as [[? ?]|]; [|discriminate F]. now injection F as ->. Qed.
Lemma grp_short_prefix m : grp short_pattern "prefix" m = nth 0 (m_groups m) None. Proof. eapply named_at; [exact short_reads|vm_compute; reflexivity]. Qed.
Lemma grp_short_rest m : grp short_pattern "port_subinterface_channel" m = nth 1 (m_groups m) None. Proof. eapply named_at; [exact short_reads|vm_compute; reflexivity]. Qed.
Lemma grp_long_prefix m : grp long_pattern "prefix" m = nth 0 (m_groups m) None. Proof. eapply named_at; [exact long_reads|vm_compute; reflexivity]. Qed.
Lemma grp_long_rest m : grp long_pattern "slot_card_port_subinterface_channel" m = nth 1 (m_groups m) None. Proof. eapply named_at; [exact long_reads|vm_compute; reflexivity]. Qed.
Lemma grp_port m : grp port_pattern "port" m = nth 0 (m_groups m) None. Proof. eapply named_at; [exact port_reads|vm_compute; reflexivity]. Qed.
Lemma grp_sub m : grp sub_pattern "subinterface" m = nth 0 (m_groups m) None. Proof. eapply named_at; [exact sub_reads|vm_compute; reflexivity]. Qed.
Lemma grp_chan m : grp chan_pattern "channel" m = nth 0 (m_groups m) None. Proof. eapply named_at; [exact chan_reads|vm_compute; reflexivity]. Qed.
Lemma grp_class m : grp class_pattern "interface_class" m = nth 0 (m_groups m) None. Proof. eapply named_at; [exact class_reads|vm_compute; reflexivity]. Qed.
Lemma grp_slot m : grp slots_pattern "slot" m = nth 0 (m_groups m) None. Proof. eapply named_at; [exact slots_reads|vm_compute; reflexivity]. Qed.
Lemma grp_sep1 m : grp slots_pattern "sep1" m = nth 1 (m_groups m) None. Proof. eapply named_at; [exact slots_reads|vm_compute; reflexivity]. Qed.
Lemma grp_card m : grp slots_pattern "card" m = nth 2 (m_groups m) None. Proof. eapply named_at; [exact slots_reads|vm_compute; reflexivity]. Qed.
Lemma grp_slots_port m : grp slots_pattern "port" m = nth 4 (m_groups m) None. Proof. eapply named_at; [exact slots_reads|vm_compute; reflexivity]. Qed.

Lemma sub_same s : sub_of s = after_mark "." s.
Proof.
  unfold sub_of. rewrite mark_value. assert (F : found sub_pattern s = option_map (fun d => [Some d]) (mark_text "." s)).
  { apply mark_found; [rewrite sub_reads; discriminate| |reflexivity]. intros r e. rewrite sub_reads. now intros [= <- <-]. }
  destruct (mark_text "." s) as [d|]; cbn [option_map] in *.
  - apply found_some in F as (m & -> & G0). unfold grp_int. now rewrite grp_sub, G0.
  - now rewrite (found_nothing _ _ F).
Qed.
Lemma chan_same s : chan_of s = after_mark ":" s.
Proof.
  unfold chan_of. rewrite mark_value. assert (F : found chan_pattern s = option_map (fun d => [Some d]) (mark_text ":" s)).
  { apply mark_found; [rewrite chan_reads; discriminate| |reflexivity]. intros r e. rewrite chan_reads. now intros [= <- <-]. }
  destruct (mark_text ":" s) as [d|]; cbn [option_map] in *.
  - apply found_some in F as (m & -> & G0). unfold grp_int. now rewrite grp_chan, G0.
  - now rewrite (found_nothing _ _ F).
Qed.
Lemma class_same s : no_blank_end s -> intf_class_of s = class_of s.
Proof.
  intros NB. pose proof (class_found s NB) as F. unfold intf_class_of. destruct (found class_pattern s) as [g|] eqn:E.
  - destruct F as (d & -> & F). apply found_some in E as (m & -> & G0). now rewrite grp_class, G0, F.
  - now rewrite (found_nothing _ _ E), F.
Qed.
Lemma rest_end cls t u v : split_name cls (strip t) = Some (u, v) -> no_blank_end v.
Proof.
  intros E x c ->. assert (S0 : exists a, strip t = a ++ [c]).
  { unfold split_name in E. destruct (strip t) as [|y r] eqn:Y; [discriminate E|rewrite <- Y in *]. destruct (forallb cls (strip t)); [|discriminate E].
    destruct (while_split prefix_char (strip t)) as (W & _ & _). destruct (drop_while prefix_char (strip t)) as [|z w].
    - injection E as E1 E2. destruct x as [|? [|? ?]]; [|discriminate E2|discriminate E2]. injection E2 as <-. exists (removelast (strip t)). apply app_removelast_last. rewrite Y. discriminate.
    - injection E as E1 E2. rewrite E2 in W. rewrite W. exists (take_while prefix_char (strip t) ++ x). now rewrite app_assoc. }
  destruct S0 as (a & S0). pose proof (strip_idem t) as I0. rewrite S0 in I0. destruct (is_space c) eqn:Sp; [|reflexivity]. exfalso.
  rewrite <- strip_rstrip in I0. assert (R0 : rstrip (a ++ [c]) = rstrip a) by (apply rstrip_app_white; unfold white; cbn [forallb]; now rewrite Sp). rewrite R0 in I0.
  assert (L1 : length (strip (rstrip a)) <= length a).
  { unfold strip. destruct (rstrip_prefix a) as (w1 & E1 & _). destruct (lstrip_suffix (rstrip (rstrip a))) as (w2 & E2 & _). destruct (rstrip_prefix (rstrip a)) as (w3 & E3 & _).
    apply (f_equal (@length ascii)) in E1, E2, E3. rewrite app_length in E1, E2, E3. lia. }
  rewrite I0, app_length in L1. cbn in L1. lia.
Qed.

(** Reading with the patterns and reading with the model's functions is the same. *)
Theorem C36_patterns : forall t, intf_of_name_re t = intf_of_name t.
Proof.
  intros t. unfold intf_of_name_re, intf_of_name. destruct (has_char "," t); [reflexivity|].
  pose proof (short_split (strip t)) as F. destruct (split_name short_char (strip t)) as [[u v]|] eqn:Sh.
  - apply found_some in F as (m & -> & G0). unfold parse_short_re, parse_short, grp_text. rewrite grp_short_rest, grp_short_prefix, G0. cbn [nth].
    rewrite sub_same, chan_same, (class_same _ (rest_end _ _ _ _ Sh)). pose proof (port_found v) as P.
    destruct (take_while is_digit (drop_while (fun c => negb (is_digit c)) v)) as [|x d].
    + now rewrite (found_nothing _ _ P).
    + apply found_some in P as (pm & -> & G1). unfold grp_int. now rewrite grp_port, G1.
  - rewrite (found_nothing _ _ F). pose proof (long_split (strip t)) as F2. destruct (split_name long_char (strip t)) as [[u v]|] eqn:Lo; [|now rewrite (found_nothing _ _ F2)].
    apply found_some in F2 as (m & -> & G0). unfold parse_long_re, parse_long, grp_text. rewrite grp_long_rest, grp_long_prefix, G0. cbn [nth].
    rewrite sub_same, chan_same, (class_same _ (rest_end _ _ _ _ Lo)). pose proof (slots_found v) as P.
    destruct (take_while is_digit v) as [|x d].
    + now rewrite (found_nothing _ _ P).
    + destruct (opt_sep (drop_while is_digit v)) as [s1 r1]. destruct (opt_sep (drop_while is_digit r1)) as [s2 r2]. apply found_some in P as (sm & -> & G1).
      unfold grp_int. rewrite grp_slot, grp_card, grp_slots_port, grp_sep1, G1. cbn [nth option_map].
      destruct (take_while is_digit r1), (take_while is_digit r2), s1; reflexivity.
Qed.
Print Assumptions C36_patterns.
Example C36_patterns_ex : intf_of_name_re (lit "Serial 2/1/8.3:6 point-to-point") =
  Ok (interface (lit "Serial") (SlotCardPort 2 1 8) (Some 3%Z) (Some 6%Z) (Some (lit "point-to-point"))).
Proof. vm_compute. reflexivity. Qed.
