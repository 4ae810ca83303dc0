(** From the captures of an access list line to its dictionary. *)
From Coq Require Import Ascii String NArith ZArith Bool List Lia.
From Verif Require Import PyBase PyStr PyStrFacts PyRe PyReTok AclModel AclSpec AclFacts AclWords.
Import ListNotations.
Local Open Scope char_scope.

Lemma cap_app n a b : cap n (a ++ b) = match cap n a with Some x => Some x | None => cap n b end.
Proof. induction a as [|[m v] a IH]; [reflexivity|]. cbn. destruct (Nat.eqb n m); [reflexivity|apply IH]. Qed.
Lemma cap_out n a : existsb (Nat.eqb n) (map fst a) = false -> cap n a = None.
Proof. induction a as [|[m v] a IH]; [reflexivity|]. cbn. intros K. apply orb_false_iff in K as [K1 K2]. rewrite K1. now apply IH. Qed.
Lemma out_app n a b : existsb (Nat.eqb n) a = false -> existsb (Nat.eqb n) b = false -> existsb (Nat.eqb n) (a ++ b) = false.
Proof. intros A B. rewrite existsb_app, A, B. reflexivity. Qed.
Lemma tcaps_out n lg lv iv d i t o : existsb (Nat.eqb n) [lg; lv; iv; d; i; t] = false -> cap n (tcaps lg lv iv d i t o) = None.
Proof.
  cbn. intros K. repeat (apply orb_false_iff in K as [? K]). apply cap_out. destruct o as [[[[v|] [w|]]|] [|] [| |x]]; cbn; rewrite ?orb_false_r; repeat (apply orb_false_iff; split); try assumption; reflexivity.
Qed.
Lemma ecaps1_out n a b c d e : existsb (Nat.eqb n) [a; b; c; d] = false -> cap n (ecaps1 a b c d e) = None.
Proof. cbn. intros K. repeat (apply orb_false_iff in K as [? K]). apply cap_out. destruct e; cbn; repeat (apply orb_false_iff; split); try assumption; reflexivity. Qed.
Lemma ecaps2_out n a b c d f g e : existsb (Nat.eqb n) [a; b; c; d; f; g] = false -> cap n (ecaps2 a b c d f g e) = None.
Proof. cbn. intros K. repeat (apply orb_false_iff in K as [? K]). apply cap_out. destruct e; cbn; repeat (apply orb_false_iff; split); try assumption; reflexivity. Qed.
Lemma pcaps_out n a b c d f e : existsb (Nat.eqb n) [a; b; c; d; f] = false -> cap n (pcaps a b c d f e) = None.
Proof. cbn. intros K. repeat (apply orb_false_iff in K as [? K]). apply cap_out. destruct e; cbn; repeat (apply orb_false_iff; split); try assumption; reflexivity. Qed.
Lemma svcaps_out n a b e : existsb (Nat.eqb n) [a; b] = false -> cap n (svcaps a b e) = None.
Proof. cbn. intros K. repeat (apply orb_false_iff in K as [? K]). apply cap_out. destruct e; cbn; repeat (apply orb_false_iff; split); try assumption; reflexivity. Qed.
Lemma oc_out n a e : existsb (Nat.eqb n) [a] = false -> cap n (oc a e) = None.
Proof. cbn. intros K. repeat (apply orb_false_iff in K as [? K]). apply cap_out. destruct e; cbn; repeat (apply orb_false_iff; split); try assumption; reflexivity. Qed.

Ltac names :=
  repeat match goal with |- context [G ?c (lit ?x)] =>
    let o := eval vm_compute in (option_map snd (find (fun y => str_eqb (fst y) (lit x)) acl_names)) in
    match o with Some ?n => change (G c (lit x)) with (cap n c) end end.
Ltac outs :=
  rewrite ?cap_app;
  repeat match goal with
  | |- context [cap ?n (tcaps ?a ?b ?c ?d ?e ?f ?o)] => rewrite (tcaps_out n a b c d e f o) by reflexivity
  | |- context [cap ?n (ecaps1 ?a ?b ?c ?d ?o)] => rewrite (ecaps1_out n a b c d o) by reflexivity
  | |- context [cap ?n (ecaps2 ?a ?b ?c ?d ?e ?f ?o)] => rewrite (ecaps2_out n a b c d e f o) by reflexivity
  | |- context [cap ?n (pcaps ?a ?b ?c ?d ?e ?o)] => rewrite (pcaps_out n a b c d e o) by reflexivity
  | |- context [cap ?n (svcaps ?a ?b ?o)] => rewrite (svcaps_out n a b o) by reflexivity
  | |- context [cap ?n (oc ?a ?o)] => rewrite (oc_out n a o) by reflexivity
  end.
Ltac field := unfold any_of, first_of, is_remark; cbn [existsb fold_right or_chain]; names; outs.

Lemma truthy_word (w : str) : w <> [] -> truthy (Some w) = true.
Proof. now destruct w. Qed.
Lemma no_key w l : digits w -> forallb (fun k => match lit k with x :: _ => negb (is_digit x) | [] => true end) l = true -> lits l w = false.
Proof.
  intros D K. unfold lits. destruct (existsb _ l) eqn:E; [|reflexivity]. apply existsb_exists in E as (k & I0 & Ek). apply str_eqb_eq in Ek as ->.
  rewrite forallb_forall in K. specialize (K _ I0). destruct D as [NE D]. destruct (lit k) as [|x r]; [congruence|]. apply Forall_inv in D. rewrite D in K. discriminate K.
Qed.
Lemma digits_int w : digits w -> py_int w = Some (Z.of_N (digits_val w)).
Proof. intros [NE D]. apply py_int_digits; [|exact NE]. apply forallb_forall. intros x I0. rewrite Forall_forall in D. now apply D. Qed.
Lemma number_ok x v : number_of x v -> protocol_number x = Ok v.
Proof.
  intros [k z I0|w D].
  - cbn in I0. repeat (destruct I0 as [I0|I0]; [injection I0 as <- <-; vm_compute; reflexivity|]). destruct I0.
  - unfold protocol_number. assert (F : find (fun x => str_eqb (lit (fst x)) w) asa_ip_protocols = None).
    { pose proof (no_key w (map fst asa_ip_protocols) D eq_refl) as N. unfold lits in N. induction asa_ip_protocols as [|[k z] l IH]; [reflexivity|]. cbn [map fst existsb find] in *. apply orb_false_iff in N as [N1 N2]. replace (str_eqb (lit k) w) with false; [now apply IH|]. symmetry. destruct (str_eqb (lit k) w) eqn:K; [|reflexivity]. apply str_eqb_eq in K. rewrite K, str_eqb_refl in N1. exact N1. }
    rewrite F, (digits_int w D). reflexivity.
Qed.
Lemma number_solid x v : number_of x v -> x <> [].
Proof. intros [k z I0|w [NE _]]; [|exact NE]. cbn in I0. repeat (destruct I0 as [I0|I0]; [injection I0 as <- <-; discriminate|]). destruct I0. Qed.

(** The parts of the dictionary, wherever they come from *)
Lemma dict_parts g name action v o src dst opts :
  acl_protocol g = Ok (v, Some o) -> src_addr_method g = Ok src -> dst_addr_method g = Ok dst ->
  or_chain g ["acl_name0"; "acl_name1"; "acl_name2"; "acl_name3"; "acl_name4"]%string = Some name ->
  or_chain g ["action0"; "action1"; "action2"; "action3"; "action4"]%string = Some action ->
  g (lit "remark") = None ->
  any_of g ["log1"; "log2"; "log4"]%string = match o_log opts with Some _ => true | None => false end ->
  first_of g ["loglevel1"; "loglevel2"; "loglevel4"]%string = match o_log opts with Some (x, _) => x | None => None end ->
  first_of g ["log_interval1"; "log_interval2"; "log_interval4"]%string = match o_log opts with Some (_, x) => x | None => None end ->
  any_of g ["disable1"; "disable2"; "disable4"]%string = o_disable opts ->
  or_chain g ["time_range1"; "time_range2"; "time_range4"]%string = range_of (o_when opts) ->
  good_options opts ->
  result_dict g = Ok (dict name action None v o src dst opts).
Proof.
  intros E1 E2 E3 E4 E5 E6 E7 E8 E9 E10 E11 [GL _]. unfold result_dict. rewrite E1, E2, E3. cbn [bind]. rewrite E4, E5, E6, E7, E8, E9, E10, E11. unfold dict, interval_of, level_of.
  destruct (o_log opts) as [[lv iv]|]; [|reflexivity]. cbn [negb bind]. destruct GL as [_ GI]. destruct iv as [i|]; [rewrite (digits_int i) by now apply GI|]; now destruct lv.
Qed.
Lemma level_word x : one_of levels x -> x <> [].
Proof. intros (k & I0 & ->). cbn in I0. repeat (destruct I0 as [<-|I0]; [discriminate|]). destruct I0. Qed.

Definition c1 (e : entry) : caps :=
  tcaps 17 18 19 20 21 22 (e_opts e) ++ ecaps1 13 14 15 16 (e_dst e) ++ ecaps1 9 10 11 12 (e_src e) ++ svcaps 7 8 (e_protocol e) ++ [(6, e_action e); (5, e_name e)].
Definition c2 (e : entry) : caps :=
  tcaps 49 50 51 52 53 54 (e_opts e) ++ pcaps 44 45 46 47 48 (e_dport e) ++ ecaps2 38 39 40 41 42 43 (e_dst e) ++ pcaps 33 34 35 36 37 (e_sport e) ++
  ecaps2 27 28 29 30 31 32 (e_src e) ++ svcaps 25 26 (e_protocol e) ++ [(24, e_action e); (23, e_name e)].
Lemma action_solid a : one_of ["permit"; "deny"]%string a -> a <> [].
Proof. intros (k & I0 & ->). cbn in I0. destruct I0 as [<-|[<-|[]]]; discriminate. Qed.
Ltac solid := match goal with GE : a_word ?x |- _ => is_var x; let N := fresh in pose proof (proj1 GE) as N; destruct x; [congruence|] | K : ?x <> [] |- _ => is_var x; destruct x; [congruence|] end.
Lemma dict_1 e : good_entry e -> fits1 (e_src e) -> fits1 (e_dst e) -> exists v o, protocol_says (e_protocol e) v o /\
  result_dict (G (c1 e)) = Ok (dict (e_name e) (e_action e) None v o (method (e_src e)) (method (e_dst e)) (e_opts e)).
Proof.
  destruct e as [name act pr src sp dst dp [lo di wh]]. intros (Gn & Ga & Gp & Gs & _ & Gd & _ & Go) F1 F2. cbn [e_name e_action e_protocol e_src e_sport e_dst e_dport e_opts] in *.
  assert (P : exists v o, protocol_says pr v o /\ acl_protocol (G (c1 (mkEntry name act pr src sp dst dp (mkOpts lo di wh)))) = Ok (v, Some o)).
  { destruct pr as [x|x].
    - destruct Gp as (v & N). exists v, []. split; [now split|]. unfold acl_protocol, c1. field. cbn [e_protocol svcaps app cap Nat.eqb orb e_opts e_action e_name]. pose proof (number_solid x v N) as NE. unfold por. pose proof (truthy_word x NE) as TW. unfold str in *. rewrite TW. change (truthy None) with false. cbn [orb]. rewrite (number_ok x v N). reflexivity.
    - exists 65535%Z, x. split; [now split|]. unfold acl_protocol, c1. field. cbn. cbn in Gp. solid. reflexivity. }
  destruct P as (v & o & PS & AP). exists v, o. split; [exact PS|]. apply dict_parts; [exact AP| | | | | | | | | | |exact Go].
  - unfold src_addr_method, c1. field. cbn. destruct src; cbn in *; try contradiction; try solid; try reflexivity. destruct Gs as (Gs & _ & Qm). apply quad_word in Qm. repeat solid. reflexivity.
  - unfold dst_addr_method, c1. field. cbn. destruct dst; cbn in *; try contradiction; try solid; try reflexivity. destruct Gd as (Gd & _ & Qm). apply quad_word in Qm. repeat solid. reflexivity.
  - unfold c1. field. cbn. solid. reflexivity.
  - unfold c1. field. cbn. apply action_solid in Ga. destruct act; [congruence|]. reflexivity.
  - unfold c1. field. reflexivity.
  - unfold c1. field. cbn. destruct lo as [[[x|] [y|]]|], di, wh; reflexivity.
  - unfold c1. field. cbn. destruct Go as [GL _]. cbn in GL. destruct lo as [[[x|] [y|]]|]; try (destruct GL as [GL _]; specialize (GL _ eq_refl); apply level_word in GL; destruct x; [congruence|]); destruct di, wh; reflexivity.
  - unfold c1. field. cbn. destruct Go as [GL _]. cbn in GL. destruct lo as [[[x|] [y|]]|]; try (destruct GL as [_ GL]; specialize (GL _ eq_refl); apply proj1 in GL; destruct y; [congruence|]); destruct di, wh; reflexivity.
  - unfold c1. field. cbn. destruct lo as [[[x|] [y|]]|], di, wh; reflexivity.
  - unfold c1. field. cbn. destruct Go as [_ GW]. cbn in GW. destruct wh as [| |x]; try (apply proj1, proj1 in GW; destruct x; [congruence|]); destruct lo as [[[y|] [z|]]|], di; reflexivity.
Qed.

Lemma dict_2 e : good_entry e -> exists v o, protocol_says (e_protocol e) v o /\
  result_dict (G (c2 e)) = Ok (dict (e_name e) (e_action e) None v o (method (e_src e)) (method (e_dst e)) (e_opts e)).
Proof.
  destruct e as [name act pr src sp dst dp [lo di wh]]. intros (Gn & Ga & Gp & Gs & _ & Gd & _ & Go). cbn [e_name e_action e_protocol e_src e_sport e_dst e_dport e_opts] in *.
  assert (P : exists v o, protocol_says pr v o /\ acl_protocol (G (c2 (mkEntry name act pr src sp dst dp (mkOpts lo di wh)))) = Ok (v, Some o)).
  { destruct pr as [x|x].
    - destruct Gp as (v & N). exists v, []. split; [now split|]. unfold acl_protocol, c2. field. cbn [e_protocol svcaps app cap Nat.eqb orb e_opts e_action e_name]. pose proof (number_solid x v N) as NE. unfold por. pose proof (truthy_word x NE) as TW. unfold str in *. rewrite TW. change (truthy None) with false. cbn [orb]. rewrite (number_ok x v N). reflexivity.
    - exists 65535%Z, x. split; [now split|]. unfold acl_protocol, c2. field. cbn. cbn in Gp. solid. reflexivity. }
  destruct P as (v & o & PS & AP). exists v, o. split; [exact PS|]. apply dict_parts; [exact AP| | | | | | | | | | |exact Go].
  - unfold src_addr_method, c2. field. cbn. destruct src; cbn in *; try contradiction; try solid; try reflexivity. destruct Gs as (Gs & _ & Qm). apply quad_word in Qm. repeat solid. reflexivity.
  - unfold dst_addr_method, c2. field. cbn. destruct dst; cbn in *; try contradiction; try solid; try reflexivity. destruct Gd as (Gd & _ & Qm). apply quad_word in Qm. repeat solid. reflexivity.
  - unfold c2. field. cbn. solid. reflexivity.
  - unfold c2. field. cbn. apply action_solid in Ga. destruct act; [congruence|]. reflexivity.
  - unfold c2. field. reflexivity.
  - unfold c2. field. cbn. destruct lo as [[[x|] [y|]]|], di, wh; reflexivity.
  - unfold c2. field. cbn. destruct Go as [GL _]. cbn in GL. destruct lo as [[[x|] [y|]]|]; try (destruct GL as [GL _]; specialize (GL _ eq_refl); apply level_word in GL; destruct x; [congruence|]); destruct di, wh; reflexivity.
  - unfold c2. field. cbn. destruct Go as [GL _]. cbn in GL. destruct lo as [[[x|] [y|]]|]; try (destruct GL as [_ GL]; specialize (GL _ eq_refl); apply proj1 in GL; destruct y; [congruence|]); destruct di, wh; reflexivity.
  - unfold c2. field. cbn. destruct lo as [[[x|] [y|]]|], di, wh; reflexivity.
  - unfold c2. field. cbn. destruct Go as [_ GW]. cbn in GW. destruct wh as [| |x]; try (apply proj1, proj1 in GW; destruct x; [congruence|]); destruct lo as [[[y|] [z|]]|], di; reflexivity.
Qed.
