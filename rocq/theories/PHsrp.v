(** C70: HSRP groups. *)
From Coq Require Import Ascii String Arith NArith ZArith Bool List Lia Sorted.
From Verif Require Import PyStr PyStrFacts PyBase CfgModel SearchModel RangeModel RangeFacts IntfModel IntfSpec IntfFacts IpModel IpSpec PyRe PyReFacts PyReTmpl PyReLazy PyReSent IosSpec IosModel IosFacts RouteSpec RouteFacts FactorySpec FactoryModel FactoryFacts AaaSpec AaaModel AaaFacts PAaa PyReFree HsrpModel HsrpSpec.
Import ListNotations.
Local Open Scope char_scope.

(** ** The words of a line *)

Lemma lower_space c : is_space (lower_char c) = is_space c.
Proof. destruct c as [[] [] [] [] [] [] [] []]; reflexivity. Qed.
Lemma words_aux_lower s : forall acc, words_aux (lower acc) (lower s) = map lower (words_aux acc s).
Proof.
  assert (R : forall a, rev (lower a) = lower (rev a)) by (intros; unfold lower; symmetry; apply map_rev).
  induction s as [|c s IH]; intros acc; cbn.
  - destruct acc; [reflexivity|]. cbn [lower map]. change (lower_char a :: map lower_char acc) with (lower (a :: acc)). now rewrite R.
  - rewrite lower_space. destruct (is_space c).
    + destruct acc as [|a acc].
      * apply (IH []).
      * cbn [lower map]. change (lower_char a :: map lower_char acc) with (lower (a :: acc)). rewrite R. cbn [map]. f_equal. apply (IH []).
    + apply (IH (c :: acc)).
Qed.
Lemma words_lower t : words (lower t) = map lower (words t).
Proof. apply (words_aux_lower t []). Qed.
Lemma words_line t us : us <> [] -> (words t = us <-> Forall word us /\ line_of white white us t).
Proof.
  intros NE. split.
  - revert t. induction us as [|w us IH]; intros t E; [congruence|]. apply words_inv in E as (i & e & -> & Wi & Ww & We & E). destruct us as [|w' us].
    + split; [constructor; [exact Ww|constructor]|]. exists i, w, e. repeat split; auto; [constructor|]. destruct e as [|x e]; [reflexivity|].
      unfold white. apply forallb_forall. intros y Hy. destruct (is_space y) eqn:F; [reflexivity|]. exfalso.
      destruct (in_split _ _ Hy) as (a & b & K). assert (Z : lstrip (x :: e) <> []).
      { intros Z. apply lstrip_nil_iff in Z. rewrite forallb_forall in Z. rewrite (Z y Hy) in F. discriminate. }
      rewrite <- words_lstrip in E. pose proof (lstrip_head (x :: e)) as Hd. destruct (lstrip (x :: e)) as [|z r] eqn:Lz; [congruence|]. 
      assert (X0 : exists u v, z :: r = u ++ v /\ word u /\ word_ends v).
      { clear -Hd. revert Hd. cbn. intros Hd. assert (forall s, exists u v, s = u ++ v /\ forallb (fun c => negb (is_space c)) u = true /\ word_ends v) as X0.
        { induction s as [|y s (u & v & -> & U & V0)]; [now exists [], []|]. destruct (is_space y) eqn:F; [exists [], (y :: u ++ v); cbn; now rewrite F|]. exists (y :: u), v. cbn. now rewrite F. }
        destruct (X0 r) as (u & v & -> & U & V0). exists (z :: u), v. repeat split; auto; [discriminate|]. cbn. now rewrite Hd. }
      destruct X0 as (u & v & Euv & U & V0). rewrite Euv in E. rewrite <- (app_nil_l (u ++ v)) in E. rewrite words_word in E by (auto; reflexivity). discriminate.
    + destruct (IH ltac:(discriminate) e E) as (F & g & q & z & -> & Wg & P & Wz). split; [now constructor|]. exists i, (w ++ g ++ q), z. rewrite <- !app_assoc. repeat split; auto. constructor; [|exact P].
      split; [exact Wg|]. intros ->. cbn [app] in We. inversion F as [|? ? [N1 N2] _]; subst. destruct w' as [|y w']; [congruence|]. cbn in N2. apply andb_true_iff in N2 as [N2 _].
      inversion P; subst; cbn in We; rewrite N2 in We; discriminate.
  - intros (F & i & p & e & -> & Wi & P & We). rewrite (words_phrase us) by (auto using white_ends). rewrite words_nil by exact We. apply app_nil_r.
Qed.
Lemma parts_iff t ws : ws <> [] -> (parts t = ws <-> caseless ws t).
Proof.
  intros NE. unfold parts, caseless. rewrite words_strip, words_lower. split.
  - intros E. exists (words t). assert (words t <> []) by (intros Z; rewrite Z in E; now subst). destruct (proj1 (words_line t (words t) ltac:(assumption)) eq_refl) as [F HL]. auto.
  - intros (us & F & <- & HL). f_equal. apply words_line; [|auto]. intros ->. now apply NE.
Qed.
Lemma slice_iff l ws n : length ws = n -> (slice_is n l ws = true <-> exists rest, l = ws ++ rest).
Proof.
  intros <-. unfold slice_is. destruct (list_eq_dec _ _ _) as [E|E]; split; try discriminate; auto.
  - intros _. exists (skipn (length ws) l). rewrite <- E at 1. now rewrite firstn_skipn.
  - intros (rest & ->). exfalso. apply E. rewrite firstn_app, firstn_all, Nat.sub_diag. cbn. apply app_nil_r.
Qed.
Lemma slice3 g w t : slice_is 3 (parts t) [standby_w; show_Z g; lit w] = true <-> exists rest, standby_cmd g w t rest.
Proof.
  rewrite slice_iff by reflexivity. unfold standby_cmd. split; intros (rest & E); exists rest.
  - apply parts_iff; [discriminate|exact E].
  - apply parts_iff in E; [exact E|discriminate].
Qed.
Lemma first_child_says {V} (f : str -> option (result V)) (says : str -> list str -> Prop) (value : list str -> V -> Prop) dflt kids :
  (forall t, f t = None -> forall x, ~ says t x) -> (forall t r, f t = Some r -> exists rest, says t rest /\ forall v, value rest v -> r = Ok v) ->
  first_says says value kids dflt (first_child f dflt kids).
Proof.
  intros H1 H2. induction kids as [|t kids IH].
  - right. split; [contradiction|reflexivity].
  - cbn [first_child]. destruct (f t) as [r|] eqn:E.
    + destruct (H2 _ _ E) as (rest & Sr & Vr). left. exists [], t, kids, rest. repeat split; auto.
    + destruct IH as [(pre & u & post & rest & -> & Np & Sr & Vr)|[Np ->]].
      * left. exists (t :: pre), u, post, rest. repeat split; auto. intros u0 x [<-|I0]; [now apply H1|now apply Np].
      * right. split; [|reflexivity]. intros u0 x [<-|I0]; [now apply H1|now apply Np].
Qed.
Lemma back_1 l a : item_back (l ++ [a]) 1 = Ok a.
Proof. unfold item_back. now rewrite rev_app_distr. Qed.
Lemma back_2 l a b : item_back (l ++ [a; b]) 2 = Ok a.
Proof. unfold item_back. now rewrite rev_app_distr. Qed.
Lemma int_numeral d n : numeral d n -> int_of d = Ok n.
Proof.
  intros Nd. unfold int_of. rewrite to_int_digits; [f_equal; now apply numeral_value| |now apply numeral_digits in Nd].
  destruct (numeral_head _ _ Nd) as (c & r & -> & _). discriminate.
Qed.
Lemma cmd_says {V} g w (f : list str -> result V) (value : list str -> V -> Prop) dflt kids :
  (forall rest v, value rest v -> f (standby_w :: show_Z g :: lit w :: rest) = Ok v) ->
  first_says (standby_cmd g w) value kids dflt (first_child (fun t => if slice_is 3 (parts t) [standby_w; show_Z g; lit w] then Some (f (parts t)) else None) dflt kids).
Proof.
  intros HV. apply first_child_says.
  - intros t E x Sx. destruct (slice_is _ _ _) eqn:F; [discriminate|]. enough (slice_is 3 (parts t) [standby_w; show_Z g; lit w] = true) by congruence. apply slice3. eauto.
  - intros t r E. destruct (slice_is _ _ _) eqn:F; [|discriminate]. injection E as <-. apply slice3 in F as (rest & F). exists rest. split; [exact F|].
    intros v Vv. apply parts_iff in F; [|discriminate]. rewrite F. now apply HV.
Qed.

(** ** Theorems *)

Definition hsrp_kids : list str := map lit
  [" ip address 192.0.2.1 255.255.255.0"; " standby version 2"; " standby 1 ip 192.0.2.254"; " standby 1 ipv6 FE80::5"; " STANDBY 1 Timers msec 250 msec 750"; " standby 1 priority 110";
   " standby 1 preempt delay minimum 30"; " standby 2 ip 192.0.2.253"; " standby 2 priority 90"]%string.

(** The virtual address of a group is the last word of the first line "standby G ip ..." below
    the interface, in lower case; the same holds for "ipv6".  A group that has no such line has
    no IPv6 address; asking it for its IPv4 address does not return. *)
Theorem C70_address : forall g kids,
  first_says (standby_cmd g "ip") last_is kids (Err OutOfFuel) (grp_ipv4 g kids) /\
  first_says (standby_cmd g "ipv6") last_is kids (Ok []) (grp_ipv6 g kids).
Proof.
  intros g kids. split.
  - apply (cmd_says g "ip" (fun l => item_back l 1)). intros rest v (r & ->). apply (back_1 (standby_w :: show_Z g :: lit "ip" :: r)).
  - apply (cmd_says g "ipv6" (fun l => item_back l 1)). intros rest v (r & ->). apply (back_1 (standby_w :: show_Z g :: lit "ipv6" :: r)).
Qed.
Print Assumptions C70_address.
Example C70_address_case : standby_cmd 1 "ip" (lit " standby 1 ip 192.0.2.254") [lit "192.0.2.254"] /\ grp_ipv4 1 hsrp_kids = Ok (lit "192.0.2.254") /\
  grp_ipv6 1 hsrp_kids = Ok (lit "fe80::5") /\ grp_ipv6 2 hsrp_kids = Ok [] /\ grp_ipv4 3 hsrp_kids = Err OutOfFuel.
Proof. split; [apply parts_iff; [discriminate|vm_compute; reflexivity]|]. vm_compute. repeat split; reflexivity. Qed.
(** The last word need not be an address. *)
Theorem C70_address_refuted : exists kids, standby_cmd 1 "ip" (nth 0 kids []) [lit "192.0.2.254"; lit "secondary"] /\ grp_ipv4 1 kids = Ok (lit "secondary") /\
  exists kids', standby_cmd 1 "ip" (nth 0 kids' []) [] /\ grp_ipv4 1 kids' = Ok (lit "ip").
Proof.
  exists [lit " standby 1 ip 192.0.2.254 secondary"]. split; [apply parts_iff; [discriminate|vm_compute; reflexivity]|]. split; [vm_compute; reflexivity|].
  exists [lit " standby 1 ip"]. split; [apply parts_iff; [discriminate|vm_compute; reflexivity]|vm_compute; reflexivity].
Qed.
Print Assumptions C70_address_refuted.

(** The priority is the number after "priority" in the first such line, 100 if there is none; the
    version is the number at the end of the first line "standby version N", 1 if there is none. *)
Theorem C70_priority : forall g kids,
  first_says (standby_cmd g "priority") first_number kids (Ok 100%Z) (grp_priority g kids) /\
  first_says version_cmd last_number kids (Ok 1%Z) (grp_version kids).
Proof.
  intros g kids. split.
  - apply (cmd_says g "priority" (fun l => do x <- item_at l 3; int_of x)). intros rest v (d & r & -> & Nd). change (int_of d = Ok v). now apply int_numeral.
  - apply first_child_says.
    + intros t E x Sx. cbv zeta in E. destruct (slice_is _ _ _) eqn:F; [discriminate|]. enough (slice_is 2 (parts t) [standby_w; lit "version"] = true) by congruence.
      apply slice_iff; [reflexivity|]. exists x. apply parts_iff in Sx; [exact Sx|discriminate].
    + intros t r E. cbv zeta in E. destruct (slice_is _ _ _) eqn:F; [|discriminate]. injection E as <-. apply slice_iff in F as (rest & F); [|reflexivity]. exists rest. split; [apply parts_iff; [discriminate|exact F]|].
      intros v (d & r & -> & Nd). rewrite F. change ((do x <- item_back ((standby_w :: lit "version" :: r) ++ [d]) 1; int_of x) = Ok v). rewrite back_1. cbn [bind]. now apply int_numeral.
Qed.
Print Assumptions C70_priority.
Example C70_priority_case : standby_cmd 1 "priority" (lit " standby 1 priority 110") [lit "110"] /\ grp_priority 1 hsrp_kids = Ok 110%Z /\ grp_priority 2 hsrp_kids = Ok 90%Z /\
  grp_priority 3 hsrp_kids = Ok 100%Z /\ grp_version hsrp_kids = Ok 2%Z /\ grp_version [] = Ok 1%Z.
Proof. split; [apply parts_iff; [discriminate|vm_compute; reflexivity]|]. vm_compute. repeat split; reflexivity. Qed.

(** A group preempts exactly if some line says "standby G preempt ...".  The delay that such a
    line sets is never reported. *)
Theorem C70_preempt : forall g kids, grp_preempt g kids = true <-> exists t rest, In t kids /\ standby_cmd g "preempt" t rest.
Proof.
  intros g kids. unfold grp_preempt. rewrite existsb_exists. split.
  - intros (t & I0 & E). apply slice3 in E as (rest & E). eauto.
  - intros (t & rest & I0 & E). exists t. split; [exact I0|]. apply slice3. eauto.
Qed.
Print Assumptions C70_preempt.
Theorem C70_preempt_delay_refuted : (forall g kids, grp_preempt_delay g kids = Ok 0%Z) /\
  exists kids, standby_cmd 1 "preempt" (nth 0 kids []) (map lit ["delay"; "minimum"; "30"]%string) /\ grp_preempt_delay 1 kids = Ok 0%Z.
Proof.
  assert (A1 : forall g kids, grp_preempt_delay g kids = Ok 0%Z).
  { intros g kids. unfold grp_preempt_delay. induction kids as [|t kids IH]; [reflexivity|]. cbn [first_child]. cbv zeta. destruct (slice_is _ _ _) eqn:E; [|exact IH]. exfalso.
    unfold slice_is in E. destruct (list_eq_dec _ _ _) as [K|K]; [|discriminate]. pose proof (firstn_le_length 4 (parts t)) as Z. rewrite K in Z. cbn [length] in Z. lia. }
  split; [exact A1|]. exists [lit " standby 1 preempt delay minimum 30"]. split; [apply parts_iff; [discriminate|vm_compute; reflexivity]|apply A1].
Qed.
Print Assumptions C70_preempt_delay_refuted.
(** The key chain of a group is never reported. *)
Theorem C70_keychain_refuted : grp_keychain = Ok [] /\ grp_has_md5 = Ok false.
Proof. vm_compute. split; reflexivity. Qed.
Print Assumptions C70_keychain_refuted.

(** ** Timers *)

Definition timer_of (x : time) : timer := match x with Sec n => Seconds n | Msec n => Millis n end.
Lemma digits_not_msec d n : numeral d n -> d <> lit "msec".
Proof. intros Nd ->. apply numeral_digits in Nd. discriminate. Qed.
(** The time between hellos is the first time written after "timers" in the first such line, 3
    seconds if there is none, unless it is in seconds and the second one in milliseconds. *)
Definition hello_is (rest : list str) (v : timer) : Prop :=
  exists hello hold, timers rest hello hold /\ ~ (exists a b, hello = Sec a /\ hold = Msec b) /\ v = timer_of hello.
Theorem C70_hello : forall g kids, first_says (standby_cmd g "timers") hello_is kids (Ok (Seconds 3)) (grp_hello_timer g kids).
Proof.
  intros g kids. apply first_child_says.
  - intros t E x Sx. cbv zeta in E. destruct (slice_is 4 _ _); [discriminate|]. destruct (slice_is 3 _ _) eqn:F; [discriminate|].
    enough (slice_is 3 (parts t) [standby_w; show_Z g; lit "timers"] = true) by congruence. apply slice3. eauto.
  - intros t r E. cbv zeta in E. destruct (slice_is 4 _ _) eqn:F4.
    + injection E as <-. apply slice_iff in F4 as (rest & F); [|reflexivity]. exists (lit "msec" :: rest). split; [apply parts_iff; [discriminate|exact F]|].
      intros v (hello & hold & (a & b & Er & Ha & Hb) & _ & ->). rewrite F. destruct Ha as [d n Nd|d n Nd].
      * injection Er as Er _. symmetry in Er. destruct (digits_not_msec _ _ Nd Er).
      * injection Er as ->. change (millis (Ok d) = Ok (Millis n)). unfold millis. cbn [bind]. now rewrite (int_numeral _ _ Nd).
    + destruct (slice_is 3 _ _) eqn:F3; [|discriminate]. injection E as <-. apply slice3 in F3 as (rest & F). exists rest. split; [exact F|]. apply parts_iff in F; [|discriminate].
      intros v (hello & hold & (a & b & -> & Ha & Hb) & NM & ->). rewrite F. destruct Ha as [d n Nd|d n Nd].
      * destruct Hb as [d' n' Nd'|d' n' Nd']; [|exfalso; apply NM; eauto].
        change (seconds (Ok d) = Ok (Seconds n)). unfold seconds. cbn [bind]. now rewrite (int_numeral _ _ Nd).
      * exfalso. enough (slice_is 4 (parts t) [standby_w; show_Z g; lit "timers"; lit "msec"] = true) by congruence. apply slice_iff; [reflexivity|]. exists (d :: b). exact F.
Qed.
Print Assumptions C70_hello.
Theorem C70_hello_refuted : exists kids, standby_cmd 1 "timers" (nth 0 kids []) (map lit ["1"; "msec"; "1500"]%string) /\ grp_hello_timer 1 kids = Err ValueError.
Proof. exists [lit " standby 1 timers 1 msec 1500"]. split; [apply parts_iff; [discriminate|vm_compute; reflexivity]|vm_compute; reflexivity]. Qed.
Print Assumptions C70_hello_refuted.
(** The time after which a neighbour is lost is the second one, 10 seconds if no line gives one.
    No other line of the group may have "msec" as the word before its last. *)
Definition hold_is (rest : list str) (v : timer) : Prop := exists hello hold, timers rest hello hold /\ v = timer_of hold.
Definition only_timers (g : Z) (kids : list str) : Prop :=
  forall t r x, In t kids -> caseless (lit "standby" :: show_Z g :: r ++ [lit "msec"; x]) t -> exists rest, standby_cmd g "timers" t rest.
Lemma show_not_msec g : (0 <= g)%Z -> show_Z g <> lit "msec".
Proof. intros Hg. apply (digits_not_msec _ g). split; [exact Hg|]. now exists 0%nat. Qed.
Theorem C70_hold : forall g kids, (0 <= g)%Z -> only_timers g kids ->
  first_says (standby_cmd g "timers") hold_is kids (Ok (Seconds 10)) (grp_hold_timer g kids).
Proof.
  intros g kids Hg OT. 
  assert (GG : first_says (fun t rest => In t kids /\ standby_cmd g "timers" t rest) hold_is kids (Ok (Seconds 10)) (grp_hold_timer g kids)).
  { unfold grp_hold_timer. assert (SUB : forall t, In t kids -> In t kids) by auto. revert SUB. generalize kids at 1 4 5 as ks. intros ks SUB.
    induction ks as [|t ks IH]; [right; split; [contradiction|reflexivity]|]. cbn [first_child]. cbv zeta. specialize (IH (fun u H0 => SUB u (or_intror H0))).
    assert (It : In t kids) by (apply SUB; now left).
    assert (BACK : forall u x, parts t = u ++ [lit "msec"; x] -> (exists r, parts t = standby_w :: show_Z g :: r) -> exists r, parts t = standby_w :: show_Z g :: r ++ [lit "msec"; x]).
    { intros u x E1 (r & E2). rewrite E2 in E1. destruct u as [|a [|b u]]; cbn [app] in E1.
      - injection E1 as E1 _. discriminate.
      - injection E1 as _ E1 _. destruct (show_not_msec g Hg E1).
      - injection E1 as <- <- E1. exists u. now rewrite E2, E1. }
    destruct (slice_is 2 _ _ && _) eqn:F2.
    - apply andb_true_iff in F2 as [F2 FM]. apply slice_iff in F2 as (r & F2); [|reflexivity].
      assert (X0 : exists u x, parts t = u ++ [lit "msec"; x]).
      { unfold item_back in FM. destruct (rev (parts t)) as [|x [|y u]] eqn:R; try discriminate FM. cbn [nth_error] in FM. apply str_eqb_eq in FM. subst y.
        exists (rev u), x. rewrite <- (rev_involutive (parts t)), R. cbn [rev]. now rewrite <- app_assoc. }
      destruct X0 as (u & x & X0). destruct (BACK u x X0 (ex_intro _ r F2)) as (r' & F).
      destruct (OT t r' x It) as (rest & Sr); [apply parts_iff; [discriminate|exact F]|]. left. exists [], t, ks, rest. repeat split; auto.
      intros v (hello & hold & (a & b & -> & Ha & Hb) & ->). rewrite X0. change (u ++ [lit "msec"; x]) with (u ++ [lit "msec"] ++ [x]). rewrite app_assoc, back_1. unfold millis. cbn [bind].
      apply parts_iff in Sr; [|discriminate]. rewrite X0 in Sr. destruct Hb as [d n Nd|d n Nd].
      + exfalso. assert (Z : exists u', standby_w :: show_Z g :: lit "timers" :: a ++ [d] = u' ++ [last (lit "timers" :: a) []; d]).
        { destruct Ha as [d' n' Nd'|d' n' Nd']; cbn; [now exists [standby_w; show_Z g; lit "timers"]|now exists [standby_w; show_Z g; lit "timers"; lit "msec"]]. }
        destruct Z as (u' & Z). change (lit "standby") with standby_w in Sr. rewrite Z in Sr. change [lit "msec"; x] with ([lit "msec"] ++ [x]) in Sr. change [last (lit "timers" :: a) []; d] with ([last (lit "timers" :: a) []] ++ [d]) in Sr.
        rewrite !app_assoc in Sr. apply app_inj_tail in Sr as [Sr _]. apply app_inj_tail in Sr as [_ Sr]. destruct Ha as [d' n' Nd'|d' n' Nd']; cbn [last] in Sr; symmetry in Sr; destruct (digits_not_msec _ _ Nd' Sr).
      + change (lit "standby" :: show_Z g :: lit "timers" :: a ++ [lit "msec"; d]) with ((lit "standby" :: show_Z g :: lit "timers" :: a) ++ [lit "msec"] ++ [d]) in Sr.
        change [lit "msec"; x] with ([lit "msec"] ++ [x]) in Sr. rewrite !app_assoc in Sr. apply app_inj_tail in Sr as [_ ->]. now rewrite (int_numeral _ _ Nd).
    - destruct (slice_is 3 _ _) eqn:F3.
      + apply slice3 in F3 as (rest & Sr). left. exists [], t, ks, rest. repeat split; auto. intros v (hello & hold & (a & b & -> & Ha & Hb) & ->).
        pose proof Sr as F. apply parts_iff in F; [|discriminate]. change (lit "standby") with standby_w in F. destruct Hb as [d n Nd|d n Nd].
        * rewrite F. change (standby_w :: show_Z g :: lit "timers" :: a ++ [d]) with ((standby_w :: show_Z g :: lit "timers" :: a) ++ [d]). rewrite back_1. unfold seconds. cbn [bind]. now rewrite (int_numeral _ _ Nd).
        * exfalso. apply andb_false_iff in F2 as [F2|F2].
          -- enough (slice_is 2 (parts t) [standby_w; show_Z g] = true) by congruence. apply slice_iff; [reflexivity|]. rewrite F. now eexists.
          -- rewrite F in F2. change (standby_w :: show_Z g :: lit "timers" :: a ++ [lit "msec"; d]) with ((standby_w :: show_Z g :: lit "timers" :: a) ++ [lit "msec"; d]) in F2. rewrite back_2 in F2. discriminate F2.
      + destruct IH as [(pre & u & post & rest & -> & Np & Sr & Vr)|[Np ->]].
        * left. exists (t :: pre), u, post, rest. repeat split; try apply Sr; auto. intros u0 x [<-|I0]; [|now apply Np]. intros [_ Sx].
          enough (slice_is 3 (parts t) [standby_w; show_Z g; lit "timers"] = true) by congruence. apply slice3. eauto.
        * right. split; [|reflexivity]. intros u0 x [<-|I0]; [|now apply Np]. intros [_ Sx].
          enough (slice_is 3 (parts t) [standby_w; show_Z g; lit "timers"] = true) by congruence. apply slice3. eauto. }
  destruct GG as [(pre & t & post & rest & E & Np & [It Sr] & Vr)|[Np E]].
  - left. exists pre, t, post, rest. repeat split; auto. intros u x I0 Sx. apply (Np u x I0). split; [rewrite E; apply in_or_app; now left|exact Sx].
  - right. split; [|exact E]. intros u x I0 Sx. now apply (Np u x I0).
Qed.
Print Assumptions C70_hold.
Example C70_timers_case : standby_cmd 1 "timers" (nth 4 hsrp_kids []) (map lit ["msec"; "250"; "msec"; "750"]%string) /\
  timers (map lit ["msec"; "250"; "msec"; "750"]%string) (Msec 250) (Msec 750) /\ only_timers 1 hsrp_kids /\
  grp_hello_timer 1 hsrp_kids = Ok (Millis 250) /\ grp_hold_timer 1 hsrp_kids = Ok (Millis 750) /\ grp_hello_timer 2 hsrp_kids = Ok (Seconds 3) /\ grp_hold_timer 2 hsrp_kids = Ok (Seconds 10) /\
  grp_hello_timer 7 [lit "standby 7 timers 5 15"] = Ok (Seconds 5) /\ grp_hold_timer 7 [lit "standby 7 timers msec 500 15"] = Ok (Seconds 15).
Proof.
  split; [apply parts_iff; [discriminate|vm_compute; reflexivity]|]. split.
  - exists [lit "msec"; lit "250"], [lit "msec"; lit "750"]. split; [reflexivity|]. split; constructor; (split; [lia|now exists 0%nat]).
  - split; [|vm_compute; repeat split; reflexivity]. intros t r x I0 Ct. apply parts_iff in Ct; [|discriminate]. 
    assert (K : slice_is 3 (parts t) [standby_w; show_Z 1; lit "timers"] = true \/ nth_error (rev (parts t)) 1 <> Some (lit "msec")).
    { revert I0. unfold hsrp_kids. cbn [map In]. intros I0. repeat (destruct I0 as [<-|I0]; [first [left; vm_compute; reflexivity | right; vm_compute; discriminate]|]). contradiction. }
    destruct K as [K|K]; [now apply slice3|]. exfalso. apply K. rewrite Ct. cbn [rev]. rewrite rev_app_distr. reflexivity.
Qed.

(** ** The groups of an interface *)

Lemma mentions_iff t : finds "standby\s+(?P<group>\d+)\s+ip" t = true <-> mentions_group t.
Proof.
  rewrite (free_iff _ [Lit (lit "standby"); Run sp true; Grp 1 [Run dg true]; Run sp true; Lit (lit "ip")] 1) by reflexivity. split.
  - intros (a & b & s & c & -> & HD). apply D_lit_eq in HD as (r1 & -> & HD). apply D_run_eq in HD as (g & r2 & -> & G1 & G2 & HD). apply D_grp_eq in HD as (d & r3 & c1 & -> & HB & HD).
    apply D_run_eq in HB as (d' & r4 & E & D1 & D2 & HB). apply D_nil_eq in HB as [-> _]. apply app_inv_tail in E as ->. apply D_run_eq in HD as (h & r5 & -> & H1 & H2 & HD). apply D_lit_eq in HD as (r6 & -> & _).
    apply all_sp in G1, H1. apply all_dg in D1. exists a, g, d', h, r6. repeat split; auto.
  - intros (a & g & d & h & b & -> & [G1 G2] & [D1 D2] & [H1 H2]). eexists a, _, b, [(1, d)]. split; [reflexivity|]. apply D_lit. apply D_run; [now apply all_sp|auto|discriminate|].
    apply (D_grp false 1 [Run dg true] _ d (h ++ lit "ip" ++ b) b [] []).
    + apply D_run; [now apply all_dg|auto|discriminate|constructor].
    + apply D_run; [now apply all_sp|auto|discriminate|]. apply D_lit. constructor.
Qed.
Lemma strip_inside_of t : exists a b, t = a ++ strip t ++ b /\ white a /\ white b.
Proof.
  destruct (rstrip_prefix t) as (b & E & Wb). destruct (lstrip_suffix (rstrip t)) as (a & F & Wa). exists a, b. split; [|auto]. unfold strip. rewrite E at 1. rewrite F at 1. now rewrite <- app_assoc.
Qed.
Lemma group_words t n : group_line t n <-> exists d q r, numeral d n /\ words t = lit "standby" :: d :: (lit "ip" ++ q) :: r.
Proof.
  split.
  - intros (d & e & i & p & q & Nd & -> & Wi & P & Q0 & We). exists d, q, (words e). split; [exact Nd|]. rewrite (words_phrase [lit "standby"; d; lit "ip" ++ q]); auto.
    assert (Dd : digits d) by (now apply numeral_d in Nd). constructor; [split; [discriminate|reflexivity]|]. constructor; [now apply digits_word|]. constructor; [|constructor]. split; [discriminate|]. exact Q0.
  - intros (d & q & r & Nd & E). apply words_inv in E as (i & e & -> & Wi & W1 & We & E). apply words_inv in E as (g & e' & -> & Wg & W2 & We' & E). apply words_inv in E as (h & e2 & -> & Wh & W3 & We2 & E).
    exists d, e2, i, (lit "standby" ++ g ++ d ++ h ++ (lit "ip" ++ q)), q. split; [exact Nd|]. split; [now rewrite <- !app_assoc|]. split; [exact Wi|]. split; [|split; [|exact We2]].
    + assert (NB : forall w x (y : str), word w -> word_ends (x ++ w ++ y) -> x <> []).
      { intros w x y [N1 N2] K ->. destruct w as [|z w]; [congruence|]. cbn in *. apply andb_true_iff in N2 as [N2 _]. rewrite N2 in K. discriminate. }
      constructor; [split; [exact Wg|exact (NB _ _ _ W2 We)]|]. constructor; [split; [exact Wh|exact (NB _ _ _ W3 We')]|]. constructor.
    + destruct W3 as [_ W3]. rewrite forallb_app in W3. now apply andb_true_iff in W3 as [_ W3].
Qed.
Lemma group_mentions t n : group_line t n -> mentions_group t.
Proof.
  intros (d & e & i & p & q & Nd & -> & Wi & P & Q0 & We). inversion P as [|? g ? p1 GG P1]; subst. inversion P1 as [|? h ? p2 GH P2]; subst. inversion P2 as [|? ? ? ? ? K]; subst; [|inversion K].
  exists i, g, d, h, (q ++ e). split; [now rewrite <- !app_assoc|]. split; [exact GG|]. split; [now apply numeral_d in Nd|exact GH].
Qed.
(** Whenever every line below the interface that mentions a group begins with it, the groups are
    the numbers in those lines, each once and in ascending order. *)
Theorem C70_groups : forall kids, (forall t, In t kids -> mentions_group t -> exists n, group_line t n) ->
  exists l, hsrp_interfaces kids = Ok l /\ StronglySorted Z.lt l /\ forall n, In n l <-> exists t, In t kids /\ group_line t n.
Proof.
  intros kids HK. assert (N0 : exists l, hsrp_numbers kids = Ok l /\ forall n, In n l <-> exists t, In t kids /\ group_line t n).
  { induction kids as [|t kids IH]; [exists []; split; [reflexivity|]; intros n; split; [contradiction|intros (? & [] & _)]|].
    destruct IH as (l & El & Hl); [intros u I0; apply HK; now right|]. cbn [hsrp_numbers]. destruct (finds _ (strip t)) eqn:F.
    - apply mentions_iff in F. assert (MT : mentions_group t).
      { destruct (strip_inside_of t) as (a & b & E & _ & _). destruct F as (a' & g & d & h & b' & E' & GG & DD & GH). exists (a ++ a'), g, d, h, (b' ++ b). rewrite E at 1. rewrite E'. rewrite <- !app_assoc. repeat split; auto; try apply GG; try apply DD; apply GH. }
      destruct (HK t (or_introl eq_refl) MT) as (n & GL). pose proof GL as GL0. apply group_words in GL as (d & q & r & Nd & E). rewrite E. cbn [item_at nth_error bind]. rewrite (int_numeral _ _ Nd). cbn [bind]. rewrite El. cbn [bind].
      exists (n :: l). split; [reflexivity|]. intros k. cbn [In]. rewrite Hl. split.
      + intros [<-|(u & I0 & GU)]; [exists t; split; [now left|exact GL0]|exists u; split; [now right|exact GU]].
      + intros (u & [<-|I0] & GU); [left|right; eauto]. apply group_words in GU as (d' & q' & r' & Nd' & E'). rewrite E in E'. injection E' as <- _ _. apply numeral_value in Nd, Nd'. congruence.
    - exists l. split; [exact El|]. intros k. rewrite Hl. split.
      + intros (u & I0 & GU). exists u. split; [now right|exact GU].
      + intros (u & [<-|I0] & GU); [|eauto]. exfalso. enough (finds "standby\s+(?P<group>\d+)\s+ip" (strip t) = true) by congruence. apply mentions_iff, (group_mentions _ k).
        apply group_words. apply group_words in GU. rewrite words_strip. exact GU. }
  destruct N0 as (l & El & Hl). unfold hsrp_interfaces. rewrite El. cbn [bind]. exists (sorted_set l). split; [reflexivity|]. split; [apply sorted_set_ascending|]. intros n. rewrite sorted_set_in. apply Hl.
Qed.
Print Assumptions C70_groups.
Example C70_groups_case : hsrp_interfaces hsrp_kids = Ok [1; 2]%Z /\ group_line (lit " standby 1 ipv6 FE80::5") 1%Z /\ forall t, In t hsrp_kids -> mentions_group t -> exists n, group_line t n.
Proof.
  assert (GW : forall t d n, numeral (lit d) n -> firstn 2 (words t) = [lit "standby"; lit d] -> (exists q, nth_error (words t) 2 = Some (lit "ip" ++ q)) -> group_line t n).
  { intros t d n Nd E (q & F). apply group_words. exists (lit d), q, (skipn 3 (words t)). split; [exact Nd|]. destruct (words t) as [|a [|b [|c r]]]; try discriminate. cbn in *. injection E as -> ->. now injection F as ->. }
  assert (N1 : numeral (lit "1") 1) by (split; [lia|now exists 0%nat]). assert (N2 : numeral (lit "2") 2) by (split; [lia|now exists 0%nat]).
  split; [vm_compute; reflexivity|]. split; [apply (GW _ "1"%string); [exact N1|vm_compute; reflexivity|exists (lit "v6"); vm_compute; reflexivity]|].
  intros t I0 MT. apply mentions_iff in MT. revert I0 MT. unfold hsrp_kids. cbn [map In]. intros I0 MT.
  repeat (destruct I0 as [<-|I0]; [try (vm_compute in MT; discriminate MT);
    first [exists 1%Z; apply (GW _ "1"%string); [exact N1|vm_compute; reflexivity|first [exists []; vm_compute; reflexivity|exists (lit "v6"); vm_compute; reflexivity]]
          |exists 2%Z; apply (GW _ "2"%string); [exact N2|vm_compute; reflexivity|exists []; vm_compute; reflexivity]]|]). contradiction.
Qed.
(** A description that mentions a group makes the attribute fail; a group with an IPv6 address
    only is listed, but has no text. *)
Theorem C70_groups_refuted : hsrp_interfaces [lit " description standby 1 ip"] = Err ValueError /\
  exists kids, hsrp_interfaces kids = Ok [1%Z] /\ grp_str 1 (lit "interface Vlan1") kids = Err OutOfFuel.
Proof. split; [vm_compute; reflexivity|]. exists [lit " standby 1 ipv6 FE80::5"]. vm_compute. split; reflexivity. Qed.
Print Assumptions C70_groups_refuted.

(** The name of the interface is the text after the first word, with single blanks; burned-in
    addresses are in use if any line below the interface has "use-bia" in it. *)
Theorem C70_name : forall own w ws, Forall word (w :: ws) -> says_loosely (w :: ws) own -> grp_interface_name own = join (lit " ") ws.
Proof. intros own w ws F HL. unfold grp_interface_name. rewrite words_strip. assert (E : words own = w :: ws) by (apply words_line; [discriminate|split; assumption]). now rewrite E. Qed.
Print Assumptions C70_name.
Theorem C70_use_bia : forall kids, grp_use_bia kids = true <-> exists t a b, In t kids /\ t = a ++ lit "use-bia" ++ b.
Proof.
  intros kids. unfold grp_use_bia. rewrite existsb_exists. split.
  - intros (t & I0 & E). apply TreePost.contains_spec in E as (a & b & ->). eauto 6.
  - intros (t & a & b & I0 & ->). eexists. split; [exact I0|]. apply TreePost.contains_spec. eauto.
Qed.
Print Assumptions C70_use_bia.
Example C70_name_case : says_loosely [lit "interface"; lit "Port-channel"; lit "1"] (lit " interface  Port-channel 1 ") /\ grp_interface_name (lit " interface  Port-channel 1 ") = lit "Port-channel 1" /\
  grp_use_bia [lit " standby use-bia"] = true /\ grp_use_bia hsrp_kids = false.
Proof. split; [apply words_line; [discriminate|vm_compute; reflexivity]|]. vm_compute. repeat split; reflexivity. Qed.

(** ** Tracked interfaces *)

Definition track_T : list item := [Lit (lit "standby"); One sp; Grp 1 [Run dg true]; Run sp true; Lit (lit "track"); Run sp true].
Definition decr_T : list item := [Many 3 [Run sp true; Run dg true]; End].
Definition track_re : re := row (flat_map flat1 track_T ++ RGrp 2 (RCat (RSet ns) (rplus false (RSet dot))) :: flat_map flat1 decr_T).
Lemma track_reads : reads_any (lit track_pattern) track_re 3. Proof. reflexivity. Qed.
Lemma decr_none {R} i s c (k : nat -> str -> caps -> option R) x r : s = x :: r -> is_space x = false -> mat (den decr_T) i s c k = None.
Proof.
  intros -> X0. apply mat_none. intros i' s' c' HM. apply shape in HM. unfold decr_T in HM. apply many_inv in HM as (ws & r0 & c1 & E & F & HD). destruct ws as [|w ws].
  - cbn [concat app] in E. subst r0. apply end_eq in HD as [[K|K] _]; [discriminate|]. injection K as -> _. discriminate.
  - inversion F as [|? ? (r1 & c0 & c2 & HU) _]; subst. apply D_run_eq in HU as (a & r2 & E2 & A1 & A2 & HU). apply D_run_eq in HU as (b & r3 & -> & _ & _ & HU). apply D_nil_eq in HU as [-> _].
    apply all_sp in A1. rewrite app_assoc in E2. apply app_inv_tail in E2. subst w. destruct a as [|y a]; [now specialize (A2 eq_refl)|]. cbn in E. injection E as <- _. unfold white in A1. cbn in A1. rewrite X0 in A1. discriminate.
Qed.
Lemma decr_stop i c1 i' s' c' : ~ M (den [Run sp true; Run dg true]) i [] c1 i' s' c'.
Proof. intros HM. apply shape in HM. apply D_run_eq in HM as (a & r & E & _ & A2 & _). symmetry in E. apply app_eq_nil in E as [-> _]. now apply A2. Qed.
Lemma decr_found tail c : (tail = [] \/ exists h d, tail = h ++ d /\ gap h /\ digits d) -> D true decr_T tail [] c ((if truth tail then [(3, tail)] else []) ++ c).
Proof.
  intros [-> |(h & d & -> & [H1 H2] & [D1 D2])].
  - apply D_stop; [intros _; apply decr_stop|]. apply D_end; [now left|constructor].
  - replace (truth (h ++ d)) with true by (destruct h; [congruence|reflexivity]). rewrite <- (app_nil_r (h ++ d)) at 1. cbn [app]. apply (D_more true 3 _ _ _ _ _ _ c); [destruct h; [congruence|discriminate]| |].
    + rewrite app_nil_r. apply D_run; [now apply all_sp|auto| |].
      * intros _. apply (stops_iff _ _ _ in_sp). destruct d as [|y d]; [congruence|]. cbn in *. apply andb_true_iff in D2 as [D2 _]. now apply digit_nonspace.
      * rewrite <- (app_nil_r d) at 1. apply D_run; [now apply all_dg|auto|intros _; exact I|constructor].
    + apply D_stop; [intros _; apply decr_stop|]. apply D_end; [now left|constructor].
Qed.
Lemma track_found g t i n : (0 <= g)%Z -> track_line g t i n -> exists m tail, rx_find (pattern false (lit track_pattern)) t = Some (mkMatch m [Some (show_Z g); Some i; if truth tail then Some tail else None]) /\
  ((tail = [] /\ n = 10%Z) \/ exists h3 d, tail = h3 ++ d /\ gap h3 /\ numeral d n).
Proof.
  intros Hg ([Ni Wi] & Li & a & c & h1 & h2 & tail & -> & Wa & C0 & [G1 G2] & [G3 G4] & HT). 
  assert (TD : tail = [] \/ exists h d, tail = h ++ d /\ gap h /\ digits d).
  { destruct HT as [[-> _]|(h & d & -> & GG & Nd)]; [now left|right]. exists h, d. split; [reflexivity|]. split; [exact GG|now apply numeral_d in Nd]. }
  assert (DG : digits (show_Z g)). { assert (NG : numeral (show_Z g) g) by (split; [exact Hg|now exists 0%nat]). now apply numeral_d in NG. }
  destruct i as [|x [|y i]]; [congruence|cbn in Li; lia|]. cbn in Wi. apply andb_true_iff in Wi as [X0 Wi]. apply andb_true_iff in Wi as [Y0 Wi].
  set (cc := (2, x :: y :: i) :: [(1, show_Z g)]).
  assert (MM : match_at track_re (length a) (lit "standby" ++ [c] ++ show_Z g ++ h1 ++ lit "track" ++ h2 ++ (x :: y :: i) ++ tail) =
    Some (firstn (length a + length (lit "standby" ++ [c] ++ show_Z g ++ h1 ++ lit "track" ++ h2 ++ (x :: y :: i) ++ tail) - length a) (lit "standby" ++ [c] ++ show_Z g ++ h1 ++ lit "track" ++ h2 ++ (x :: y :: i) ++ tail), (if truth tail then [(3, tail)] else []) ++ cc)).
  { set (full := lit "standby" ++ [c] ++ show_Z g ++ h1 ++ lit "track" ++ h2 ++ (x :: y :: i) ++ tail).
    unfold match_at, track_re. rewrite row_app'.
    assert (HD : D true track_T full ((x :: y :: i) ++ tail) [] [(1, show_Z g)]).
    { unfold track_T, full. apply D_lit. cbn [app]. apply D_one; [now rewrite in_sp|]. apply (D_grp true 1 [Run dg true] _ (show_Z g) _ _ [] []).
      - apply D_run; [apply all_dg, DG|intros _; apply DG| |constructor]. intros _. apply (stops_iff _ _ _ in_dg). destruct h1 as [|z h1]; [congruence|]. cbn. unfold white in G1. cbn in G1. apply andb_true_iff in G1 as [G1 _].
        destruct (is_digit z) eqn:F; [|reflexivity]. apply digit_nonspace in F. congruence.
      - apply D_run; [now apply all_sp|auto|intros _; reflexivity|]. apply D_lit. apply D_run; [now apply all_sp|auto| |constructor]. intros _. apply (stops_iff _ _ _ in_sp). cbn. now destruct (is_space x). }
    eapply (eval _ _ _ _ _ HD). rewrite row_cons, mat_grp, mat_cat. cbn [app]. rewrite set_step by (rewrite in_ns; exact X0).
    change (x :: y :: i ++ tail) with ((x :: y :: i) ++ tail). set (j := length a + (length full - length ((x :: y :: i) ++ tail))).
    change (y :: i ++ tail) with ((y :: i) ++ tail). assert (ND : all_in dot (y :: i)).
    { apply all_dot. unfold no_newline. cbn [forallb]. apply andb_true_iff. split; [rewrite space_newline; [reflexivity|now destruct (is_space y)]|].
      rewrite forallb_forall in Wi |- *. intros z Hz. specialize (Wi z Hz). rewrite space_newline; [reflexivity|now destruct (is_space z)]. }
    apply lazy_plus_first; [exact ND| |].
    - intros w1 w2 -> NE. destruct w2 as [|z w2]; [congruence|]. apply (decr_none _ _ _ _ z (w2 ++ tail)); [reflexivity|].
      rewrite forallb_app in Wi. apply andb_true_iff in Wi as [_ Wi]. cbn in Wi. apply andb_true_iff in Wi as [Wi _]. now destruct (is_space z).
    - replace (firstn (S j + length (y :: i) - j) ((x :: y :: i) ++ tail)) with (x :: y :: i).
      2:{ change (x :: y :: i) with ([x] ++ (y :: i)). replace (S j + length (y :: i) - j) with (length (x :: y :: i)) by (cbn [length]; lia). change ([x] ++ y :: i) with (x :: y :: i). rewrite firstn_app, firstn_all, Nat.sub_diag. cbn [firstn]. now rewrite app_nil_r. }
      eapply (eval _ _ _ _ _ (decr_found tail cc TD)). f_equal. f_equal. f_equal.
      assert (LF : length full >= length ((x :: y :: i) ++ tail)) by (destruct (D_suffix _ _ _ _ _ _ HD) as (w & ->); rewrite (app_length w); lia).
      unfold j. rewrite app_length in *. cbn [length] in *. lia. }
  assert (LM : forall u v, a ++ (lit "standby" ++ [c] ++ show_Z g ++ h1 ++ lit "track" ++ h2 ++ (x :: y :: i) ++ tail) = u ++ v -> length u < length a -> match_at track_re (length u) v = None).
  { intros u v E LT. destruct (match_at track_re (length u) v) as [[m1 c1]|] eqn:F; [|reflexivity]. exfalso. apply mat_sound in F as (i' & s' & c' & HM & _). apply row_app_M in HM as (i1 & s1 & c2 & HM & _). apply (shape track_T) in HM.
    apply D_lit_eq in HM as (r & -> & _). symmetry in E. apply prefix_of in E as (kk & -> & E); [|lia]. destruct kk as [|z kk]; [rewrite app_nil_r in LT; lia|]. cbn in E. injection E as <- _.
    unfold white in Wa. rewrite forallb_app in Wa. apply andb_true_iff in Wa as [_ Wa]. discriminate Wa. }
  eexists. exists tail. split; [|exact HT]. rewrite (any_found _ _ _ a _ _ _ track_reads LM MM). f_equal. f_equal. destruct tail; reflexivity.
Qed.
(** The tracked interfaces of a group are reported in order, with what the priority is to be
    decremented by. *)
Theorem C70_tracking : forall g cs l, (0 <= g)%Z -> tracks g cs l -> grp_tracking g cs = Ok l.
Proof.
  intros g cs l Hg HT. induction HT as [|t b cs l NT HT IH|t b i n cs l TL HT IH]; [reflexivity| |].
  - cbn [grp_tracking fst]. rewrite words_strip. destruct (slice_is _ _ _) eqn:E; [|exact IH]. exfalso. apply NT. apply slice_iff in E as (rest & E); [|reflexivity]. 
    apply words_line in E as [F HL]; [|discriminate]. exists rest. split; [|exact HL]. do 3 (inversion F as [|? ? _ F']; subst; clear F; rename F' into F). exact F.
  - cbn [grp_tracking fst]. rewrite words_strip. 
    assert (E : slice_is 3 (words t) [standby_w; show_Z g; lit "track"] = true).
    { apply slice_iff; [reflexivity|]. destruct TL as ([Ni Wi] & Li & a & c & h1 & h2 & tail & -> & Wa & C0 & GG1 & GG2 & _). exists (words (h2 ++ i ++ tail)).
      assert (DG : digits (show_Z g)). { assert (NG : numeral (show_Z g) g) by (split; [exact Hg|now exists 0%nat]). now apply numeral_d in NG. }
      replace (a ++ lit "standby" ++ [c] ++ show_Z g ++ h1 ++ lit "track" ++ h2 ++ i ++ tail) with (a ++ (lit "standby" ++ [c] ++ show_Z g ++ h1 ++ lit "track") ++ (h2 ++ i ++ tail)) by now rewrite <- !app_assoc.
      rewrite (words_phrase [lit "standby"; show_Z g; lit "track"]); auto.
      - constructor; [split; [discriminate|reflexivity]|]. constructor; [now apply digits_word|]. constructor; [split; [discriminate|reflexivity]|constructor].
      - constructor; [split; [unfold white; cbn; now rewrite C0|discriminate]|]. constructor; [exact GG1|]. constructor.
      - now apply white_ends_app. }
    rewrite E. destruct (track_found g t i n Hg TL) as (m & tail & FM & HD).
    assert (T1 : grp_track1 (t, b) = Ok (i, n)).
    { unfold grp_track1, iter_dict, first_found. cbn [fst snd]. rewrite FM.
      change (named (lit track_pattern) (lit "intf") (mkMatch m [Some (show_Z g); Some i; if truth tail then Some tail else None])) with (Some i).
      change (named (lit track_pattern) (lit "decr") (mkMatch m [Some (show_Z g); Some i; if truth tail then Some tail else None])) with (if truth tail then Some tail else @None str).
      cbn [to_str bind]. destruct HD as [[-> ->]|(h & d & -> & [G1 G2] & Nd)]; [reflexivity|].
      replace (truth (h ++ d)) with true by (destruct h; [congruence|reflexivity]). assert (NN : str_eqb (h ++ d) (lit "None") = false).
      { destruct (str_eqb _ _) eqn:K; [|reflexivity]. apply str_eqb_eq in K. destruct h as [|z h]; [congruence|]. injection K as -> _. unfold white in G1. discriminate. }
      rewrite NN. assert (SD : strip (h ++ d) = d).
      { apply numeral_d in Nd as [D1 D2]. destruct (exists_last D1) as (d' & z & ->). assert (Z0 : is_space z = false) by (rewrite forallb_app in D2; apply andb_true_iff in D2 as [_ D2]; cbn in D2; rewrite andb_true_r in D2; now apply digit_nonspace).
        unfold strip. rewrite app_assoc, rstrip_app_cons by exact Z0. rewrite <- app_assoc. rewrite lstrip_app_space by exact G1. destruct (d' ++ [z]) as [|y r] eqn:K; [now destruct d'|]. apply lstrip_not_space. 
        cbn in D2. apply andb_true_iff in D2 as [D2 _]. cbn. now apply digit_nonspace. }
      rewrite SD, (int_numeral _ _ Nd). reflexivity. }
    rewrite T1. cbn [bind]. now rewrite IH.
Qed.
Print Assumptions C70_tracking.
Example C70_tracking_case : tracks 1 [(lit " standby 1 track Serial1/0 20", []); (lit " standby 1 priority 5", []); (lit " standby 1 track Vlan7", [])] [(lit "Serial1/0", 20%Z); (lit "Vlan7", 10%Z)].
Proof.
  apply tr_take; [|apply tr_skip; [|apply tr_take; [|constructor]]].
  - split; [split; [discriminate|reflexivity]|]. split; [cbn; lia|]. exists (lit " "), " ", (lit " "), (lit " "), (lit " 20"). split; [reflexivity|]. split; [reflexivity|]. split; [reflexivity|].
    split; [split; [reflexivity|discriminate]|]. split; [split; [reflexivity|discriminate]|]. right. exists (lit " "), (lit "20"). split; [reflexivity|]. split; [split; [reflexivity|discriminate]|]. split; [lia|now exists 0%nat].
  - intros (rest & F & HL). assert (E : words (lit " standby 1 priority 5") = lit "standby" :: show_Z 1 :: lit "track" :: rest).
    { apply words_line; [discriminate|]. split; [|exact HL]. constructor; [split; [discriminate|reflexivity]|]. constructor; [split; [discriminate|reflexivity]|]. constructor; [split; [discriminate|reflexivity]|exact F]. }
    vm_compute in E. discriminate E.
  - split; [split; [discriminate|reflexivity]|]. split; [cbn; lia|]. exists (lit " "), " ", (lit " "), (lit " "), []. split; [reflexivity|]. split; [reflexivity|]. split; [reflexivity|].
    split; [split; [reflexivity|discriminate]|]. split; [split; [reflexivity|discriminate]|]. now left.
Qed.
(** The keyword before the decrement becomes part of the name; an object with a number of one
    digit, or two blanks after "standby", make the attribute fail. *)
Theorem C70_tracking_refuted : track_cmd 1 (lit " standby 1 track 5 decrement 20") /\ grp_tracking 1 [(lit " standby 1 track 5 decrement 20", [])] = Ok [(lit "5 decrement", 20%Z)] /\
  track_cmd 1 (lit " standby 1 track 5") /\ grp_tracking 1 [(lit " standby 1 track 5", [])] = Err ValueError /\
  track_cmd 1 (lit " standby  1 track Vlan7") /\ grp_tracking 1 [(lit " standby  1 track Vlan7", [])] = Err ValueError.
Proof.
  assert (TC : forall t rest, words t = lit "standby" :: show_Z 1 :: lit "track" :: rest -> track_cmd 1 t).
  { intros t rest E. apply words_line in E as [F HL]; [|discriminate]. exists rest. split; [|exact HL]. do 3 (inversion F as [|? ? _ F']; subst; clear F; rename F' into F). exact F. }
  split; [apply (TC _ (map lit ["5"; "decrement"; "20"]%string)); vm_compute; reflexivity|]. split; [vm_compute; reflexivity|]. split; [apply (TC _ (map lit ["5"]%string)); vm_compute; reflexivity|].
  split; [vm_compute; reflexivity|]. split; [apply (TC _ (map lit ["Vlan7"]%string)); vm_compute; reflexivity|vm_compute; reflexivity].
Qed.
Print Assumptions C70_tracking_refuted.
