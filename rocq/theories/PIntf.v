(** C36, C37: interface names. *)
From Coq Require Import Ascii String Arith NArith ZArith Bool List Lia.
From Verif Require Import PyStr PyStrFacts PyBase IntfModel IntfSpec IntfFacts.
Import ListNotations.
Local Open Scope char_scope.
Local Open Scope Z_scope.

(** ** The core of a name *)

Lemma digits_not_in t c : forallb is_digit t = true -> is_digit c = false -> ~ In c t.
Proof. intros H F I. rewrite forallb_forall in H. apply H in I. congruence. Qed.
Lemma numeral_not_in t n c : numeral t n -> is_digit c = false -> ~ In c t.
Proof. intros H. apply digits_not_in. exact (numeral_digits _ _ H). Qed.

Lemma shape_chars t n : writes_shape t n -> forall c, In c t -> is_digit c = true \/ c = "/".
Proof.
  intros H c I. assert (D : forall u z, numeral u z -> In c u -> is_digit c = true).
  { intros u z Hu. pose proof (numeral_digits _ _ Hu) as F. rewrite forallb_forall in F. apply F. }
  destruct H; repeat (rewrite in_app_iff in I || (cbn [In] in I)); intuition (eauto; congruence).
Qed.
Lemma shape_head t n : writes_shape t n -> exists c r, t = c :: r /\ is_digit c = true.
Proof.
  intros H; destruct H as [? ? N|? ? ? ? N|? ? ? ? ? ? N]; destruct (numeral_head _ _ N) as (x & r & -> & D); cbn [app]; eauto.
Qed.
Lemma shape_last t n : writes_shape t n -> exists r c, t = r ++ [c] /\ is_digit c = true.
Proof.
  intros H; destruct H as [a p N|a b s p _ N|a b d s c p _ _ N]; destruct (numeral_last _ _ N) as (u & x & -> & D).
  - eauto.
  - exists (a ++ "/" :: u), x. split; [now rewrite <- app_assoc|assumption].
  - exists (a ++ "/" :: b ++ "/" :: u), x. split; [|assumption]. rewrite <- app_assoc. cbn [app]. now rewrite <- app_assoc.
Qed.
Lemma marks_last t s c : writes_marks t s c -> t = [] \/ exists r x, t = r ++ [x] /\ is_digit x = true.
Proof.
  intros H; destruct H as [|a z N|a z N|a b z y _ N|a b z y N _]; [now left|right..];
    destruct (numeral_last _ _ N) as (u & x & -> & D).
  - exists ("." :: u), x. now split.
  - exists (":" :: u), x. now split.
  - exists ("." :: a ++ ":" :: u), x. split; [|assumption]. cbn [app]. now rewrite <- app_assoc.
  - exists (":" :: b ++ "." :: u), x. split; [|assumption]. cbn [app]. now rewrite <- app_assoc.
Qed.
Lemma marks_short t s c : writes_marks t s c -> forallb short_char t = true.
Proof.
  assert (D : forall u z, numeral u z -> forallb short_char u = true).
  { intros u z Hu. exact (forallb_imp _ _ _ digit_short (numeral_digits _ _ Hu)). }
  intros H; destruct H; cbn [forallb]; repeat (rewrite ?forallb_app; cbn [forallb]);
    repeat match goal with K : numeral _ _ |- _ => rewrite (D _ _ K); clear K end; reflexivity.
Qed.
Lemma class_chars t k : writes_class t k -> forall c, In c t -> is_space c = true \/ class_char c = true.
Proof.
  intros H c; destruct H as [|g w G Gn [_ W]]; [now intros []|]. unfold white in G. rewrite forallb_forall in G, W.
  rewrite in_app_iff. intros [I|I]; [left; now apply G|right; now apply W].
Qed.
Lemma class_not_mark t k m : writes_class t k -> is_space m = false -> class_char m = false -> ~ In m t.
Proof. intros H A B I. destruct (class_chars _ _ H _ I); congruence. Qed.
Lemma class_stops t k : writes_class t k -> stops is_digit t.
Proof.
  intros H; destruct H as [|g w G Gn _]; [exact I|]. destruct g as [|c g]; [congruence|]. cbn [app stops].
  unfold white in G. cbn [forallb] in G. apply andb_true_iff in G as [G _].
  destruct (is_digit c) eqn:E; [|reflexivity]. apply digit_space in E. congruence.
Qed.
Lemma marks_stops t s c k o : writes_marks t s c -> writes_class k o -> stops is_digit (t ++ k).
Proof. intros H K; destruct H; cbn [app stops]; try reflexivity. now apply class_stops with o. Qed.

Section Core.
Context (N M K : str) (n : shape) (sub chan : option Z) (cl : option str).
Context (HN : writes_shape N n) (HM : writes_marks M sub chan) (HK : writes_class K cl).

Lemma core_sub : after_mark "." (N ++ M ++ K) = sub.
Proof.
  rewrite after_mark_skip.
  2:{ intros I. destruct (shape_chars _ _ HN _ I) as [E|E]; discriminate. }
  assert (KN : ~ In "." K) by (apply (class_not_mark _ _ _ HK); reflexivity).
  assert (KS := class_stops _ _ HK).
  destruct HM as [|a z Ha|a z Ha|a b z y Ha Hb|a b z y Ha Hb]; cbn [app].
  - now apply after_mark_none.
  - now apply after_mark_here.
  - apply after_mark_none. cbn [In]. rewrite in_app_iff. intros [E|[E|E]]; [discriminate| |now apply KN].
    now apply (numeral_not_in _ _ "." Ha).
  - rewrite <- app_assoc. now apply after_mark_here.
  - rewrite <- app_assoc. change (":" :: b ++ ("." :: a) ++ K) with ((":" :: b) ++ ("." :: a ++ K)).
    rewrite after_mark_skip; [now apply after_mark_here|]. cbn [In]. intros [E|E]; [discriminate|].
    now apply (numeral_not_in _ _ "." Hb).
Qed.
Lemma core_chan : after_mark ":" (N ++ M ++ K) = chan.
Proof.
  rewrite after_mark_skip.
  2:{ intros I. destruct (shape_chars _ _ HN _ I) as [E|E]; discriminate. }
  assert (KN : ~ In ":" K) by (apply (class_not_mark _ _ _ HK); reflexivity).
  assert (KS := class_stops _ _ HK).
  destruct HM as [|a z Ha|a z Ha|a b z y Ha Hb|a b z y Ha Hb]; cbn [app].
  - now apply after_mark_none.
  - apply after_mark_none. cbn [In]. rewrite in_app_iff. intros [E|[E|E]]; [discriminate| |now apply KN].
    now apply (numeral_not_in _ _ ":" Ha).
  - now apply after_mark_here.
  - rewrite <- app_assoc. change ("." :: a ++ (":" :: b) ++ K) with (("." :: a) ++ (":" :: b ++ K)).
    rewrite after_mark_skip; [now apply after_mark_here|]. cbn [In]. intros [E|E]; [discriminate|].
    now apply (numeral_not_in _ _ ":" Ha).
  - rewrite <- app_assoc. now apply after_mark_here.
Qed.
Lemma core_last_digit : exists r x, N ++ M = r ++ [x] /\ is_digit x = true.
Proof.
  destruct (marks_last _ _ _ HM) as [E|(r & x & E & D)]; rewrite E.
  - rewrite app_nil_r. exact (shape_last _ _ HN).
  - exists (N ++ r), x. now rewrite app_assoc.
Qed.
Lemma core_class : class_of (N ++ M ++ K) = cl.
Proof.
  rewrite app_assoc. destruct HK as [|g w G Gn W].
  - destruct core_last_digit as (r & x & -> & D). rewrite app_nil_r. now apply class_of_digit.
  - now apply class_of_word.
Qed.
Lemma core_ends : exists c r d u, N ++ M ++ K = c :: r /\ is_digit c = true /\ c :: r = u ++ [d] /\ is_space d = false.
Proof.
  destruct (shape_head _ _ HN) as (c & r & E & D).
  assert (L : exists u d, N ++ M ++ K = u ++ [d] /\ is_space d = false).
  { rewrite app_assoc. destruct HK as [|g w G Gn [W Wc]].
    - destruct core_last_digit as (u & x & -> & X). exists u, x. rewrite app_nil_r. split; [reflexivity|now apply digit_space].
    - destruct (@exists_last _ w W) as (w' & x & ->). exists ((N ++ M) ++ g ++ w'), x. rewrite <- !app_assoc. split; [reflexivity|].
      rewrite forallb_app in Wc. apply andb_true_iff in Wc as [_ Wc]. cbn [forallb] in Wc. apply andb_true_iff in Wc as [Wc _].
      now apply class_space. }
  destruct L as (u & d & L & S). rewrite E in *. cbn [app] in *. exists c, (r ++ M ++ K), d, u. now repeat split.
Qed.
Lemma tail_short : forallb short_char (M ++ K) = true.
Proof.
  rewrite forallb_app, (marks_short _ _ _ HM). cbn [andb]. apply forallb_forall. intros c I.
  destruct (class_chars _ _ HK _ I) as [E|E]; [now apply space_short|now apply class_short].
Qed.
Lemma core_long : forallb long_char (N ++ M ++ K) = true.
Proof.
  rewrite forallb_app, (forallb_imp _ _ _ short_long tail_short), andb_true_r. apply forallb_forall. intros c I.
  destruct (shape_chars _ _ HN _ I) as [E| ->]; [|reflexivity]. now apply short_long, digit_short.
Qed.
End Core.

Lemma name_no_comma q core post : prefix_text q -> forallb long_char core = true -> white post -> has_char "," (q ++ core ++ post) = false.
Proof.
  intros Q C P. apply has_char_false. rewrite !in_app_iff. intros [I|[I|I]].
  - unfold prefix_text in Q. rewrite forallb_forall in Q. apply Q in I. discriminate.
  - rewrite forallb_forall in C. apply C in I. discriminate.
  - unfold white in P. rewrite forallb_forall in P. apply P in I. discriminate.
Qed.

Lemma lstrip_prefix q : prefix_text q -> forallb prefix_char (lstrip q) = true.
Proof.
  intros H. destruct (lstrip_suffix q) as (p & E & _). unfold prefix_text in H. rewrite E, forallb_app in H.
  apply andb_true_iff in H as [_ H]. exact H.
Qed.

(** Reading a name made of a prefix, a number and its options gives those components. *)
Theorem C36_parse : forall q N n M sub chan K cl post, prefix_text q -> writes_shape N n -> writes_marks M sub chan ->
  writes_class K cl -> white post ->
  intf_of_name (q ++ (N ++ M ++ K) ++ post) = Ok (interface (strip q) n sub chan cl).
Proof.
  intros q N n M sub chan K cl post Q HN HM HK P. unfold intf_of_name.
  pose proof (core_long _ _ _ _ _ _ _ HN HM HK) as CL. rewrite (name_no_comma _ _ _ Q CL P).
  destruct (core_ends _ _ _ _ _ _ _ HN HM HK) as (c & r & d & u & E & C & L & D).
  assert (St : strip (q ++ (N ++ M ++ K) ++ post) = lstrip q ++ c :: r).
  { rewrite E. now apply strip_name with d u; [|apply digit_space| |]. }
  rewrite St. pose proof (lstrip_prefix q Q) as Q'.
  pose proof (core_sub _ _ _ _ _ _ _ HN HM HK) as Sub. pose proof (core_chan _ _ _ _ _ _ _ HN HM HK) as Chan.
  pose proof (core_class _ _ _ _ _ _ _ HN HM HK) as Cls.
  pose proof (tail_short _ _ _ _ _ HM HK) as TS. pose proof (marks_stops _ _ _ _ _ HM HK) as SD.
  assert (Long : In "/" N -> intf_of_name (q ++ (N ++ M ++ K) ++ post) = parse_long (lstrip q) (N ++ M ++ K)).
  { intros I. unfold intf_of_name. rewrite (name_no_comma _ _ _ Q CL P), St.
    rewrite (split_name_fail short_char _ "/"); [|rewrite <- E, !in_app_iff; auto|reflexivity].
    rewrite (split_name_app long_char); [now rewrite E| |assumption|assumption|now rewrite <- E].
    intros x Hx. now apply short_long, prefix_short. }
  unfold intf_of_name in Long. rewrite (name_no_comma _ _ _ Q CL P), St in Long.
  destruct HN as [a p Ha|a b s p Ha Hb|a b e s z p Ha Hb He].
  - rewrite (split_name_app short_char); [|apply prefix_short|assumption|assumption|].
    2:{ rewrite <- E, forallb_app, TS, andb_true_r. exact (forallb_imp _ _ _ digit_short (numeral_digits _ _ Ha)). }
    rewrite <- E. unfold parse_short.
    assert (F : drop_while (fun x => negb (is_digit x)) (a ++ M ++ K) = a ++ M ++ K).
    { rewrite E. cbn [drop_while]. now rewrite C. }
    rewrite F, (numeral_take _ _ _ Ha SD), Sub, Chan, Cls, strip_lstrip.
    pose proof (numeral_value _ _ Ha) as V. destruct (numeral_head _ _ Ha) as (x & y & -> & _). now rewrite V.
  - rewrite Long by (rewrite in_app_iff; right; now left). unfold parse_long. rewrite Sub, Chan, Cls, strip_lstrip.
    rewrite <- app_assoc. cbn [app]. 
    rewrite (numeral_take _ _ ("/" :: b ++ M ++ K) Ha), (numeral_drop _ _ ("/" :: b ++ M ++ K) Ha) by reflexivity.
    cbn [opt_sep]. change (sep_char "/") with true. cbn iota.
    rewrite (numeral_take _ _ _ Hb SD), (numeral_drop _ _ _ Hb SD), (numeral_opt _ _ Hb).
    assert (R2 : exists o r2, opt_sep (M ++ K) = (o, r2) /\ take_while is_digit r2 = []).
    { destruct (M ++ K) as [|x y] eqn:X; [now exists None, []|]. cbn [opt_sep]. cbn [forallb] in TS. apply andb_true_iff in TS as [TS _].
      destruct (sep_char x) eqn:Y; [apply (long_sep x (short_long _ TS)) in Y; subst x; discriminate TS|].
      exists None, (x :: y). split; [reflexivity|]. cbn [take_while]. cbn [stops] in SD. now rewrite SD. }
    destruct R2 as (o & r2 & -> & ->). cbn [opt_digits].
    pose proof (numeral_value _ _ Ha) as V. destruct (numeral_head _ _ Ha) as (x & y & -> & _). now rewrite V.
  - rewrite Long by (rewrite in_app_iff; right; now left). unfold parse_long. rewrite Sub, Chan, Cls, strip_lstrip.
    rewrite <- app_assoc. cbn [app]. rewrite <- app_assoc. cbn [app].
    rewrite (numeral_take _ _ ("/" :: b ++ "/" :: e ++ M ++ K) Ha), (numeral_drop _ _ ("/" :: b ++ "/" :: e ++ M ++ K) Ha) by reflexivity.
    cbn [opt_sep]. change (sep_char "/") with true. cbn iota.
    rewrite (numeral_take _ _ ("/" :: e ++ M ++ K) Hb), (numeral_drop _ _ ("/" :: e ++ M ++ K) Hb), (numeral_opt _ _ Hb) by reflexivity.
    cbn [opt_sep]. change (sep_char "/") with true. cbn iota.
    rewrite (numeral_take _ _ _ He SD), (numeral_opt _ _ He).
    pose proof (numeral_value _ _ Ha) as V. destruct (numeral_head _ _ Ha) as (x & y & -> & _). now rewrite V.
Qed.
Print Assumptions C36_parse.

(** Rendering gives the canonical name. *)
Theorem C36_render : forall p n sub chan cl, render (interface p n sub chan cl) = Ok (canonical p n sub chan cl).
Proof.
  intros p n sub chan cl. unfold render, canonical, interface, number. 
  destruct n; cbn [i_prefix i_sep i_slot i_card i_port i_sub i_chan i_class slot_of card_of port_of bind sep_text shape_text];
    destruct sub, chan, cl; cbn [opt_text app]; now rewrite ?app_nil_r, <- ?app_assoc.
Qed.
Print Assumptions C36_render.

Lemma whenever_some {A} (P : A -> Prop) x : whenever P (Some x) -> P x.
Proof. intros H. now apply H. Qed.

(** The canonical name of proper components is read back as these components. *)
Theorem C36_round_trip : forall p n sub chan cl, proper p n sub chan cl ->
  intf_of_name (canonical p n sub chan cl) = Ok (interface p n sub chan cl).
Proof.
  intros p n sub chan cl (P & T & Sl & Ca & Po & Su & Ch & Cl).
  replace (canonical p n sub chan cl) with (p ++ (shape_text n ++ (opt_text (fun s => "." :: show_Z s) sub ++
     opt_text (fun c => ":" :: show_Z c) chan) ++ opt_text (fun w => " " :: w) cl) ++ []).
  2:{ unfold canonical. now rewrite app_nil_r, <- !app_assoc. }
  rewrite <- T at 2. apply C36_parse; [assumption|..|reflexivity].
  - destruct n; cbn [shape_text slot_of card_of port_of app] in *; constructor; apply show_numeral;
      try assumption; now apply whenever_some.
  - destruct sub, chan; cbn [opt_text app]; rewrite ?app_nil_r; constructor; apply show_numeral; now apply whenever_some.
  - destruct cl as [w|]; cbn [opt_text]; [|constructor]. change (" " :: w) with ([" "] ++ w). constructor; [reflexivity|discriminate|].
    now apply whenever_some.
Qed.
Print Assumptions C36_round_trip.

(** ** Every name that is accepted *)

Lemma digits_Z_natural d : natural (digits_Z d).
Proof. unfold natural, digits_Z. apply N2Z.is_nonneg. Qed.
Lemma opt_digits_natural d : whenever natural (opt_digits d).
Proof. intros x. unfold opt_digits. destruct d; [discriminate|]. intros [= <-]. apply digits_Z_natural. Qed.
Lemma after_mark_natural m s : whenever natural (after_mark m s).
Proof.
  intros x. induction s as [|c s IH]; cbn [after_mark]; [discriminate|].
  destruct (Ascii.eqb c m); [|assumption]. destruct (take_while is_digit s); [assumption|].
  intros [= <-]. apply digits_Z_natural.
Qed.
Lemma class_of_word_inv s : whenever class_word (class_of s).
Proof. intros w. apply class_of_some. Qed.
Lemma strip_prefix q : forallb prefix_char q = true -> prefix_text (strip q).
Proof.
  intros H. unfold strip, prefix_text. destruct (lstrip_suffix (rstrip q)) as (a & Ea & _). destruct (rstrip_prefix q) as (b & Eb & _).
  rewrite Eb, Ea, !forallb_app in H. apply andb_true_iff in H as [H _]. apply andb_true_iff in H as [_ H]. exact H.
Qed.
Lemma split_name_prefix cls s p r : split_name cls s = Some (p, r) -> forallb prefix_char p = true /\ s = p ++ r /\ forallb cls s = true.
Proof.
  unfold split_name. destruct s as [|c s]; [discriminate|]. destruct (forallb cls (c :: s)) eqn:A; [|discriminate].
  destruct (while_split prefix_char (c :: s)) as (E & F & _). destruct (drop_while prefix_char (c :: s)) as [|x y].
  - intros H. injection H as <- <-. rewrite app_nil_r in E. rewrite <- E in F.
    assert (L : c :: s = removelast (c :: s) ++ [last (c :: s) " "]) by (apply app_removelast_last; discriminate).
    rewrite L, forallb_app in F. apply andb_true_iff in F as [F _]. now repeat split.
  - intros H. injection H as <- <-. now repeat split.
Qed.

(** Whatever the text, an interface that is read is made of proper components, and
    reading its rendered name gives the same interface. *)
Theorem C36_normal_form : forall t i, intf_of_name t = Ok i ->
  exists n, proper (i_prefix i) n (i_sub i) (i_chan i) (i_class i) /\
    i = interface (i_prefix i) n (i_sub i) (i_chan i) (i_class i) /\
    exists u, render i = Ok u /\ intf_of_name u = Ok i.
Proof.
  intros t i H.
  assert (G : exists n, proper (i_prefix i) n (i_sub i) (i_chan i) (i_class i) /\
    i = interface (i_prefix i) n (i_sub i) (i_chan i) (i_class i)).
  { unfold intf_of_name in H. destruct (has_char "," t); [discriminate|].
    destruct (split_name short_char (strip t)) as [[p r]|] eqn:E.
    - apply split_name_prefix in E as (P & _). unfold parse_short in H.
      destruct (take_while is_digit (drop_while (fun c => negb (is_digit c)) r)) as [|x y] eqn:D; [discriminate|].
      injection H as <-. cbn [i_prefix i_sub i_chan i_class]. exists (Port (digits_Z (x :: y))). split; [|reflexivity].
      unfold proper. cbn [slot_of card_of port_of]. refine (conj _ (conj _ (conj _ (conj _ (conj _ (conj _ (conj _ _)))))));
        auto using strip_prefix, strip_idem, digits_Z_natural, after_mark_natural, class_of_word_inv; intros ? K; discriminate.
    - destruct (split_name long_char (strip t)) as [[p r]|] eqn:E2; [|discriminate].
      apply split_name_prefix in E2 as (P & Er & Lc). unfold parse_long in H.
      assert (Lr : forallb long_char r = true) by (rewrite Er, forallb_app in Lc; now apply andb_true_iff in Lc).
      destruct (while_split is_digit r) as (W & _ & _). destruct (take_while is_digit r) as [|x y] eqn:D; [discriminate|].
      rewrite W, forallb_app in Lr. apply andb_true_iff in Lr as [_ Lr].
      assert (Sep : forall sp r1, opt_sep (drop_while is_digit r) = (Some sp, r1) -> sp = ["/"]).
      { intros sp r1. destruct (drop_while is_digit r) as [|c s]; [discriminate|]. cbn [opt_sep]. destruct (sep_char c) eqn:S; [|discriminate].
        cbn [forallb] in Lr. apply andb_true_iff in Lr as [Lr _]. rewrite (long_sep _ Lr S). congruence. }
      destruct (opt_sep (drop_while is_digit r)) as [sep1 r1]. destruct (opt_sep (drop_while is_digit r1)) as [sep2 r2].
      pose proof (opt_digits_natural (take_while is_digit r1)) as N1. pose proof (opt_digits_natural (take_while is_digit r2)) as N2.
      destruct sep1 as [sp|]; [|now destruct (opt_digits (take_while is_digit r1)), (opt_digits (take_while is_digit r2))].
      rewrite (Sep sp r1 eq_refl) in H.
      assert (CW : forall s, class_of r = Some s -> class_word s) by (intros s K; now apply class_of_word_inv in K).
      destruct (opt_digits (take_while is_digit r1)) as [c1|], (opt_digits (take_while is_digit r2)) as [c2|]; try discriminate;
        injection H as <-; cbn [i_prefix i_sub i_chan i_class].
      1: exists (SlotCardPort (digits_Z (x :: y)) c1 c2).
      2: exists (SlotPort (digits_Z (x :: y)) c1).
      3: exists (SlotPort (digits_Z (x :: y)) c2).
      all: split; [|reflexivity]; unfold proper; cbn [slot_of card_of port_of];
        refine (conj _ (conj _ (conj _ (conj _ (conj _ (conj _ (conj _ _)))))));
        auto using strip_prefix, strip_idem, digits_Z_natural, after_mark_natural, class_of_word_inv;
        intros ? K; try discriminate K; injection K as <-; auto using digits_Z_natural. }
  destruct G as (n & P & E). exists n. split; [assumption|]. split; [assumption|].
  rewrite E. exists (canonical (i_prefix i) n (i_sub i) (i_chan i) (i_class i)). split; [apply C36_render|now apply C36_round_trip].
Qed.
Print Assumptions C36_normal_form.

(** [CiscoIOSInterface(other)] is an equal interface. *)
Theorem C36_copy : forall t i, intf_of_name t = Ok i -> intf_of_dict i = Ok i.
Proof.
  intros t i H. destruct (C36_normal_form _ _ H) as (n & _ & -> & _). now destruct n.
Qed.
Print Assumptions C36_copy.
(** A dictionary gives the interface it describes: it is refused exactly if there is a
    slot but no separator, and a card without a slot is dropped. *)
Theorem C36_dict : forall d,
  (i_slot d <> None -> i_sep d = None -> intf_of_dict d = Err ValueError) /\
  (i_slot d <> None -> i_sep d <> None -> intf_of_dict d = Ok d) /\
  (i_slot d = None -> i_card d = None -> intf_of_dict d = Ok d) /\
  (i_slot d = None -> exists e, intf_of_dict d = Ok e /\ i_card e = None /\ i_prefix e = i_prefix d /\ i_sep e = i_sep d /\ i_slot e = None /\
     i_port e = i_port d /\ i_sub e = i_sub d /\ i_chan e = i_chan d /\ i_class e = i_class d).
Proof.
  intros [p s sl c po su ch cl]. unfold intf_of_dict. cbn [i_prefix i_sep i_slot i_card i_port i_sub i_chan i_class].
  split; [|split; [|split]]; destruct sl, s; intros; subst; try congruence; eexists; (split; [reflexivity|]); now repeat split.
Qed.
Print Assumptions C36_dict.

(** What is accepted has a digit and only letters, digits, white space and : . ^ - / *)
Definition name_char (c : ascii) : Prop :=
  is_digit c = true \/ is_alpha c = true \/ is_space c = true \/ In c [":"; "."; "^"; "-"; "/"].
Lemma long_name_char c : long_char c = true -> name_char c.
Proof.
  unfold long_char, short_char, name_char. cbn [In]. rewrite !orb_true_iff, !Ascii.eqb_eq. intuition auto.
Qed.
Lemma strip_parts t : exists a b, t = a ++ strip t ++ b /\ white a /\ white b.
Proof.
  destruct (rstrip_prefix t) as (b & Eb & Hb). destruct (lstrip_suffix (rstrip t)) as (a & Ea & Ha).
  exists a, b. split; [|now split]. unfold strip. rewrite app_assoc, <- Ea. exact Eb.
Qed.
Lemma drop_digit r d u : take_while is_digit (drop_while (fun c => negb (is_digit c)) r) = d :: u -> In d r /\ is_digit d = true.
Proof.
  intros H. destruct (while_split (fun c => negb (is_digit c)) r) as (E & _ & _).
  destruct (while_split is_digit (drop_while (fun c => negb (is_digit c)) r)) as (E2 & F & _). rewrite H in E2, F.
  cbn [forallb] in F. apply andb_true_iff in F as [F _]. split; [|assumption]. rewrite E, E2, !in_app_iff. right. left. now left.
Qed.
Theorem C36_rejects : forall t i, intf_of_name t = Ok i -> Forall name_char t /\ Exists (fun c => is_digit c = true) t.
Proof.
  intros t i H. unfold intf_of_name in H. destruct (has_char "," t) eqn:Hc; [discriminate|].
  destruct (strip_parts t) as (a & b & Et & Ha & Hb).
  assert (G : forall p r, strip t = p ++ r -> forallb long_char (strip t) = true -> (exists d, In d r /\ is_digit d = true) ->
            Forall name_char t /\ Exists (fun c => is_digit c = true) t).
  { intros p r E L (d & I & D). unfold white in *. rewrite forallb_forall in L, Ha, Hb. split.
    - rewrite Et. apply Forall_forall. intros c. rewrite !in_app_iff. unfold name_char.
      intros [K|[K|K]]; [right; right; left; now apply Ha|apply long_name_char; now apply L|right; right; left; now apply Hb].
    - apply Exists_exists. exists d. split; [|assumption]. rewrite Et, E, !in_app_iff. auto. }
  destruct (split_name short_char (strip t)) as [[p r]|] eqn:E.
  - apply split_name_prefix in E as (P & E & C). apply (G p r E); [exact (forallb_imp _ _ _ short_long C)|].
    unfold parse_short in H. destruct (take_while is_digit (drop_while (fun c => negb (is_digit c)) r)) as [|x y] eqn:D; [discriminate|].
    exists x. now apply drop_digit in D.
  - destruct (split_name long_char (strip t)) as [[p r]|] eqn:E2; [|discriminate].
    apply split_name_prefix in E2 as (P & E2 & C). apply (G p r E2 C).
    unfold parse_long in H. destruct (while_split is_digit r) as (W & F & _). destruct (take_while is_digit r) as [|x y]; [discriminate|].
    cbn [forallb] in F. apply andb_true_iff in F as [F _]. exists x. split; [|assumption]. rewrite W. now left.
Qed.
Print Assumptions C36_rejects.

(** Some of the text may be ignored: names that differ in their numbers can be read
    as the same interface. *)
Theorem C36_injective_refuted : ~ (forall t u i, intf_of_name t = Ok i -> intf_of_name u = Ok i ->
  filter is_digit t = filter is_digit u).
Proof.
  intros H. specialize (H (lit "Ethernet1/2/3/4") (lit "Ethernet1/2/3") (interface (lit "Ethernet") (SlotCardPort 1 2 3) None None None) eq_refl eq_refl).
  discriminate H.
Qed.
Print Assumptions C36_injective_refuted.

Example C36_example :
  let n := SlotCardPort 4 1 2 in
  prefix_text (lit " Serial ") /\ writes_shape (lit "4/01/2") n /\ writes_marks (lit ".9:5") (Some 9) (Some 5) /\
  writes_class (lit "  point-to-point") (Some (lit "point-to-point")) /\ white (lit " ") /\
  intf_of_name (lit " Serial 4/01/2.9:5  point-to-point ") =
    Ok (interface (lit "Serial") n (Some 9) (Some 5) (Some (lit "point-to-point"))) /\
  proper (lit "Serial") n (Some 9) (Some 5) (Some (lit "point-to-point")) /\
  canonical (lit "Serial") n (Some 9) (Some 5) (Some (lit "point-to-point")) = lit "Serial4/1/2.9:5 point-to-point".
Proof.
  refine (conj eq_refl (conj _ (conj _ (conj _ (conj eq_refl (conj eq_refl (conj _ eq_refl))))))).
  - apply (ws_card (lit "4") (lit "01") (lit "2")); (split; [lia|]); [now exists 0%nat|now exists 1%nat|now exists 0%nat].
  - apply (wm_both (lit "9") (lit "5")); (split; [lia|]); now exists 0%nat.
  - apply (wc_word (lit "  ") (lit "point-to-point")); [reflexivity|discriminate|]. now split.
  - unfold proper. cbn [slot_of card_of port_of]. unfold natural, whenever.
    refine (conj eq_refl (conj eq_refl (conj _ (conj _ (conj _ (conj _ (conj _ _))))))); try (intros ? [= <-]); try lia.
    now split.
Qed.
Example C36_plain : intf_of_name (lit "Vlan100") = Ok (interface (lit "Vlan") (Port 100) None None None).
Proof. reflexivity. Qed.
Example C36_errors : intf_of_name (lit "Vlan") = Err NoRegexMatch /\ intf_of_name (lit "Eth1,2") = Err InvalidInterface /\
  intf_of_name (lit "Eth#1/2") = Err InvalidInterface /\ intf_of_name (lit "Eth1.2/3") = Err ValueError.
Proof. now repeat split. Qed.

(** ** C37 *)

Definition conv (k : key) : component := match k with KNone => Absent | KInt z => CNum z | KStr w => CWord w end.
Lemma components_keys i : components i = map conv (sort_list i).
Proof. unfold components, sort_list. destruct (i_slot i), (i_card i), (i_sub i), (i_chan i), (i_class i); reflexivity. Qed.
Lemma key_eqb_eq a b : key_eqb a b = true <-> a = b.
Proof.
  destruct a, b; cbn [key_eqb]; try (split; congruence).
  - rewrite Z.eqb_eq. split; congruence.
  - rewrite str_eqb_eq. split; congruence.
Qed.
Lemma conv_inj a b : conv a = conv b -> a = b.
Proof. destruct a, b; cbn [conv]; congruence. Qed.
Lemma map_conv_inj l : forall m, map conv l = map conv m -> l = m.
Proof.
  induction l as [|x l IH]; intros [|y m]; cbn [map]; try discriminate; [reflexivity|]. intros [= E F]. f_equal; [now apply conv_inj|now apply IH].
Qed.
Lemma keys_eqb_eq a : forall b, keys_eqb a b = true <-> a = b.
Proof.
  induction a as [|x a IH]; intros [|y b]; cbn [keys_eqb]; try (split; congruence).
  rewrite andb_true_iff, key_eqb_eq, IH. split; [intros [-> ->]; reflexivity|intros [= -> ->]; auto].
Qed.

Lemma word_before_cons x a y b : word_before (x :: a) (y :: b) <-> (code x < code y)%N \/ (x = y /\ word_before a b).
Proof.
  split.
  - intros [(c & r & E)|(p & u & v & r & s & E & F & L)].
    + cbn [app] in E. injection E as -> ->. right. split; [reflexivity|]. left. eauto.
    + destruct p as [|z p]; cbn [app] in E, F.
      * injection E as -> ->. injection F as -> ->. left. exact L.
      * injection E as -> ->. injection F as -> ->. right. split; [reflexivity|]. right. now exists p, u, v, r, s.
  - intros [L|[-> [(c & r & ->)|(p & u & v & r & s & -> & -> & L)]]].
    + right. now exists [], x, y, a, b.
    + left. now exists c, r.
    + right. now exists (y :: p), u, v, r, s.
Qed.
Lemma word_before_nil a : ~ word_before a [].
Proof. intros [(c & r & E)|(p & x & y & r & s & _ & E & _)]; [now destruct a|now destruct p]. Qed.
Lemma str_ltb_before a : forall b, str_ltb a b = true <-> word_before a b.
Proof.
  induction a as [|x a IH]; intros [|y b]; cbn [str_ltb].
  - split; [discriminate|]. intros H. now apply word_before_nil in H.
  - split; [|reflexivity]. intros _. left. now exists y, b.
  - split; [discriminate|]. intros H. now apply word_before_nil in H.
  - rewrite word_before_cons, orb_true_iff, andb_true_iff, IH, N.ltb_lt, Ascii.eqb_eq. reflexivity.
Qed.

Lemma fd_cons R x y a b : first_difference R (x :: a) (y :: b) <-> (x <> y /\ R x y) \/ (x = y /\ first_difference R a b).
Proof.
  split.
  - intros (k & u & v & A & B & D & F & H). destruct k as [|k]; cbn [nth_error firstn] in *.
    + injection A as ->. injection B as ->. now left.
    + injection F as -> F. right. split; [reflexivity|]. now exists k, u, v.
  - intros [[D H]|[-> (k & u & v & A & B & D & F & H)]].
    + now exists 0%nat, x, y.
    + exists (S k), u, v. cbn [nth_error firstn]. rewrite F. now repeat split.
Qed.
Lemma fd_nil R b : ~ first_difference R [] b.
Proof. intros (k & u & v & A & _). now destruct k. Qed.

Lemma keys_ltb_spec l : forall m, length l = length m ->
  (keys_ltb l m = Ok true <-> first_difference comes_first (map conv l) (map conv m)) /\
  (keys_ltb l m = Err TypeErr <-> first_difference (fun x y => ~ comparable x y) (map conv l) (map conv m)) /\
  (forall e, keys_ltb l m = Err e -> e = TypeErr).
Proof.
  induction l as [|x l IH]; intros [|y m] Len; try discriminate Len.
  - cbn [keys_ltb map]. repeat split; try discriminate; intros H; now apply fd_nil in H.
  - cbn [keys_ltb map]. rewrite !fd_cons. injection Len as Len. destruct (IH m Len) as (A & B & C).
    destruct (key_eqb x y) eqn:E.
    + apply key_eqb_eq in E as ->. rewrite A, B. intuition congruence.
    + assert (D : x <> y) by (intros F; apply key_eqb_eq in F; congruence).
      assert (D2 : conv x <> conv y) by (intros F; now apply D, conv_inj).
      assert (K : forall R, (conv x <> conv y /\ R (conv x) (conv y) \/ conv x = conv y /\ first_difference R (map conv l) (map conv m)) <-> R (conv x) (conv y))
        by (intros R; tauto).
      rewrite (K comes_first), (K (fun x y => ~ comparable x y)). clear -D.
      assert (Mixed : forall p q, ~ comes_first p q -> ~ comparable p q ->
        (@Err bool TypeErr = Ok true <-> comes_first p q) /\ (@Err bool TypeErr = Err TypeErr <-> ~ comparable p q) /\
        (forall e, @Err bool TypeErr = Err e -> e = TypeErr)).
      { intros p q F G. split; [|split].
        - split; [discriminate|]. contradiction.
        - now split.
        - now intros e [=]. }
      destruct x as [|u|u], y as [|v|v]; cbn [key_ltb conv]; try congruence;
        try (refine (Mixed _ _ _ _); intros Q; solve [inversion Q]).
      * split; [|split].
        -- split; [intros [= H]; apply Z.ltb_lt in H; now constructor|]. intros H. f_equal. apply Z.ltb_lt. now inversion H.
        -- split; [discriminate|]. intros H. exfalso. apply H. constructor.
        -- discriminate.
      * split; [|split].
        -- split; [intros [= H]; apply str_ltb_before in H; now constructor|]. intros H. f_equal. apply str_ltb_before. now inversion H.
        -- split; [discriminate|]. intros H. exfalso. apply H. constructor.
        -- discriminate.
Qed.

(** Two interfaces read from names are equal exactly when they have the same
    components, that is when they are rendered alike. *)
Theorem C37_equality : forall t u a b, intf_of_name t = Ok a -> intf_of_name u = Ok b ->
  (intf_eq a b = true <-> a = b) /\ (intf_eq a b = true <-> render a = render b).
Proof.
  intros t u a b Ha Hb.
  assert (E : intf_eq a b = true <-> a = b).
  { unfold intf_eq. rewrite andb_true_iff, str_eqb_eq, keys_eqb_eq. split; [|intros ->; auto].
    destruct (C36_normal_form _ _ Ha) as (n & _ & Ea & _). destruct (C36_normal_form _ _ Hb) as (m & _ & Eb & _).
    intros [P S]. apply (f_equal (map conv)) in S. rewrite <- !components_keys in S.
    rewrite Ea, Eb. rewrite Ea, Eb in S. unfold components in S.
    cbn [interface i_slot i_card i_port i_sub i_chan i_class] in S. injection S as S1 S2 S3 S4 S5 S6.
    assert (N : n = m) by (destruct n, m; cbn [slot_of card_of port_of num] in *; congruence).
    rewrite N, P. f_equal.
    - destruct (i_sub a), (i_sub b); cbn [num] in S4; congruence.
    - destruct (i_chan a), (i_chan b); cbn [num] in S5; congruence.
    - destruct (i_class a), (i_class b); congruence. }
  split; [exact E|]. rewrite E. split; [now intros ->|]. intros R.
  destruct (C36_normal_form _ _ Ha) as (_ & _ & _ & x & Rx & Px). destruct (C36_normal_form _ _ Hb) as (_ & _ & _ & y & Ry & Py). congruence.
Qed.
Print Assumptions C37_equality.

Lemma keys_ltb_refl l : keys_ltb l l = Ok false.
Proof. induction l as [|k l IH]; [reflexivity|]. cbn [keys_ltb]. now rewrite (proj2 (key_eqb_eq k k) eq_refl). Qed.

(** Equal interfaces have the same hash and cannot be told apart by < or >.  This holds
    for any attribute values. *)
Theorem C37_hash : forall a b, intf_eq a b = true ->
  intf_hash a = intf_hash b /\ (forall c, intf_lt a c = intf_lt b c /\ intf_lt c a = intf_lt c b /\ intf_eq a c = intf_eq b c) /\
  intf_eq b a = true /\ intf_lt a b = Ok false /\ intf_gt a b = Ok false.
Proof.
  intros a b H. unfold intf_eq in H. apply andb_true_iff in H as [P S]. apply str_eqb_eq in P. apply keys_eqb_eq in S.
  unfold intf_hash, intf_lt, intf_gt, intf_eq. rewrite S, P.
  pose proof (keys_ltb_refl (sort_list b)) as I.
  rewrite str_eqb_refl, (proj2 (keys_eqb_eq _ _) eq_refl). now repeat split.
Qed.
Print Assumptions C37_hash.

(** < and > compare slot, card, port, subinterface, channel and class in this order;
    a comparison fails, with TypeError, exactly when the first difference is between a
    component that is present and one that is not. *)
Theorem C37_order : forall a b,
  (intf_lt a b = Ok true <-> before a b) /\ (intf_gt a b = Ok true <-> before b a) /\
  (intf_lt a b = Err TypeErr <-> first_difference (fun x y => x = Absent \/ y = Absent) (components a) (components b)) /\
  (intf_gt a b = Err TypeErr <-> intf_lt a b = Err TypeErr) /\
  (forall e, intf_lt a b = Err e \/ intf_gt a b = Err e -> e = TypeErr).
Proof.
  assert (X : forall a b, (intf_lt a b = Err TypeErr <-> first_difference (fun x y => x = Absent \/ y = Absent) (components a) (components b))).
  { intros a b. destruct (keys_ltb_spec (sort_list a) (sort_list b) eq_refl) as (_ & B & _). unfold intf_lt. rewrite B, <- !components_keys.
    split; intros (k & x & y & A1 & A2 & D & F & H); exists k, x, y; refine (conj A1 (conj A2 (conj D (conj F _)))).
    - destruct x, y; auto; try (exfalso; apply H; now constructor); exfalso; clear - A1 A2; revert A1 A2; unfold components;
        do 6 (destruct k as [|k]; [cbn [nth_error]; unfold num; repeat match goal with |- context [match ?o with _ => _ end] => destruct o end; congruence|]); now destruct k.
    - intros Q. inversion Q; subst; destruct H; discriminate. }
  intros a b. destruct (keys_ltb_spec (sort_list a) (sort_list b) eq_refl) as (A & _ & C).
  destruct (keys_ltb_spec (sort_list b) (sort_list a) eq_refl) as (A' & _ & C').
  unfold before. rewrite !components_keys. split; [exact A|]. split; [exact A'|]. rewrite <- !components_keys.
  split; [apply X|]. split.
  - change (intf_gt a b) with (intf_lt b a). rewrite !X.
    split; intros (k & x & y & A1 & A2 & D & F & H); exists k, y, x; repeat split; auto; tauto.
  - intros e [H|H]; [now apply C|now apply C'].
Qed.
Print Assumptions C37_order.

Lemma lt_error a b : intf_lt a b = Err TypeErr <-> first_difference (fun x y => x = Absent \/ y = Absent) (components a) (components b).
Proof. apply (C37_order a b). Qed.
Lemma word_before_irrefl a : ~ word_before a a.
Proof. induction a as [|x a IH]; [apply word_before_nil|]. rewrite word_before_cons. intros [H|[_ H]]; [lia|auto]. Qed.
Lemma word_before_trans a : forall b c, word_before a b -> word_before b c -> word_before a c.
Proof.
  induction a as [|x a IH]; intros [|y b] [|z c] H K; try (now apply word_before_nil in H); try (now apply word_before_nil in K).
  - left. now exists z, c.
  - rewrite word_before_cons in *. destruct H as [H|[-> H]], K as [K|[-> K]]; [left; lia|now left|now left|right; split; [reflexivity|eauto]].
Qed.
Lemma word_total a : forall b, a = b \/ word_before a b \/ word_before b a.
Proof.
  induction a as [|x a IH]; intros [|y b].
  - now left.
  - right; left; left. now exists y, b.
  - right; right; left. now exists x, a.
  - rewrite !word_before_cons. destruct (N.lt_total (code x) (code y)) as [H|[H|H]]; [tauto| |tauto].
    assert (E : x = y) by (unfold code in H; now rewrite <- (ascii_N_embedding x), <- (ascii_N_embedding y), H).
    subst y. destruct (IH b) as [->|[K|K]]; [now left|tauto|tauto].
Qed.
Lemma comes_first_irrefl x : ~ comes_first x x.
Proof. intros H. inversion H; subst; [lia|now apply (word_before_irrefl x0)]. Qed.
Lemma comes_first_trans x y z : comes_first x y -> comes_first y z -> comes_first x z.
Proof. intros H K. inversion H; subst; inversion K; subst; constructor; [lia|eauto using word_before_trans]. Qed.
Lemma fd_trans a : forall b c, first_difference comes_first a b -> first_difference comes_first b c -> first_difference comes_first a c.
Proof.
  induction a as [|x a IH]; intros [|y b] [|z c] H K; try (now apply fd_nil in H); try (now apply fd_nil in K);
    try (destruct H as (k & u & v & _ & E & _); now destruct k); try (destruct K as (k & u & v & _ & E & _); now destruct k).
  rewrite fd_cons in *. destruct H as [[Hn H]|[-> H]], K as [[Kn K]|[-> K]].
  - left. pose proof (comes_first_trans _ _ _ H K) as T. split; [|assumption]. intros ->. now apply comes_first_irrefl in T.
  - left. now split.
  - left. now split.
  - right. split; [reflexivity|eauto].
Qed.
Lemma fd_irrefl a : ~ first_difference comes_first a a.
Proof. induction a as [|x a IH]; [apply fd_nil|]. rewrite fd_cons. tauto. Qed.

(** < is a strict order, and on interfaces with the same components present it is
    total: exactly one of <, > and "same numbers and class" holds, with no error. *)
Theorem C37_strict_total : forall a b c,
  intf_lt a a = Ok false /\ (intf_lt a b = Ok true -> intf_lt b c = Ok true -> intf_lt a c = Ok true) /\
  (intf_lt a b = Ok true -> intf_gt b a = Ok true /\ intf_lt b a <> Ok true) /\
  (same_shape a b ->
     (intf_lt a b = Ok true /\ intf_gt a b = Ok false) \/ (intf_lt a b = Ok false /\ intf_gt a b = Ok true) \/
     (intf_lt a b = Ok false /\ intf_gt a b = Ok false /\ components a = components b)).
Proof.
  intros a b c.
  assert (L : forall x y, intf_lt x y = Ok true <-> before x y) by (intros x y; apply C37_order).
  assert (I : intf_lt a a = Ok false).
  { destruct (intf_lt a a) as [[]|e] eqn:E; [|reflexivity|].
    - apply L in E. now apply fd_irrefl in E.
    - assert (e = TypeErr) as -> by (apply (C37_order a a); auto).
      apply lt_error in E. destruct E as (k & x & y & A & B & D & _). congruence. }
  split; [exact I|]. split; [|split].
  - rewrite !L. apply fd_trans.
  - intros H. split; [exact H|]. rewrite !L in *. intros K. apply (fd_irrefl (components a)). exact (fd_trans _ _ _ H K).
  - intros SS. change (intf_gt a b) with (intf_lt b a).
    assert (T : forall l m, Forall2 (fun x y => x = Absent <-> y = Absent) l m -> length l = length m).
    { intros l m F. induction F; cbn [length]; congruence. }
    assert (NE : forall x y, Forall2 (fun x y => x = Absent <-> y = Absent) (components x) (components y) -> intf_lt x y <> Err TypeErr).
    { intros x y F H. apply lt_error in H. revert F H. generalize (components x), (components y). intros l m F. induction F as [|u v l m E F IH].
      - intros H. now apply fd_nil in H.
      - rewrite fd_cons. cbn beta. intros [[D [K|K]]|[_ H]]; [subst u; apply D; symmetry; now apply E|subst v; apply D; now apply E|auto]. }
    assert (S' : Forall2 (fun x y => x = Absent <-> y = Absent) (components b) (components a)).
    { unfold same_shape in SS. revert SS. generalize (components a), (components b). intros l m F. induction F; constructor; [tauto|assumption]. }
    assert (NE' : forall x y e, Forall2 (fun x y => x = Absent <-> y = Absent) (components x) (components y) -> intf_lt x y <> Err e).
    { intros x y e F H. assert (e = TypeErr) as -> by (apply (C37_order x y); auto). now apply NE in H. }
    assert (Tot : components a = components b \/ before a b \/ before b a).
    { unfold before.
      assert (W : forall l m, Forall2 (fun x y => x = Absent <-> y = Absent) l m ->
         (forall k z w, nth_error l k = Some (CNum z) -> nth_error m k = Some (CWord w) -> False) ->
         (forall k z w, nth_error l k = Some (CWord w) -> nth_error m k = Some (CNum z) -> False) ->
         l = m \/ first_difference comes_first l m \/ first_difference comes_first m l).
      { intros l m F. induction F as [|u v l m E F IH]; intros P Q; [now left|].
        assert (IH' := IH (fun k => P (S k)) (fun k => Q (S k))). rewrite !fd_cons.
        assert (UV : u = v \/ comes_first u v \/ comes_first v u).
        { destruct u as [x|x|], v as [y|y|]; try (now left); try (exfalso; intuition congruence).
          - destruct (Z.lt_total x y) as [K|[-> |K]]; [right; left; now constructor|now left|right; right; now constructor].
          - exfalso. exact (P 0%nat x y eq_refl eq_refl).
          - exfalso. exact (Q 0%nat y x eq_refl eq_refl).
          - destruct (word_total x y) as [-> |[K|K]]; [now left|right; left; now constructor|right; right; now constructor]. }
        destruct UV as [-> |[K|K]].
        - destruct IH' as [-> |[K|K]]; [now left|tauto|tauto].
        - right; left; left. split; [|assumption]. intros ->. now apply comes_first_irrefl in K.
        - right; right; left. split; [|assumption]. intros ->. now apply comes_first_irrefl in K. }
      apply W; [exact SS| |]; intros k z w; unfold components; do 6 (destruct k as [|k]; [cbn [nth_error]; unfold num;
        repeat match goal with |- context [match ?o with _ => _ end] => destruct o end; congruence|]); destruct k; discriminate. }
    assert (Asym : forall x y, before x y -> ~ before y x) by (intros x y A B; apply (fd_irrefl (components x)); exact (fd_trans _ _ _ A B)).
    assert (F : forall x y, Forall2 (fun x y => x = Absent <-> y = Absent) (components x) (components y) -> ~ before x y -> intf_lt x y = Ok false).
    { intros x y G N. destruct (intf_lt x y) as [[]|e] eqn:E; [|reflexivity|now apply NE' in E]. now apply L in E. }
    destruct Tot as [E|[H|H]].
    + right; right. repeat split; [|apply F|exact E]; [apply F|..]; auto; unfold before; rewrite E; apply fd_irrefl.
    + left. split; [now apply L|]. apply F; auto.
    + right; left. split; [|now apply L]. apply F; auto.
Qed.
Print Assumptions C37_strict_total.

(** The order does not look at the prefix, and interfaces of different shapes cannot
    be compared at all. *)
Theorem C37_total_refuted :
  ~ (forall t u a b, intf_of_name t = Ok a -> intf_of_name u = Ok b -> a = b \/ intf_lt a b = Ok true \/ intf_gt a b = Ok true) /\
  ~ (forall t u a b, intf_of_name t = Ok a -> intf_of_name u = Ok b -> exists r, intf_lt a b = Ok r).
Proof.
  split; intros H.
  - destruct (H (lit "Ethernet1") (lit "Vlan1") _ _ eq_refl eq_refl) as [K|[K|K]]; discriminate K.
  - destruct (H (lit "Ethernet1") (lit "Ethernet1.5") _ _ eq_refl eq_refl) as [r K]. discriminate K.
Qed.
Print Assumptions C37_total_refuted.

(** The slot does not enter the hash, which is therefore not unique. *)
Theorem C37_hash_unique_refuted : forall p s s' c q sub chan cl,
  0 <= s -> 0 <= s' -> intf_hash (interface p (SlotCardPort s c q) sub chan cl) = intf_hash (interface p (SlotCardPort s' c q) sub chan cl).
Proof.
  intros p s s' c q sub chan cl H H'. unfold intf_hash, sort_list, interface. cbn [i_slot slot_of of_Z hash_from i_card i_port i_sub i_chan i_class card_of port_of].
  now rewrite !Z.add_0_l, !Z.pow_1_l.
Qed.
Print Assumptions C37_hash_unique_refuted.

Example C37_example :
  let e n := interface (lit "Ethernet") n None None None in
  same_shape (e (SlotPort 1 2)) (e (SlotPort 1 10)) /\ intf_lt (e (SlotPort 1 2)) (e (SlotPort 1 10)) = Ok true /\
  intf_gt (e (SlotPort 1 2)) (e (SlotPort 1 10)) = Ok false /\ intf_lt (e (Port 1)) (e (SlotPort 1 1)) = Err TypeErr.
Proof. cbn zeta. split; [|now repeat split]. unfold same_shape. repeat constructor; intros K; auto; discriminate. Qed.
