(** C73: IOS-XR interfaces. *)
From Coq Require Import Ascii String Arith NArith ZArith Bool List Lia.
From Verif Require Import PyStr PyStrFacts PyBase RangeModel PRange IntfModel IntfSpec IntfFacts PIntf SearchModel PyRe IosModel IntfReModel XrModel XrSpec PyReFacts PyReTmpl PyReSent PyReLazy PyReGets IntfRe PIntfRe.
Import ListNotations.
Local Open Scope char_scope.

Definition an : cset := mkSet false false [rng "a" "z"; rng "A" "Z"; rng "0" "9"].
Lemma in_an c : in_set an c = alnum c. Proof. apply same_set. vm_compute. reflexivity. Qed.
Definition run_re (n : nat) : re := ropt true (RGrp n (rplus true (RSet an))).
Definition body_re : re :=
  RCat (RGrp 3 (rplus true (RSet an))) (RCat (opt_sep_re 4) (RCat (run_re 5) (RCat (opt_sep_re 6) (RCat (run_re 7) (RCat (opt_sep_re 8) (run_re 9)))))).
Definition xr_re : re := RCat (RGrp 1 (RStar true (RSet pfx))) (RGrp 2 body_re).
Definition xr_names : list (str * nat) := 
  [(lit "port", 9); (lit "sep3", 8); (lit "processor", 7); (lit "sep2", 6); (lit "card", 5); (lit "sep1", 4); (lit "slot", 3);
   (lit "slot_card_port_subinterface_channel", 2); (lit "prefix", 1)].
Lemma xr_reads : compile false (lit xr_long_pattern) = Some (RCat RBol xr_re, (9, xr_names)).
Proof. vm_compute. reflexivity. Qed.
Lemma xr_reads_re : reads_re (lit xr_long_pattern) xr_re 9.
Proof. unfold reads_re. now rewrite xr_reads. Qed.
Lemma grp_x nm k m : option_map snd (find (fun x => str_eqb (fst x) (lit nm)) xr_names) = Some (S k) -> grp xr_long_pattern nm m = nth k (m_groups m) None.
Proof. intros F. eapply named_at; [exact xr_reads|exact F]. Qed.
Lemma grp_x_prefix m : grp xr_long_pattern "prefix" m = nth 0 (m_groups m) None. Proof. now apply grp_x. Qed.
Lemma grp_x_rest m : grp xr_long_pattern "slot_card_port_subinterface_channel" m = nth 1 (m_groups m) None. Proof. now apply grp_x. Qed.
Lemma grp_x_slot m : grp xr_long_pattern "slot" m = nth 2 (m_groups m) None. Proof. now apply grp_x. Qed.
Lemma grp_x_sep1 m : grp xr_long_pattern "sep1" m = nth 3 (m_groups m) None. Proof. now apply grp_x. Qed.
Lemma grp_x_card m : grp xr_long_pattern "card" m = nth 4 (m_groups m) None. Proof. now apply grp_x. Qed.
Lemma grp_x_sep2 m : grp xr_long_pattern "sep2" m = nth 5 (m_groups m) None. Proof. now apply grp_x. Qed.
Lemma grp_x_proc m : grp xr_long_pattern "processor" m = nth 6 (m_groups m) None. Proof. now apply grp_x. Qed.
Lemma grp_x_port m : grp xr_long_pattern "port" m = nth 8 (m_groups m) None. Proof. now apply grp_x. Qed.

(** *** The preferred match *)
Definition push (n : nat) (o : option str) (c : caps) : caps := match o with Some w => (n, w) :: c | None => c end.
Definition txt (o : option str) : str := match o with Some w => w | None => [] end.
Definition is_run (o : option str) : Prop := forall w, o = Some w -> word w.
Definition is_sep (o : option str) : Prop := forall w, o = Some w -> exists k, w = [k] /\ sep_char k = true.
Lemma word_an w : word w -> w <> [] /\ all_in an w.
Proof. intros (NE & F). split; [assumption|]. now apply (all_in_iff' an _ _ in_an). Qed.
Lemma get_run n i o s c : is_run o -> IntfFacts.stops alnum s -> gets (run_re n) i (txt o ++ s) c (i + length (txt o)) s (push n o c).
Proof.
  intros R St. apply (stops_of an _ _ in_an) in St. destruct o as [w|]; cbn [txt push].
  - destruct (word_an w (R w eq_refl)). now apply gets_run.
  - cbn [app length]. rewrite Nat.add_0_r. now apply gets_no_run.
Qed.
Lemma get_sep n i o s c : is_sep o -> (o = None -> IntfFacts.stops sep_char s) -> gets (opt_sep_re n) i (txt o ++ s) c (i + length (txt o)) s (push n o c).
Proof.
  intros R St. destruct o as [w|]; cbn [txt push].
  - destruct (R w eq_refl) as (k & -> & K). cbn [app length]. replace (i + 1) with (S i) by lia. apply gets_one. now rewrite in_sep.
  - cbn [app length]. rewrite Nat.add_0_r. apply gets_no_one. exact (stops_of sep_s _ _ in_sep (St eq_refl)).
Qed.
Definition body (a : str) (k1 c k2 r k3 b : option str) : str := a ++ txt k1 ++ txt c ++ txt k2 ++ txt r ++ txt k3 ++ txt b.
Lemma sep_an k : sep_char k = true -> alnum k = false.
Proof. pose proof (all_chars (fun c => implb (sep_char c) (negb (alnum c))) ltac:(vm_compute; reflexivity) k) as E. cbn beta in E. intros K. rewrite K in E. cbn in E. now destruct (alnum k). Qed.
Lemma an_sep k : alnum k = true -> sep_char k = false.
Proof. intros K. destruct (sep_char k) eqn:E; [|reflexivity]. apply sep_an in E. congruence. Qed.
Lemma digit_an k : is_digit k = true -> alnum k = true.
Proof. unfold alnum. intros ->. apply orb_true_r. Qed.

(** What is found in [u ++ body ... ++ t], and in the body itself. *)
Lemma xr_found u a k1 c k2 r k3 b t : forallb prefix_char u = true -> IntfFacts.stops prefix_char a -> word a ->
  is_sep k1 -> is_run c -> is_sep k2 -> is_run r -> is_sep k3 -> is_run b ->
  IntfFacts.stops alnum (txt k1 ++ txt c ++ txt k2 ++ txt r ++ txt k3 ++ txt b ++ t) ->
  (k1 = None -> IntfFacts.stops sep_char (txt c ++ txt k2 ++ txt r ++ txt k3 ++ txt b ++ t)) ->
  IntfFacts.stops alnum (txt k2 ++ txt r ++ txt k3 ++ txt b ++ t) ->
  (k2 = None -> IntfFacts.stops sep_char (txt r ++ txt k3 ++ txt b ++ t)) ->
  IntfFacts.stops alnum (txt k3 ++ txt b ++ t) ->
  (k3 = None -> IntfFacts.stops sep_char (txt b ++ t)) ->
  IntfFacts.stops alnum t ->
  exists m, re_search xr_long_pattern (u ++ body a k1 c k2 r k3 b ++ t) = Some m /\
    m_groups m = [Some u; Some (body a k1 c k2 r k3 b); Some a; k1; c; k2; r; k3; b].
Proof.
  intros U Sa A K1 C K2 R K3 B S1 S2 S3 S4 S5 S6 S7.
  assert (G0 : exists j, gets xr_re 0 (u ++ body a k1 c k2 r k3 b ++ t) [] j t
     ((2, body a k1 c k2 r k3 b) :: push 9 b (push 8 k3 (push 7 r (push 6 k2 (push 5 c (push 4 k1 ((3, a) :: [(1, u)])))))))).
  { eexists. unfold xr_re. eapply gets_cat.
    - apply (gets_grp 1); [reflexivity|]. apply gets_star; [now apply (all_in_iff' pfx _ _ in_pfx)|].
      destruct A as (NE & _). destruct a as [|x a]; [congruence|]. exact (stops_of pfx _ (x :: _) in_pfx Sa).
    - apply gets_grp; [reflexivity|]. destruct (word_an a A) as (A1 & A2). unfold body. rewrite <- !app_assoc.
      replace (0 + length u + length (a ++ txt k1 ++ txt c ++ txt k2 ++ txt r ++ txt k3 ++ txt b)) with
        (0 + length u + length a + length (txt k1) + length (txt c) + length (txt k2) + length (txt r) + length (txt k3) + length (txt b)) by (rewrite !app_length; lia).
      unfold body_re. eapply gets_cat; [apply gets_grp; [reflexivity|]; apply gets_plus; [assumption|assumption|exact (stops_of an _ _ in_an S1)]|].
      eapply gets_cat; [now apply get_sep|]. eapply gets_cat; [now apply get_run|]. eapply gets_cat; [now apply get_sep|].
      eapply gets_cat; [now apply get_run|]. eapply gets_cat; [now apply get_sep|]. now apply get_run. }
  destruct G0 as (j & G0). destruct (gets_found _ _ _ _ _ _ _ xr_reads_re G0) as (m & F & G1). exists m. split; [exact F|]. rewrite G1.
  destruct k1, c, k2, r, k3, b; reflexivity.
Qed.

(** Letters, digits and separators hold no subinterface, channel or class. *)
Definition quiet (c : ascii) : bool := alnum c || sep_char c.
Lemma quiet_space c : quiet c = true -> is_space c = false.
Proof. pose proof (all_chars (fun c => implb (quiet c) (negb (is_space c))) ltac:(vm_compute; reflexivity) c) as E. cbn beta in E. intros K. rewrite K in E. cbn in E. now destruct (is_space c). Qed.
Lemma quiet_in k s : forallb quiet s = true -> quiet k = false -> ~ In k s.
Proof. intros F K J. rewrite forallb_forall in F. rewrite (F k J) in K. discriminate K. Qed.
Lemma quiet_no s : forallb quiet s = true -> sub_of s = None /\ chan_of s = None /\ intf_class_of s = None.
Proof.
  intros F. rewrite sub_same, chan_same. split; [apply after_mark_none, quiet_in; [assumption|reflexivity]|]. split; [apply after_mark_none, quiet_in; [assumption|reflexivity]|].
  rewrite class_same.
  - destruct (class_of s) as [w|] eqn:E; [|reflexivity]. exfalso. unfold class_of in E.
    destruct (while_split class_char (rev s)) as (W & _ & _). destruct (drop_while class_char (rev s)) as [|y z]; [destruct (take_while class_char (rev s)); discriminate E|].
    assert (J : In y s) by (apply in_rev; rewrite W; apply in_or_app; right; now left). rewrite forallb_forall in F. apply F, quiet_space in J.
    destruct (take_while class_char (rev s)); [discriminate E|]. rewrite J in E. discriminate E.
  - intros x c ->. rewrite forallb_app in F. apply andb_true_iff in F as (_ & F). cbn [forallb] in F. apply andb_true_iff in F as (F & _). now apply quiet_space.
Qed.
Lemma word_quiet w : word w -> forallb quiet w = true.
Proof. intros (_ & F). refine (forallb_imp _ _ _ _ F). intros c. unfold quiet. now intros ->. Qed.
Lemma run_quiet o : is_run o -> forallb quiet (txt o) = true.
Proof. intros R. destruct o as [w|]; [|reflexivity]. now apply word_quiet, R. Qed.
Lemma sep_quiet o : is_sep o -> forallb quiet (txt o) = true.
Proof. intros R. destruct o as [w|]; [|reflexivity]. destruct (R w eq_refl) as (k & -> & K). cbn. unfold quiet. now rewrite K, orb_true_r. Qed.
Lemma body_quiet a k1 c k2 r k3 b : word a -> is_sep k1 -> is_run c -> is_sep k2 -> is_run r -> is_sep k3 -> is_run b -> forallb quiet (body a k1 c k2 r k3 b) = true.
Proof. intros A K1 C K2 R K3 B. unfold body. now rewrite !forallb_app, (run_quiet c), (run_quiet r), (run_quiet b), (sep_quiet k1), (sep_quiet k2), (sep_quiet k3), word_quiet by assumption. Qed.

(** What is made of the groups. *)
Definition made (q a : str) (k1 c k2 r b : option str) : result xr :=
  let '(card, port) := match c, b with Some c, None => (None, Some c) | c, p => (c, p) end in
  do sep <- (match k1, k2 with Some s, _ => Ok (Some s) | None, None => Ok None | None, Some _ => Err ValueError end);
  match port with
  | Some p => do s <- to_int (Some a); do p <- to_int (Some p); Ok (mkXr (strip q) sep (Some s) card r p None None None)
  | None => Err InvalidInterface
  end.
Lemma stops_cut f x t : IntfFacts.stops f (x ++ t) -> IntfFacts.stops f x.
Proof. destruct x; [reflexivity|]. exact (fun h => h). Qed.
Lemma xr_long_made m m2 u w a k1 c k2 r k3 b : m_groups m = [Some u; Some w; Some a; k1; c; k2; r; k3; b] ->
  re_search xr_long_pattern w = Some m2 -> m_groups m2 = [Some []; Some w; Some a; k1; c; k2; r; k3; b] -> forallb quiet w = true ->
  xr_long m = made u a k1 c k2 r b.
Proof.
  intros G0 F G1 Qu. unfold xr_long, made, grp_text. rewrite grp_x_rest, G0. cbn [nth]. rewrite F.
  rewrite grp_x_prefix, grp_x_slot, grp_x_sep1, grp_x_card, grp_x_sep2, grp_x_proc, grp_x_port, G0, G1. cbn [nth].
  destruct (quiet_no w Qu) as (-> & -> & ->). destruct c, b; reflexivity.
Qed.
Lemma not_short s k : In k s -> short_char k = false -> re_search short_pattern s = None.
Proof. intros J K. apply found_nothing. rewrite short_split. now rewrite (split_name_fail short_char s k). Qed.
Lemma xr_reading name u a k1 c k2 r k3 b t : forallb prefix_char u = true -> IntfFacts.stops prefix_char a -> word a ->
  is_sep k1 -> is_run c -> is_sep k2 -> is_run r -> is_sep k3 -> is_run b ->
  IntfFacts.stops alnum (txt k1 ++ txt c ++ txt k2 ++ txt r ++ txt k3 ++ txt b ++ t) ->
  (k1 = None -> IntfFacts.stops sep_char (txt c ++ txt k2 ++ txt r ++ txt k3 ++ txt b ++ t)) ->
  IntfFacts.stops alnum (txt k2 ++ txt r ++ txt k3 ++ txt b ++ t) ->
  (k2 = None -> IntfFacts.stops sep_char (txt r ++ txt k3 ++ txt b ++ t)) ->
  IntfFacts.stops alnum (txt k3 ++ txt b ++ t) ->
  (k3 = None -> IntfFacts.stops sep_char (txt b ++ t)) ->
  IntfFacts.stops alnum t ->
  has_char "," name = false -> strip name = u ++ body a k1 c k2 r k3 b ++ t -> re_search short_pattern (strip name) = None ->
  xr_of_name name = made u a k1 c k2 r b.
Proof.
  intros U Sa A K1 C K2 R K3 B S1 S2 S3 S4 S5 S6 S7 Co St Sh. unfold xr_of_name. rewrite Co, Sh, St.
  destruct (xr_found u a k1 c k2 r k3 b t U Sa A K1 C K2 R K3 B S1 S2 S3 S4 S5 S6 S7) as (m & -> & G0).
  destruct (xr_found [] a k1 c k2 r k3 b [] eq_refl Sa A K1 C K2 R K3 B) as (m2 & F2 & G2).
  - rewrite ?app_nil_r. rewrite !app_assoc in *. now apply stops_cut in S1.
  - intros E. specialize (S2 E). rewrite ?app_nil_r. rewrite !app_assoc in *. now apply stops_cut in S2.
  - rewrite ?app_nil_r. rewrite !app_assoc in *. now apply stops_cut in S3.
  - intros E. specialize (S4 E). rewrite ?app_nil_r. rewrite !app_assoc in *. now apply stops_cut in S4.
  - rewrite ?app_nil_r. rewrite !app_assoc in *. now apply stops_cut in S5.
  - intros E. specialize (S6 E). rewrite ?app_nil_r. now apply stops_cut in S6.
  - exact Logic.I.
  - cbn [app] in F2. rewrite app_nil_r in F2. exact (xr_long_made _ _ _ _ _ _ _ _ _ _ _ G0 F2 G2 (body_quiet _ _ _ _ _ _ _ A K1 C K2 R K3 B)).
Qed.

(** *** Names with a slot *)
Lemma numeral_word a n : numeral a n -> word a.
Proof.
  intros H. split; [destruct (numeral_head _ _ H) as (? & ? & -> & _); discriminate|].
  exact (forallb_imp _ _ _ digit_an (numeral_digits _ _ H)).
Qed.
Lemma numeral_stops a n : numeral a n -> IntfFacts.stops prefix_char a.
Proof. intros H. destruct (numeral_head _ _ H) as (c & r & -> & D). cbn. now apply digit_prefix. Qed.
Lemma numeral_int a n : numeral a n -> to_int (Some a) = Ok n.
Proof.
  intros H. unfold to_int. rewrite py_int_digits; [|exact (numeral_digits _ _ H)|destruct (numeral_head _ _ H) as (? & ? & -> & _); discriminate].
  f_equal. exact (numeral_value _ _ H).
Qed.

Lemma divider_sep k : divider k -> sep_char k = true /\ short_char k = false.
Proof.
  intros (A & B & _). pose proof (all_chars (fun c => alnum c || mark_char c || (sep_char c && negb (short_char c))) ltac:(vm_compute; reflexivity) k) as E.
  cbn beta in E. rewrite A, B in E. cbn [orb] in E. apply andb_true_iff in E as (E1 & E2). split; [assumption|]. now apply negb_true_iff.
Qed.
Lemma sep_divider k : sep_char k = true -> k <> "," -> divider k.
Proof.
  intros K N0. pose proof (all_chars (fun c => implb (sep_char c) (negb (alnum c) && negb (mark_char c))) ltac:(vm_compute; reflexivity) k) as E.
  cbn beta in E. rewrite K in E. cbn [implb] in E. apply andb_true_iff in E as (E1 & E2). apply negb_true_iff in E1, E2. now repeat split.
Qed.
Lemma mark_stops c : mark_char c = true -> alnum c = false /\ sep_char c = false.
Proof.
  intros K. pose proof (all_chars (fun c => implb (mark_char c) (negb (alnum c) && negb (sep_char c))) ltac:(vm_compute; reflexivity) c) as E.
  cbn beta in E. rewrite K in E. cbn [implb] in E. apply andb_true_iff in E as (E1 & E2). apply negb_true_iff in E1, E2. now split.
Qed.
Lemma rstrip_keep x d t : is_space d = false -> rstrip (x ++ [d] ++ t) = x ++ [d] ++ rstrip t.
Proof.
  intros D0. destruct (rstrip_prefix t) as (w & E & W0). rewrite E at 1. rewrite !app_assoc, rstrip_app_white by exact W0.
  destruct (rstrip_last t) as [E1|(p & c & E1 & C)]; rewrite E1.
  - rewrite app_nil_r. now apply rstrip_app_cons.
  - rewrite !app_assoc. now apply rstrip_app_cons.
Qed.
Lemma strip_around q c w v d t : is_space c = false -> c :: w = v ++ [d] -> is_space d = false -> strip (q ++ (c :: w) ++ t) = lstrip q ++ (c :: w) ++ rstrip t.
Proof.
  intros C E D0. unfold strip. rewrite E at 1. rewrite <- app_assoc, app_assoc, rstrip_keep by assumption.
  rewrite <- app_assoc. rewrite (app_assoc v), <- E. cbn [app]. now apply lstrip_app.
Qed.
Lemma rstrip_stops f t : IntfFacts.stops f t -> IntfFacts.stops f (rstrip t).
Proof. destruct (rstrip_prefix t) as (w & E & _). rewrite E at 1. apply stops_cut. Qed.
Lemma an_space c : alnum c = true -> is_space c = false.
Proof. intros K. apply quiet_space. unfold quiet. now rewrite K. Qed.
Lemma body_strip q a n k1 c k2 r k3 b t : numeral a n -> word (txt k1 ++ txt c ++ txt k2 ++ txt r ++ txt k3 ++ txt b) \/
  (exists z d, txt k1 ++ txt c ++ txt k2 ++ txt r ++ txt k3 ++ txt b = z ++ [d] /\ is_space d = false) ->
  strip (q ++ body a k1 c k2 r k3 b ++ t) = lstrip q ++ body a k1 c k2 r k3 b ++ rstrip t.
Proof.
  intros A [(NE & F)|(z & d & E & D0)].
  - destruct (exists_last NE) as (z & d & E). unfold body. rewrite E in *. rewrite forallb_app in F. apply andb_true_iff in F as (_ & F). cbn [forallb] in F. apply andb_true_iff in F as (F & _).
    destruct (numeral_head _ _ A) as (x & y & -> & X). cbn [app]. apply (strip_around q x (y ++ z ++ [d]) (x :: y ++ z) d t); [now apply digit_space| |now apply an_space].
    cbn [app]. now rewrite app_assoc.
  - unfold body. rewrite E. destruct (numeral_head _ _ A) as (x & y & -> & X). cbn [app]. apply (strip_around q x (y ++ z ++ [d]) (x :: y ++ z) d t); [now apply digit_space| |assumption].
    cbn [app]. now rewrite app_assoc.
Qed.
Lemma word_last w : word w -> exists z d, w = z ++ [d] /\ is_space d = false.
Proof.
  intros (NE & F). destruct (exists_last NE) as (z & d & ->). exists z, d. split; [reflexivity|]. rewrite forallb_app in F. apply andb_true_iff in F as (_ & F).
  cbn [forallb] in F. apply andb_true_iff in F as (F & _). now apply an_space.
Qed.
Lemma run_some w : word w -> is_run (Some w).
Proof. intros H v [= <-]. exact H. Qed.
Lemma run_none : is_run None.
Proof. intros v E. discriminate E. Qed.
Lemma sep_none : is_sep None.
Proof. intros v E. discriminate E. Qed.
Lemma sep_some k : divider k -> is_sep (Some [k]).
Proof. intros K v [= <-]. exists k. split; [reflexivity|]. now apply divider_sep. Qed.
Lemma divider_stops k s : divider k -> IntfFacts.stops alnum (k :: s).
Proof. intros (A & _). exact A. Qed.
Lemma an_comma c : alnum c = true -> c <> ",".
Proof. intros K ->. discriminate K. Qed.

Definition no_comma (o : option str) : Prop := ~ In "," (txt o).
Lemma word_comma w : word w -> ~ In "," w.
Proof. intros (_ & F) J. rewrite forallb_forall in F. now apply (an_comma _ (F _ J)). Qed.
Lemma prefix_comma q : prefix_text q -> ~ In "," q.
Proof. intros Hq J. unfold prefix_text in Hq. rewrite forallb_forall in Hq. apply Hq in J. discriminate J. Qed.
Lemma cut_back f x t : IntfFacts.stops f (x ++ t) -> IntfFacts.stops f (x ++ rstrip t).
Proof. destruct x; [apply rstrip_stops|]. exact (fun h => h). Qed.
Lemma xr_slot q a n k1 c k2 r k3 b t k : prefix_text q -> numeral a n ->
  is_sep k1 -> is_run c -> is_sep k2 -> is_run r -> is_sep k3 -> is_run b ->
  IntfFacts.stops alnum (txt k1 ++ txt c ++ txt k2 ++ txt r ++ txt k3 ++ txt b ++ t) ->
  (k1 = None -> IntfFacts.stops sep_char (txt c ++ txt k2 ++ txt r ++ txt k3 ++ txt b ++ t)) ->
  IntfFacts.stops alnum (txt k2 ++ txt r ++ txt k3 ++ txt b ++ t) ->
  (k2 = None -> IntfFacts.stops sep_char (txt r ++ txt k3 ++ txt b ++ t)) ->
  IntfFacts.stops alnum (txt k3 ++ txt b ++ t) ->
  (k3 = None -> IntfFacts.stops sep_char (txt b ++ t)) ->
  IntfFacts.stops alnum t ->
  (exists z d, txt k1 ++ txt c ++ txt k2 ++ txt r ++ txt k3 ++ txt b = z ++ [d] /\ is_space d = false) ->
  no_comma k1 -> no_comma k2 -> no_comma k3 -> ~ In "," t -> In k (body a k1 c k2 r k3 b) -> short_char k = false ->
  xr_of_name (q ++ body a k1 c k2 r k3 b ++ t) = made q a k1 c k2 r b.
Proof.
  intros Hq A K1 C K2 R K3 B S1 S2 S3 S4 S5 S6 S7 La N1 N2 N3 N4 Ik Sk.
  assert (Run : forall o, is_run o -> ~ In "," (txt o)).
  { intros [w|] Ro; [now apply word_comma, Ro|intros []]. }
  replace (made q a k1 c k2 r b) with (made (lstrip q) a k1 c k2 r b) by (unfold made; now rewrite strip_lstrip).
  apply (xr_reading _ (lstrip q) a k1 c k2 r k3 b (rstrip t)); try assumption.
  - now apply lstrip_prefix.
  - exact (numeral_stops _ _ A).
  - exact (numeral_word _ _ A).
  - rewrite !app_assoc in *. now apply cut_back.
  - intros E. specialize (S2 E). rewrite !app_assoc in *. now apply cut_back.
  - rewrite !app_assoc in *. now apply cut_back.
  - intros E. specialize (S4 E). rewrite !app_assoc in *. now apply cut_back.
  - rewrite !app_assoc in *. now apply cut_back.
  - intros E. specialize (S6 E). now apply cut_back.
  - now apply rstrip_stops.
  - apply has_char_false. unfold body. rewrite !in_app_iff. intros J.
    pose proof (prefix_comma _ Hq). pose proof (word_comma _ (numeral_word _ _ A)). pose proof (Run c C). pose proof (Run r R). pose proof (Run b B). unfold no_comma in *. tauto.
  - now apply body_strip with n; [|right].
  - rewrite body_strip with (n := n) by auto. apply (not_short _ k); [rewrite !in_app_iff; auto|assumption].
Qed.
Lemma divider_comma k : divider k -> no_comma (Some [k]).
Proof. intros (_ & _ & K) [J|[]]. congruence. Qed.
Lemma none_comma : no_comma None.
Proof. intros []. Qed.
Lemma breaks_stops f t : breaks f t -> IntfFacts.stops f t.
Proof. now destruct t. Qed.
Lemma mark_first_stops t : mark_first t -> IntfFacts.stops alnum t /\ IntfFacts.stops sep_char t.
Proof. destruct t as [|c t]; [now split|]. intros K. exact (mark_stops c K). Qed.
Lemma body4 a k1 c k2 r k3 b : body a (Some [k1]) (Some c) (Some [k2]) (Some r) (Some [k3]) (Some b) = a ++ k1 :: c ++ k2 :: r ++ k3 :: b.
Proof. reflexivity. Qed.
Lemma body2 a k1 b : body a (Some [k1]) (Some b) None None None None = a ++ k1 :: b.
Proof. unfold body. cbn [txt app]. now rewrite app_nil_r. Qed.
Lemma body3 a k1 c k2 b : body a (Some [k1]) (Some c) (Some [k2]) (Some b) None None = a ++ k1 :: c ++ k2 :: b.
Proof. unfold body. cbn [txt app]. now rewrite app_nil_r. Qed.

(** Slot, card, processor and port. *)
Theorem C73_four : forall q a s k1 card k2 proc k3 b p t, prefix_text q -> numeral a s -> divider k1 -> word card -> divider k2 -> word proc -> divider k3 ->
  numeral b p -> breaks alnum t -> ~ In "," t ->
  xr_of_name (q ++ (a ++ k1 :: card ++ k2 :: proc ++ k3 :: b) ++ t) =
  Ok (mkXr (strip q) (Some [k1]) (Some s) (Some card) (Some proc) p None None None).
Proof.
  intros q a s k1 card k2 proc k3 b p t Hq A K1 C K2 R K3 B T0 Co. rewrite <- body4.
  rewrite (xr_slot q a s (Some [k1]) (Some card) (Some [k2]) (Some proc) (Some [k3]) (Some b) t k1 Hq A); auto using run_some, sep_some, divider_stops, divider_comma.
  - unfold made. cbn [bind]. now rewrite (numeral_int _ _ A), (numeral_int _ _ B).
  - exact (run_some _ (numeral_word _ _ B)).
  - now apply divider_stops.
  - intros E. discriminate E.
  - now apply divider_stops.
  - intros E. discriminate E.
  - now apply divider_stops.
  - intros E. discriminate E.
  - destruct (word_last _ (numeral_word _ _ B)) as (z & d & -> & D0). exists (k1 :: card ++ k2 :: proc ++ k3 :: z), d. split; [|assumption].
    cbn [txt app]. now rewrite <- !app_assoc; cbn [app]; rewrite <- !app_assoc.
  - unfold body. rewrite in_app_iff. right. now left.
  - now apply divider_sep.
Qed.
Print Assumptions C73_four.

(** Slot and port. *)
Theorem C73_two : forall q a s k b p t, prefix_text q -> numeral a s -> divider k -> numeral b p -> mark_first t -> ~ In "," t ->
  xr_of_name (q ++ (a ++ k :: b) ++ t) = Ok (mkXr (strip q) (Some [k]) (Some s) None None p None None None).
Proof.
  intros q a s k b p t Hq A K1 B T0 Co. rewrite <- body2. destruct (mark_first_stops _ T0) as (T1 & T2).
  rewrite (xr_slot q a s (Some [k]) (Some b) None None None None t k Hq A); auto using sep_some, run_none, sep_none, divider_comma, none_comma.
  - unfold made. cbn [bind]. now rewrite (numeral_int _ _ A), (numeral_int _ _ B).
  - exact (run_some _ (numeral_word _ _ B)).
  - now apply divider_stops.
  - intros E. discriminate E.
  - destruct (word_last _ (numeral_word _ _ B)) as (z & d & -> & D0). exists (k :: z), d. split; [|assumption]. cbn [txt app]. now rewrite app_nil_r.
  - unfold body. rewrite in_app_iff. right. now left.
  - now apply divider_sep.
Qed.
Print Assumptions C73_two.

(** Three numbers are not slot, card and port: the second is taken for the port and the third for
    the processor, and such an interface has no name. *)
Theorem C73_three : forall q a s k1 c n k2 b t, prefix_text q -> numeral a s -> divider k1 -> numeral c n -> divider k2 -> word b -> mark_first t -> ~ In "," t ->
  exists x, xr_of_name (q ++ (a ++ k1 :: c ++ k2 :: b) ++ t) = Ok x /\
    x = mkXr (strip q) (Some [k1]) (Some s) None (Some b) n None None None /\ xr_render x = Err ValueError.
Proof.
  intros q a s k1 c n k2 b t Hq A K1 C K2 B T0 Co. eexists. split; [|split; reflexivity]. rewrite <- body3. destruct (mark_first_stops _ T0) as (T1 & T2).
  rewrite (xr_slot q a s (Some [k1]) (Some c) (Some [k2]) (Some b) None None t k1 Hq A); auto using run_some, sep_some, run_none, sep_none, divider_comma, none_comma.
  - unfold made. cbn [bind]. now rewrite (numeral_int _ _ A), (numeral_int _ _ C).
  - exact (run_some _ (numeral_word _ _ C)).
  - now apply divider_stops.
  - intros E. discriminate E.
  - now apply divider_stops.
  - intros E. discriminate E.
  - destruct (word_last _ B) as (z & d & -> & D0). exists (k1 :: c ++ k2 :: z), d. split; [|assumption]. cbn [txt app]. now rewrite app_nil_r, <- app_assoc.
  - unfold body. rewrite in_app_iff. right. now left.
  - now apply divider_sep.
Qed.
Print Assumptions C73_three.

(** *** Without a slot *)
Lemma xr_as_ios t i : intf_of_name t = Ok i -> i_slot i = None -> xr_of_name t = Ok (xr_of_ios i).
Proof.
  rewrite <- C36_patterns. unfold intf_of_name_re, xr_of_name. destruct (has_char "," t); [discriminate 1|].
  destruct (re_search short_pattern (strip t)) as [m|]; [unfold xr_short; now intros ->|].
  destruct (re_search long_pattern (strip t)) as [m|]; [|discriminate 1]. unfold parse_long_re. destruct (re_search slots_pattern _) as [sm|]; [|discriminate 1].
  destruct (grp_int slots_pattern "slot" sm), (grp_int slots_pattern "card" sm), (grp_int slots_pattern "port" sm), (grp slots_pattern "sep1" sm); try discriminate 1;
    intros E; apply (f_equal (fun r => match r with Ok i => i_slot i | Err _ => None end)) in E; cbn in E; congruence.
Qed.

(** A name without a slot is read as an IOS name. *)
Theorem C73_short : forall q N p M sub chan K cl post, prefix_text q -> writes_shape N (Port p) -> writes_marks M sub chan -> writes_class K cl -> white post ->
  xr_of_name (q ++ (N ++ M ++ K) ++ post) = Ok (xinterface (strip q) (XPort p) sub chan cl).
Proof.
  intros q N p M sub chan K cl post Hq HN HM HK P. pose proof (C36_parse q N (Port p) M sub chan K cl post Hq HN HM HK P) as F.
  now rewrite (xr_as_ios _ _ F eq_refl).
Qed.
Print Assumptions C73_short.

(** Rendering. *)
Theorem C73_render : forall q n sub chan cl, xr_render (xinterface q n sub chan cl) = Ok (xcanonical q n sub chan cl).
Proof.
  intros q n sub chan cl. unfold xr_render, xcanonical, xr_number.
  destruct n; cbn [xinterface x_prefix x_sep x_slot x_card x_proc x_port x_sub x_chan x_class bind sep_text xshape_text];
    destruct sub, chan, cl; cbn [opt_text app]; now rewrite ?app_nil_r, <- ?app_assoc.
Qed.
Print Assumptions C73_render.
(** A card without a processor, a processor without a card, or either without a slot, has no name. *)
Theorem C73_render_fails : forall x, xr_render x = Err ValueError <->
  ~ ((x_card x = None /\ x_proc x = None) \/ (x_slot x <> None /\ x_card x <> None /\ x_proc x <> None)).
Proof.
  intros x. unfold xr_render, xr_number. destruct (x_slot x), (x_card x), (x_proc x); cbn [bind];
    (split; [intros E; try solve [intros [(E1 & E2)|(E1 & E2 & E3)]; congruence];
             exfalso; destruct (x_sub x), (x_chan x); discriminate E
            |intros E; try reflexivity; exfalso; apply E; (left; split; reflexivity) || (right; repeat split; discriminate)]).
Qed.
Print Assumptions C73_render_fails.

Lemma slash : divider "/".
Proof. repeat split. discriminate. Qed.
Lemma marks_tail sub chan cl : whenever class_word cl ->
  let t := opt_text (fun s => "." :: show_Z s) sub ++ opt_text (fun c => ":" :: show_Z c) chan ++ opt_text (fun w => " " :: w) cl in
  mark_first t /\ (whenever natural sub -> whenever natural chan -> ~ In "," t).
Proof.
  intros Cl t. split; [destruct sub, chan, cl; reflexivity|]. intros Su Ch. unfold t. rewrite !in_app_iff.
  assert (Num : forall z, natural z -> ~ In "," (show_Z z)) by (intros z Z0; apply word_comma, (numeral_word _ z), show_numeral, Z0).
  intros [J|[J|J]].
  - destruct sub as [z|]; [|destruct J]. destruct J as [J|J]; [discriminate J|]. exact (Num z (Su z eq_refl) J).
  - destruct chan as [z|]; [|destruct J]. destruct J as [J|J]; [discriminate J|]. exact (Num z (Ch z eq_refl) J).
  - destruct cl as [w|]; [|destruct J]. destruct J as [J|J]; [discriminate J|]. destruct (Cl w eq_refl) as (_ & F). rewrite forallb_forall in F. apply F in J. discriminate J.
Qed.
(** What comes back when the canonical name is read. *)
Theorem C73_reread : forall q n sub chan cl, xproper q n sub chan cl -> xr_of_name (xcanonical q n sub chan cl) = Ok (reread q n sub chan cl).
Proof.
  intros q n sub chan cl (Hq & Sq & Hn & Su & Ch & Cl). destruct (marks_tail sub chan cl Cl) as (T1 & T2). specialize (T2 Su Ch).
  unfold xcanonical, reread. set (t := opt_text _ sub ++ _) in *. destruct n as [p|s p|s c r p]; cbn [xshape_text xinterface xproper_shape] in *.
  - pose proof (C36_round_trip q (Port p) sub chan cl) as F. unfold canonical in F. fold t in F. cbn [shape_text] in F.
    rewrite (xr_as_ios (q ++ show_Z p ++ t) (interface q (Port p) sub chan cl)); [reflexivity| |reflexivity].
    apply F. refine (conj Hq (conj Sq (conj _ (conj _ (conj Hn (conj Su (conj Ch Cl))))))); intros x E; discriminate E.
  - destruct Hn as (Hs & Hp). rewrite <- Sq at 2. apply (C73_two q (show_Z s) s "/" (show_Z p) p t); auto using show_numeral, slash.
  - destruct Hn as (Hs & Hc & Hr & Hp). rewrite <- Sq at 2.
    change (show_Z s ++ ["/"] ++ c ++ ["/"] ++ r ++ ["/"] ++ show_Z p) with (show_Z s ++ "/" :: c ++ "/" :: r ++ "/" :: show_Z p).
    apply C73_four; auto using show_numeral, slash. destruct t; [exact Logic.I|]. now apply mark_stops.
Qed.
Print Assumptions C73_reread.

(** *** Every name that is accepted *)
Lemma word_int w n : word w -> to_int (Some w) = Ok n -> (0 <= n)%Z /\ forallb is_digit w = true.
Proof.
  intros (NE & F) E. unfold to_int in E. destruct (py_int w) as [z|] eqn:P; [|discriminate E]. injection E as ->.
  assert (Dg : forallb is_digit w = true).
  { apply forallb_forall. intros c J. pose proof (py_int_chars _ _ P) as N0. rewrite Forall_forall in N0. destruct (N0 c J) as [K|[K|K]]; [assumption| |].
    - rewrite forallb_forall in F. apply F, an_space in J. congruence.
    - rewrite forallb_forall in F. apply F in J. repeat destruct K as [<-|K]; try discriminate J. destruct K. }
  split; [|assumption]. rewrite py_int_digits in P by assumption. injection P as <-. apply N2Z.is_nonneg.
Qed.
Definition grun (s : str) : option str * str := (match take_while alnum s with [] => None | w => Some w end, drop_while alnum s).
Lemma grun_spec s : let (o, r) := grun s in is_run o /\ s = txt o ++ r /\ IntfFacts.stops alnum r /\ (o = None -> IntfFacts.stops alnum s).
Proof.
  unfold grun. destruct (while_split alnum s) as (E & F & St). destruct (take_cases alnum s) as [(T0 & _ & T1)|T0].
  - rewrite T0 in *. split; [exact run_none|]. repeat split; auto.
  - destruct (take_while alnum s) as [|x w]; [congruence|]. split; [apply run_some; split; [discriminate|assumption]|]. split; [assumption|]. split; [assumption|discriminate 1].
Qed.
Lemma gsep_spec s : let (o, r) := opt_sep s in is_sep o /\ s = txt o ++ r /\ (o = None -> IntfFacts.stops sep_char r).
Proof.
  unfold opt_sep. destruct s as [|k s]; [split; [exact sep_none|split; [reflexivity|intros _; exact Logic.I]]|]. destruct (sep_char k) eqn:K.
  - split; [|split; [reflexivity|discriminate 1]]. intros w E. exists k. split; [congruence|assumption].
  - split; [exact sep_none|]. split; [reflexivity|]. intros _. exact K.
Qed.
Definition starts_number (s : str) : Prop := match s with [] => False | c :: _ => is_digit c = true end.
(** With a digit behind the prefix. *)
Lemma xr_greedy name : has_char "," name = false -> re_search short_pattern (strip name) = None ->
  starts_number (drop_while prefix_char (strip name)) ->
  exists u a k1 c k2 r b, forallb prefix_char u = true /\ word a /\ is_sep k1 /\ is_run c /\ is_sep k2 /\ is_run r /\ is_run b /\
    no_comma k1 /\ (k1 = None -> c = None /\ b = None) /\ xr_of_name name = made u a k1 c k2 r b.
Proof.
  intros Co Sh Dg. destruct (while_split prefix_char (strip name)) as (E & U & St). set (u := take_while prefix_char (strip name)) in *.
  set (w := drop_while prefix_char (strip name)) in *. pose proof (grun_spec w) as G1. destruct (grun w) as (o & z1). destruct G1 as (R0 & E1 & T1 & N1).
  destruct o as [a|]; [|exfalso; specialize (N1 eq_refl); destruct w as [|x w']; [exact Dg|]; cbn in N1, Dg; apply digit_an in Dg; congruence].
  pose proof (gsep_spec z1) as G2. destruct (opt_sep z1) as (k1, z2). destruct G2 as (K1 & E2 & T2).
  pose proof (grun_spec z2) as G3. destruct (grun z2) as (c, z3). destruct G3 as (C & E3 & T3 & N3).
  pose proof (gsep_spec z3) as G4. destruct (opt_sep z3) as (k2, z4). destruct G4 as (K2 & E4 & T4).
  pose proof (grun_spec z4) as G5. destruct (grun z4) as (r, z5). destruct G5 as (R & E5 & T5 & N5).
  pose proof (gsep_spec z5) as G6. destruct (opt_sep z5) as (k3, z6). destruct G6 as (K3 & E6 & T6).
  pose proof (grun_spec z6) as G7. destruct (grun z6) as (b, t). destruct G7 as (B & E7 & T7 & N7).
  pose proof (R0 a eq_refl) as A. cbn [txt] in E1.
  assert (Sw : strip name = u ++ body a k1 c k2 r k3 b ++ t).
  { rewrite E, E1, E2, E3, E4, E5, E6, E7. unfold body. now rewrite <- !app_assoc. }
  assert (Nc : no_comma k1).
  { intros J. apply has_char_false in Co. apply Co. destruct (rstrip_prefix name) as (y1 & Y1 & _). destruct (lstrip_suffix (rstrip name)) as (y2 & Y2 & _).
    rewrite Y1, Y2. fold (strip name). rewrite Sw. unfold body. rewrite !in_app_iff. tauto. }
  assert (No : k1 = None -> c = None /\ k2 = None /\ r = None /\ k3 = None /\ b = None).
  { assert (Nr : forall o s, is_run o -> IntfFacts.stops alnum (txt o ++ s) -> o = None).
    { intros [v|] s0 Ro; [|reflexivity]. destruct (Ro v eq_refl) as (NE & F). destruct v as [|x v]; [congruence|]. cbn [forallb] in F. apply andb_true_iff in F as (F & _).
      cbn. congruence. }
    assert (Ns : forall o s, is_sep o -> IntfFacts.stops sep_char (txt o ++ s) -> o = None).
    { intros [v|] s0 So; [|reflexivity]. destruct (So v eq_refl) as (x & -> & X). cbn. congruence. }
    intros ->. specialize (T2 eq_refl). cbn [txt app] in E2. subst z2.
    assert (c = None) by (apply (Nr c z3 C); congruence). subst c. cbn [txt app] in E3. subst z3.
    assert (k2 = None) by (apply (Ns k2 z4 K2); congruence). subst k2. cbn [txt app] in E4. subst z4.
    assert (r = None) by (apply (Nr r z5 R); congruence). subst r. cbn [txt app] in E5. subst z5.
    assert (k3 = None) by (apply (Ns k3 z6 K3); congruence). subst k3. cbn [txt app] in E6. subst z6.
    assert (b = None) by (apply (Nr b t B); congruence). now subst b. }
  exists u, a, k1, c, k2, r, b. refine (conj U (conj A (conj K1 (conj C (conj K2 (conj R (conj B (conj Nc (conj _ _))))))))); [intros Z0; apply No in Z0; tauto|].
  apply (xr_reading name u a k1 c k2 r k3 b t); try assumption.
  - destruct A as (NE & _). destruct a as [|x a]; [congruence|]. rewrite E1 in Dg. cbn in Dg. cbn. now apply digit_prefix.
  - rewrite <- E7, <- E6, <- E5, <- E4, <- E3, <- E2. exact T1.
  - rewrite <- E7, <- E6, <- E5, <- E4, <- E3. exact T2.
  - rewrite <- E7, <- E6, <- E5, <- E4. exact T3.
  - rewrite <- E7, <- E6, <- E5. exact T4.
  - rewrite <- E7, <- E6. exact T5.
  - rewrite <- E7. exact T6.
Qed.
(** With none. *)
Lemma M_run_caps n i s c i' s' c' : M (run_re n) i s c i' s' c' -> exists o, c' = push n o c.
Proof.
  unfold run_re, ropt. intros HM. apply M_alt_iff in HM as [HM|HM].
  - apply M_grp_iff in HM as (w & c2 & _ & _ & -> & HM). apply M_plus_iff in HM as (_ & _ & _ & _ & _ & ->). now exists (Some w).
  - apply M_eps_iff in HM as (_ & _ & ->). now exists None.
Qed.
Lemma M_sep_caps n i s c i' s' c' : M (opt_sep_re n) i s c i' s' c' -> exists o, c' = push n o c.
Proof.
  unfold opt_sep_re, ropt. intros HM. apply M_alt_iff in HM as [HM|HM].
  - apply M_grp_iff in HM as (w & c2 & _ & _ & -> & HM). apply M_set_iff in HM as (_ & _ & _ & _ & ->). now exists (Some w).
  - apply M_eps_iff in HM as (_ & _ & ->). now exists None.
Qed.
Lemma letter_prefix c : alnum c = true -> is_digit c = false -> prefix_char c = true.
Proof. unfold alnum, prefix_char. intros A D0. rewrite D0, orb_false_r in A. now rewrite A. Qed.
Lemma xr_slot_letter w m : ~ starts_number (drop_while prefix_char w) -> re_search xr_long_pattern w = Some m ->
  exists u v t a y, w = u ++ v ++ t /\ forallb prefix_char u = true /\ nth 1 (m_groups m) None = Some v /\ nth 2 (m_groups m) None = Some (a :: y) /\ word (a :: y) /\ is_digit a = false.
Proof.
  intros Ns F. apply (re_shape _ _ _ _ _ xr_reads_re) in F as (i & s & c & HM & G0). unfold xr_re in HM.
  apply M_cat_iff in HM as (i1 & s1 & c1 & HM & HM2). apply M_grp_iff in HM as (u & c2 & -> & _ & -> & HM). apply M_star_iff in HM as (u' & E & U & _ & ->).
  apply app_inv_tail in E as <-. apply M_grp_iff in HM2 as (v & c3 & -> & _ & -> & HM). unfold body_re in HM. apply M_cat_iff in HM as (i2 & s2 & c4 & HM & HM2).
  apply M_grp_iff in HM as (w & c5 & E & _ & -> & HM). apply M_plus_iff in HM as (w' & E' & NE & A & _ & ->).
  assert (w' = w) by (apply (app_inv_tail s2); congruence). subst w'. destruct w as [|a y]; [congruence|].
  apply (all_in_iff an _ _ in_an) in A. apply (all_in_iff pfx _ _ in_pfx) in U.
  exists u, v, s, a, y. split; [reflexivity|]. split; [assumption|].
  apply M_cat_iff in HM2 as (? & ? & ? & HM & HM2). apply M_sep_caps in HM as (o1 & ->).
  apply M_cat_iff in HM2 as (? & ? & ? & HM & HM2). apply M_run_caps in HM as (o2 & ->).
  apply M_cat_iff in HM2 as (? & ? & ? & HM & HM2). apply M_sep_caps in HM as (o3 & ->).
  apply M_cat_iff in HM2 as (? & ? & ? & HM & HM2). apply M_run_caps in HM as (o4 & ->).
  apply M_cat_iff in HM2 as (? & ? & ? & HM & HM2). apply M_sep_caps in HM as (o5 & ->). apply M_run_caps in HM2 as (o6 & ->).
  rewrite G0. split; [reflexivity|]. split; [now destruct o1, o2, o3, o4, o5, o6|]. split; [now split|].
  destruct (is_digit a) eqn:Da; [|reflexivity]. exfalso. apply Ns. cbn [app] in E. rewrite E.
  rewrite (drop_while_app prefix_char u (a :: y ++ s2)); [exact Da|assumption|]. cbn. now apply digit_prefix.
Qed.
Lemma no_number_cut u v t : forallb prefix_char u = true -> ~ starts_number (drop_while prefix_char (u ++ v ++ t)) -> ~ starts_number (drop_while prefix_char v).
Proof.
  intros U Ns. destruct (while_split prefix_char v) as (E & F & St). intros J. apply Ns. rewrite E, <- !app_assoc, app_assoc.
  rewrite drop_while_app.
  - destruct (drop_while prefix_char v); [destruct J|exact J].
  - now rewrite forallb_app, U, F.
  - destruct (drop_while prefix_char v); [destruct J|exact St].
Qed.
Lemma xr_long_fails w m x : ~ starts_number (drop_while prefix_char w) -> re_search xr_long_pattern w = Some m -> xr_long m = Ok x -> False.
Proof.
  intros Ns F. destruct (xr_slot_letter w m Ns F) as (u & v & t & _ & _ & Ew & U & Gv & _). rewrite Ew in Ns. apply (no_number_cut _ _ _ U) in Ns.
  unfold xr_long, grp_text. rewrite grp_x_rest, Gv. destruct (re_search xr_long_pattern v) as [sm|] eqn:F2; [|discriminate 1].
  destruct (xr_slot_letter v sm Ns F2) as (_ & _ & _ & a & y & _ & _ & _ & Ga & Wa & Da). rewrite grp_x_slot, Ga.
  destruct (to_int (Some (a :: y))) as [z|e] eqn:Ti.
  - exfalso. destruct (word_int _ _ Wa Ti) as (_ & Dg). cbn [forallb] in Dg. rewrite Da in Dg. discriminate Dg.
  - destruct (grp xr_long_pattern "card" sm), (grp xr_long_pattern "port" sm), (grp xr_long_pattern "sep1" sm), (grp xr_long_pattern "sep2" sm); cbn [bind]; unfold str in *; rewrite ?Ti; cbn [bind]; discriminate 1.
Qed.

Lemma strip_prefix_text u : forallb prefix_char u = true -> prefix_text (strip u).
Proof. apply strip_prefix. Qed.
(** Whatever the text, if the interface that is read has a name then this name is read as the same interface. *)
Theorem C73_normal_form : forall t x u, xr_of_name t = Ok x -> xr_render x = Ok u -> xr_of_name u = Ok x.
Proof.
  intros t x u Hx Hu. destruct (has_char "," t) eqn:Co; [unfold xr_of_name in Hx; rewrite Co in Hx; discriminate Hx|].
  destruct (re_search short_pattern (strip t)) as [m|] eqn:Sh.
  - assert (X : exists i, intf_of_name t = Ok i /\ i_slot i = None /\ x = xr_of_ios i).
    { rewrite <- C36_patterns. unfold xr_of_name in Hx. unfold intf_of_name_re. rewrite Co, Sh in *. unfold xr_short in Hx. destruct (parse_short_re m) as [i|] eqn:P; [|discriminate Hx].
      injection Hx as <-. exists i. split; [reflexivity|]. split; [|reflexivity]. unfold parse_short_re in P. destruct (re_search port_pattern _); [|discriminate P].
      destruct (grp_int port_pattern "port" r); [|discriminate P]. now injection P as <-. }
    destruct X as (i & Hi & Sl & ->). destruct (C36_normal_form t i Hi) as (n & Pr & Ei & v & Rv & Iv).
    assert (V : u = v).
    { rewrite Ei in Hu, Rv, Sl. destruct n; try discriminate Sl. rewrite C36_render in Rv. injection Rv as <-.
      pose proof (C73_render (i_prefix i) (XPort p) (i_sub i) (i_chan i) (i_class i)) as R1.
      change (xr_of_ios (interface (i_prefix i) (Port p) (i_sub i) (i_chan i) (i_class i))) with (xinterface (i_prefix i) (XPort p) (i_sub i) (i_chan i) (i_class i)) in Hu.
      rewrite R1 in Hu. injection Hu as <-. reflexivity. }
    subst v. now apply xr_as_ios.
  - destruct (re_search xr_long_pattern (strip t)) as [m|] eqn:Lo.
    2:{ unfold xr_of_name in Hx. rewrite Co, Sh, Lo in Hx. discriminate Hx. }
    assert (Dec : starts_number (drop_while prefix_char (strip t)) \/ ~ starts_number (drop_while prefix_char (strip t))).
    { destruct (drop_while prefix_char (strip t)) as [|c r]; [right; intros []|]. cbn. destruct (is_digit c); [left; reflexivity|right; discriminate]. }
    destruct Dec as [Dg|Ns].
    2:{ exfalso. apply (xr_long_fails _ _ x Ns Lo). unfold xr_of_name in Hx. now rewrite Co, Sh, Lo in Hx. }
    destruct (xr_greedy t Co Sh Dg) as (q & a & k1 & c & k2 & r & b & Hq & A & K1 & C & K2 & R & B & Nc & No & E). rewrite Hx in E. symmetry in E.
    assert (Kd : forall k, k1 = Some k -> exists y, k = [y] /\ divider y).
    { intros k Ek. destruct (K1 k Ek) as (y & -> & Y). exists y. split; [reflexivity|]. apply sep_divider; [assumption|]. intros ->. apply Nc. rewrite Ek. now left. }
    destruct k1 as [k|]; [|destruct (No eq_refl) as (-> & ->); unfold made in E; now destruct k2].
    destruct (Kd k eq_refl) as (y & -> & Y). unfold made in E. cbn [bind] in E.
    assert (W1 : forall w, c = Some w -> word w) by exact C. assert (W2 : forall w, b = Some w -> word w) by exact B.
    destruct (to_int (Some a)) as [s|] eqn:Ta; [|destruct c, b; discriminate E]. destruct (word_int _ _ A Ta) as (Hs & _).
    pose proof (strip_prefix_text q Hq) as Pq. pose proof (strip_idem q) as Iq.
    assert (Two : forall p, (0 <= p)%Z -> x = mkXr (strip q) (Some [y]) (Some s) None r p None None None -> xr_of_name u = Ok x).
    { intros p Hp ->. unfold xr_render, xr_number in Hu. cbn [x_prefix x_sep x_slot x_card x_proc x_port x_sub x_chan x_class] in *. destruct r as [r|]; [discriminate Hu|].
      cbn [bind sep_text] in Hu. injection Hu as <-. rewrite app_nil_r. rewrite <- Iq at 2.
      pose proof (C73_two (strip q) (show_Z s) s y (show_Z p) p [] Pq (show_numeral _ Hs) Y (show_numeral _ Hp) Logic.I (fun j => j)) as F. now rewrite app_nil_r in F. }
    destruct c as [c|], b as [b|]; cbn [bind] in E; try discriminate E.
    + destruct (to_int (Some b)) as [p|] eqn:Tb; [|discriminate E]. injection E as <-. destruct (word_int _ _ (W2 b eq_refl) Tb) as (Hp & _).
      unfold xr_render, xr_number in Hu. cbn [x_prefix x_sep x_slot x_card x_proc x_port x_sub x_chan x_class] in *. destruct r as [r|]; [|discriminate Hu].
      cbn [bind sep_text] in Hu. injection Hu as <-. rewrite app_nil_r. rewrite <- Iq at 2.
      pose proof (C73_four (strip q) (show_Z s) s y c y r y (show_Z p) p [] Pq (show_numeral _ Hs) Y (W1 c eq_refl) Y (R r eq_refl) Y (show_numeral _ Hp) Logic.I (fun j => j)) as F.
      rewrite app_nil_r in F. exact F.
    + destruct (to_int (Some c)) as [p|] eqn:Tb; [|discriminate E]. injection E as <-. destruct (word_int _ _ (W1 c eq_refl) Tb) as (Hp & _). now apply (Two p).
    + destruct (to_int (Some b)) as [p|] eqn:Tb; [|discriminate E]. injection E as <-. destruct (word_int _ _ (W2 b eq_refl) Tb) as (Hp & _). now apply (Two p).
Qed.
Print Assumptions C73_normal_form.

(** The subinterface, the channel and the class of a name with a slot are lost. *)
Theorem C73_round_trip_refuted : exists q n sub, xproper q n sub None None /\
  xr_of_name (xcanonical q n sub None None) = Ok (xinterface q n None None None) /\
  xinterface q n None None None <> xinterface q n sub None None /\ sub <> None.
Proof.
  exists (lit "HundredGigE"), (XRack 0 (lit "RP0") (lit "CPU0") 10), (Some 5%Z).
  assert (Pr : xproper (lit "HundredGigE") (XRack 0 (lit "RP0") (lit "CPU0") 10) (Some 5%Z) None None).
  { refine (conj eq_refl (conj eq_refl (conj _ (conj _ (conj _ _))))).
    - refine (conj _ (conj (conj _ eq_refl) (conj (conj _ eq_refl) _))); [lia|discriminate|discriminate|lia].
    - intros x [= <-]. unfold natural. lia.
    - intros x E. discriminate E.
    - intros x E. discriminate E. }
  split; [exact Pr|]. split; [exact (C73_reread _ _ _ _ _ Pr)|]. split; discriminate.
Qed.
Print Assumptions C73_round_trip_refuted.

(** ** Equality, hash and order *)
Lemma show_Z_same a b : show_Z a = show_Z b -> a = b.
Proof. intros E. pose proof (py_int_show_Z a) as P. rewrite E, py_int_show_Z in P. congruence. Qed.
Lemma xr_conv x : map conv (xr_sort_list x) = xcomponents x.
Proof. unfold xr_sort_list, xcomponents. destruct (x_slot x), (x_card x), (x_proc x), (x_sub x), (x_chan x), (x_class x); reflexivity. Qed.
Lemma xr_comps a b : xcomponents a = xcomponents b <->
  x_slot a = x_slot b /\ x_card a = x_card b /\ x_proc a = x_proc b /\ x_port a = x_port b /\ x_sub a = x_sub b /\ x_chan a = x_chan b /\ x_class a = x_class b.
Proof.
  unfold xcomponents. assert (O1 : forall p q : option Z, text_part (option_map show_Z p) = text_part (option_map show_Z q) -> p = q).
  { intros [p|] [q|]; cbn; try congruence. intros [= E]. f_equal. now apply show_Z_same. }
  assert (O2 : forall p q : option str, text_part p = text_part q -> p = q) by (intros [p|] [q|]; cbn; congruence).
  split.
  - intros E.
    assert (N0 : forall k, nth k (xcomponents a) Absent = nth k (xcomponents b) Absent) by (intros k; unfold xcomponents; now rewrite E).
    pose proof (N0 0) as E1. pose proof (N0 1) as E2. pose proof (N0 2) as E3. pose proof (N0 3) as E4. pose proof (N0 4) as E5. pose proof (N0 5) as E6. pose proof (N0 6) as E7.
    unfold xcomponents in *. cbn [nth] in *. repeat split; auto. apply show_Z_same. congruence.
  - intros (-> & -> & -> & -> & -> & -> & ->). reflexivity.
Qed.
(** Two interfaces are equal exactly if all but the separator is the same. *)
Theorem C73_equal : forall a b, xr_eq a b = true <->
  x_prefix a = x_prefix b /\ x_slot a = x_slot b /\ x_card a = x_card b /\ x_proc a = x_proc b /\ x_port a = x_port b /\
  x_sub a = x_sub b /\ x_chan a = x_chan b /\ x_class a = x_class b.
Proof.
  intros a b. unfold xr_eq. rewrite andb_true_iff, str_eqb_eq, keys_eqb_eq, <- xr_comps, <- !xr_conv. split; intros (E1 & E2); split; auto.
  - congruence.
  - now apply map_conv_inj.
Qed.
Print Assumptions C73_equal.
(** The hash is that of every other. *)
Theorem C73_hash : forall x, xr_hash x = 0%Z.
Proof. intros x. unfold xr_hash, xr_sort_list. destruct (x_slot x), (x_card x), (x_proc x), (x_sub x), (x_chan x), (x_class x); reflexivity. Qed.
Print Assumptions C73_hash.
(** < and > compare the texts of slot, card, processor, port, subinterface, channel and class, in this order; a comparison
    fails, with TypeError, exactly when the first difference is between one that is present and one that is not. *)
Theorem C73_order : forall a b,
  (xr_lt a b = Ok true <-> first_difference comes_first (xcomponents a) (xcomponents b)) /\
  (xr_gt a b = Ok true <-> first_difference comes_first (xcomponents b) (xcomponents a)) /\
  (xr_lt a b = Err TypeErr <-> first_difference (fun x y => x = Absent \/ y = Absent) (xcomponents a) (xcomponents b)) /\
  (xr_gt a b = Err TypeErr <-> xr_lt a b = Err TypeErr) /\
  (forall e, xr_lt a b = Err e \/ xr_gt a b = Err e -> e = TypeErr).
Proof.
  assert (Nn : forall x k z, nth_error (xcomponents x) k <> Some (CNum z)).
  { intros x k z. unfold xcomponents. do 7 (destruct k as [|k]; [cbn [nth_error]; unfold text_part; repeat match goal with |- context [match ?o with _ => _ end] => destruct o end; congruence|]); now destruct k. }
  assert (X : forall a b, xr_lt a b = Err TypeErr <-> first_difference (fun x y => x = Absent \/ y = Absent) (xcomponents a) (xcomponents b)).
  { intros a b. destruct (keys_ltb_spec (xr_sort_list a) (xr_sort_list b) eq_refl) as (_ & B & _). unfold xr_lt. rewrite B, !xr_conv.
    split; intros (k & x & y & A1 & A2 & D0 & F & J); exists k, x, y; refine (conj A1 (conj A2 (conj D0 (conj F _)))).
    - destruct x as [z|u|]; [now apply Nn in A1| |now left]. destruct y as [z|v|]; [now apply Nn in A2| |now right]. exfalso. apply J. constructor.
    - intros C. inversion C; subst; destruct J; discriminate. }
  intros a b. destruct (keys_ltb_spec (xr_sort_list a) (xr_sort_list b) eq_refl) as (A & _ & C).
  destruct (keys_ltb_spec (xr_sort_list b) (xr_sort_list a) eq_refl) as (A' & _ & C').
  rewrite !xr_conv in *. split; [exact A|]. split; [exact A'|]. split; [apply X|]. split.
  - change (xr_gt a b) with (xr_lt b a). rewrite !X. split; intros (k & x & y & A1 & A2 & D0 & F & J); exists k, y, x; repeat split; auto; tauto.
  - intros e [J|J]; [now apply C|now apply C'].
Qed.
Print Assumptions C73_order.
(** So they do not compare numbers: Bundle-Ether10 comes before Bundle-Ether9. *)
Theorem C73_order_refuted : exists q m n, (m < n)%Z /\ xproper q (XPort m) None None None /\ xproper q (XPort n) None None None /\
  xr_lt (xinterface q (XPort n) None None None) (xinterface q (XPort m) None None None) = Ok true.
Proof.
  assert (Pr : forall z, (0 <= z)%Z -> xproper (lit "Bundle-Ether") (XPort z) None None None).
  { intros z Z0. refine (conj eq_refl (conj eq_refl (conj Z0 (conj _ (conj _ _))))); intros x E; discriminate E. }
  exists (lit "Bundle-Ether"), 9%Z, 10%Z. split; [lia|]. split; [apply Pr; lia|]. split; [apply Pr; lia|]. vm_compute. reflexivity.
Qed.
Print Assumptions C73_order_refuted.

(** ** Dictionaries *)

(** [from_dict(x.as_dict())] is [x]. *)
Theorem C73_from_dict : forall x, strip (x_prefix x) = x_prefix x -> (forall w, x_class x = Some w -> strip w = w) -> from_dict (as_dict x) = Ok x.
Proof.
  intros [q sep slot card proc port sub chan cl] Hq Hc. cbn [x_prefix x_class] in *. unfold from_dict, as_dict.
  cbn [dlookup find fst String.eqb Ascii.eqb Bool.eqb bind x_prefix x_sep x_slot x_card x_proc x_port x_sub x_chan x_class set_prefix].
  destruct sep as [k|], slot as [s|], card as [c|], proc as [r|], sub as [n|], chan as [o|], cl as [w|]; cbn [of_text of_num option_map set_sep set_num set_text set_class bind to_int]; rewrite ?py_int_show_Z, ?Hq; cbn [bind];
    rewrite ?(Hc _ eq_refl); reflexivity.
Qed.
Print Assumptions C73_from_dict.
Lemma lookup_has d k v : dlookup d k = Ok v -> exists e, In e d /\ fst e = k.
Proof.
  unfold dlookup. destruct (find _ d) as [[k' v']|] eqn:F; [|discriminate 1]. intros _. apply find_some in F as (F & E). cbn in E. apply String.eqb_eq in E.
  exists (k', v'). auto.
Qed.
(** Making an interface from a dictionary fails for every dictionary, and so does copying one: the dictionary must hold a
    processor and may not. *)
Theorem C73_dict_refuted : (forall d, exists e, xr_of_dict d = Err e) /\ (forall x, exists e, xr_copy x = Err e).
Proof.
  assert (F : forall d, exists e, xr_of_dict d = Err e).
  { intros d. unfold xr_of_dict. destruct (update_internal_state d) as [x|e] eqn:U; cbn [bind]; [|eauto].
    assert (P : exists e, In e d /\ fst e = "processor"%string).
    { destruct (dlookup d "processor") as [v|er] eqn:L0; [exact (lookup_has _ _ _ L0)|]. exfalso. unfold update_internal_state in U.
      destruct (dlookup d "prefix"); cbn [bind] in U; [|discriminate U]. destruct (dlookup d "digit_separator"); cbn [bind] in U; [|discriminate U].
      destruct (dlookup d "slot") as [sl|]; cbn [bind] in U; [|discriminate U]. destruct (dlookup d "port") as [po|]; cbn [bind] in U; [|discriminate U].
      rewrite L0 in U. destruct sl, po, (dlookup d "card"); cbn [bind] in U; discriminate U. }
    unfold check_interface_dict. destruct (negb (Nat.eqb (length d) 8)); cbn [bind]; [eauto|].
    destruct (forallb _ d) eqn:Fa; cbn [bind]; [|eauto]. exfalso. destruct P as (e & P & E). rewrite forallb_forall in Fa. apply Fa in P. rewrite E in P. discriminate P. }
  split; [exact F|]. intros x. apply F.
Qed.
Print Assumptions C73_dict_refuted.

(** ** Examples *)
Example C73_cases :
  xr_of_name (lit " HundredGigE 0/RP0/CPU0/10 ") = Ok (xinterface (lit "HundredGigE") (XRack 0 (lit "RP0") (lit "CPU0") 10) None None None) /\
  xr_of_name (lit "GigabitEthernet0/1.5") = Ok (xinterface (lit "GigabitEthernet") (XSlotPort 0 1) None None None) /\
  xr_of_name (lit "Bundle-Ether10.5") = Ok (xinterface (lit "Bundle-Ether") (XPort 10) (Some 5%Z) None None) /\
  xr_of_name (lit "Gi1/2/3") = Ok (mkXr (lit "Gi") (Some ["/"]) (Some 1%Z) None (Some (lit "3")) 2%Z None None None) /\
  xr_of_name (lit "Loopback/3") = Err ValueError /\ xr_of_name (lit "Gi1,2") = Err InvalidInterface /\
  xr_render (xinterface (lit "Hu") (XRack 0 (lit "0") (lit "CPU1") 10) (Some 7%Z) None None) = Ok (lit "Hu0/0/CPU1/10.7").
Proof. vm_compute. repeat split. Qed.
Example C73_hyps : prefix_text (lit "HundredGigE ") /\ numeral (lit "00") 0 /\ word (lit "RP0") /\ divider "/" /\ breaks alnum (lit ".5") /\ mark_first (lit ".5") /\
  ~ In "," (lit ".5").
Proof.
  repeat split; try discriminate; try lia; [now exists 1%nat|]. intros [E|[E|[]]]; discriminate E.
Qed.
