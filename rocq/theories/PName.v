(** C68: names, numbers, kinds and abbreviations of IOS interfaces. *)
From Coq Require Import Ascii String Arith NArith ZArith Bool List Lia.
From Verif Require Import PyStr PyStrFacts TreeSpec TreeMain WorldSpec PyBase CfgModel SearchModel SearchSpec SearchProofs IntfModel IntfSpec IntfFacts PIntf PyRe PyReFacts PyReTmpl PyReSent PyReLazy IosSpec IosModel IosFacts RouteSpec RouteModel RouteFacts FactorySpec FactoryModel FactoryFacts PFactory NameSpec NameModel NameFacts.
Import ListNotations.
Local Open Scope char_scope.

Lemma base_facts b s : base b -> dotted s -> word (b ++ s) /\ exists c r, b ++ s = c :: r /\ is_digit c = true.
Proof.
  intros ([B1 B2] & (c & r & -> & C0) & _) HS. split; [|cbn; eauto]. split; [discriminate|].
  change (solid ((c :: r) ++ s)). apply solid_app. split; [exact B2|now apply dotted_solid].
Qed.

(** The type and both numbers of a line "interface <type> <number>[.<subinterface>] ...". *)
Theorem C68_numbers : forall t T b s, named_so t T b s ->
  is_intf t = Ok true /\ port_type t = T /\ interface_number t = Ok b /\ subinterface_number t = Ok (b ++ s).
Proof.
  intros t T b s (g & e & -> & HT & HG & HB & HS & HE). destruct (base_facts b s HB HS) as [W0 D0]. split; [now apply is_intf_named|]. split.
  - apply type_of_line; auto. destruct D0 as (c & r & E & C0). rewrite app_assoc, E. cbn. eauto.
  - split; [now apply number_of_line|]. rewrite (app_assoc b s e). now apply subnumber_of_line.
Qed.
Print Assumptions C68_numbers.

(** port_type for every text: the letters and dashes after "interface" and white space, or
    nothing. *)
Theorem C68_type : forall t,
  (exists g r, t = lit "interface" ++ g ++ port_type t ++ r /\ gap g /\ class_word (port_type t) /\ no_more (fun c => is_alpha c || Ascii.eqb c "-") r) \/
  (port_type t = [] /\ ~ interface_of (fun r => exists c u, r = c :: u /\ (is_alpha c || Ascii.eqb c "-") = true) t).
Proof. exact port_type_spec. Qed.
Print Assumptions C68_type.

(** The kinds, for every text. *)
Theorem C68_kinds : forall t,
  (is_subintf t = true <-> interface_of (fun r => exists w d s, r = w ++ "." :: d :: s /\ word w /\ is_digit d = true) t) /\
  (is_loopback_intf t = true <-> interface_of (fun r => exists c s, r = c :: lit "oopback" ++ s /\ is_space c = false) t) /\
  (is_ethernet_intf t = true <-> interface_of (fun r => exists a c s, r = a ++ c :: lit "thernet" ++ s /\ is_space c = false /\ ~ In "010" a) t) /\
  (is_virtual_intf t = true <-> exists i g w r, t = i ++ g ++ w ++ r /\ lower i = lit "interface" /\ gap g /\
     In (lower w) (map lit ["loopback"; "vlan"; "tunnel"; "dialer"; "virtual-template"; "port-channel"]%string)).
Proof. intros t. split; [apply subintf_iff|]. split; [apply loopback_iff|]. split; [apply ethernet_iff|apply virtual_iff]. Qed.
Print Assumptions C68_kinds.

(** is_intf: one space after "interface", then something else; without anything after it an
    IndexError. *)
Theorem C68_is_intf : forall t,
  (is_intf t = Ok true <-> exists c r, t = lit "interface " ++ c :: r /\ c <> " ") /\
  (is_intf t = Err IndexError <-> t = lit "interface ") /\ is_intf (rstrip t) <> Err IndexError.
Proof.
  assert (X0 : forall t, (is_intf t = Ok true <-> exists c r, t = lit "interface " ++ c :: r /\ c <> " ") /\ (is_intf t = Err IndexError <-> t = lit "interface ")).
  { intros t. unfold is_intf. destruct (starts_with (lit "interface ") t) eqn:S0.
    - apply TreePost.starts_with_spec in S0 as (r & ->). destruct r as [|c r].
      + rewrite app_nil_r. split; split; try discriminate; auto. intros (c & r & E & _). discriminate.
      + change (nth_error (lit "interface " ++ c :: r) 10) with (Some c). cbv iota. split; split.
        * intros E. exists c, r. split; [reflexivity|]. intros ->. discriminate.
        * intros (c' & r' & E & NE). apply app_inv_head in E. injection E as -> ->. destruct (Ascii.eqb c' " ") eqn:Q0; [apply Ascii.eqb_eq in Q0; congruence|reflexivity].
        * discriminate.
        * intros E. rewrite <- (app_nil_r (lit "interface ")) in E at 2. apply app_inv_head in E. discriminate.
    - split; split; try discriminate.
      + intros (c & r & -> & _). discriminate.
      + intros ->. discriminate. }
  intros t. destruct (X0 t) as [X1 X2]. split; [exact X1|]. split; [exact X2|]. intros E. apply X0 in E. pose proof (rstrip_idem t) as K. rewrite E in K. discriminate.
Qed.
Print Assumptions C68_is_intf.

(** ** Names *)

Lemma words_phrase ws : forall p i e, Forall word ws -> phrase ws p -> white i -> word_ends e -> words (i ++ p ++ e) = ws ++ words e.
Proof.
  induction ws as [|w ws IH]; intros p i e F P WI E; inversion P as [|? g ? q G0 P']; subst; inversion F as [|? ? F1 F2]; subst.
  - now apply words_word.
  - rewrite <- !app_assoc. rewrite words_word; auto; [|apply gap_no_more; [exact G0|intros c; now destruct (is_space c)]]. cbn [app]. f_equal. apply IH; auto. apply G0.
Qed.
(** name: the words after "interface" with one space between them.  is_portchannel_intf: the
    name contains "channel" in any case. *)
Theorem C68_name : forall t ws, says_loosely (lit "interface" :: ws) t -> Forall word ws ->
  name t = join [" "] ws /\ words (name t) = ws /\
  (is_portchannel_intf t = true <-> exists a m b, join [" "] ws = a ++ m ++ b /\ lower m = lit "channel").
Proof.
  intros t ws (i & p & e & -> & WI & P & WE) F. assert (EN : name (i ++ p ++ e) = join [" "] ws).
  { unfold name. rewrite (words_phrase (lit "interface" :: ws)); auto.
    - cbn [app tl]. replace (words e) with (@nil str); [now rewrite app_nil_r|]. unfold words. rewrite <- (app_nil_r e). now rewrite words_aux_space_prefix.
    - constructor; [split; [discriminate|reflexivity]|exact F].
    - destruct e as [|c e]; [exact I|]. unfold white in WE. cbn [forallb] in WE. apply andb_true_iff in WE as [WE _]. cbn. now rewrite WE. }
  rewrite EN. split; [reflexivity|]. split; [now apply words_join|]. unfold is_portchannel_intf. rewrite EN, TreePost.contains_spec. split.
  - intros (a & b & E). exists (firstn (length a) (join [" "] ws)), (firstn 7 (skipn (length a) (join [" "] ws))), (skipn 7 (skipn (length a) (join [" "] ws))).
    rewrite !firstn_skipn. split; [reflexivity|]. unfold lower in *. rewrite <- firstn_map, <- skipn_map, E, skipn_app, skipn_all, Nat.sub_diag. reflexivity.
  - intros (a & m & b & E & L0). exists (lower a), (lower b). rewrite E. unfold lower in *. rewrite !map_app. now rewrite L0.
Qed.
Print Assumptions C68_name.

Lemma words_concat s : forall acc, concat (words_aux acc s) = rev acc ++ filter (fun c => negb (is_space c)) s.
Proof.
  induction s as [|c s IH]; intros acc; cbn [words_aux filter].
  - destruct acc; [reflexivity|]. cbn [concat]. reflexivity.
  - destruct (is_space c); cbn [negb].
    + destruct acc as [|x acc]; [now rewrite IH|]. cbn [concat]. now rewrite IH.
    + rewrite IH. cbn [rev]. now rewrite <- app_assoc.
Qed.
Lemma filter_all (s : str) : forallb (fun c => negb (is_space c)) s = true -> filter (fun c => negb (is_space c)) s = s.
Proof. induction s as [|c s IH]; [reflexivity|]. cbn. intros E. apply andb_true_iff in E as [-> E]. f_equal. auto. Qed.
Lemma filter_white (s : str) : white s -> filter (fun c => negb (is_space c)) s = [].
Proof. unfold white. induction s as [|c s IH]; [reflexivity|]. cbn. intros E. apply andb_true_iff in E as [-> E]. cbn. auto. Qed.
Lemma numeral_solid a n : numeral a n -> solid a.
Proof. intros H0. apply numeral_digits in H0. unfold solid. rewrite forallb_forall in *. intros c C0. apply H0 in C0. now rewrite (digit_nonspace _ C0). Qed.
Lemma solid_cons c s : is_space c = false -> solid s -> solid (c :: s).
Proof. intros C0 S0. unfold solid. cbn. now rewrite C0. Qed.
Lemma shape_solid N n : writes_shape N n -> solid N.
Proof. destruct 1; repeat (first [apply solid_app; split|apply solid_cons; [reflexivity|]]); eauto using numeral_solid. Qed.
Lemma marks_solid M s c : writes_marks M s c -> solid M.
Proof. destruct 1; repeat (first [reflexivity|apply solid_cons; [reflexivity|]|apply solid_app; split]); eauto using numeral_solid. Qed.
Lemma class_solid T : class_word T -> solid T.
Proof. intros [_ F]. unfold solid. rewrite forallb_forall in *. intros c C0. apply F in C0. now apply ltr_kinds in C0 as [-> _]. Qed.

Lemma solid_white s : solid s -> white s -> s = [].
Proof. destruct s as [|c s]; [reflexivity|]. unfold solid, white. cbn. intros S0 W0. apply andb_true_iff in S0 as [S0 _], W0 as [W0 _]. rewrite W0 in S0. discriminate. Qed.
Lemma strip_solid s : solid s -> strip s = s.
Proof.
  intros S0. assert (R : rstrip s = s).
  { destruct (rstrip_prefix s) as (p & E & W0). rewrite E in S0 at 1. apply solid_app in S0 as [_ S0]. rewrite (solid_white _ S0 W0), app_nil_r in E. now symmetry. }
  assert (L0 : lstrip s = s).
  { destruct (lstrip_suffix s) as (p & E & W0). rewrite E in S0 at 1. apply solid_app in S0 as [S0 _]. rewrite (solid_white _ S0 W0) in E. now symmetry. }
  rewrite strip_alt, R, L0. exact R.
Qed.
(** The interface object and the sort list of a line with a type and a number: the components
    are those that are written. *)
Theorem C68_object : forall T g N n M sub chan, class_word T -> white g -> writes_shape N n -> writes_marks M sub chan ->
  let t := lit "interface " ++ T ++ g ++ N ++ M in
  interface_object t = Ok (interface T n sub chan None) /\ port t = Ok (port_of n) /\
  ordinal_list t = Ok (map (fun o => match o with Some z => z | None => -1 end) [slot_of n; card_of n; Some (port_of n); sub; chan; None])%Z.
Proof.
  intros T g N n M sub chan HT HG HN HM t. assert (E : interface_object t = Ok (interface T n sub chan None)).
  { unfold interface_object, t. rewrite is_intf_named by assumption. cbn [bind]. change (lit "interface " ++ T ++ g ++ N ++ M) with ([] ++ lit "interface" ++ (" " :: T ++ g ++ N ++ M)).
    rewrite words_word; [|reflexivity|split; [discriminate|reflexivity]|reflexivity]. cbn [tl]. unfold words. rewrite words_concat. cbn [rev app filter is_space]. change (negb (is_space " ")) with false. cbv iota.
    rewrite !filter_app, (filter_white g HG), (filter_all T (class_solid _ HT)), (filter_all N (shape_solid _ _ HN)), (filter_all M (marks_solid _ _ _ HM)). cbn [app].
    pose proof (C36_parse T N n M sub chan [] None []) as P. rewrite !app_nil_r in P. rewrite P; auto; try constructor; try reflexivity.
    - f_equal. f_equal. now apply strip_solid, class_solid.
    - destruct HT as [_ F]. unfold prefix_text. rewrite forallb_forall in *. intros c C0. apply F in C0. now rewrite C0. }
  split; [exact E|]. unfold port, ordinal_list. rewrite E. cbn [bind]. split; [reflexivity|]. unfold t. rewrite is_intf_named by assumption. reflexivity.
Qed.
Print Assumptions C68_object.

(** ** Abbreviations *)

Lemma lower_length s : length (lower s) = length s.
Proof. apply map_length. Qed.
Lemma abbreviated_iff t v T n : port_type t = T -> subinterface_number t = Ok n -> exists b, is_abbreviated_as t v = Ok b /\ (b = true <-> abbreviates v T n).
Proof.
  intros E1 E2. unfold is_abbreviated_as, abbvs. rewrite E1, E2. cbn [bind]. eexists. split; [reflexivity|]. rewrite existsb_exists. unfold abbreviates. split.
  - intros (a & I0 & E). apply PyStrFacts.str_eqb_eq in E. apply in_flat_map in I0 as (sep & I0 & I1). apply in_map_iff in I1 as (k & <- & I1). apply in_seq in I1.
    exists (firstn k (lower T)), (skipn k (lower T)). split; [|split; [now rewrite firstn_skipn|]].
    + intros Z0. apply (f_equal (@length _)) in Z0. rewrite firstn_length in Z0. cbn in Z0. lia.
    + destruct I0 as [<-|[<-|[]]]; auto.
  - intros (p & q & NE & E & V). exists (lower v). split; [|now apply PyStrFacts.str_eqb_eq]. apply in_flat_map.
    assert (K : In (length p) (seq 1 (length (lower T)))).
    { apply in_seq. rewrite E, app_length. destruct p; [congruence|cbn [length]; lia]. }
    assert (F : firstn (length p) (lower T) = p) by (rewrite E, firstn_app, firstn_all, Nat.sub_diag; cbn; now rewrite app_nil_r).
    destruct V as [V|V]; rewrite V; [exists []|exists [" "]]; (split; [cbn; tauto|]); apply in_map_iff; exists (length p); rewrite F; auto.
Qed.
(** is_abbreviated_as: some first letters of the type, perhaps a space, and the whole number. *)
Theorem C68_abbreviated : forall t T b s v, named_so t T b s ->
  exists yes, is_abbreviated_as t v = Ok yes /\ (yes = true <-> abbreviates v T (b ++ s)).
Proof. intros t T b s v HN. destruct (C68_numbers _ _ _ _ HN) as (_ & E1 & _ & E2). now apply abbreviated_iff. Qed.
Print Assumptions C68_abbreviated.

(** find_interface_objects: the first interface of the configuration that the text abbreviates. *)
Definition meant (lines : list str) (v : str) (x : nat) : Prop :=
  exists l T b s, nth_error lines x = Some l /\ named_so (rstrip l) T b s /\ abbreviates v T (b ++ s).
Lemma named_intf_line l T b s : named_so (rstrip l) T b s -> intf_line l.
Proof.
  intros (g & e & E & HT & _). destruct (rstrip_prefix l) as (p & El & _). rewrite E in El. exists [], (lit "interface"), (" " :: (T ++ g ++ b ++ s ++ e) ++ p).
  split; [rewrite El; reflexivity|]. split; [reflexivity|]. split; [constructor|reflexivity].
Qed.
Lemma chosen_intf c l : intf_line l -> chosen c l -> c = IOSIntfLine.
Proof. intros HI HC. apply (class_unique _ _ _ HC). left. exists [], intf_line. eexists. split; [reflexivity|]. split; [exact HI|]. intros ? ? []. Qed.
Lemma starts_pattern t : rx_find (pattern false (lit "^interface")) t <> None <-> starts "interface" t.
Proof.
  rewrite (found_iff _ [Lit (lit "interface")] 0) by reflexivity. split.
  - intros (s' & c & HD). apply D_lit_eq in HD as (r & -> & _). now exists r.
  - intros (r & ->). exists r, []. constructor. constructor.
Qed.
Theorem C68_find : forall v6 o lines w cs v, parse_factory v6 o lines = Ok (w, cs) ->
  (forall l, In l lines -> starts "interface" (rstrip l) -> exists T b s, named_so (rstrip l) T b s) ->
  (exists pre x post, w_conf w = pre ++ x :: post /\ meant lines v x /\ (forall y, In y pre -> ~ meant lines v y) /\ find_interface_objects w cs v = Ok [x]) \/
  ((forall y, In y (w_conf w) -> ~ meant lines v y) /\ find_interface_objects w cs v = Ok []).
Proof.
  intros v6 o lines w cs v HP HW. unfold parse_factory in HP. destruct (classify_spec v6 lines) as [(cs' & E & F & NR)|(E & _)]; rewrite E in HP; [|discriminate].
  cbn [bind] in HP. destruct (reboot _ lines) as [w'|] eqn:R; [|discriminate]. injection HP as -> ->.
  assert (HL : loaded w 0 lines).
  { exists (mkW o [] []). split; [reflexivity|]. split; [|exact R]. destruct (TreeWorld.reboot_inv _ _ _ R) as (? & ? & _ & E0). now rewrite E0. }
  assert (HT : forall x, In x (w_conf w) -> exists l, nth_error lines x = Some l /\ text_of w x = rstrip l).
  { intros x I0. destruct (loaded_conf_inr _ _ _ HL x I0) as [_ L0]. destruct (nth_error lines x) as [l|] eqn:N0; [|apply nth_error_None in N0; cbn in L0; lia].
    exists l. split; [reflexivity|]. destruct (loaded_obj w 0 lines HL x l N0) as (ob & O1 & O2 & _). cbn [Nat.add] in O1. unfold text_of. now rewrite O1. }
  assert (Z : forall y l, nth_error lines y = Some l -> exists c, nth_error cs y = Some c /\ chosen c l).
  { clear -F. intros y. revert cs lines F. induction y as [|y IH]; intros cs lines F l N0; destruct F as [|c l' cs ls C0 F]; try discriminate; cbn in *.
    - injection N0 as ->. eauto. - eauto. }
  unfold find_interface_objects, find_objects. induction (w_conf w) as [|x r IH]; [right; split; [intros ? []|reflexivity]|].
  destruct (HT x (or_introl eq_refl)) as (l & N0 & TX). cbn [filter]. 
  assert (IH' := IH (fun y I0 => HT y (or_intror I0))). clear IH. set (ff := filter _ r) in *.
  assert (NM : ~ meant lines v x -> forall res, res = first_abbreviated w cs v ff ->
    (exists pre x0 post, x :: r = pre ++ x0 :: post /\ meant lines v x0 /\ (forall y, In y pre -> ~ meant lines v y) /\ res = Ok [x0]) \/ ((forall y, In y (x :: r) -> ~ meant lines v y) /\ res = Ok [])).
  { intros NX res ->. destruct IH' as [(pre & x0 & post & -> & M0 & N1 & ->)|[N1 ->]].
    - left. exists (x :: pre), x0, post. repeat split; auto. intros y [<-|I0]; auto.
    - right. split; [|reflexivity]. intros y [<-|I0]; auto. }
  unfold hits. rewrite TX. destruct (rx_find (pattern false (lit "^interface")) (rstrip l)) eqn:RX.
  - assert (ST : starts "interface" (rstrip l)) by (apply starts_pattern; congruence). destruct (HW l (nth_error_In _ _ N0) ST) as (T & b & s & HN).
    destruct (Z x l N0) as (c & NC & CC). rewrite (chosen_intf c l (named_intf_line _ _ _ _ HN) CC) in NC. cbn [first_abbreviated]. rewrite NC, TX.
    destruct (C68_abbreviated _ _ _ _ v HN) as (yes & E1 & E2). rewrite E1. cbn [bind]. destruct yes.
    + left. exists [], x, r. split; [reflexivity|]. split; [exists l, T, b, s; split; [exact N0|]; split; [exact HN|now apply E2]|]. split; [intros ? []|reflexivity].
    + apply NM; [|reflexivity]. intros (l' & T' & b' & s' & N1 & HN' & AB). rewrite N0 in N1. injection N1 as <-. destruct (C68_abbreviated _ _ _ _ v HN') as (yes' & E1' & E2').
      rewrite E1 in E1'. injection E1' as <-. apply E2' in AB. discriminate.
  - apply NM; [|reflexivity]. intros (l' & T' & b' & s' & N1 & (g & e & HN' & _) & _). rewrite N0 in N1. injection N1 as <-.
    apply (proj2 (starts_pattern (rstrip l))); [|exact RX]. rewrite HN'. exists (" " :: T' ++ g ++ b' ++ s' ++ e). reflexivity.
Qed.
Print Assumptions C68_find.

(** The word after the number is not in the interface object. *)
Theorem C68_class_refuted : exists t cl o o', t ++ lit " " ++ cl = lit "interface ATM2/0.100 point-to-point" /\ class_word cl /\
  interface_object t = Ok o /\ interface_object (t ++ lit " " ++ cl) = Ok o' /\ o = o'.
Proof. exists (lit "interface ATM2/0.100"), (lit "point-to-point"). do 2 eexists. split; [reflexivity|]. split; [split; [discriminate|reflexivity]|]. split; [vm_compute; reflexivity|]. split; [vm_compute; reflexivity|reflexivity]. Qed.
Print Assumptions C68_class_refuted.
(** With white space between type and number is_subintf misses the subinterface. *)
Theorem C68_subintf_refuted : exists t T b s, named_so t T b s /\ s <> [] /\ is_subintf t = false.
Proof.
  exists (lit "interface Serial 1/0.5"), (lit "Serial"), (lit "1/0"), (lit ".5"). split; [|split; [discriminate|vm_compute; reflexivity]].
  exists [" "], []. split; [reflexivity|]. split; [split; [discriminate|reflexivity]|]. split; [reflexivity|]. split; [|split; [|constructor]].
  - split; [split; [discriminate|reflexivity]|]. split; [exists "1", (lit "/0"); auto|]. intros (a & d & E & _). assert (K : In "." (lit "1/0")) by (rewrite E; apply in_elt). cbn in K. intuition discriminate.
  - apply (do_more (lit "5") []); [split; [discriminate|reflexivity]|constructor].
Qed.
Print Assumptions C68_subintf_refuted.
(** Two spaces before a further word: the number ends in a space, and the interface is not
    found by its name. *)
Theorem C68_spaces_refuted : exists t, words t = map lit ["interface"; "Serial"; "1/0"; "point-to-point"]%string /\
  interface_number t = Ok (lit "1/0 ") /\ is_abbreviated_as t (lit "Serial1/0") = Ok false.
Proof. exists (lit "interface Serial 1/0  point-to-point"). repeat split; vm_compute; reflexivity. Qed.
Print Assumptions C68_spaces_refuted.
(** A number with a capital letter is not found by its own name. *)
Theorem C68_capital_refuted : exists t, t = lit "interface MgmtEth 0/RP0/CPU0/0" /\ forall v, is_abbreviated_as t v = Ok false.
Proof.
  eexists. split; [reflexivity|]. intros v. assert (E2 : subinterface_number (lit "interface MgmtEth 0/RP0/CPU0/0") = Ok (lit "0/RP0/CPU0/0")) by (vm_compute; reflexivity).
  destruct (abbreviated_iff _ v _ _ eq_refl E2) as (b & E & F). rewrite E. f_equal. destruct b; [|reflexivity]. exfalso. destruct (proj1 F eq_refl) as (p & q & _ & _ & V).
  assert (K : In "R" (lower v)) by (destruct V as [V|V]; rewrite V; apply in_app_iff; right; cbn; tauto). unfold lower in K. apply in_map_iff in K as (c & K & _).
  revert K. clear. destruct c as [[] [] [] [] [] [] [] []]; vm_compute; discriminate.
Qed.
Print Assumptions C68_capital_refuted.
(** One line that begins with "interface" and is no interface line makes the search fail. *)
Theorem C68_find_refuted : forall v6, exists o lines w cs, parse_factory v6 o lines = Ok (w, cs) /\ In (lit "interface Serial1/0") lines /\
  find_interface_objects w cs (lit "Serial1/0") = Err AttributeErr.
Proof.
  intros v6. exists (mkOpts (lit "!") true Ios), (map lit ["interface-summary"; "interface Serial1/0"]%string). do 2 eexists. split; [vm_compute; reflexivity|]. split; [right; now left|vm_compute; reflexivity].
Qed.
Print Assumptions C68_find_refuted.
Example C68_case : let t := lit "interface Serial 1/0/3.100 multipoint" in
  named_so t (lit "Serial") (lit "1/0/3") (lit ".100") /\ port_type t = lit "Serial" /\ interface_number t = Ok (lit "1/0/3") /\ subinterface_number t = Ok (lit "1/0/3.100") /\
  is_abbreviated_as t (lit "Ser 1/0/3.100") = Ok true /\ is_abbreviated_as t (lit "s1/0/3") = Ok false /\ name t = lit "Serial 1/0/3.100 multipoint" /\
  ordinal_list (lit "interface Serial 1/0/3.100") = Ok [1; 0; 3; 100; -1; -1]%Z /\
  is_virtual_intf (lit "INTERFACE vlan20") = true /\ is_ethernet_intf (lit "interface GigabitEthernet0/1") = true /\ is_loopback_intf (lit "interface loopback0") = true /\
  is_subintf (lit "interface Gi0/1.20") = true /\ is_portchannel_intf (lit "interface Port-Channel1") = true.
Proof.
  cbv zeta. split; [|repeat split; vm_compute; reflexivity].
  exists [" "], (" " :: lit "multipoint" ++ []). split; [reflexivity|]. split; [split; [discriminate|reflexivity]|]. split; [reflexivity|]. split; [|split].
  - split; [split; [discriminate|reflexivity]|]. split; [exists "1", (lit "/0/3"); auto|]. intros (a & d & E & _). assert (K : In "." (lit "1/0/3")) by (rewrite E; apply in_elt). cbn in K. intuition discriminate.
  - apply (do_more (lit "100") []); [split; [discriminate|reflexivity]|constructor].
  - apply tr_more; [reflexivity|split; [discriminate|reflexivity]|constructor].
Qed.
Example C68_find_case : forall v6, exists w cs, parse_factory v6 (mkOpts (lit "!") true Ios) (map lit ["interface Serial1/0"; " no shutdown"; "interface Serial1/0.5 point-to-point"]%string) = Ok (w, cs) /\
  find_interface_objects w cs (lit "Se1/0.5") = Ok [2] /\ find_interface_objects w cs (lit "Se1/1") = Ok [].
Proof. intros v6. do 2 eexists. split; [vm_compute; reflexivity|]. split; vm_compute; reflexivity. Qed.
