(** C88: assigning to the attributes of an interface. *)
From Coq Require Import Ascii String Arith NArith ZArith Bool List Lia.
From Verif Require Import PyStr PyBase PyStrFacts IntfModel IntfSetModel IntfSetSpec.
Import ListNotations.
Local Open Scope char_scope.
Local Open Scope Z_scope.

(** ** One assignment *)

Ltac fields := unfold numeric in *; intuition (try discriminate; try congruence).

Lemma takes_fun f v w w' : takes f v w -> takes f v w' -> w = w'.
Proof.
  intros A B. destruct A; inversion B; subst; try reflexivity; try congruence; exfalso; fields.
Qed.

Lemma takes_dec f v : (exists w, takes f v w) \/ (forall w, ~ takes f v w).
Proof.
  destruct f; try (right; intros w H; inversion H; subst; fields; fail);
    destruct v as [z|s| | |]; try (right; intros w H; inversion H; subst; fields; fail);
    try (left; eexists; constructor; unfold numeric; auto; fail);
    destruct (py_int s) as [z|] eqn:E; try (left; eexists; eapply T_text; [unfold numeric; tauto|exact E]);
    right; intros w H; inversion H; subst; congruence.
Qed.

(** An assignment of an acceptable value succeeds: the attribute then reads as that
    value, and all the other attributes read as before. *)
Theorem C88_assign : forall o f v w, takes f v w ->
  exists o', assign o f v = Ok o' /\ read o' f = w /\ (forall g, plain g -> g <> f -> read o' g = read o g).
Proof.
  intros o f v w T. destruct T as [f z N|f s z N E|f N|s|s|s|].
  - destruct N as [ -> | [ -> | [ -> | [ -> | -> ] ] ] ]; (eexists; split; [reflexivity|split; [reflexivity|]]); intros [] [P P'] D; try reflexivity; congruence.
  - destruct N as [ -> | [ -> | [ -> | [ -> | -> ] ] ] ]; (eexists; split; [unfold assign, set_slot, set_card, set_port, set_sub, set_chan, number_of_value; rewrite E; reflexivity|split; [reflexivity|]]);
      intros [] [P P'] D; try reflexivity; congruence.
  - destruct N as [ -> | [ -> | [ -> | [ -> | -> ] ] ] ]; (eexists; split; [reflexivity|split; [reflexivity|]]); intros [] [P P'] D; try reflexivity; congruence.
  - eexists; split; [reflexivity|split; [reflexivity|]]; intros [] [P P'] D; try reflexivity; congruence.
  - eexists; split; [reflexivity|split; [reflexivity|]]; intros [] [P P'] D; try reflexivity; congruence.
  - eexists; split; [reflexivity|split]; [cbn; now rewrite strip_idem|]; intros [] [P P'] D; try reflexivity; congruence.
  - eexists; split; [reflexivity|split; [reflexivity|]]; intros [] [P P'] D; try reflexivity; congruence.
Qed.
Print Assumptions C88_assign.

(** Any other value raises ValueError; only a separator that is not a text, for an
    interface without slot and card, is passed over in silence. *)
Theorem C88_refused : forall o f v, plain f -> (forall w, ~ takes f v w) ->
  (f = FSep /\ p_slot o = None /\ p_card o = None /\ assign o f v = Ok o) \/
  (~ (f = FSep /\ p_slot o = None /\ p_card o = None) /\ assign o f v = Err ValueError).
Proof.
  intros o f v [P P'] R.
  assert (N : numeric f -> number_of_value v = Err ValueError).
  { intros N. destruct v as [z|s| | |]; try reflexivity.
    - destruct (R (GInt z)). now constructor.
    - cbn. destruct (py_int s) as [z|] eqn:E; [|reflexivity]. destruct (R (GInt z)). now apply T_text.
    - destruct (R GNone). now constructor. }
  destruct f; try congruence.
  - right. split; [intros [D _]; discriminate D|]. destruct v as [z|s| | |]; try reflexivity. destruct (R (GText (strip s))). constructor.
  - destruct v as [z|s| | |]; try (destruct (R (GText s)); constructor);
      cbn; destruct (p_slot o) eqn:S; cbn; try (right; split; [intros (_ & D & _); congruence|reflexivity]);
      destruct (p_card o) eqn:C; cbn; try (right; split; [intros (_ & _ & D); congruence|reflexivity]); left; auto.
  - right. split; [intros [D _]; discriminate D|]. cbn. unfold set_slot. rewrite N; [reflexivity|unfold numeric; tauto].
  - right. split; [intros [D _]; discriminate D|]. cbn. unfold set_card. rewrite N; [reflexivity|unfold numeric; tauto].
  - right. split; [intros [D _]; discriminate D|]. cbn. unfold set_port. rewrite N; [reflexivity|unfold numeric; tauto].
  - right. split; [intros [D _]; discriminate D|]. cbn. unfold set_sub. rewrite N; [reflexivity|unfold numeric; tauto].
  - right. split; [intros [D _]; discriminate D|]. cbn. unfold set_chan. rewrite N; [reflexivity|unfold numeric; tauto].
  - right. split; [intros [D _]; discriminate D|]. destruct v as [z|s| | |]; try reflexivity.
    + destruct (R (GText (strip s))). constructor.
    + destruct (R GNone). apply T_no_class.
Qed.
Print Assumptions C88_refused.

(** ** Histories *)

Lemma field_dec (f g : field) : {f = g} + {f <> g}.
Proof. decide equality. Qed.

Definition after (o : parts) (e : field * given_value) : parts := match assign o (fst e) (snd e) with Ok o' => o' | Err _ => o end.
Lemma assigns_snoc l : forall o e, assigns o (l ++ [e]) = after (assigns o l) e.
Proof. induction l as [|[f v] l IH]; intros o [g u]; [reflexivity|]. cbn. apply IH. Qed.

Lemma read_after o g v f : plain f -> g <> f -> read (after o (g, v)) f = read o f.
Proof.
  intros P D. unfold after; cbn [fst snd].
  destruct (field_dec g FNumber) as [->|Dn]; [reflexivity|].
  destruct (field_dec g FSort) as [->|Ds]; [cbn; destruct v; reflexivity|].
  destruct (takes_dec g v) as [[w T]|R].
  - destruct (C88_assign o g v w T) as (o' & -> & _ & H). apply H; congruence.
  - destruct (C88_refused o g v (conj Dn Ds) R) as [(_ & _ & _ & ->)|(_ & ->)]; reflexivity.
Qed.

(** After any program of assignments to an interface, failed ones included, an attribute
    reads as the last acceptable value assigned to it, or as it did at first. *)
Theorem C88_history : forall o l f w, plain f -> (read (assigns o l) f = w <-> ends o l f w).
Proof.
  intros o l f w P. split.
  - revert w. induction l as [|[g v] l IH] using rev_ind; intros w H; [rewrite <- H; constructor|].
    rewrite assigns_snoc in H. destruct (field_dec g f) as [->|D].
    + destruct (takes_dec f v) as [[u T]|R].
      * apply E_takes. unfold after in H; cbn [fst snd] in H. destruct (C88_assign (assigns o l) f v u T) as (o' & A & Rd & _). rewrite A in H. congruence.
      * apply E_refused; [exact R|]. apply IH. unfold after in H; cbn [fst snd] in H.
        destruct (C88_refused (assigns o l) f v P R) as [(_ & _ & _ & A)|(_ & A)]; rewrite A in H; exact H.
    + apply E_other; [exact D|]. apply IH. rewrite read_after in H by assumption. exact H.
  - intros E. induction E as [f|l f v u T|l f v u R E IH|l g v f u D E IH].
    + reflexivity.
    + rewrite assigns_snoc. unfold after; cbn [fst snd]. destruct (C88_assign (assigns o l) f v u T) as (o' & A & Rd & _). now rewrite A.
    + rewrite assigns_snoc. unfold after; cbn [fst snd]. destruct (C88_refused (assigns o l) f v P R) as [(_ & _ & _ & A)|(_ & A)]; rewrite A; auto.
    + rewrite assigns_snoc, read_after by assumption. auto.
Qed.
Print Assumptions C88_history.

(** Texts stay without white space around them. *)
Theorem C88_trimmed : forall l o, trimmed o -> trimmed (assigns o l).
Proof.
  induction l as [|[f v] l IH]; intros o T; [exact T|]. cbn [assigns]. apply IH. destruct T as [T1 T2].
  destruct f, v as [z|s| | |]; cbn; unfold set_slot, set_card, set_port, set_sub, set_chan; cbn [number_of_value bind];
    try (destruct (py_int s); cbn [bind]); try (destruct (p_slot o), (p_card o); cbn); split; cbn [p_prefix p_class]; auto using strip_idem;
    intros w E; try discriminate E; injection E as <-; apply strip_idem.
Qed.
Print Assumptions C88_trimmed.

(** ** The texts *)

Lemma class_trimmed o : trimmed o -> interface_class o = p_class o.
Proof. intros [_ T]. unfold interface_class. destruct (p_class o) as [w|]; [cbn; now rewrite (T w eq_refl)|reflexivity]. Qed.

(** The name is the prefix, the number and the rest, as they are at that moment; there is
    none exactly if the numbers do not make a number, and then reading it raises
    ValueError, or ends the interpreter if there is no number at all. *)
Theorem C88_name : forall o, trimmed o -> (p_slot o <> None -> p_sep o <> None) ->
  (forall n, numbered o n -> number o = Gives n /\ name o = Gives (p_prefix o ++ n ++ tail o)) /\
  ((forall n, ~ numbered o n) -> number_list o = [None; None; None] -> number o = Exits 99 /\ name o = Exits 99) /\
  ((forall n, ~ numbered o n) -> number_list o <> [None; None; None] -> number o = Raises ValueError /\ name o = Raises ValueError).
Proof.
  intros o T S. split; [|split].
  - intros n N. assert (E : number o = Gives n).
    { unfold number, sep_text. destruct N as [p A B C|k s p K A B C|k s c p K A B C]; rewrite A, B, C; try rewrite K; reflexivity. }
    split; [exact E|]. unfold name. rewrite E, (class_trimmed o T). unfold tail, shown. destruct (p_sub o), (p_chan o), (p_class o); cbn; rewrite <- ?app_assoc, ?app_nil_r; cbn; rewrite <- ?app_assoc; reflexivity.
  - intros _ E. unfold number_list in E. injection E as A B C. unfold name, number. rewrite A, B, C. auto.
  - intros N E. assert (R : number o = Raises ValueError).
    { unfold number. unfold number_list in E. destruct (p_slot o) as [s|] eqn:A, (p_card o) as [c|] eqn:B, (p_port o) as [p|] eqn:C; try reflexivity.
      - destruct (p_sep o) as [k|] eqn:K; [|destruct S; congruence]. destruct (N _ (N_card o k s c p K A B C)).
      - destruct (p_sep o) as [k|] eqn:K; [|destruct S; congruence]. destruct (N _ (N_slot o k s p K A B C)).
      - destruct (N _ (N_port o p A B C)).
      - congruence. }
    split; [exact R|]. unfold name. now rewrite R.
Qed.
Print Assumptions C88_name.

(** [repr(o)] shows the name in angle brackets, and fails as the name does. *)
Theorem C88_repr : forall o, trimmed o -> (p_slot o <> None -> p_sep o <> None) ->
  (forall n, numbered o n -> repr o = Gives (lit "<CiscoIOSInterface " ++ p_prefix o ++ n ++ tail o ++ lit ">")) /\
  ((forall n, ~ numbered o n) -> repr o = Exits 99 \/ repr o = Raises ValueError).
Proof.
  intros o T S. destruct (C88_name o T S) as (A & B & C). unfold repr. split.
  - intros n N. destruct (A n N) as [_ ->]. now rewrite <- !app_assoc.
  - intros N. assert (D : {number_list o = [None; None; None]} + {number_list o <> [None; None; None]}) by (repeat (decide equality)).
    destruct D as [D|D]; [destruct (B N D) as [_ ->]; now left|destruct (C N D) as [_ ->]; now right].
Qed.
Print Assumptions C88_repr.

(** The numbers with the class are what follows the prefix in the name, if the interface
    has no channel without a subinterface and no subinterface without a card. *)
Theorem C88_numbers : forall o t, trimmed o ->
  (slot_card_port_subinterface_channel o = Ok t <->
   exists n, numbered o n /\ t = n ++ tail o /\ (p_chan o <> None -> p_sub o <> None) /\ (p_sub o <> None -> p_card o <> None)).
Proof.
  intros o t T.
  assert (C : match interface_class o with None => [] | Some w => " " :: strip w end = shown (p_class o) (fun w => " " :: w)).
  { rewrite (class_trimmed o T). destruct (p_class o) as [w|] eqn:E; [|reflexivity]. destruct T as [_ T]. cbn. now rewrite (T w E). }
  split.
  - unfold slot_card_port_subinterface_channel. rewrite C. unfold tail. clear C.
    destruct (p_slot o) as [s|] eqn:S, (p_card o) as [c|] eqn:D, (p_port o) as [p|] eqn:P, (p_sep o) as [k|] eqn:K, (p_sub o) as [u|] eqn:U, (p_chan o) as [h|] eqn:H;
      intros E; try discriminate E; injection E as <-;
      (eexists; split; [first [eapply N_card; eassumption|eapply N_slot; eassumption|eapply N_port; eassumption]|]);
      (split; [cbn [shown]; rewrite <- ?app_assoc; cbn [app]; rewrite <- ?app_assoc; reflexivity|split; congruence]).
  - intros (n & N & -> & A & B). unfold slot_card_port_subinterface_channel. rewrite C. unfold tail. clear C.
    destruct N as [p S D P|k s p K S D P|k s c p K S D P]; rewrite S, D, P, ?K.
    + destruct (p_sub o) as [u|] eqn:U; [exfalso; apply B; congruence|]. destruct (p_chan o) as [h|] eqn:H; [exfalso; apply A; congruence|]. now destruct (p_sep o).
    + destruct (p_sub o) as [u|] eqn:U; [exfalso; apply B; congruence|]. destruct (p_chan o) as [h|] eqn:H; [exfalso; apply A; congruence|]. cbn [shown app]. now rewrite <- !app_assoc.
    + destruct (p_sub o) as [u|] eqn:U, (p_chan o) as [h|] eqn:H; try (exfalso; apply A; congruence);
      cbn [shown]; rewrite <- ?app_assoc; cbn [app]; rewrite <- ?app_assoc; reflexivity.
Qed.
Print Assumptions C88_numbers.

(** ** Equality and dictionaries *)

Lemma opt_eqb_Z (x y : option Z) : opt_eqb Z.eqb x y = true <-> x = y.
Proof. destruct x, y; cbn; rewrite ?Z.eqb_eq; split; congruence. Qed.
Lemma opt_eqb_str (x y : option str) : opt_eqb str_eqb x y = true <-> x = y.
Proof. destruct x, y; cbn; rewrite ?str_eqb_eq; split; congruence. Qed.

(** Two interfaces are equal exactly if all their attributes but the separator are. *)
Theorem C88_equal : forall a b, trimmed a -> trimmed b ->
  (equal a b = true <-> forall f, plain f -> f <> FSep -> read a f = read b f).
Proof.
  intros a b Ta Tb. unfold equal, sort_list. cbn [fst snd all_eqb]. rewrite !andb_true_iff, !opt_eqb_Z, opt_eqb_str, str_eqb_eq. split.
  - intros (E & (E1 & E2 & E3 & E4 & E5 & _) & E6) [] [P P'] D; cbn; try congruence. unfold interface_class. now rewrite E6.
  - intros H.
    assert (In : forall x y, of_number x = of_number y -> x = y) by (intros [] []; cbn; congruence).
    assert (It : forall x y, of_text x = of_text y -> x = y) by (intros [] []; cbn; congruence).
    assert (Pl : forall f, f <> FNumber -> f <> FSort -> plain f) by (unfold plain; auto).
    assert (Q : p_prefix a = p_prefix b). { assert (X := H FPrefix ltac:(apply Pl; discriminate) ltac:(discriminate)). cbn in X. congruence. }
    repeat split; try exact Q.
    + apply In, (H FSlot); [apply Pl|]; discriminate.
    + apply In, (H FCard); [apply Pl|]; discriminate.
    + apply In, (H FPort); [apply Pl|]; discriminate.
    + apply In, (H FSub); [apply Pl|]; discriminate.
    + apply In, (H FChan); [apply Pl|]; discriminate.
    + rewrite <- (class_trimmed a Ta), <- (class_trimmed b Tb). apply It, (H FClass); [apply Pl|]; discriminate.
Qed.
Print Assumptions C88_equal.

(** [from_dict(x.as_dict())] is x, whatever was assigned to x. *)
Theorem C88_from_dict : forall x, trimmed x -> from_dict (as_dict x) = Ok x.
Proof.
  intros x T. pose proof (class_trimmed x T) as C. destruct T as [T _]. destruct x as [q sep slot card port sub chan cl].
  unfold from_dict, as_dict, read. rewrite C. unfold interface_class in C. cbn [p_prefix p_sep p_slot p_card p_port p_sub p_chan p_class] in *.
  assert (Cl : forall o : parts, set_class o (of_text cl) = Ok {| p_prefix := p_prefix o; p_sep := p_sep o; p_slot := p_slot o; p_card := p_card o; p_port := p_port o;
          p_sub := p_sub o; p_chan := p_chan o; p_class := cl |}).
  { intros o. destruct cl as [w|]; [|reflexivity]. cbn in C. injection C as C. cbn. now rewrite C. }
  assert (Nm : forall n, number_of_value (of_number n) = Ok n) by (now intros []).
  unfold set_slot, set_card, set_port, set_sub, set_chan. rewrite !Nm. cbn [set_prefix bind]. rewrite T.
  destruct sep; cbn [set_sep of_text ethernet1 p_prefix p_sep p_slot p_card p_port p_sub p_chan p_class is_none negb orb bind]; now rewrite Cl.
Qed.
Print Assumptions C88_from_dict.

(** A fresh object has the name the constructor's model gives it. *)
Theorem C88_fresh : forall i, trimmed (fresh i) -> match render i with Ok t => name (fresh i) = Gives t | Err e => name (fresh i) = Raises e end.
Proof.
  intros i T. unfold name. rewrite (class_trimmed _ T). unfold render, number, sep_text, IntfModel.number, IntfModel.sep_text. destruct i as [q sep slot card port sub chan cl].
  cbn [fresh p_prefix p_sep p_slot p_card p_port p_sub p_chan p_class i_prefix i_sep i_slot i_card i_port i_sub i_chan i_class].
  destruct slot, card, sub, chan; reflexivity.
Qed.
Print Assumptions C88_fresh.

(** ** Examples *)

Definition gig : parts :=
  {| p_prefix := lit "GigabitEthernet"; p_sep := Some (lit "/"); p_slot := Some 0; p_card := None; p_port := Some 1; p_sub := Some 100; p_chan := None; p_class := None |}.
Lemma gig_trimmed : trimmed gig.
Proof. split; [reflexivity|discriminate]. Qed.

(** "GigabitEthernet0/1.100" becomes "Serial0/2/12.100:7 point-to-point" by assignments, two of which fail. *)
Example C88_ex :
  intf_of_name (lit "GigabitEthernet0/1.100") = Ok {| i_prefix := lit "GigabitEthernet"; i_sep := Some (lit "/"); i_slot := Some 0; i_card := None; i_port := 1; i_sub := Some 100; i_chan := None; i_class := None |} /\
  name gig = Gives (lit "GigabitEthernet0/1.100") /\
  let o := assigns gig [(FPrefix, GText (lit " Serial ")); (FCard, GInt 2); (FPort, GText (lit "9")); (FPort, GText (lit "x")); (FSep, GNone);
                        (FPort, GText (lit " 12")); (FChan, GInt 7); (FClass, GText (lit " point-to-point"))] in
  name o = Gives (lit "Serial0/2/12.100:7 point-to-point") /\ slot_card_port_subinterface_channel o = Ok (lit "0/2/12.100:7 point-to-point") /\
  read o FPort = GInt 12 /\ repr o = Gives (lit "<CiscoIOSInterface Serial0/2/12.100:7 point-to-point>").
Proof. repeat split; vm_compute; reflexivity. Qed.
Example C88_ex_name : numbered gig (lit "0/1") /\ tail gig = lit ".100" /\ (p_slot gig <> None -> p_sep gig <> None).
Proof. split; [exact (N_slot gig (lit "/") 0 1 eq_refl eq_refl eq_refl eq_refl)|]. split; [reflexivity|discriminate]. Qed.
Example C88_ex_takes : takes FPort (GText (lit " 12")) (GInt 12) /\ (forall w, ~ takes FPort (GText (lit "x")) w) /\ (forall w, ~ takes FPrefix GNone w).
Proof.
  split; [apply T_text; [unfold numeric; tauto|reflexivity]|]. split; intros w H; inversion H; subst; fields.
Qed.

(** ** What does not hold *)

(** The numbers of an ordinary subinterface have no text, though the interface has a name. *)
Theorem C88_numbers_refuted : ~ (forall o t, name o = Gives (p_prefix o ++ t) -> slot_card_port_subinterface_channel o = Ok t).
Proof. intros H. specialize (H gig (lit "0/1.100") ltac:(vm_compute; reflexivity)). vm_compute in H. discriminate H. Qed.
Print Assumptions C88_numbers_refuted.

(** [number] and [sort_list] accept values and keep none. *)
Theorem C88_setters_refuted : forall o v, assign o FNumber v = Ok o /\ assign o FSort GList = Ok o.
Proof. intros o v. split; reflexivity. Qed.
Print Assumptions C88_setters_refuted.

(** A slot given to an interface that had none puts the word "None" in its name. *)
Theorem C88_slot_refuted : forall i s, i_sep i = None -> i_slot i = None -> i_card i = None ->
  number (assigns (fresh i) [(FSlot, GInt s)]) = Gives (show_Z s ++ lit "None" ++ show_Z (i_port i)).
Proof. intros [q sep slot card port sub chan cl] s E1 E2 E3. cbn in *. subst. reflexivity. Qed.
Print Assumptions C88_slot_refuted.
Example C88_slot_ex : name (assigns ethernet1 [(FSlot, GInt 3)]) = Gives (lit "Ethernet3None1").
Proof. vm_compute. reflexivity. Qed.

(** Without numbers, asking for the name ends the interpreter. *)
Theorem C88_exit_refuted : name (assigns gig [(FSlot, GNone); (FPort, GNone)]) = Exits 99.
Proof. vm_compute. reflexivity. Qed.
Print Assumptions C88_exit_refuted.

(** Interfaces with different names can be equal. *)
Theorem C88_equal_refuted : exists a b, trimmed a /\ trimmed b /\ equal a b = true /\ name a <> name b.
Proof.
  exists gig, (assigns gig [(FSep, GText (lit "-"))]). split; [exact gig_trimmed|]. split; [apply C88_trimmed, gig_trimmed|].
  split; [vm_compute; reflexivity|]. vm_compute. intros H. discriminate H.
Qed.
Print Assumptions C88_equal_refuted.
