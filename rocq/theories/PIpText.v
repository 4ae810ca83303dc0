(** Properties of the text form of IPv4 objects. *)
From Coq Require Import Ascii String Arith NArith ZArith Bool List Lia.
From Verif Require Import PyStr PyStrFacts PyBase PwModel IpModel IpSpec IpFacts.
Import ListNotations.
Local Open Scope char_scope.
Local Open Scope Z_scope.

(** ** Proofs *)

Lemma take_digits_app d r : forallb is_digit d = true ->
  (match r with [] => True | c :: _ => is_digit c = false end) -> take_digits (d ++ r) = (d, r).
Proof.
  intros Hd Hr. induction d as [|c d IH]; cbn [app].
  - destruct r as [|c r]; [reflexivity|]. cbn [take_digits]. now rewrite Hr.
  - cbn [forallb] in Hd. apply andb_true_iff in Hd as [H1 H2]. cbn [take_digits]. now rewrite H1, IH.
Qed.

Lemma show_Z_digits z : 0 <= z -> forallb is_digit (show_Z z) = true.
Proof. intros H. destruct z; try lia; [reflexivity|apply show_N_digits]. Qed.
Lemma show_Z_nonempty z : show_Z z <> [].
Proof. destruct z; cbn [show_Z]; try discriminate. apply show_N_nonempty. Qed.
Lemma show_Z_all_digits z : 0 <= z -> all_digits (show_Z z) = true.
Proof. intros H. destruct z; try lia; [reflexivity|apply show_N_all_digits]. Qed.

Lemma take_digits_dot_show v r : 0 <= v -> take_digits_dot (show_Z v ++ "." :: r) = Some (show_Z v ++ ["."], r).
Proof.
  intros H. unfold take_digits_dot. rewrite take_digits_app by (try reflexivity; now apply show_Z_digits).
  destruct (show_Z v) eqn:E; [now apply show_Z_nonempty in E|]. reflexivity.
Qed.

Lemma take_quad_dotted n r : (match r with [] => True | c :: _ => is_digit c = false end) ->
  take_quad (dotted n ++ r) = Some (dotted n, r).
Proof.
  intros Hr. unfold dotted. cbn [map join].
  assert (P : forall m, 0 <= m mod 256) by (intros m; apply Z.mod_pos_bound; lia).
  generalize (n / 16777216 mod 256) (P (n / 16777216)) (n / 65536 mod 256) (P (n / 65536)) (n / 256 mod 256) (P (n / 256)) (n mod 256) (P n).
  intros a Ha b Hb c Hc d Hd. unfold take_quad. rewrite <- !app_assoc. cbn [app].
  rewrite take_digits_dot_show by assumption. rewrite <- ?app_assoc; cbn [app]. rewrite take_digits_dot_show by assumption.
  rewrite <- ?app_assoc; cbn [app]. rewrite take_digits_dot_show by assumption.
  rewrite take_digits_app by (try assumption; now apply show_Z_digits).
  destruct (show_Z d) eqn:E; [now apply show_Z_nonempty in E|]. rewrite <- E. rewrite <- !app_assoc. reflexivity.
Qed.

Lemma dotted_head n : exists c t, dotted n = c :: t /\ is_digit c = true.
Proof.
  unfold dotted. cbn [map join]. set (v := n / 16777216 mod 256).
  assert (0 <= v) by (apply Z.mod_pos_bound; lia). pose proof (show_Z_digits v ltac:(assumption)) as D.
  destruct (show_Z v) as [|c t] eqn:E; [now apply show_Z_nonempty in E|]. cbn [forallb] in D. apply andb_true_iff in D as [D _].
  exists c. eexists. split; [reflexivity|exact D].
Qed.

Lemma last_digit d x : forallb is_digit d = true -> d <> [] -> exists p c, x ++ d = p ++ [c] /\ is_digit c = true.
Proof.
  intros D N. destruct (exists_last N) as (p & c & ->). rewrite forallb_app in D. apply andb_true_iff in D as [_ D].
  cbn [forallb] in D. rewrite andb_true_r in D. exists (x ++ p), c. now rewrite app_assoc.
Qed.

Lemma dotted_last n : exists p c, dotted n = p ++ [c] /\ is_digit c = true.
Proof.
  unfold dotted. cbn [map join]. rewrite !app_assoc. apply last_digit; [|apply show_Z_nonempty].
  apply show_Z_digits. apply Z.mod_pos_bound. lia.
Qed.

Lemma strip_core l r s p c a t : forallb is_space l = true -> forallb is_space r = true ->
  s = p ++ [c] -> s = a :: t -> is_space c = false -> is_space a = false -> strip (l ++ s ++ r) = s.
Proof.
  intros Hl Hr E1 E2 Hc Ha. unfold strip, rstrip. rewrite !rev_app_distr, <- app_assoc.
  rewrite lstrip_app_space by now rewrite forallb_rev.
  rewrite E1 at 1. rewrite rev_app_distr. cbn [rev app]. rewrite (lstrip_not_space (c :: rev p ++ rev l)) by exact Hc.
  cbn [rev]. rewrite rev_app_distr, !rev_involutive, <- app_assoc, <- E1. rewrite lstrip_app_space by exact Hl.
  rewrite E2. apply lstrip_not_space. exact Ha.
Qed.

Lemma digit_space c : is_digit c = true -> is_space c = false.
Proof. apply digit_not_space. Qed.

(** Reading address text followed by mask text. *)
Lemma of_str_mask l r ip sep m p :
  forallb is_space l = true -> forallb is_space r = true -> 0 <= ip < 2 ^ 32 -> 0 <= p <= 32 ->
  (exists q c, m = q ++ [c] /\ is_digit c = true) -> has_char "/" m = false ->
  make_netmask m = Ok p ->
  split_v4 (dotted ip ++ sep ++ m) = Some (dotted ip, m) ->
  ip4_of_str (l ++ (dotted ip ++ sep ++ m) ++ r) = Ok (obj 32 ip p).
Proof.
  intros Hl Hr Hip Hp (q & c & -> & Hc) Hs Hm Hsp.
  unfold ip4_of_str. destruct (dotted_head ip) as (a & t & Ed & Ha).
  rewrite (strip_core l r (dotted ip ++ sep ++ q ++ [c]) (dotted ip ++ sep ++ q) c a (t ++ sep ++ q ++ [c]));
    try assumption; try (now apply digit_space).
  2:{ now rewrite <- !app_assoc. }
  2:{ now rewrite Ed. }
  rewrite Hsp. rewrite addr4_dotted by exact Hip. cbn [bind].
  rewrite network4_mask by assumption. rewrite Hm. cbn [bind snd]. rewrite network4_text by assumption. cbn [bind fst snd].
  rewrite obj_net by (split; assumption). reflexivity.
Qed.

Lemma show_last p : 0 <= p -> exists q c, show_Z p = q ++ [c] /\ is_digit c = true.
Proof. intros H. apply (last_digit (show_Z p) []); [now apply show_Z_digits|apply show_Z_nonempty]. Qed.

Lemma take_quad_digits d : forallb is_digit d = true -> take_quad d = None.
Proof.
  intros H. pose proof (take_digits_app d [] H I) as E. rewrite app_nil_r in E.
  unfold take_quad, take_digits_dot. rewrite E. now destruct d.
Qed.

Lemma dotted_nosp n c : In c (dotted n) -> is_digit c = true \/ c = ".".
Proof.
  unfold dotted. cbn [map join].
  assert (P : forall m, In c (show_Z (m mod 256)) -> is_digit c = true).
  { intros m Hi. pose proof (show_Z_digits (m mod 256) ltac:(apply Z.mod_pos_bound; lia)) as D. rewrite forallb_forall in D. now apply D. }
  rewrite !in_app_iff. cbn [In].
  intros [H|[[<-|[]]|[H|[[<-|[]]|[H|[[<-|[]]|H]]]]]]; auto; left; eapply P; exact H.
Qed.

Lemma dotted_not_digits n : all_digits (dotted n) = false.
Proof.
  unfold all_digits. destruct (dotted n) eqn:E; [destruct (dotted_head n) as (? & ? & X & _); congruence|]. rewrite <- E.
  apply not_true_iff_false. intros H. rewrite forallb_forall in H.
  assert (D : In "." (dotted n)).
  { unfold dotted. cbn [map join]. apply in_or_app. right. left. reflexivity. }
  specialize (H _ D). discriminate.
Qed.

(** ** Specification: dotted masks *)
Definition mask_of (p : Z) : Z := 2 ^ 32 - 2 ^ (32 - p).
Definition wildcard_of (p : Z) : Z := 2 ^ (32 - p) - 1.

Lemma make_netmask_dotted n : 0 <= n < 2 ^ 32 -> make_netmask (dotted n) =
  match prefix_from_int n with Some p => Ok p | None =>
    match prefix_from_int (Z.lxor n (all_ones 32)) with Some p => Ok p | None => Err ValueError end end.
Proof. intros H. unfold make_netmask. now rewrite dotted_not_digits, addr4_dotted. Qed.

Lemma mask_prefix p : 0 <= p <= 32 -> prefix_from_int (mask_of p) = Some p.
Proof.
  intros H.
  assert (A : (match prefix_from_int (mask_of p) with Some x => x =? p | None => false end) = true).
  { apply (forallb_Z_range (fun p => match prefix_from_int (mask_of p) with Some x => x =? p | None => false end) 33); [vm_compute; reflexivity|lia]. }
  destruct (prefix_from_int (mask_of p)); [|discriminate]. apply Z.eqb_eq in A. now subst.
Qed.

Lemma wildcard_prefix p : 1 <= p <= 31 ->
  prefix_from_int (wildcard_of p) = None /\ prefix_from_int (Z.lxor (wildcard_of p) (all_ones 32)) = Some p.
Proof.
  intros H.
  set (f := fun p => (p =? 0) || (match prefix_from_int (wildcard_of p), prefix_from_int (Z.lxor (wildcard_of p) (all_ones 32)) with
    None, Some x => x =? p | _, _ => false end)).
  assert (A : f p = true) by (apply (forallb_Z_range f 32); [vm_compute; reflexivity|lia]).
  unfold f in A. replace (p =? 0) with false in A by lia. cbn [orb] in A.
  destruct (prefix_from_int (wildcard_of p)); [discriminate|]. destruct (prefix_from_int _); [|discriminate].
  apply Z.eqb_eq in A. now subst.
Qed.

Lemma mask_range p : 0 <= p <= 32 -> 0 <= mask_of p < 2 ^ 32 /\ 0 <= wildcard_of p < 2 ^ 32.
Proof.
  intros H. unfold mask_of, wildcard_of. pose proof (pow_pos 32 p H).
  assert (2 ^ (32 - p) <= 2 ^ 32) by (apply Z.pow_le_mono_r; lia). lia.
Qed.

(** ** C49: text and object *)

(** The CIDR text of an object, with any surrounding whitespace, reads as that object. *)
Theorem C49_cidr_roundtrip : forall l r ip p, forallb is_space l = true -> forallb is_space r = true -> valid 32 ip p ->
  ip4_of_str (l ++ as_cidr_addr (obj 32 ip p) ++ r) = Ok (obj 32 ip p).
Proof.
  intros l r ip p Hl Hr [H1 H2]. unfold as_cidr_addr. cbn [ip_int ip_plen obj].
  apply (of_str_mask l r ip ["/"] (show_Z p) p); try assumption.
  - apply show_last. lia.
  - apply show_Z_nodigit_char; [lia|reflexivity].
  - now apply make_netmask_show.
  - unfold split_v4. rewrite take_quad_dotted by reflexivity. cbn [app]. rewrite Ascii.eqb_refl.
    rewrite take_quad_digits by (apply show_Z_digits; lia). now rewrite show_Z_all_digits by lia.
Qed.
Print Assumptions C49_cidr_roundtrip.

(** An address without mask is a host. *)
Theorem C49_nomask : forall l r ip, forallb is_space l = true -> forallb is_space r = true -> 0 <= ip < 2 ^ 32 ->
  ip4_of_str (l ++ dotted ip ++ r) = Ok (obj 32 ip 32).
Proof.
  intros l r ip Hl Hr Hip. unfold ip4_of_str.
  destruct (dotted_head ip) as (a & t & Ed & Ha), (dotted_last ip) as (p & c & Ep & Hc).
  rewrite (strip_core l r (dotted ip) p c a t) by (assumption || now apply digit_space).
  pose proof (take_quad_dotted ip [] I) as Q. rewrite app_nil_r in Q.
  unfold split_v4. rewrite Q, addr4_dotted by exact Hip. cbn [bind]. change (lit "32") with (show_Z 32). rewrite network4_text by lia. cbn [bind snd].
  rewrite network4_text by lia. cbn [bind fst snd]. rewrite obj_net by (split; lia). reflexivity.
Qed.
Print Assumptions C49_nomask.

(** Text of the forms "a.b.c.d m.m.m.m" (any whitespace) and "a.b.c.d/m.m.m.m". *)
Definition separator (sep : str) : Prop := sep = ["/"] \/ (sep <> [] /\ forallb is_space sep = true).

Lemma split_sep ip sep n : separator sep -> split_v4 (dotted ip ++ sep ++ dotted n) = Some (dotted ip, dotted n).
Proof.
  intros S.
  assert (Q : take_quad (dotted n) = Some (dotted n, [])) by (rewrite <- (app_nil_r (dotted n)) at 1; now apply take_quad_dotted).
  unfold split_v4. destruct S as [->|[Hne Hs]].
  - rewrite take_quad_dotted by reflexivity. cbn [app]. rewrite Ascii.eqb_refl. now rewrite Q.
  - destruct sep as [|c sep]; [contradiction|]. cbn [forallb] in Hs. apply andb_true_iff in Hs as [Hc Hs].
    rewrite take_quad_dotted.
    2:{ cbn [app]. destruct (is_digit c) eqn:E; [|reflexivity]. apply digit_not_space in E. congruence. }
    cbn [app]. destruct (Ascii.eqb_spec c "/") as [->|]; [discriminate|]. rewrite Hc.
    rewrite lstrip_app_space by exact Hs. destruct (dotted_head n) as (a & t & E & Ha).
    rewrite lstrip_not_space by (rewrite E; now apply digit_not_space). now rewrite Q.
Qed.

Lemma dotted_last' n : exists q c, dotted n = q ++ [c] /\ is_digit c = true.
Proof. apply dotted_last. Qed.

Theorem C49_netmask : forall l r sep ip p, forallb is_space l = true -> forallb is_space r = true -> separator sep ->
  valid 32 ip p -> ip4_of_str (l ++ (dotted ip ++ sep ++ dotted (mask_of p)) ++ r) = Ok (obj 32 ip p).
Proof.
  intros l r sep ip p Hl Hr Hs [H1 H2]. pose proof (mask_range p H2) as [M _].
  apply of_str_mask; try assumption; [apply dotted_last|apply dotted_noslash| |now apply split_sep].
  rewrite make_netmask_dotted by exact M. now rewrite mask_prefix.
Qed.
Print Assumptions C49_netmask.

(** A wildcard mask is accepted too and means the same as the netmask. *)
Theorem C49_wildcard : forall l r sep ip p, forallb is_space l = true -> forallb is_space r = true -> separator sep ->
  valid 32 ip p -> 1 <= p <= 31 ->
  ip4_of_str (l ++ (dotted ip ++ sep ++ dotted (wildcard_of p)) ++ r) = Ok (obj 32 ip p).
Proof.
  intros l r sep ip p Hl Hr Hs [H1 H2] H3. pose proof (mask_range p H2) as [_ M].
  apply of_str_mask; try assumption; [apply dotted_last|apply dotted_noslash| |now apply split_sep].
  rewrite make_netmask_dotted by exact M. destruct (wildcard_prefix p H3) as [-> ->]. reflexivity.
Qed.
Print Assumptions C49_wildcard.

(** Copying an object gives the same object. *)
Theorem C49_copy : forall ip p, valid 32 ip p -> ip4_of_obj (obj 32 ip p) = Ok (obj 32 ip p).
Proof.
  intros ip p H. unfold ip4_of_obj. rewrite cidr_net_obj by exact H. cbn [bind]. destruct H as [H1 H2].
  pose proof (first_range 32 ip p H2 H1). pose proof (pow_pos 32 p H2).
  rewrite network4_text by lia. cbn [bind fst snd]. rewrite net_of_div by lia.
  change (_ * _) with (first 32 (first 32 ip p) p). rewrite first_first by exact H2. reflexivity.
Qed.
Print Assumptions C49_copy.

(** *** Soundness: whatever is accepted starts with the dotted address it denotes *)

Lemma digit_cases c : is_digit c = true -> In c (lit "0123456789").
Proof.
  intros H. destruct c as [b0 b1 b2 b3 b4 b5 b6 b7].
  destruct b0, b1, b2, b3, b4, b5, b6, b7; try discriminate H; vm_compute; tauto.
Qed.

Lemma parse_octet_sound s v : parse_octet s = Some v -> s = show_Z v /\ 0 <= v < 256.
Proof.
  set (f := fun s => match parse_octet s with Some v => str_eqb s (show_Z v) && (0 <=? v) && (v <? 256) | None => true end).
  assert (A : forall a, In a (lit "0123456789") -> f [a] = true).
  { apply forallb_forall. vm_compute. reflexivity. }
  assert (B : forall a, In a (lit "0123456789") -> forall b, In b (lit "0123456789") -> f [a; b] = true).
  { assert (X : forallb (fun a => forallb (fun b => f [a; b]) (lit "0123456789")) (lit "0123456789") = true) by (vm_compute; reflexivity).
    intros a Ha b Hb. rewrite forallb_forall in X. specialize (X a Ha). rewrite forallb_forall in X. now apply X. }
  assert (C : forall a, In a (lit "0123456789") -> forall b, In b (lit "0123456789") -> forall c, In c (lit "0123456789") -> f [a; b; c] = true).
  { assert (X : forallb (fun a => forallb (fun b => forallb (fun c => f [a; b; c]) (lit "0123456789")) (lit "0123456789")) (lit "0123456789") = true) by (vm_compute; reflexivity).
    intros a Ha b Hb c Hc. rewrite forallb_forall in X. specialize (X a Ha). rewrite forallb_forall in X. specialize (X b Hb).
    rewrite forallb_forall in X. now apply X. }
  intros E.
  assert (D : forallb is_digit s = true /\ (length s <= 3)%nat /\ s <> []).
  { unfold parse_octet in E. destruct s as [|c s]; [discriminate|]. destruct (forallb is_digit (c :: s)); [|discriminate].
    cbn [negb] in E. destruct (Nat.ltb_spec 3 (length (c :: s))) as [L|L]; [discriminate|].
    split; [reflexivity|]. split; [exact L|discriminate]. }
  destruct D as (D & L & N).
  assert (F : f s = true).
  { rewrite forallb_forall in D. destruct s as [|a [|b [|c [|d s]]]]; cbn [length] in L; try lia; [contradiction| | |].
    - apply A, digit_cases, D. now left.
    - apply B; apply digit_cases, D; cbn [In]; tauto.
    - apply C; apply digit_cases, D; cbn [In]; tauto. }
  unfold f in F. rewrite E in F. apply andb_true_iff in F as [F F3]. apply andb_true_iff in F as [F1 F2].
  apply str_eqb_eq in F1. split; [exact F1|]. apply Z.leb_le in F2. apply Z.ltb_lt in F3. lia.
Qed.

Lemma octets_of a b c d : 0 <= a < 256 -> 0 <= b < 256 -> 0 <= c < 256 -> 0 <= d < 256 ->
  let n := ((a * 256 + b) * 256 + c) * 256 + d in
  0 <= n < 2 ^ 32 /\ n / 16777216 mod 256 = a /\ n / 65536 mod 256 = b /\ n / 256 mod 256 = c /\ n mod 256 = d.
Proof. intros Ha Hb Hc Hd n. change (2 ^ 32) with 4294967296. subst n. split; [lia|].
  set (n := ((a * 256 + b) * 256 + c) * 256 + d).
  assert (E1 : n / 256 = (a * 256 + b) * 256 + c) by (symmetry; apply Z.div_unique with d; subst n; lia).
  assert (E2 : n / 65536 = a * 256 + b) by (symmetry; apply Z.div_unique with (c * 256 + d); subst n; lia).
  assert (E3 : n / 16777216 = a) by (symmetry; apply Z.div_unique with (b * 65536 + c * 256 + d); subst n; lia).
  rewrite E1, E2, E3. split; [now apply Z.mod_small|].
  repeat split; symmetry; [apply Z.mod_unique with a|apply Z.mod_unique with (a * 256 + b)|apply Z.mod_unique with ((a * 256 + b) * 256 + c)]; subst n; lia.
Qed.

Lemma addr4_sound s n : addr4 s = Ok n -> s = dotted n /\ 0 <= n < 2 ^ 32.
Proof.
  unfold addr4. intros E. pose proof (join_split_on "." s) as J.
  destruct (split_on "." s) as [|a [|b [|c [|d [|e l]]]]]; try discriminate.
  destruct (parse_octet a) as [a'|] eqn:Ea; [|discriminate]. destruct (parse_octet b) as [b'|] eqn:Eb; [|discriminate].
  destruct (parse_octet c) as [c'|] eqn:Ec; [|discriminate]. destruct (parse_octet d) as [d'|] eqn:Edd; [|discriminate].
  injection E as <-. apply parse_octet_sound in Ea as [-> Ha], Eb as [-> Hb], Ec as [-> Hc], Edd as [-> Hd].
  destruct (octets_of a' b' c' d' Ha Hb Hc Hd) as (R & E1 & E2 & E3 & E4).
  split; [|exact R]. unfold dotted. rewrite E1, E2, E3, E4. now rewrite <- J.
Qed.

Lemma right_zeros_range k n : 0 <= right_zeros k n <= Z.of_nat k.
Proof.
  revert n; induction k as [|k IH]; intros n; cbn [right_zeros]; [lia|].
  destruct (Z.odd n); [lia|]. specialize (IH (Z.div2 n)). lia.
Qed.

Lemma make_netmask_range m p : make_netmask m = Ok p -> 0 <= p <= 32.
Proof.
  assert (P : forall n q, prefix_from_int n = Some q -> 0 <= q <= 32).
  { intros n q. unfold prefix_from_int. pose proof (right_zeros_range 32 n) as R. revert R. generalize (right_zeros 32 n). intros z R. destruct (_ =? _); [|discriminate].
    intros E. assert (q = 32 - z) by congruence. change (Z.of_nat 32) with 32 in R. lia. }
  unfold make_netmask. destruct (all_digits m).
  - destruct (Z.leb_spec (Z.of_N (digits_val m)) 32).
    + intros [= <-]. lia.
    + destruct (addr4 m) as [n|]; [|discriminate]. destruct (prefix_from_int n) eqn:E; [intros [= <-]; eauto|].
      destruct (prefix_from_int (Z.lxor n _)) eqn:E2; [intros [= <-]; eauto|discriminate].
  - destruct (addr4 m) as [n|]; [|discriminate]. destruct (prefix_from_int n) eqn:E; [intros [= <-]; eauto|].
    destruct (prefix_from_int (Z.lxor n _)) eqn:E2; [intros [= <-]; eauto|discriminate].
Qed.

Lemma take_digits_eq s : s = fst (take_digits s) ++ snd (take_digits s).
Proof.
  induction s as [|c s IH]; [reflexivity|]. cbn [take_digits]. destruct (is_digit c); [|reflexivity].
  destruct (take_digits s) as [d r]. cbn [fst snd app] in *. now rewrite <- IH.
Qed.

Lemma take_digits_dot_eq s d r : take_digits_dot s = Some (d, r) -> s = d ++ r.
Proof.
  unfold take_digits_dot. pose proof (take_digits_eq s) as E. destruct (take_digits s) as [[|x d'] [|c r']]; try discriminate.
  cbn [fst snd] in E. destruct (Ascii.eqb_spec c "."); [|discriminate]. intros [= <- <-]. subst c. rewrite E. cbn [app]. now rewrite <- app_assoc.
Qed.

Lemma take_quad_eq s q r : take_quad s = Some (q, r) -> s = q ++ r.
Proof.
  unfold take_quad. destruct (take_digits_dot s) as [[a s1]|] eqn:E1; [|discriminate].
  destruct (take_digits_dot s1) as [[b s2]|] eqn:E2; [|discriminate]. destruct (take_digits_dot s2) as [[c s3]|] eqn:E3; [|discriminate].
  apply take_digits_dot_eq in E1, E2, E3. pose proof (take_digits_eq s3) as E4. destruct (take_digits s3) as [[|x d] s4]; [discriminate|].
  cbn [fst snd] in E4. intros [= <- <-]. subst. now rewrite !app_assoc_reverse.
Qed.

(** Everything [IPv4Obj] accepts is a dotted address, alone or followed by "/" or
    whitespace and a mask; leading zeros and octets above 255 are refused, and
    the network is that of the address. *)
Theorem C49_accepted : forall s o, ip4_of_str s = Ok o ->
  exists ip p rest, o = obj 32 ip p /\ valid 32 ip p /\ strip s = dotted ip ++ rest /\
    (rest = [] /\ p = 32 \/ exists c rest', rest = c :: rest' /\ (c = "/" \/ is_space c = true)).
Proof.
  intros s o. unfold ip4_of_str. destruct (split_v4 (strip s)) as [[a m]|] eqn:Es; [|discriminate].
  destruct (addr4 a) as [ip|] eqn:Ea; [|discriminate]. cbn [bind].
  destruct (addr4_sound a ip Ea) as [-> Hip].
  destruct (network4 (dotted ip ++ "/" :: m)) as [n|] eqn:En; [|discriminate]. cbn [bind].
  assert (Hn : 0 <= snd n <= 32 /\ (m = lit "32" -> snd n = 32)).
  { destruct (has_char "/" m) eqn:Hc.
    - unfold network4 in En. rewrite split_on_app in En by apply dotted_noslash.
      destruct (split_on "/" m) as [|m1 [|m2 l]] eqn:Em; [now apply split_on_nonnil in Em| |discriminate].
      assert (X : (1 < length (split_on "/" m))%nat) by now apply split_on_length.
      unfold str in *. rewrite Em in X. cbn [length] in X. lia.
    - rewrite network4_mask in En by assumption. destruct (make_netmask m) as [q|] eqn:Eq; [|discriminate].
      injection En as <-. cbn [snd]. split; [eapply make_netmask_range; exact Eq|]. intros ->. vm_compute in Eq. congruence. }
  destruct Hn as [Hn Hn32].
  rewrite network4_text by assumption. cbn [bind fst snd]. rewrite obj_net by (split; assumption). intros [= <-].
  exists ip, (snd n). unfold split_v4 in Es. destruct (take_quad (strip s)) as [[q rest]|] eqn:Eq; [|discriminate].
  apply take_quad_eq in Eq. exists rest. split; [reflexivity|]. split; [split; assumption|].
  destruct rest as [|c rest].
  - injection Es as Es1 Es2. subst q. split; [exact Eq|]. left. auto.
  - destruct (Ascii.eqb_spec c "/") as [->|].
    + assert (q = dotted ip).
      { destruct (take_quad rest) as [[x [|y z]]|]; [now injection Es|destruct (all_digits rest); [now injection Es|discriminate]
         |destruct (all_digits rest); [now injection Es|discriminate]]. }
      subst q. split; [exact Eq|]. right. exists "/", rest. auto.
    + destruct (is_space c) eqn:Ec; [|discriminate].
      assert (q = dotted ip) by (destruct (take_quad (lstrip rest)) as [[x [|y z]]|]; [now injection Es|discriminate|discriminate]).
      subst q. split; [exact Eq|]. right. exists c, rest. auto.
Qed.
Print Assumptions C49_accepted.

Example C49_ex :
  ip4_of_str (lit "  10.1.2.3 255.255.255.0 ") = Ok (obj 32 167838211 24) /\
  ip4_of_str (lit "10.1.2.3/0.0.0.255") = Ok (obj 32 167838211 24) /\
  ip4_of_str (lit "10.1.2.3/255.0.255.0") = Err ValueError /\
  ip4_of_str (lit "10.1.2.3 24") = Err AddressErr /\
  ip4_of_str (lit "10.01.2.3/24") = Err AddressErr.
Proof. vm_compute. repeat split; reflexivity. Qed.

(** ** C50: the zero-padded text sorts like the address *)

(** Python's text order: by the first differing character code. *)
Fixpoint text_compare (a b : str) : comparison :=
  match a, b with
  | [], [] => Eq
  | [], _ :: _ => Lt
  | _ :: _, [] => Gt
  | x :: a', y :: b' => match N.compare (code x) (code y) with Eq => text_compare a' b' | c => c end
  end.

Lemma text_compare_app a b x y : length a = length b ->
  text_compare (a ++ x) (b ++ y) = match text_compare a b with Eq => text_compare x y | c => c end.
Proof.
  revert b; induction a as [|c a IH]; intros [|d b] L; cbn [length] in L; try discriminate; [reflexivity|].
  cbn [app text_compare]. destruct (N.compare (code c) (code d)); [|reflexivity|reflexivity]. apply IH. lia.
Qed.

Lemma pad3_compare u v : 0 <= u < 256 -> 0 <= v < 256 ->
  text_compare (pad3 (show_Z u)) (pad3 (show_Z v)) = (u ?= v) /\ length (pad3 (show_Z u)) = 3%nat.
Proof.
  intros Hu Hv.
  set (l := map (fun i => (Z.of_nat i, pad3 (show_Z (Z.of_nat i)))) (seq 0 256)).
  assert (A : forallb (fun x => Nat.eqb (length (snd x)) 3 && forallb (fun y =>
    match text_compare (snd x) (snd y), fst x ?= fst y with Eq, Eq | Lt, Lt | Gt, Gt => true | _, _ => false end) l) l = true)
    by (vm_compute; reflexivity).
  assert (I : forall z, 0 <= z < 256 -> In (z, pad3 (show_Z z)) l).
  { intros z Hz. unfold l. apply in_map_iff. exists (Z.to_nat z). rewrite Z2Nat.id by lia. split; [reflexivity|]. apply in_seq. lia. }
  rewrite forallb_forall in A. specialize (A _ (I u Hu)). apply andb_true_iff in A as [A1 A2].
  rewrite forallb_forall in A2. specialize (A2 _ (I v Hv)). cbn [fst snd] in *. apply Nat.eqb_eq in A1. split; [|exact A1].
  destruct (text_compare _ _), (u ?= v); try discriminate A2; reflexivity.
Qed.

Lemma as_zeropadded_text ip p : as_zeropadded (obj 32 ip p) =
  pad3 (show_Z (ip / 16777216 mod 256)) ++ ["."] ++ pad3 (show_Z (ip / 65536 mod 256)) ++ ["."] ++
  pad3 (show_Z (ip / 256 mod 256)) ++ ["."] ++ pad3 (show_Z (ip mod 256)).
Proof.
  unfold as_zeropadded. cbn [ip_int obj]. rewrite split_dotted. cbn [map]. rewrite !py_int_show_Z. reflexivity.
Qed.

Lemma lex4 a b c d a' b' c' d' : 0 <= a < 256 -> 0 <= b < 256 -> 0 <= c < 256 -> 0 <= d < 256 ->
  0 <= a' < 256 -> 0 <= b' < 256 -> 0 <= c' < 256 -> 0 <= d' < 256 ->
  match a ?= a' with Eq => match b ?= b' with Eq => match c ?= c' with Eq => d ?= d' | x => x end | x => x end | x => x end =
  (((a * 256 + b) * 256 + c) * 256 + d ?= ((a' * 256 + b') * 256 + c') * 256 + d').
Proof.
  intros. symmetry.
  destruct (Z.compare_spec a a') as [E|E|E]; [subst a'|apply Z.compare_lt_iff; lia|apply Z.compare_gt_iff; lia].
  destruct (Z.compare_spec b b') as [E|E|E]; [subst b'|apply Z.compare_lt_iff; lia|apply Z.compare_gt_iff; lia].
  destruct (Z.compare_spec c c') as [E|E|E]; [subst c'|apply Z.compare_lt_iff; lia|apply Z.compare_gt_iff; lia].
  destruct (Z.compare_spec d d') as [E|E|E]; [subst d'; apply Z.compare_refl|apply Z.compare_lt_iff; lia|apply Z.compare_gt_iff; lia].
Qed.

Theorem C50_zeropadded_order : forall ip p jp q, valid 32 ip p -> valid 32 jp q ->
  text_compare (as_zeropadded (obj 32 ip p)) (as_zeropadded (obj 32 jp q)) = (ip ?= jp) /\
  length (as_zeropadded (obj 32 ip p)) = 15%nat.
Proof.
  intros ip p jp q [H _] [K _]. rewrite !as_zeropadded_text.
  assert (P : forall m, 0 <= m mod 256 < 256) by (intros m; apply Z.mod_pos_bound; lia).
  rewrite <- (octets_value ip H) at 5. rewrite <- (octets_value jp K) at 5.
  generalize (ip / 16777216 mod 256) (P (ip / 16777216)) (ip / 65536 mod 256) (P (ip / 65536)) (ip / 256 mod 256) (P (ip / 256)) (ip mod 256) (P ip)
   (jp / 16777216 mod 256) (P (jp / 16777216)) (jp / 65536 mod 256) (P (jp / 65536)) (jp / 256 mod 256) (P (jp / 256)) (jp mod 256) (P jp).
  intros a Ha b Hb c Hc d Hd a' Ha' b' Hb' c' Hc' d' Hd'.
  destruct (pad3_compare a a' Ha Ha') as [Ea La], (pad3_compare b b' Hb Hb') as [Eb Lb],
    (pad3_compare c c' Hc Hc') as [Ec Lc], (pad3_compare d d' Hd Hd') as [Ed Ld].
  assert (L' : forall z, 0 <= z < 256 -> length (pad3 (show_Z z)) = 3%nat) by (intros z Hz; now apply (pad3_compare z z)).
  split.
  - rewrite !text_compare_app by (reflexivity || (rewrite !L' by assumption; reflexivity)).
    change (text_compare ["."] ["."]) with Eq. cbn iota.
    rewrite Ea, Eb, Ec, Ed. now apply lex4.
  - rewrite !app_length, !L' by assumption. reflexivity.
Qed.
Print Assumptions C50_zeropadded_order.

Example C50_ex : as_zeropadded (obj 32 167838211 24) = lit "010.001.002.003".
Proof. vm_compute. reflexivity. Qed.
