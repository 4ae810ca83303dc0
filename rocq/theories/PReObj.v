(** C90: the object that keeps a regular expression and its last search. *)
From Coq Require Import Ascii String Arith ZArith Bool List Lia.
From Verif Require Import PyStr PyBase ReObjModel ReObjSpec.
Import ListNotations.

Section Facts.
Context {P V : Type}.
Variable compile : str -> Z -> option P.
Variable search : P -> str -> option found.
Notation obj := (@re_obj P V).
Notation calls := (re_calls compile search).
Notation run := (re_call compile search).

Lemma calls_app a b (o : obj) : calls (a ++ b) o = calls b (calls a o).
Proof. unfold re_calls. now rewrite fold_left_app. Qed.
Lemma not_assigns c h : none_of (assigns compile) (c :: h) -> ~ assigns compile c /\ none_of (assigns compile) h.
Proof. intros NN. split; [apply NN; now left|intros d I; apply NN; now right]. Qed.
Lemma not_searches c h : none_of searches (c :: h) -> ~ searches c /\ none_of searches h.
Proof. intros NN. split; [apply NN; now left|intros d I; apply NN; now right]. Qed.

Lemma call_groups c (o : obj) : o_groups (fst (run c o)) = o_groups o.
Proof.
  destruct c as [[r|]|a| | |]; cbn; try reflexivity; [now destruct (compile r 0%Z)|]. unfold re_s. destruct (o_attempted o); [reflexivity|]. now destruct a.
Qed.
Lemma calls_groups h : forall (o : obj), o_groups (calls h o) = o_groups o.
Proof. induction h as [|c h IH]; intros o; [reflexivity|]. change (calls (c :: h) o) with (calls h (fst (run c o))). rewrite IH. apply call_groups. Qed.
Lemma call_compiled c (o : obj) : ~ assigns compile c -> o_compiled (fst (run c o)) = o_compiled o.
Proof.
  intros NA. destruct c as [[r|]|a| | |]; cbn; try reflexivity.
  - destruct (compile r 0%Z) as [p|] eqn:E; [|reflexivity]. destruct NA. now exists r, p.
  - unfold re_s. destruct (o_attempted o); [reflexivity|]. now destruct a.
Qed.
Lemma calls_compiled h : forall (o : obj), none_of (assigns compile) h -> o_compiled (calls h o) = o_compiled o.
Proof.
  induction h as [|c h IH]; intros o NN; [reflexivity|]. apply not_assigns in NN as [N1 NN]. change (calls (c :: h) o) with (calls h (fst (run c o))). rewrite IH by exact NN. now apply call_compiled.
Qed.
Lemma call_kept c (o : obj) : ~ assigns compile c -> o_attempted o = true \/ ~ searches c ->
  o_attempted (fst (run c o)) = o_attempted o /\ o_result (fst (run c o)) = o_result o.
Proof.
  intros NA NS. destruct c as [[r|]|a| | |]; cbn; auto.
  - destruct (compile r 0%Z) as [p|] eqn:E; auto. destruct NA. now exists r, p.
  - unfold re_s. destruct (o_attempted o) eqn:A0; [auto|]. destruct a as [t|]; [|auto]. destruct NS as [NS|NS]; [discriminate|]. destruct NS. now exists t.
Qed.
Lemma calls_kept h : forall (o : obj), none_of (assigns compile) h -> o_attempted o = true \/ none_of searches h ->
  o_attempted (calls h o) = o_attempted o /\ o_result (calls h o) = o_result o.
Proof.
  induction h as [|c h IH]; intros o NN NS; [auto|]. apply not_assigns in NN as [N1 NN]. change (calls (c :: h) o) with (calls h (fst (run c o))).
  assert (NS1 : o_attempted o = true \/ ~ searches c) by (destruct NS as [NS|NS]; [now left|right; now apply not_searches in NS]).
  destruct (call_kept c o N1 NS1) as [E1 E2]. rewrite <- E1, <- E2. apply IH; [exact NN|]. rewrite E1. destruct NS as [NS|NS]; [now left|right; now apply not_searches in NS].
Qed.
Lemma calls_searched t b (o : obj) : none_of (assigns compile) b -> o_attempted o = false -> first_search t b ->
  o_attempted (calls b o) = true /\ o_result (calls b o) = search (o_compiled o) t.
Proof.
  intros NN A0 (b1 & b2 & -> & NS). assert (N1 : none_of (assigns compile) b1) by (intros c I; apply NN, in_or_app; now left).
  assert (N2 : none_of (assigns compile) b2) by (intros c I; apply NN, in_or_app; right; now right).
  rewrite calls_app. destruct (calls_kept b1 o N1 (or_intror NS)) as [E1 E2]. pose proof (calls_compiled b1 o N1) as E3. set (o1 := calls b1 o) in *. rewrite A0 in E1.
  change (calls (Search (TText t) :: b2) o1) with (calls b2 (fst (run (Search (TText t)) o1))).
  assert (S1 : o_attempted (fst (run (Search (TText t)) o1)) = true /\ o_result (fst (run (Search (TText t)) o1)) = search (o_compiled o) t).
  { cbn. unfold re_s. rewrite E1. cbn. now rewrite E3. }
  destruct S1 as [S1 S2]. destruct (calls_kept b2 _ N2 (or_introl S1)) as [E4 E5]. rewrite E4, E5. auto.
Qed.
Lemma some_search b : (exists c, In c b /\ searches c) -> exists t, first_search t b.
Proof.
  induction b as [|c b IH]; intros (d & I & t & ->); [destruct I|].
  assert (DC : (exists u, c = Search (TText u)) \/ ~ searches c) by (destruct c as [a|[u|]| | |]; [right|left; now exists u|right|right|right|right]; intros (u & Eu); discriminate).
  destruct DC as [(u & ->)|DC].
  - exists u. exists [], b. split; [reflexivity|intros c []].
  - destruct I as [->|I]; [destruct DC; now exists t|]. destruct IH as (u & b1 & b2 & -> & NS); [exists (Search (TText t)); split; [exact I|now exists t]|].
    exists u, (c :: b1), b2. split; [reflexivity|]. intros e [<-|Ie]; [exact DC|now apply NS].
Qed.

(** The object at the beginning of [since]. *)
Lemma since_start r flags target g (o : obj) h p fresh b : re_new compile (TText r) target g flags = Ok o -> since compile r flags target h p fresh b ->
  exists o1, calls h o = calls b o1 /\ o_compiled o1 = p /\ o_attempted o1 = negb fresh /\ (fresh = false -> o_result o1 = None) /\ none_of (assigns compile) b /\ o_groups (calls h o) = g.
Proof.
  intros E S. unfold re_new in E. assert (EG : o_groups (calls h o) = g).
  { rewrite calls_groups. destruct (compile r flags) as [q|]; [|discriminate]. now inversion E. }
  destruct S as [p C0 NN|a r' p b -> C0 NN].
  - rewrite C0 in E. inversion E as [E']. exists o. rewrite E'. split; [reflexivity|]. rewrite <- E'. cbn. split; [reflexivity|]. split; [now destruct target|]. split; [reflexivity|]. split; [exact NN|].
    rewrite <- E' in EG. exact EG.
  - exists (fst (run (Assign (TText r')) (calls a o))). split; [now rewrite calls_app|]. cbn. rewrite C0. cbn. split; [reflexivity|]. split; [reflexivity|]. split; [discriminate|]. split; [exact NN|exact EG].
Qed.
End Facts.

(** After any history of calls there is one compiled pattern, with the calls since. *)
Theorem C90_since : forall (P V : Type) (compile : str -> Z -> option P) r flags target (g : @groups_arg V) o h,
  re_new compile (TText r) target g flags = Ok o -> exists p fresh b, since compile r flags target h p fresh b.
Proof.
  intros P V compile r flags target g o h E. assert (exists p0, compile r flags = Some p0) as [p0 C0].
  { unfold re_new in E. destruct (compile r flags) as [p|]; [eauto|discriminate]. }
  assert (HH : none_of (assigns compile) h \/ exists a r' p b, h = a ++ Assign (TText r') :: b /\ compile r' 0%Z = Some p /\ none_of (assigns compile) b).
  { clear E. induction h as [|c h IH]; [left; intros c []|]. destruct IH as [NN|(a & r' & p & b & -> & C1 & NN)].
    - assert (DC : assigns compile c \/ ~ assigns compile c).
      { destruct c as [[s|]|a| | |]; try (right; intros (u & p & Eu & _); discriminate). destruct (compile s 0%Z) as [p|] eqn:Es; [left; now exists s, p|].
        right. intros (u & p & Eu & Cu). inversion Eu; subst. congruence. }
      destruct DC as [(s & p & -> & Cs)|DC]; [right; now exists [], s, p, h|]. left. intros d [<-|I]; auto.
    - right. now exists (c :: a), r', p, b. }
  destruct HH as [NN|(a & r' & p & b & -> & C1 & NN)].
  - eexists _, _, _. exact (since_new compile r flags target h p0 C0 NN).
  - eexists _, _, _. exact (since_assigned compile r flags target _ a r' p b eq_refl C1 NN).
Qed.
Print Assumptions C90_since.

(** A pattern is searched once: the first search of a text since it was compiled answers what the
    pattern finds (its groups, or the text searched when it has none), and the later ones are
    refused until a pattern is assigned.  An object made with a target refuses all of them. *)
Theorem C90_search : forall (P V : Type) (compile : str -> Z -> option P) search r flags target (g : @groups_arg V) o h p fresh b,
  re_new compile (TText r) target g flags = Ok o -> since compile r flags target h p fresh b ->
  let answer a := snd (re_call compile search (Search a) (re_calls compile search h o)) in
  (fresh = true -> none_of searches b -> answer TOther = RRaise ValueError /\ forall t,
     (search p t = None -> answer (TText t) = RNothing) /\
     (forall f, search p t = Some f -> f_groups f = [] -> answer (TText t) = RWhole t) /\
     (forall f, search p t = Some f -> f_groups f <> [] -> answer (TText t) = RGroups (f_groups f))) /\
  (fresh = false \/ (exists c, In c b /\ searches c) -> forall a, answer a = RRaise RequirementFailure).
Proof.
  intros P V compile search r flags target g o h p fresh b E S answer.
  destruct (since_start compile search r flags target g o h p fresh b E S) as (o1 & E1 & C1 & A1 & R1 & NN & _). split.
  - intros -> NS. unfold answer. rewrite E1. pose proof (calls_compiled compile search b o1 NN) as CC. destruct (calls_kept compile search b o1 NN (or_intror NS)) as [KA KR]. rewrite A1 in KA. cbn in KA.
    cbn [re_call]. unfold re_s. rewrite KA, CC, C1. split; [reflexivity|]. intros t. split; [|split].
    + intros ->. reflexivity.
    + intros f -> F. cbn. now rewrite F.
    + intros f -> F. cbn. now destruct (f_groups f).
  - intros D a. unfold answer. rewrite E1. assert (KA : o_attempted (re_calls compile search b o1) = true).
    { destruct fresh; cbn in A1.
      - destruct D as [D|D]; [discriminate|]. apply some_search in D as (t & FS). now apply (calls_searched compile search t).
      - destruct (calls_kept compile search b o1 NN (or_introl A1)) as [KA _]. now rewrite KA. }
    cbn [re_call]. unfold re_s. now rewrite KA.
Qed.
Print Assumptions C90_search.

Lemma cast_numbers_ok {V} (num : nat -> option (@caster V)) : forall l i,
  (exists vs, cast_numbers num i l = Ok vs /\ length vs = length l /\ forall j x v, nth_error l j = Some x -> nth_error vs j = Some v -> made (num (j + i)) x v) \/
  (exists e, cast_numbers num i l = Err e /\ exists j x c, nth_error l j = Some x /\ num (j + i) = Some c /\ c x = Err e).
Proof.
  induction l as [|x l IH]; intros i.
  - left. exists []. repeat split. intros [|j] x v Hx; discriminate.
  - cbn [cast_numbers]. destruct (num i) as [f|] eqn:Ni.
    + destruct (f x) as [y|e] eqn:Fx; cbn [rmap bind].
      * destruct (IH (S i)) as [(vs & -> & L0 & K)|(e & -> & j & x' & c & H1 & H2 & H3)]; cbn [bind].
        -- left. exists (Made y :: vs). split; [reflexivity|]. split; [cbn; now rewrite L0|]. intros [|j] x' v Hx Hv; cbn in Hx, Hv.
           ++ inversion Hx; inversion Hv; subst. cbn. rewrite Ni. now exists y.
           ++ replace (S j + i) with (j + S i) by lia. eauto.
        -- right. exists e. split; [reflexivity|]. exists (S j), x', c. replace (S j + i) with (j + S i) by lia. auto.
      * right. exists e. split; [reflexivity|]. exists 0, x, f. auto.
    + cbn [bind]. destruct (IH (S i)) as [(vs & -> & L0 & K)|(e & -> & j & x' & c & H1 & H2 & H3)]; cbn [bind].
      * left. exists (Raw x :: vs). split; [reflexivity|]. split; [cbn; now rewrite L0|]. intros [|j] x' v Hx Hv; cbn in Hx, Hv.
        -- inversion Hx; inversion Hv; subst. cbn. now rewrite Ni.
        -- replace (S j + i) with (j + S i) by lia. eauto.
      * right. exists e. split; [reflexivity|]. exists (S j), x', c. replace (S j + i) with (j + S i) by lia. auto.
Qed.
Lemma cast_names_ok {V} (name : str -> option (@caster V)) : forall l,
  (exists vs, cast_names name l = Ok vs /\ map fst vs = map fst l /\ forall j k x k' v, nth_error l j = Some (k, x) -> nth_error vs j = Some (k', v) -> made (name k) x v) \/
  (exists e, cast_names name l = Err e /\ exists k x c, In (k, x) l /\ name k = Some c /\ c x = Err e).
Proof.
  induction l as [|[k x] l IH].
  - left. exists []. repeat split. intros [|j] k x k' v Hx; discriminate.
  - cbn [cast_names]. destruct (name k) as [f|] eqn:Nk.
    + destruct (f x) as [y|e] eqn:Fx; cbn [rmap bind].
      * destruct IH as [(vs & -> & L0 & K)|(e & -> & k1 & x' & c & H1 & H2 & H3)]; cbn [bind].
        -- left. exists ((k, Made y) :: vs). split; [reflexivity|]. split; [cbn; now rewrite L0|]. intros [|j] k1 x' k' v Hx Hv; cbn in Hx, Hv; [|eauto].
           inversion Hx; inversion Hv; subst. cbn. rewrite Nk. now exists y.
        -- right. exists e. split; [reflexivity|]. exists k1, x', c. repeat split; auto. now right.
      * right. exists e. split; [reflexivity|]. exists k, x, f. repeat split; auto. now left.
    + cbn [bind]. destruct IH as [(vs & -> & L0 & K)|(e & -> & k1 & x' & c & H1 & H2 & H3)]; cbn [bind].
      * left. exists ((k, Raw x) :: vs). split; [reflexivity|]. split; [cbn; now rewrite L0|]. intros [|j] k1 x' k' v Hx Hv; cbn in Hx, Hv; [|eauto].
        inversion Hx; inversion Hv; subst. cbn. now rewrite Nk.
      * right. exists e. split; [reflexivity|]. exists k1, x', c. repeat split; auto. now right.
Qed.

(** [captured] holds what the first search since the pattern was compiled has found, each group
    made into its type; it raises only what one of the types raises.  It is empty when that search
    found nothing or no text has been searched. *)
Theorem C90_captured : forall (P V : Type) (compile : str -> Z -> option P) search r flags target (g : @groups_arg V) o h p fresh b,
  re_new compile (TText r) target g flags = Ok o -> since compile r flags target h p fresh b ->
  let answer := snd (re_call compile search Captured (re_calls compile search h o)) in
  (none_of searches b \/ fresh = false -> answer = RCaptured [] []) /\
  (forall t, fresh = true -> first_search t b -> search p t = None -> answer = RCaptured [] []) /\
  (forall t f, fresh = true -> first_search t b -> search p t = Some f ->
     ((exists l d, answer = RCaptured l d /\ values g f l d) \/ (exists e, answer = RRaise e /\ refuses g f e))).
Proof.
  intros P V compile search r flags target g o h p fresh b E S answer.
  destruct (since_start compile search r flags target g o h p fresh b E S) as (o1 & E1 & C1 & A1 & R1 & NN & EG). split; [|split].
  - intros D. unfold answer. rewrite E1. cbn [re_call snd]. unfold re_captured. destruct fresh; cbn in A1.
    + destruct D as [D|D]; [|discriminate]. destruct (calls_kept compile search b o1 NN (or_intror D)) as [-> _]. now rewrite A1.
    + destruct (calls_kept compile search b o1 NN (or_introl A1)) as [-> ->]. now rewrite A1, (R1 eq_refl).
  - intros t -> FS N0. unfold answer. rewrite E1. cbn [re_call snd]. unfold re_captured. destruct (calls_searched compile search t b o1 NN A1 FS) as [-> ->]. now rewrite C1, N0.
  - intros t f -> FS N0. unfold answer. rewrite E1 in *. cbn [re_call snd]. unfold re_captured. destruct (calls_searched compile search t b o1 NN A1 FS) as [-> ->]. rewrite C1, N0, EG.
    destruct g as [|num name].
    + left. eexists _, _. split; [reflexivity|]. unfold values, raw_numbers, raw_names. cbn [types_of fst snd made]. rewrite map_length, map_map. cbn [fst]. repeat split.
      * intros i x v Hx Hv. rewrite nth_error_map, Hx in Hv. now inversion Hv.
      * intros i k x k' v Hx Hv. rewrite nth_error_map, Hx in Hv. now inversion Hv.
    + destruct (cast_numbers_ok num (f_groups f) 1) as [(vs & -> & L0 & K)|(e & -> & j & x & c & H1 & H2 & H3)]; cbn [bind].
      * destruct (cast_names_ok name (f_named f)) as [(ds & -> & L1 & K1)|(e & -> & k & x & c & H1 & H2 & H3)]; cbn [bind].
        -- left. exists vs, ds. split; [reflexivity|]. unfold values. cbn [types_of fst snd]. repeat split; auto. intros i x v Hx Hv. rewrite <- (Nat.add_1_r i). eauto.
        -- right. exists e. split; [reflexivity|]. right. cbn [types_of snd]. now exists k, x, c.
      * right. exists e. split; [reflexivity|]. left. cbn [types_of fst]. exists j, x, c. rewrite <- (Nat.add_1_r j). auto.
Qed.
Print Assumptions C90_captured.

(** Reading changes nothing, and neither does a refused search or the assignment of something
    that is not a text. *)
Theorem C90_reads : forall (P V : Type) (compile : str -> Z -> option P) search (o : @re_obj P V) c,
  match c with Assign (TText _) => False | Search (TText _) => snd (re_call compile search c o) = RRaise RequirementFailure | _ => True end ->
  fst (re_call compile search c o) = o.
Proof.
  intros P V compile search o [[r|]|[t|]| | |] HH; try reflexivity; [destruct HH| |]; cbn in *; unfold re_s in *; destruct (o_attempted o); cbn in *; try reflexivity.
  exfalso. destruct (search (o_compiled o) t) as [f|]; [|discriminate]. destruct (f_groups f); discriminate.
Qed.
Print Assumptions C90_reads.

(** [regex] reads the last text assigned, whether it compiled or not, or the one given first. *)
Theorem C90_regex : forall (P V : Type) (compile : str -> Z -> option P) search r flags target (g : @groups_arg V) o h,
  re_new compile (TText r) target g flags = Ok o ->
  let answer := snd (re_call compile search Regex (re_calls compile search h o)) in
  ((forall s, ~ In (Assign (TText s)) h) -> answer = RRegex r) /\
  (forall a s b, h = a ++ Assign (TText s) :: b -> (forall s', ~ In (Assign (TText s')) b) -> answer = RRegex s).
Proof.
  intros P V compile search r flags target g o h E answer.
  assert (K : forall b (o1 : @re_obj P V), (forall s', ~ In (Assign (TText s')) b) -> o_regex (re_calls compile search b o1) = o_regex o1).
  { induction b as [|c b IH]; intros o1 NI; [reflexivity|]. change (re_calls compile search (c :: b) o1) with (re_calls compile search b (fst (re_call compile search c o1))).
    rewrite IH by (intros s I; apply (NI s); now right). destruct c as [[s|]|a| | |]; try reflexivity; [destruct (NI s); now left|]. cbn. unfold re_s. destruct (o_attempted o1); [reflexivity|]. now destruct a. }
  unfold answer. cbn [re_call snd]. split.
  - intros NI. rewrite K by exact NI. unfold re_new in E. destruct (compile r flags); [|discriminate]. inversion E. reflexivity.
  - intros a s b -> NI. rewrite (calls_app compile search a (Assign (TText s) :: b) o). change (re_calls compile search (Assign (TText s) :: b) (re_calls compile search a o)) with (re_calls compile search b (fst (re_call compile search (Assign (TText s)) (re_calls compile search a o)))).
    rewrite K by exact NI. cbn. now destruct (compile s 0%Z).
Qed.
Print Assumptions C90_regex.

(** ** A small instance: the pattern is a text that must be found whole, flag 2 ignores case, an
    opening bracket does not compile, and "?" has a group that captures nothing. *)
Definition toy_compile (s : str) (flags : Z) : option (str * Z) := if str_eqb s (lit "(") then None else Some (s, flags).
Definition toy_search (p : str * Z) (t : str) : option found :=
  let '(s, flags) := p in
  if str_eqb s (lit "?") then Some {| f_groups := [None]; f_named := [] |}
  else if (if Z.eqb flags 2 then str_eqb (lower s) (lower t) else str_eqb s t) then Some {| f_groups := [Some t]; f_named := [(lit "all", Some t)] |} else None.
Definition toy_int : @caster Z := fun x => match x with None => Err TypeErr | Some s => match py_int s with Some z => Ok z | None => Err ValueError end end.
Definition toy_groups : @groups_arg Z := Dict (fun n => if Nat.eqb n 1 then Some toy_int else None) (fun _ => None).
Definition toy (r : string) (flags : Z) (target : text_arg) := re_new toy_compile (TText (lit r)) target toy_groups flags.
Definition toy_do (r : string) (flags : Z) (target : text_arg) (h : list call) (c : call) : result reply :=
  rmap (fun o => snd (re_call toy_compile toy_search c (re_calls toy_compile toy_search h o))) (toy r flags target).

Example C90_ex :
  toy_do "42" 0 TOther [] (Search (TText (lit "42"))) = Ok (RGroups [Some (lit "42")]) /\
  toy_do "42" 0 TOther [Search (TText (lit "42")); Regex] Captured = Ok (RCaptured [Made 42%Z] [(lit "all", Raw (Some (lit "42")))]) /\
  toy_do "42" 0 TOther [Search (TText (lit "42"))] (Search (TText (lit "42"))) = Ok (RRaise RequirementFailure) /\
  toy_do "42" 0 TOther [Search (TText (lit "42")); Assign (TText (lit "ab"))] Captured = Ok (RCaptured [] []) /\
  toy_do "42" 0 TOther [Search (TText (lit "42")); Assign (TText (lit "7"))] (Search (TText (lit "7"))) = Ok (RGroups [Some (lit "7")]) /\
  toy_do "ab" 0 TOther [Search (TText (lit "ab"))] Captured = Ok (RRaise ValueError).
Proof. repeat split; vm_compute; reflexivity. Qed.
Example C90_ex_since : since toy_compile (lit "42") 0 TOther [Search (TText (lit "42")); Assign (TText (lit "7")); Search (TText (lit "7"))] (lit "7", 0%Z) true [Search (TText (lit "7"))] /\
  first_search (lit "7") [Search (TText (lit "7"))].
Proof.
  split.
  - apply (since_assigned toy_compile (lit "42") 0 TOther _ [Search (TText (lit "42"))] (lit "7")); [reflexivity|reflexivity|]. intros c [<-|[]] (r & p & E & _). discriminate.
  - exists [], []. split; [reflexivity|intros c []].
Qed.

(** ** What does not hold *)

(** The search made by an object given a target is lost: nothing is captured. *)
Theorem C90_target_refuted : toy_search (lit "42", 0%Z) (lit "42") <> None /\ toy_do "42" 0 (TText (lit "42")) [] Captured = Ok (RCaptured [] []) /\
  toy_do "42" 0 (TText (lit "42")) [] (Search (TText (lit "42"))) = Ok (RRaise RequirementFailure).
Proof. split; [vm_compute; discriminate|]. split; vm_compute; reflexivity. Qed.
Print Assumptions C90_target_refuted.
(** Assigning the same regular expression drops the flags. *)
Theorem C90_flags_refuted : toy_do "ab" 2 TOther [] (Search (TText (lit "AB"))) = Ok (RGroups [Some (lit "AB")]) /\
  toy_do "ab" 2 TOther [Assign (TText (lit "ab"))] (Search (TText (lit "AB"))) = Ok RNothing.
Proof. split; vm_compute; reflexivity. Qed.
Print Assumptions C90_flags_refuted.
(** After an assignment that does not compile, [regex] reads the new text and searches use the old. *)
Theorem C90_assign_refuted : toy_do "42" 0 TOther [] (Assign (TText (lit "("))) = Ok (RRaise ReErr) /\ toy_do "42" 0 TOther [Assign (TText (lit "("))] Regex = Ok (RRegex (lit "(")) /\
  toy_do "42" 0 TOther [Assign (TText (lit "("))] (Search (TText (lit "42"))) = Ok (RGroups [Some (lit "42")]).
Proof. repeat split; vm_compute; reflexivity. Qed.
Print Assumptions C90_assign_refuted.
(** A group that took no part in the match is given to its type as None, which a number refuses. *)
Theorem C90_unmatched_refuted : toy_do "?" 0 TOther [Search (TText (lit "x"))] Captured = Ok (RRaise TypeErr).
Proof. vm_compute. reflexivity. Qed.
Print Assumptions C90_unmatched_refuted.
