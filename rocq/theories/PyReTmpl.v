(** Patterns that are sequences of words, runs of characters and groups.  On such a
    pattern the matcher takes the longest run everywhere, if that leads to a match. *)
From Coq Require Import Ascii String Arith NArith ZArith Bool List Lia.
From Verif Require Import PyStr PyStrFacts PyBase SearchModel PyRe PyReFacts.
Import ListNotations.
Local Open Scope char_scope.

Inductive item :=
| Lit (w : str)                    (* these characters *)
| Run (q : cset) (some : bool)     (* a run of characters of a set, not empty if [some] *)
| One (q : cset)                   (* one character of a set *)
| Grp (n : nat) (T : list item)    (* a group *)
| Many (n : nat) (T : list item)   (* a group, any number of times *)
| Opt (T : list item)              (* these items, or nothing *)
| End.                             (* the end of the text *)

(** The items in a row, as the reader of patterns nests them. *)
Fixpoint row (l : list re) : re := match l with [] => REps | [a] => a | a :: r => RCat a (row r) end.
Fixpoint flat1 (t : item) : list re :=
  match t with
  | Lit w => map chr w
  | Run q true => [rplus true (RSet q)]
  | Run q false => [RStar true (RSet q)]
  | One q => [RSet q]
  | Grp n T => [RGrp n (row (flat_map flat1 T))]
  | Many n T => [RStar true (RGrp n (row (flat_map flat1 T)))]
  | Opt T => [ropt true (row (flat_map flat1 T))]
  | End => [REol]
  end.
Definition den1 (t : item) : re := row (flat1 t).
Definition den (T : list item) : re := row (flat_map flat1 T).
Lemma den1_grp n T : den1 (Grp n T) = RGrp n (den T).
Proof. reflexivity. Qed.

(** The rest does not go on with a character of the set. *)
Definition stops (q : cset) (s : str) : Prop := match s with [] => True | x :: _ => in_set q x = false end.

(** [D strict T s s' c c']: the items take the text [s] up to [s'].  If [strict], every run is
    as long as possible. *)
Inductive D (strict : bool) : list item -> str -> str -> caps -> caps -> Prop :=
| D_nil s c : D strict [] s s c c
| D_lit w T s s' c c' : D strict T s s' c c' -> D strict (Lit w :: T) (w ++ s) s' c c'
| D_run q b T w s s' c c' : all_in q w -> (b = true -> w <> []) -> (strict = true -> stops q s) -> D strict T s s' c c' ->
    D strict (Run q b :: T) (w ++ s) s' c c'
| D_one q T x s s' c c' : in_set q x = true -> D strict T s s' c c' -> D strict (One q :: T) (x :: s) s' c c'
| D_grp n U T w s s' c c1 c' : D strict U (w ++ s) s c c1 -> D strict T s s' ((n, w) :: c1) c' -> D strict (Grp n U :: T) (w ++ s) s' c c'
| D_end T s s' c c' : s = [] \/ s = ["010"] -> D strict T s s' c c' -> D strict (End :: T) s s' c c'
| D_stop n U T s s' c c' : (strict = true -> forall i c1 i' s' c', ~ M (den U) i s c1 i' s' c') -> D strict T s s' c c' -> D strict (Many n U :: T) s s' c c'
| D_more n U T w s s' c c1 c' : w <> [] -> D strict U (w ++ s) s c c1 -> D strict (Many n U :: T) s s' ((n, w) :: c1) c' ->
    D strict (Many n U :: T) (w ++ s) s' c c'
| D_skip U T s s' c c' : (strict = true -> forall i c1 i' s' c', ~ M (den U) i s c1 i' s' c') -> D strict T s s' c c' -> D strict (Opt U :: T) s s' c c'
| D_take U T s s1 s' c c1 c' : D strict U s s1 c c1 -> D strict T s1 s' c1 c' -> D strict (Opt U :: T) s s' c c'.

Lemma D_suffix b T s s' c c' : D b T s s' c c' -> exists w, s = w ++ s'.
Proof.
  induction 1 as [s c|w T s s' c c' H IH|q b' T w s s' c c' A B C H IH|q T x s s' c c' A H IH|n U T w s s' c c1 c' A IHA H IH|T s s' c c' E H IH|n U T s s' c c' A H IH|n U T w s s' c c1 c' N0 A IHA H IH|U T s s' c c' A H IH|U T s s1 s' c c1 c' A IHA H IH].
  - now exists [].
  - destruct IH as (v & ->). exists (w ++ v). now rewrite app_assoc.
  - destruct IH as (v & ->). exists (w ++ v). now rewrite app_assoc.
  - destruct IH as (v & ->). now exists (x :: v).
  - destruct IH as (v & ->). exists (w ++ v). now rewrite app_assoc.
  - assumption.
  - assumption.
  - destruct IH as (v & ->). exists (w ++ v). now rewrite app_assoc.
  - assumption.
  - destruct IHA as (u & ->). destruct IH as (v & ->). exists (u ++ v). now rewrite app_assoc.
Qed.

(** ** Taking the longest run *)

Lemma set_step {R} q y s i c (k : nat -> str -> caps -> option R) : in_set q y = true -> mat (RSet q) i (y :: s) c k = k (S i) s c.
Proof. intros Y. cbn [mat]. now rewrite Y. Qed.
Lemma set_stops {R} q s i c (k : nat -> str -> caps -> option R) : stops q s -> mat (RSet q) i s c k = None.
Proof. intros H. destruct s as [|z s]; [reflexivity|]. cbn [mat]. cbn in H. now rewrite H. Qed.
Lemma mat_star {R} g a i s c (k : nat -> str -> caps -> option R) : mat (RStar g a) i s c k = star_loop (mat a) g k (length s) i s c.
Proof. reflexivity. Qed.
Lemma mat_cat {R} a b i s c (k : nat -> str -> caps -> option R) : mat (RCat a b) i s c k = mat a i s c (fun i' s' c' => mat b i' s' c' k).
Proof. reflexivity. Qed.
Lemma loop_S {R} body (k : nat -> str -> caps -> option R) f i s c : star_loop body true k (S f) i s c =
  match body i s c (fun i' s' c' => if Nat.eqb i' i then None else star_loop body true k f i' s' c') with Some x => Some x | None => k i s c end.
Proof. reflexivity. Qed.
Lemma star_longest {R} q w s c (k : nat -> str -> caps -> option R) x : forall i, all_in q w -> stops q s ->
  k (i + length w) s c = Some x -> mat (RStar true (RSet q)) i (w ++ s) c k = Some x.
Proof.
  intros i F S K. rewrite mat_star, app_length. generalize (length s) as extra. intros extra.
  revert i K. induction F as [|y w Y F IH]; intros i K; cbn [length app].
  - cbn [length] in K. rewrite Nat.add_0_r in K. destruct extra as [|f]; cbn [Nat.add].
    + exact K.
    + rewrite loop_S, set_stops; assumption.
  - cbn [Nat.add]. rewrite loop_S, set_step by assumption.
    replace (Nat.eqb (Datatypes.S i) i) with false by (symmetry; apply Nat.eqb_neq; lia). rewrite IH; [reflexivity|].
    cbn [length] in K. now rewrite Nat.add_succ_comm.
Qed.
Lemma plus_longest {R} q w s c (k : nat -> str -> caps -> option R) x : forall i, w <> [] -> all_in q w -> stops q s ->
  k (i + length w) s c = Some x -> mat (rplus true (RSet q)) i (w ++ s) c k = Some x.
Proof.
  intros i N F S K. destruct F as [|y w Y F]; [congruence|]. unfold rplus. rewrite mat_cat. cbn [app]. rewrite set_step by assumption.
  apply star_longest; auto. cbn [length] in K. now rewrite Nat.add_succ_comm.
Qed.
Lemma row_cons {R} a l i s c (k : nat -> str -> caps -> option R) : mat (row (a :: l)) i s c k = mat a i s c (fun i' s' c' => mat (row l) i' s' c' k).
Proof. destruct l; reflexivity. Qed.
Lemma row_app {R} l m : forall i s c (k : nat -> str -> caps -> option R),
  (forall a b i s c (k k' : nat -> str -> caps -> option R), a = b -> (forall i s c, k i s c = k' i s c) -> mat a i s c k = mat b i s c k') ->
  mat (row (l ++ m)) i s c k = mat (row l) i s c (fun i' s' c' => mat (row m) i' s' c' k).
Proof.
  induction l as [|a l IH]; intros i s c k E; [reflexivity|]. cbn [app]. rewrite !row_cons. apply E; [reflexivity|]. intros. now apply IH.
Qed.
Lemma loop_ext {R} body g (k k' : nat -> str -> caps -> option R) :
  (forall i s c k k', (forall i s c, k i s c = k' i s c) -> body i s c k = body i s c k') ->
  (forall i s c, k i s c = k' i s c) -> forall f i s c, star_loop body g k f i s c = star_loop body g k' f i s c.
Proof.
  intros B E. induction f as [|f IH]; intros i s c; cbn [star_loop]; cbv zeta; rewrite E; [reflexivity|].
  rewrite (B _ _ _ _ (fun i' s' c' => if Nat.eqb i' i then None else star_loop body g k' f i' s' c')); [reflexivity|].
  intros i' s' c'. destruct (Nat.eqb i' i); auto.
Qed.
Lemma mat_ext {R} a : forall i s c (k k' : nat -> str -> caps -> option R), (forall i s c, k i s c = k' i s c) -> mat a i s c k = mat a i s c k'.
Proof.
  induction a as [|q|a IHa b IHb|a IHa b IHb|g a IH|n a IH| |]; intros i s c k k' E; cbn [mat]; auto.
  - destruct s; [reflexivity|]. destruct (in_set q a); auto.
  - rewrite (IHa _ _ _ k k') by assumption. rewrite (IHb _ _ _ k k') by assumption. reflexivity.
  - apply loop_ext; auto.
  - destruct (Nat.eqb i 0); auto.
  - destruct s as [|x [|y s]]; auto. destruct (Ascii.eqb x "010"); auto.
Qed.
Lemma chars1_eval {R} w s c (k : nat -> str -> caps -> option R) : forall i, mat (row (map chr w)) i (w ++ s) c k = k (i + length w) s c.
Proof.
  induction w as [|x w IH]; intros i; [cbn; now rewrite Nat.add_0_r|].
  assert (X : in_set (mkSet false false [CRange x x]) x = true) by now apply in_chr.
  cbn [map]. rewrite row_cons. cbn [app]. unfold chr. rewrite set_step by assumption. fold chr. rewrite IH. f_equal. cbn. lia.
Qed.
Lemma den_cons {R} t T i s c (k : nat -> str -> caps -> option R) : mat (den (t :: T)) i s c k = mat (den1 t) i s c (fun i' s' c' => mat (den T) i' s' c' k).
Proof. unfold den, den1. cbn [flat_map]. apply row_app. intros a b ? ? ? ? ? -> E. now apply mat_ext. Qed.
Lemma mat_eol {R} i s c (k : nat -> str -> caps -> option R) : s = [] \/ s = ["010"] -> mat REol i s c k = k i s c.
Proof. intros [-> | ->]; reflexivity. Qed.
Lemma firstn_len {A} (w s : list A) i : firstn (i + length w - i) (w ++ s) = w.
Proof. replace (i + length w - i) with (length w) by lia. rewrite firstn_app, firstn_all, Nat.sub_diag. cbn. apply app_nil_r. Qed.

Lemma den1_many n T : den1 (Many n T) = RStar true (RGrp n (den T)).
Proof. reflexivity. Qed.
Lemma den1_opt T : den1 (Opt T) = RAlt (den T) REps.
Proof. reflexivity. Qed.
Lemma mat_alt {R} a b i s c (k : nat -> str -> caps -> option R) : mat (RAlt a b) i s c k = match mat a i s c k with Some x => Some x | None => mat b i s c k end.
Proof. reflexivity. Qed.
Lemma mat_grp {R} n a i s c (k : nat -> str -> caps -> option R) : mat (RGrp n a) i s c k = mat a i s c (fun i' s' c' => k i' s' ((n, firstn (i' - i) s) :: c')).
Proof. reflexivity. Qed.
(** Only the states that can be reached matter to what comes after. *)
Lemma mat_reach {R} a : forall i s c (k k' : nat -> str -> caps -> option R),
  (forall i' s' c', M a i s c i' s' c' -> k i' s' c' = k' i' s' c') -> mat a i s c k = mat a i s c k'.
Proof.
  induction a as [|q|a IHa b IHb|a IHa b IHb|g a IH|n a IH| |]; intros i s c k k' E.
  - apply E. constructor.
  - cbn [mat]. destruct s as [|x s]; [reflexivity|]. destruct (in_set q x) eqn:F; [|reflexivity]. apply E. now constructor.
  - cbn [mat]. apply IHa. intros. apply IHb. intros. apply E. eapply M_cat; eassumption.
  - cbn [mat]. rewrite (IHa i s c k k') by (intros; apply E; now apply M_left). rewrite (IHb i s c k k') by (intros; apply E; now apply M_right). reflexivity.
  - rewrite !mat_star. generalize (length s) as f. intros f. revert i s c E.
    induction f as [|f IHf]; intros i s c E; cbn [star_loop]; cbv zeta; rewrite (E i s c) by constructor; [reflexivity|].
    rewrite (IH i s c _ (fun i' s' c' => if Nat.eqb i' i then None else star_loop (mat a) g k' f i' s' c')); [reflexivity|].
    intros i' s' c' A. destruct (Nat.eqb i' i) eqn:F; [reflexivity|]. apply Nat.eqb_neq in F. apply IHf. intros. apply E. eapply M_more; eassumption.
  - cbn [mat]. apply IH. intros. apply E. now constructor.
  - cbn [mat]. destruct (Nat.eqb i 0) eqn:F; [|reflexivity]. apply Nat.eqb_eq in F as ->. apply E. constructor.
  - cbn [mat]. destruct s as [|x [|y s]]; [apply E; constructor| |reflexivity]. destruct (Ascii.eqb x "010") eqn:F; [|reflexivity].
    apply Ascii.eqb_eq in F as ->. apply E. constructor.
Qed.
Lemma mat_fails {R} a : forall i s c, mat a i s c (fun _ _ _ => @None R) = None.
Proof.
  intros i s c. destruct (mat a i s c _) eqn:E; [|reflexivity]. apply mat_sound in E as (? & ? & ? & _ & E). discriminate.
Qed.
(** The length of the text is enough fuel. *)
Lemma loop_fuel' {R} a g (k : nat -> str -> caps -> option R) : forall L s, length s <= L -> forall n i c, length s <= n ->
  star_loop (mat a) g k n i s c = star_loop (mat a) g k (length s) i s c.
Proof.
  intros L. induction L as [|L IH]; intros s Hs n i c Hn.
  - destruct s; [|cbn in Hs; lia]. destruct n as [|n]; [reflexivity|]. cbn [star_loop length]. cbv zeta.
    rewrite (mat_reach a i [] c _ (fun _ _ _ => None)); [now rewrite mat_fails|]. intros i' s' c' A.
    apply M_consumes in A as (w & E & ->). symmetry in E. apply app_eq_nil in E as [-> ->]. cbn. now rewrite Nat.add_0_r, Nat.eqb_refl.
  - destruct s as [|y s].
    + apply (IH [] (Nat.le_0_l L)). exact Hn.
    + cbn [length] in *. destruct n as [|n]; [lia|]. cbn [star_loop]. cbv zeta.
      rewrite (mat_reach a i (y :: s) c _ (fun i' s' c' => if Nat.eqb i' i then None else star_loop (mat a) g k (length s) i' s' c')); [reflexivity|].
      intros i' s' c' A. destruct (Nat.eqb i' i) eqn:F; [reflexivity|]. apply Nat.eqb_neq in F.
      apply M_consumes in A as (w & E & ->). destruct w as [|z w]; [cbn in F; lia|]. cbn in E. injection E as -> ->.
      rewrite app_length in *. rewrite (IH s') by lia. symmetry. apply IH; lia.
Qed.
Lemma loop_fuel {R} a g (k : nat -> str -> caps -> option R) n s i c : length s <= n -> star_loop (mat a) g k n i s c = star_loop (mat a) g k (length s) i s c.
Proof. intros H. now apply (loop_fuel' a g k (length s)). Qed.
Lemma at_same {R} (k : nat -> str -> caps -> option R) n m s c x : k n s c = x -> n = m -> k m s c = x.
Proof. now intros H <-. Qed.
Theorem eval {R} T s s' c c' : D true T s s' c c' -> forall i (k : nat -> str -> caps -> option R) x,
  k (i + (length s - length s')) s' c' = Some x -> mat (den T) i s c k = Some x.
Proof.
  induction 1 as [s c|w T s s' c c' H IH|q b T w s s' c c' A B C H IH|q T y s s' c c' A H IH|n U T w s s' c c1 c' A IHA H IH|T s s' c c' E H IH|n U T s s' c c' A H IH|n U T w s s' c c1 c' N0 A IHA H IH|U T s s' c c' A H IH|U T s s1 s' c c1 c' A IHA H IH];
    intros i k x K.
  - cbn. rewrite Nat.sub_diag, Nat.add_0_r in K. assumption.
  - rewrite den_cons. unfold den1. cbn [flat1]. rewrite chars1_eval. apply IH. destruct (D_suffix _ _ _ _ _ _ H) as (v & ->).
    apply (at_same _ _ _ _ _ _ K). rewrite !app_length. lia.
  - rewrite den_cons. cbn [den1]. destruct (D_suffix _ _ _ _ _ _ H) as (v & ->).
    assert (E : mat (den T) (i + length w) (v ++ s') c k = Some x).
    { apply IH. apply (at_same _ _ _ _ _ _ K). rewrite !app_length. lia. }
    destruct b; [apply plus_longest|apply star_longest]; auto.
  - rewrite den_cons. change (den1 (One q)) with (RSet q). rewrite set_step by assumption. apply IH. destruct (D_suffix _ _ _ _ _ _ H) as (v & ->).
    apply (at_same _ _ _ _ _ _ K). cbn [length]. rewrite !app_length. lia.
  - rewrite den_cons, den1_grp. cbn [mat]. destruct (D_suffix _ _ _ _ _ _ H) as (v & ->). apply IHA.
    replace (i + (length (w ++ v ++ s') - length (v ++ s'))) with (i + length w) by (rewrite !app_length; lia).
    rewrite firstn_len. apply IH. apply (at_same _ _ _ _ _ _ K). rewrite !app_length. lia.
  - rewrite den_cons. cbn [den1]. rewrite mat_eol by assumption. now apply IH.
  - rewrite den_cons, den1_many, mat_star.
    assert (Z : forall k' : nat -> str -> caps -> option R, mat (RGrp n (den U)) i s c k' = None).
    { intros k'. destruct (mat (RGrp n (den U)) i s c k') eqn:Z; [|reflexivity]. apply mat_sound in Z as (i1 & s1 & c2 & Z & _).
      apply M_grp_iff in Z as (w & c0 & _ & _ & _ & Z). exfalso. now apply (A eq_refl) in Z. }
    destruct (length s); [|rewrite loop_S, Z]; now apply IH.
  - rewrite den_cons, den1_many, mat_star. destruct w as [|y w]; [congruence|]. cbn [app length]. rewrite loop_S.
    change (y :: w ++ s) with ((y :: w) ++ s). rewrite mat_grp.
    assert (E : mat (den U) i ((y :: w) ++ s) c (fun i' s0 c'0 => if Nat.eqb i' i then None else
      star_loop (mat (RGrp n (den U))) true (fun i1 s1 c2 => mat (den T) i1 s1 c2 k) (length (w ++ s)) i' s0 ((n, firstn (i' - i) ((y :: w) ++ s)) :: c'0)) = Some x).
    { apply IHA. replace (i + (length ((y :: w) ++ s) - length s)) with (i + length (y :: w)) by (rewrite app_length; lia).
      replace (Nat.eqb (i + length (y :: w)) i) with false by (symmetry; apply Nat.eqb_neq; cbn; lia).
      rewrite firstn_len. rewrite loop_fuel by (rewrite app_length; lia). rewrite <- mat_star, <- den1_many, <- den_cons. apply IH.
      destruct (D_suffix _ _ _ _ _ _ H) as (v & ->). apply (at_same _ _ _ _ _ _ K). rewrite !app_length. lia. }
    now rewrite E.
  - rewrite den_cons, den1_opt, mat_alt.
    assert (Z : forall k' : nat -> str -> caps -> option R, mat (den U) i s c k' = None).
    { intros k'. destruct (mat (den U) i s c k') eqn:Z; [|reflexivity]. apply mat_sound in Z as (i1 & s1 & c2 & Z & _).
      exfalso. now apply (A eq_refl) in Z. }
    rewrite Z. now apply IH.
  - rewrite den_cons, den1_opt, mat_alt. destruct (D_suffix _ _ _ _ _ _ A) as (u & ->). destruct (D_suffix _ _ _ _ _ _ H) as (v & ->).
    assert (E : mat (den U) i (u ++ v ++ s') c (fun i' s0 c'0 => mat (den T) i' s0 c'0 k) = Some x).
    { apply IHA. apply IH. apply (at_same _ _ _ _ _ _ K). rewrite !app_length. lia. }
    now rewrite E.
Qed.

(** ** What a match looks like *)

Lemma row_cons_M a l i s c i2 s2 c2 : M (row (a :: l)) i s c i2 s2 c2 -> exists i1 s1 c1, M a i s c i1 s1 c1 /\ M (row l) i1 s1 c1 i2 s2 c2.
Proof.
  destruct l as [|u T]; [|apply M_cat_iff]. intros H. exists i2, s2, c2. split; [exact H|constructor].
Qed.
Lemma row_app_M l m : forall i s c i2 s2 c2, M (row (l ++ m)) i s c i2 s2 c2 -> exists i1 s1 c1, M (row l) i s c i1 s1 c1 /\ M (row m) i1 s1 c1 i2 s2 c2.
Proof.
  induction l as [|a l IH]; intros i s c i2 s2 c2 H.
  - exists i, s, c. split; [constructor|exact H].
  - cbn [app] in H. apply row_cons_M in H as (i1 & s1 & c1 & A & B). apply IH in B as (i3 & s3 & c3 & B & C).
    exists i3, s3, c3. split; [|exact C]. destruct l as [|u l]; [|eapply M_cat; eassumption]. cbn in B. apply M_eps_iff in B as (-> & -> & ->). exact A.
Qed.
Lemma chars1_M w i s c i2 s2 c2 : M (row (map chr w)) i s c i2 s2 c2 -> s = w ++ s2 /\ i2 = i + length w /\ c2 = c.
Proof.
  revert i s. induction w as [|x w IH]; intros i s H.
  - apply M_eps_iff in H as (-> & -> & ->). cbn. now rewrite Nat.add_0_r.
  - cbn [map] in H. apply row_cons_M in H as (i1 & s1 & c1 & A & B).
    apply M_chr_iff in A as (-> & -> & ->). apply IH in B as (-> & -> & ->). cbn. repeat split. lia.
Qed.
Lemma den_cons_M t T i s c i2 s2 c2 : M (den (t :: T)) i s c i2 s2 c2 -> exists i1 s1 c1, M (den1 t) i s c i1 s1 c1 /\ M (den T) i1 s1 c1 i2 s2 c2.
Proof. unfold den. cbn [flat_map]. apply row_app_M. Qed.
Fixpoint size1 (t : item) : nat := match t with Grp _ T | Many _ T | Opt T => S ((fix go (T : list item) : nat := match T with [] => 0 | t :: r => size1 t + go r end) T) | _ => 1 end.
Definition size (T : list item) : nat := list_sum (map size1 T).
Lemma size_grp n T : size1 (Grp n T) = S (size T).
Proof. cbn [size1]. f_equal. unfold size. induction T as [|t T IH]; [reflexivity|]. cbn [map list_sum fold_right]. now rewrite IH. Qed.
Lemma size_many n T : size1 (Many n T) = S (size T).
Proof. exact (size_grp n T). Qed.
Lemma size_opt T : size1 (Opt T) = S (size T).
Proof. exact (size_grp 0 T). Qed.
Lemma size1_pos t : 1 <= size1 t. Proof. destruct t; cbn; lia. Qed.
Theorem shape : forall T i s c i2 s2 c2, M (den T) i s c i2 s2 c2 -> D false T s s2 c c2.
Proof.
  intros T. remember (size T) as n eqn:E. revert T E. induction (lt_wf n) as [n _ IHn]. intros T -> i s c i2 s2 c2 H.
  destruct T as [|t T].
  - apply M_eps_iff in H as (-> & -> & ->). constructor.
  - apply den_cons_M in H as (i1 & s1 & c1 & A & B).
    assert (L : size T < size (t :: T)) by (change (size (t :: T)) with (size1 t + size T); pose proof (size1_pos t); lia).
    apply (IHn _ L T eq_refl) in B. destruct t as [w|q b|q|n U|n U|U|].
    + apply chars1_M in A as (-> & -> & ->). now constructor.
    + destruct b; cbn [den1] in A.
      * apply M_plus_iff in A as (w & -> & N & F & -> & ->). constructor; auto. discriminate.
      * apply M_star_iff in A as (w & -> & F & -> & ->). constructor; auto; discriminate.
    + apply M_set_iff in A as (x & -> & X & -> & ->). now constructor.
    + rewrite den1_grp in A. apply M_grp_iff in A as (w & c0 & -> & -> & -> & A). econstructor; [|exact B].
      assert (L' : size U < size (Grp n U :: T)) by (change (size (Grp n U :: T)) with (size1 (Grp n U) + size T); rewrite size_grp; lia).
      apply (IHn _ L' U eq_refl) in A. exact A.
    + rewrite den1_many in A.
      assert (L' : size U < size (Many n U :: T)) by (change (size (Many n U :: T)) with (size1 (Many n U) + size T); rewrite size_many; lia).
      assert (X : forall r i s c i1 s1 c1, M r i s c i1 s1 c1 -> r = RStar true (RGrp n (den U)) -> D false T s1 s2 c1 c2 -> D false (Many n U :: T) s s2 c c2).
      { intros r i' s' c' i1' s1' c1' HM. induction HM as [| | | | |g a i' s' c'|g a i' s' c' i3 s3 c3 i4 s4 c4 M1 _ NE M2 IH| | | |]; intros E HD; try discriminate.
        - apply D_stop; [discriminate|exact HD].
        - injection E as -> ->. pose proof (IH eq_refl HD) as X. apply M_grp_iff in M1 as (w & c0 & -> & -> & -> & M1).
          eapply D_more; [|apply (IHn _ L' U eq_refl) in M1; exact M1|exact X]. intros ->. cbn in NE. lia. }
      eapply X; [exact A|reflexivity|exact B].
    + rewrite den1_opt in A.
      assert (L' : size U < size (Opt U :: T)) by (change (size (Opt U :: T)) with (size1 (Opt U) + size T); rewrite size_opt; lia).
      apply M_alt_iff in A as [A|A].
      * apply (IHn _ L' U eq_refl) in A. eapply D_take; eassumption.
      * apply M_eps_iff in A as (-> & -> & ->). apply D_skip; [discriminate|exact B].
    + cbn [den1] in A. apply M_eol_iff in A as (E & -> & -> & ->). now constructor.
Qed.

(** ** What is written as the items say is matched *)

Lemma row_cons_M' a l i s c i1 s1 c1 i2 s2 c2 : M a i s c i1 s1 c1 -> M (row l) i1 s1 c1 i2 s2 c2 -> M (row (a :: l)) i s c i2 s2 c2.
Proof.
  intros A B. destruct l as [|u T]; [|eapply M_cat; eassumption]. cbn in *. apply M_eps_iff in B as (-> & -> & ->). exact A.
Qed.
Lemma row_app_M' l m : forall i s c i1 s1 c1 i2 s2 c2, M (row l) i s c i1 s1 c1 -> M (row m) i1 s1 c1 i2 s2 c2 -> M (row (l ++ m)) i s c i2 s2 c2.
Proof.
  induction l as [|a l IH]; intros i s c i1 s1 c1 i2 s2 c2 A B; cbn [app].
  - apply M_eps_iff in A as (-> & -> & ->). exact B.
  - apply row_cons_M in A as (i3 & s3 & c3 & A & A'). eapply row_cons_M'; [exact A|]. eapply IH; eassumption.
Qed.
Lemma den_cons_M' t T i s c i1 s1 c1 i2 s2 c2 : M (den1 t) i s c i1 s1 c1 -> M (den T) i1 s1 c1 i2 s2 c2 -> M (den (t :: T)) i s c i2 s2 c2.
Proof. unfold den. cbn [flat_map]. apply row_app_M'. Qed.
Lemma chars1_M' w : forall i s c, M (row (map chr w)) i (w ++ s) c (i + length w) s c.
Proof.
  induction w as [|x w IH]; intros i s c; cbn [map app length].
  - rewrite Nat.add_0_r. constructor.
  - eapply row_cons_M'; [apply M_set; now apply in_chr|]. rewrite <- Nat.add_succ_comm. apply IH.
Qed.
Theorem unshape b T s s' c c' : D b T s s' c c' -> forall i, M (den T) i s c (i + (length s - length s')) s' c'.
Proof.
  induction 1 as [s c|w T s s' c c' H IH|q o T w s s' c c' A B C H IH|q T x s s' c c' A H IH|n U T w s s' c c1 c' A IHA H IH|T s s' c c' E H IH|n U T s s' c c' A H IH|n U T w s s' c c1 c' N0 A IHA H IH|U T s s' c c' A H IH|U T s s1 s' c c1 c' A IHA H IH];
    intros i; try (destruct (D_suffix _ _ _ _ _ _ H) as (v & ->)).
  - rewrite Nat.sub_diag, Nat.add_0_r. constructor.
  - replace (i + _) with (i + length w + (length (v ++ s') - length s')) by (rewrite !app_length; lia). eapply den_cons_M'; [apply chars1_M'|]. apply IH.
  - replace (i + _) with (i + length w + (length (v ++ s') - length s')) by (rewrite !app_length; lia).
    eapply den_cons_M'; [|apply IH]. destruct o; unfold den1; cbn [flat1 row].
    + apply M_plus_iff. exists w. repeat split; auto.
    + apply M_star_iff. exists w. repeat split; auto.
  - replace (i + _) with (S i + (length (v ++ s') - length s')) by (cbn [length]; rewrite !app_length; lia).
    eapply den_cons_M'; [|apply IH]. now constructor.
  - replace (i + _) with (i + length w + (length (v ++ s') - length s')) by (rewrite !app_length; lia).
    eapply den_cons_M'; [|apply IH]. rewrite den1_grp. specialize (IHA i).
    replace (i + (length (w ++ v ++ s') - length (v ++ s'))) with (i + length w) in IHA by (rewrite !app_length; lia).
    apply (M_grp n) in IHA. rewrite firstn_len in IHA. exact IHA.
  - eapply den_cons_M'; [|apply IH]. cbn. apply M_eol_iff. auto.
  - eapply den_cons_M'; [|apply IH]. apply M_stop.
  - replace (i + _) with (i + length w + (length (v ++ s') - length s')) by (rewrite !app_length; lia).
    destruct (den_cons_M _ _ _ _ _ _ _ _ (IH (i + length w))) as (i3 & s3 & c3 & A1 & A2).
    eapply den_cons_M'; [|exact A2]. rewrite den1_many in *. specialize (IHA i).
    replace (i + (length (w ++ v ++ s') - length (v ++ s'))) with (i + length w) in IHA by (rewrite !app_length; lia).
    apply (M_grp n) in IHA. rewrite firstn_len in IHA. eapply M_more; [exact IHA| |exact A1]. destruct w; [congruence|cbn; lia].
  - eapply den_cons_M'; [|apply IH]. apply M_right. constructor.
  - destruct (D_suffix _ _ _ _ _ _ A) as (u & E). rewrite E in *. replace (i + _) with (i + (length (u ++ v ++ s') - length (v ++ s')) + (length (v ++ s') - length s')) by (rewrite !app_length; lia).
    eapply den_cons_M'; [|apply IH]. apply M_left. apply IHA.
Qed.

(** ** Searching with an anchored template *)

Theorem search_eval T s s' c : D true T s s' [] c -> exists m, search (RCat RBol (den T)) s = Some (m, c).
Proof.
  intros H. rewrite search_bol. unfold match_at. eexists. erewrite eval; [reflexivity|exact H|]. reflexivity.
Qed.
Theorem search_shape T s m c : search (RCat RBol (den T)) s = Some (m, c) -> exists s', D false T s s' [] c.
Proof. intros H. apply bol_some in H as (i' & s' & A & _). apply shape in A. now exists s'. Qed.

(** The pattern text [p] is read as the anchored template [T] with [n] groups. *)
Definition reads (p : str) (T : list item) (n : nat) : Prop :=
  option_map (fun x => (fst x, fst (snd x))) (compile false p) = Some (RCat RBol (den T), n).
Lemma reads_some p T n s s' c : reads p T n -> D true T s s' [] c ->
  exists m, rx_find (pattern false p) s = Some (mkMatch m (map (fun j => cap j c) (seq 1 n))).
Proof.
  unfold reads, pattern. cbn [rx_find]. destruct (compile false p) as [[r e]|]; [|discriminate]. cbn. intros [= -> <-] H.
  destruct (search_eval _ _ _ _ H) as (m & ->). now exists m.
Qed.
Lemma reads_shape p T n s m : reads p T n -> rx_find (pattern false p) s = Some m ->
  exists s' c, D false T s s' [] c /\ m_groups m = map (fun j => cap j c) (seq 1 n).
Proof.
  unfold reads, pattern. cbn [rx_find]. destruct (compile false p) as [[r e]|]; [|discriminate]. cbn [option_map fst snd]. intros [= -> <-] H.
  destruct (search (RCat RBol (den T)) s) as [[u c]|] eqn:X; [|discriminate]. injection H as <-.
  apply search_shape in X as (s' & X). now exists s', c.
Qed.

Lemma reads_found p T n b s s' c : reads p T n -> D b T s s' [] c -> rx_find (pattern false p) s <> None.
Proof.
  unfold reads, pattern. cbn [rx_find]. destruct (compile false p) as [[r e]|]; [|discriminate]. cbn. intros [= -> <-] H.
  apply unshape with (i := 0) in H. destruct (search (RCat RBol (den T)) s) as [[u x]|] eqn:X; [discriminate|].
  exfalso. rewrite search_bol in X. destruct (match_at (den T) 0 s) eqn:Y; [discriminate|]. apply (match_at_complete _ _ _ _ _ _ H Y).
Qed.

Example reads_ex : reads (lit "^\s*hold-queue\s+(\d+)\s+out$")
  [Run (mkSet false false [CSpace]) false; Lit (lit "hold-queue"); Run (mkSet false false [CSpace]) true;
   Grp 1 [Run (mkSet false false [CDigit]) true]; Run (mkSet false false [CSpace]) true; Lit (lit "out"); End] 1.
Proof. reflexivity. Qed.
